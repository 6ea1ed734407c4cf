(** C111: trees of identity resolvers used by several tasks at once. *)
From Verif Require Import Base Base_Proofs Identity_Model Identity_Spec ResolverTree_Model ResolverTasks_Model ResolverTasks_Spec ResolverTasks_Proofs.
From Coq Require Import ZArith.

(** In every schedule, what a call returns was answered by a source during that very
    call, or was kept and had not expired when the call found it; it raises
    SmithyIdentityError only if every source has refused it during the call; and any
    other error is that of a source. *)
Theorem C111_ended {I} (expires : I -> option Z) root es before i r after :
  log (run expires root es fresh_state) = before ++ Ended i r :: after ->
  exists mid, during i before mid /\ justified expires root i mid r.
Proof. apply inv_ended, inv_run, inv_fresh. Qed.
Print Assumptions C111_ended.

(** A call asks the sources from left to right, none twice, whatever the others do. *)
Theorem C111_order {I} (expires : I -> option Z) root es before i r after :
  log (run expires root es fresh_state) = before ++ Ended i r :: after ->
  exists mid, during i before mid /\ among (asked i mid) (sources root).
Proof. apply oinv_ended, oinv_run, oinv_fresh. Qed.
Print Assumptions C111_order.

(** An invalidation while no call is going on: whatever a call returns afterwards, in
    any schedule, has been answered by a source since. *)
Theorem C111_since {I} (expires : I -> option Z) root es1 es2 :
  no_environment root = true -> idle (log (run expires root es1 fresh_state)) ->
  exists mid, log (run expires root (es1 ++ Invalidates :: es2) fresh_state) = log (run expires root es1 fresh_state) ++ Invalidated :: mid
    /\ forall i id, In (Ended i (Ok id)) mid -> exists j k, In k (sources root) /\ In (Answered j k (Ok id)) mid.
Proof.
  intros N D. rewrite run_app. set (s1 := run expires root es1 fresh_state) in *. cbn [run].
  assert (V : inv expires root s1) by apply inv_run, inv_fresh.
  pose proof (idle_tasks _ _ _ V D) as T.
  destruct (provided_run expires root (log s1 ++ [Invalidated]) es2 (step expires root Invalidates s1)) as (mid & L & _ & _ & C).
  - now apply inv_step.
  - exists []. split; [cbn; now rewrite app_nil_r|]. cbn [step see held tasks]. split; [|split; [|intros i id []]].
    + intros p id. rewrite no_environment_at by exact N. discriminate.
    + intros i id st. cbn. rewrite T. discriminate.
  - exists mid. rewrite L, <- app_assoc. split; [reflexivity|exact C].
Qed.
Print Assumptions C111_since.

(** A call that is going on can always end: nothing it waits for but the answers of
    its sources, whatever those are. *)
Theorem C111_ends {I} (expires : I -> option Z) root es i mid now (answers : source -> result I) :
  during i (log (run expires root es fresh_state)) mid ->
  exists ds, Forall (fun d => d = Step i now \/ exists k, d = Answer i (answers k)) ds
    /\ exists news r, log (run expires root (es ++ ds) fresh_state) = log (run expires root es fresh_state) ++ news ++ [Ended i r].
Proof.
  intros (b & L & _ & E). set (s := run expires root es fresh_state) in *.
  assert (C : closed s) by apply closed_run, closed_fresh.
  destruct (tasks s i) as [[c st]|] eqn:T.
  - destruct (call_ends expires root i now answers (work c st) c st s T) as (ds & F & news & r & R); [lia|].
    exists ds. split; [exact F|]. exists news, r. rewrite run_app. exact R.
  - destruct (C i T _ _ L) as (x & X). destruct (E x X).
Qed.
Print Assumptions C111_ends.

(** Identities are not mixed up: what a call finds in a resolver was answered, in
    this call or another, by a source below that resolver. *)
Theorem C111_found {I} (expires : I -> option Z) root es before i p e id now after :
  log (run expires root es fresh_state) = before ++ Found i p e id now :: after ->
  exists t, resolver_at root p = Some t /\ exists j k, In k (sources t) /\ In (Answered j k (Ok id)) before.
Proof. apply pinv_found, pinv_run, pinv_fresh. Qed.
Print Assumptions C111_found.

(** An invalidation that visits one resolver after the other is, if nothing happens in
    between, one of all resolvers at once: the same is observed ever after. *)
Theorem C111_walk {I} (expires : I -> option Z) root es1 es2 :
  exists mid, log (run expires root (es1 ++ Invalidates :: es2) fresh_state) = log (run expires root es1 fresh_state) ++ Invalidated :: mid
    /\ log (run expires root (es1 ++ map Forgets (places root []) ++ es2) fresh_state) = log (run expires root es1 fresh_state) ++ mid.
Proof.
  rewrite !run_app. cbn [run]. apply (twin_run expires root _ es2), twin_walk, pinv_run, pinv_fresh.
Qed.
Print Assumptions C111_walk.

(** Two tasks and a chain of a chain: the second finds what the first was given. *)
Definition ex_tree : tree := TChain [TChained [TLeaf (LCaching WhileUnexpired) 0; TLeaf LDirect 1]; TLeaf (LCaching UntilExpiration) 2].
Definition steps (i : nat) (n : nat) : list (event nat) := repeat (Step i 0%Z) n.
Definition ex_events : list (event nat) :=
  [Start 1; Start 2]%nat ++ steps 1 5 ++ steps 2 5 ++ [Answer 1 (Err IdentityErr)]%nat ++ steps 1 2 ++ [Answer 1 (Ok 7)]%nat ++ steps 1 3
    ++ [Answer 2 (Err IdentityErr)]%nat ++ steps 2 2 ++ [Answer 2 (Err ValueError)]%nat ++ steps 2 3 ++ [Start 2]%nat ++ steps 2 5.
Example C111_ex :
  no_environment ex_tree = true /\ sources ex_tree = [0; 1; 2]%nat
  /\ log (run (fun _ => None) ex_tree ex_events fresh_state)
     = [Began 1; Began 2; Asked 1 0; Asked 2 0; Answered 1 0 (Err IdentityErr); Asked 1 1; Answered 1 1 (Ok 7); Ended 1 (Ok 7);
        Answered 2 0 (Err IdentityErr); Asked 2 1; Answered 2 1 (Err ValueError); Ended 2 (Err ValueError);
        Began 2; Found 2 [0] false 7 0%Z; Ended 2 (Ok 7)]%nat.
Proof. vm_compute. auto. Qed.
Example C111_ex_idle : idle (log (run (fun _ => None) ex_tree ex_events fresh_state)).
Proof.
  destruct C111_ex as (_ & _ & ->). intros before i mid E.
  do 15 (destruct before as [|? before];
    [first [discriminate E | injection E as <- <-; eexists; cbn; repeat first [left; reflexivity | right]]
    | injection E as _ E]).
  destruct before; discriminate E.
Qed.

(** If a call is going on, an invalidation is undone by it: the answer to a question
    from before is kept, and the next call returns it without asking anybody. *)
Theorem C111_in_flight_refuted {I} (expires : I -> option Z) how k (id : I) now :
  usable expires how id now = true ->
  log (run expires (TLeaf (LCaching how) k) [Start 1; Step 1 now; Invalidates; Answer 1 (Ok id); Step 1 now; Start 2; Step 2 now; Step 2 now]%nat fresh_state)
  = [Began 1; Asked 1 k; Invalidated; Answered 1 k (Ok id); Ended 1 (Ok id); Began 2; Found 2 [] false id now; Ended 2 (Ok id)]%nat.
Proof. intros U. cbn. rewrite U. reflexivity. Qed.
Print Assumptions C111_in_flight_refuted.
Example C111_in_flight_ex : usable (fun _ : nat => Some 5%Z) UntilExpiration 1%nat 3%Z = true.
Proof. reflexivity. Qed.

(** A resolver of environment variables in the tree is not invalidated at all. *)
Theorem C111_environment_refuted {I} (expires : I -> option Z) k (id : I) now :
  log (run expires (TChain [TLeaf LEnvironment k]) ([Start 1] ++ repeat (Step 1 now) 3 ++ [Answer 1 (Ok id)] ++ repeat (Step 1 now) 2 ++ [Invalidates; Start 1] ++ repeat (Step 1 now) 5)%nat fresh_state)
  = [Began 1; Asked 1 k; Answered 1 k (Ok id); Ended 1 (Ok id); Invalidated; Began 1; Found 1 [0] true id now; Ended 1 (Ok id)]%nat.
Proof. reflexivity. Qed.
Print Assumptions C111_environment_refuted.

(** If a resolver suspends while it is invalidated, a call in between makes the chain
    above it keep again what the resolvers after it still had (here an identity that
    does not expire). The invalidation comes to its end, and the next call returns the identity from before. *)
Theorem C111_partway_refuted {I} (id : I) now :
  let root := TChained [TLeaf LDirect 0; TLeaf (LCaching WhileUnexpired) 1]%nat in
  let get i answers := [Start i] ++ repeat (Step i now) 3 ++ [Answer i (Err IdentityErr)] ++ repeat (Step i now) 2 ++ answers ++ repeat (Step i now) 3 in
  places root [] = [[]; [0]; [1]]%nat
  /\ log (run (fun _ => None) root (get 1 [Answer 1 (Ok id)] ++ [Forgets []] ++ get 2 [] ++ [Forgets [0]; Forgets [1]; Start 3; Step 3 now; Step 3 now])%nat fresh_state)
     = [Began 1; Asked 1 0; Answered 1 0 (Err IdentityErr); Asked 1 1; Answered 1 1 (Ok id); Ended 1 (Ok id);
        Began 2; Asked 2 0; Answered 2 0 (Err IdentityErr); Found 2 [1] false id now; Ended 2 (Ok id);
        Began 3; Found 3 [] false id now; Ended 3 (Ok id)]%nat.
Proof. intros root get. split; reflexivity. Qed.
Print Assumptions C111_partway_refuted.
