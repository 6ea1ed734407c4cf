(** C109: chains of chains of identity resolvers. *)
From Verif Require Import Base Base_Proofs Identity_Model Identity_Spec ResolverTree_Model ResolverTree_Spec ResolverTree_Proofs.
From Coq Require Import ZArith.

(** A tree of resolvers that has not been used asks its sources from left to
    right, and gives what the first one gives that does not raise
    SmithyIdentityError, however the chains are nested. *)
Theorem C109_first {I} (expires : I -> option Z) now answers r : fresh r ->
  snd (get expires now answers r) = first answers (sources r).
Proof. apply get_fresh. Qed.
Print Assumptions C109_first.

(** After any calls and an invalidation the same holds again: every source is
    asked afresh, and what is given is what the sources say now. *)
Theorem C109_invalidated {I} (expires : I -> option Z) cs r now answers : tidy r ->
  snd (invalidate (run expires cs r)) = None
  /\ snd (get expires now answers (fst (invalidate (run expires cs r)))) = first answers (sources r).
Proof.
  intros T. destruct (run_alike expires cs r) as (A & _ & C). destruct (invalidate_fresh _ (C T)) as (F & N & S & _).
  split; [exact N|]. rewrite get_fresh by exact F. rewrite S, A. reflexivity.
Qed.
Print Assumptions C109_invalidated.

(** Whatever is given after an invalidation was said by one of the sources in a
    call since then. *)
Theorem C109_since {I} (expires : I -> option Z) before mid r now answers id : tidy r ->
  fst (snd (get expires now answers (run expires (before ++ Invalidate :: mid) r))) = Ok id ->
  exists now' answers' k, In (Get now' answers') (mid ++ [Get now answers]) /\ In k (sources r) /\ answers' k = Ok id.
Proof.
  intros T H. rewrite run_app in H. cbn [run step] in H.
  destruct (run_alike expires before r) as (A & _ & C). destruct (invalidate_fresh _ (C T)) as (F & _ & S & T').
  set (r1 := fst (invalidate (run expires before r))) in *. assert (S1 : sources r1 = sources r) by congruence.
  set (P := fun id => exists now' answers' k, In (Get now' answers') (mid ++ [Get now answers]) /\ In k (sources r) /\ answers' k = Ok id).
  assert (H1 : holds P (fun _ => True) (run expires mid r1)).
  { apply run_holds; [apply fresh_holds, F|]. intros n a J. split; [|auto]. intros k i K E. exists n, a, k. rewrite <- S1.
    split; [apply in_or_app; auto|auto]. }
  destruct (run_alike expires mid r1) as (A2 & _ & _).
  pose proof (get_holds expires P (fun _ => True) now answers (run expires mid r1)) as G.
  destruct (get expires now answers (run expires mid r1)) as [r' [x a]]. cbn [fst snd] in H. subst x.
  destruct G as (_ & _ & G & _); [|exact H1|exact G].
  split; [|auto]. intros k i K E. exists now, answers, k. rewrite A2, S1 in K. split; [apply in_or_app; right; left; reflexivity|auto].
Qed.
Print Assumptions C109_since.

(** No expired identity is given from what is kept: what is given has not
    expired, or one of the sources has just said it.  (Identities from
    environment variables have no expiration.) *)
Theorem C109_unexpired {I} (expires : I -> option Z) cs r now answers id : fresh r ->
  (forall now' answers' k i, In (Get now' answers') (cs ++ [Get now answers]) -> In k (environments r) -> answers' k = Ok i -> expires i = None) ->
  fst (snd (get expires now answers (run expires cs r))) = Ok id ->
  unexpired (expires id) now \/ exists k, In k (sources r) /\ In k (snd (snd (get expires now answers (run expires cs r)))) /\ answers k = Ok id.
Proof.
  intros F E H. set (Q := fun i => expires i = None).
  assert (H1 : holds (fun _ => True) Q (run expires cs r)).
  { apply run_holds; [apply fresh_holds, F|]. intros n a J. split; [auto|]. intros k i K X. apply (E n a k i); auto. apply in_or_app. auto. }
  destruct (run_alike expires cs r) as (A & B & _).
  pose proof (get_holds expires (fun _ => True) Q now answers (run expires cs r)) as G.
  destruct (get expires now answers (run expires cs r)) as [r' [x a]]. cbn [fst snd] in *. subst x.
  destruct G as (_ & G1 & _ & G2); [|exact H1|].
  - split; [auto|]. intros k i K X. rewrite B in K. apply (E now answers k i); auto. apply in_or_app. right. left. reflexivity.
  - destruct G2 as [(k & K & X)|[X|X]]; [right; exists k; rewrite <- A; auto|left; unfold Q in X; rewrite X; exact Logic.I|left; exact X].
Qed.
Print Assumptions C109_unexpired.

(** A chain of two chains: the sources 0, 1, 2, 3. *)
Definition ex_tree : resolver nat :=
  Chain [Chained None [Caching UntilExpiration 0 None; Direct 1]; Chained None [Caching WhileUnexpired 2 None; Chain [Direct 3]]].
Definition ex_answers (n : nat) : source -> result nat := fun k => if Nat.leb n k then Ok (10 * n + k)%nat else Err IdentityErr.
Example C109_ex :
  fresh ex_tree /\ tidy ex_tree /\ sources ex_tree = [0; 1; 2; 3]%nat
  /\ first (ex_answers 2) (sources ex_tree) = (Ok 22%nat, [0; 1; 2]%nat)
  /\ snd (get (fun _ => None) 5 (ex_answers 1) (run (fun _ => None) [Get 0 (ex_answers 2)] ex_tree)) = (Ok 11, [0; 1])%nat
  /\ snd (get (fun _ => None) 5 (ex_answers 3) (run (fun _ => None) [Get 0 (ex_answers 2)] ex_tree)) = (Ok 22, [0; 1])%nat
  /\ snd (get (fun _ => None) 5 (ex_answers 3) (run (fun _ => None) [Get 0 (ex_answers 2); Invalidate] ex_tree)) = (Ok 33, [0; 1; 2; 3])%nat
  /\ snd (get (fun _ => Some 4%Z) 5 (ex_answers 3) (run (fun _ => Some 4%Z) [Get 0 (ex_answers 2)] ex_tree)) = (Ok 33, [0; 1; 2; 3])%nat.
Proof. split; [cbn; tauto|]. split; [cbn; tauto|]. vm_compute. repeat (split; [reflexivity|]). reflexivity. Qed.

(** A resolver of environment variables keeps what it has found for good:
    [invalidate] does nothing, and the environment is never read again. *)
Theorem C109_environment_refuted {I} (expires : I -> option Z) k id now0 answers0 cs now answers :
  answers0 k = Ok id ->
  snd (get expires now answers (fst (invalidate (run expires (Get now0 answers0 :: cs) (Environment k None))))) = (Ok id, []).
Proof.
  intros H. cbn [run step get]. rewrite H. cbn [fst].
  assert (R : run expires cs (Environment k (Some id)) = Environment k (Some id)).
  { induction cs as [|[n a|] cs IH]; cbn [run step]; [reflexivity| |]; exact IH. }
  rewrite R. reflexivity.
Qed.
Print Assumptions C109_environment_refuted.
Example C109_environment_ex :
  ex_answers 0 0%nat = Ok 0%nat /\ ex_answers 1 0%nat = Err IdentityErr
  /\ snd (get (fun _ => None) 9 (ex_answers 1) (run (fun _ => None) [Get 0 (ex_answers 0); Invalidate] (Chain [Environment 0 None; Direct 1]))) = (Ok 0%nat, []).
Proof. vm_compute. auto. Qed.

(** If the invalidation of one resolver of a chain raises, those after it keep
    what they have. *)
Theorem C109_raises_refuted {I} (expires : I -> option Z) how k k' e id rest now0 answers0 now answers :
  answers0 k = Err IdentityErr -> answers0 k' = Ok id ->
  answers k = Err IdentityErr -> usable expires how id now = true ->
  let chain := run expires [Get now0 answers0] (Chain (Foreign k e :: Caching how k' None :: rest)) in
  snd (invalidate chain) = Some e /\ snd (get expires now answers (fst (invalidate chain))) = (Ok id, [k]).
Proof. intros A0 A1 A U. cbn. rewrite A0, A1. cbn. rewrite A, U. auto. Qed.
Print Assumptions C109_raises_refuted.
Example C109_raises_ex :
  ex_answers 1 0%nat = Err IdentityErr /\ ex_answers 1 1%nat = Ok 11%nat
  /\ usable (fun _ : nat => None) WhileUnexpired 11%nat 0%Z = true /\ ex_answers 2 1%nat = Err IdentityErr.
Proof. vm_compute. auto. Qed.
