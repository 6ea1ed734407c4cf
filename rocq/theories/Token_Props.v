(** C41 and C71: the instance metadata token. *)
From Verif Require Import Base Token_Model Token_Spec Token_Proofs.

(** A request for a token is only sent when none was fetched, or the last one
    fetched is due, and when no other request is in progress. *)
Theorem C41_fetch ttl es c before i now after :
  run ttl es init = (c, before ++ Sent i now :: after) ->
  (latest before = None \/ exists t, latest before = Some t /\ (ttl <= now - created_time t)%Z)
  /\ forall j, ~ requesting before j.
Proof. intros H. destruct (run_ok ttl es _ _ _ _ (init_ok) H) as [_ F]. exact (F _ _ _ eq_refl). Qed.
Print Assumptions C41_fetch.

(** The token a caller gets is the last one fetched; it was not due when checked,
    or the caller has just fetched it. *)
Theorem C41_returned ttl es c before i t checked after :
  run ttl es init = (c, before ++ Returned i t checked :: after) ->
  latest before = Some t
  /\ match checked with
     | Some now => (now - created_time t < ttl)%Z
     | None => exists before', before = before' ++ [Fetched i t]
     end.
Proof. intros H. destruct (run_ok ttl es _ _ _ _ (init_ok) H) as [_ F]. exact (F _ _ _ eq_refl). Qed.
Print Assumptions C41_returned.

(** Only the caller whose request failed gets its error, and there is no other error. *)
Theorem C41_raised ttl es c before i e after :
  run ttl es init = (c, before ++ Raised i e :: after) -> exists before', before = before' ++ [Failed i e].
Proof. intros H. destruct (run_ok ttl es _ _ _ _ (init_ok) H) as [_ F]. exact (F _ _ _ eq_refl). Qed.
Print Assumptions C41_raised.

(** While a caller is in a call, a request is in progress or some caller is to be
    resumed by the event loop, which does something. *)
Theorem C41_progress ttl es c log i :
  run ttl es init = (c, log) -> calling log i ->
  exists j, requesting log j \/ (calling log j /\ forall now, snd (step ttl (Resume j now) c) <> []).
Proof.
  intros H Hi. destruct (run_ok ttl es _ _ _ _ (init_ok) H) as [I _]. cbn [app] in I.
  destruct (lock_cases c log I) as [(L & j & F)|(L & F)].
  - exists j. left. apply (inv_requesting _ _ I). rewrite F. left. reflexivity.
  - apply (inv_calling _ _ I) in Hi. rewrite F in Hi. destruct Hi as [[]|Hi]. pose proof (inv_queue _ _ I) as Hq. rewrite L in Hq.
    destruct (queue c) as [|[j f] q] eqn:Q; [destruct Hi|]. destruct Hq as [D _]. exists j. right. split.
    + apply (inv_calling _ _ I). right. rewrite Q. left. reflexivity.
    + intros now. cbn [step]. rewrite Q. unfold find. cbn [List.find fst]. rewrite Nat.eqb_refl. cbn [snd].
      destruct f; try discriminate D; cbn [resumed snd]; try discriminate.
      unfold locked, finish, release. destruct (should_refresh _ _ _) eqn:S; [discriminate|]. cbn [lock the_token snd].
      unfold should_refresh in S. cbn [the_token] in S. destruct (the_token c); discriminate.
Qed.
Print Assumptions C41_progress.

(** After at most two such steps for each caller in a call, answers and resumed
    callers that do something, all calls have ended. *)
Theorem C41_ends ttl es c log (callers : list caller) es' :
  run ttl es init = (c, log) -> (forall i, calling log i -> In i callers) ->
  (forall a e b, es' = a ++ e :: b -> ((exists i now, e = Resume i now) \/ (exists i s r now, e = Answer i s r now))
     /\ snd (step ttl e (fst (run ttl a c))) <> []) ->
  (List.length es' <= 2 * List.length callers)%nat.
Proof.
  intros H Hc Hes. destruct (run_ok ttl es _ _ _ _ (init_ok) H) as [I _]. cbn [app] in I.
  enough (List.length es' <= work c)%nat by (pose proof (work_calls c log callers I Hc); lia).
  clear H Hc callers. revert c log I Hes. induction es' as [|e es' IH]; intros c log I Hes; [cbn; lia|].
  destruct (step ttl e c) as [c1 o1] eqn:E. destruct (Hes [] e es' eq_refl) as [K N]. cbn [run fst] in N.
  destruct (step_ok ttl e c log c1 o1 I E) as [I1 _].
  assert (W : (work c1 < work c)%nat).
  { replace c1 with (fst (step ttl e c)) by (rewrite E; reflexivity).
    destruct K as [(i & now & ->)|(i & s & r & now & ->)]; [eapply resume_work|eapply answer_work]; eassumption. }
  specialize (IH c1 (log ++ o1) I1). cbn [List.length]. enough (List.length es' <= work c1)%nat by lia.
  apply IH. intros a e' b ->. specialize (Hes (e :: a) e' b eq_refl). cbn [run] in Hes. rewrite E in Hes.
  destruct (run ttl a c1) as [c2 o2]. exact Hes.
Qed.
Print Assumptions C41_ends.

(** Three callers at once: one request, its token for all; one cancelled caller;
    later the token is due. *)
Example C41_ex :
  snd (run 100%Z [Call 1 0 0; Call 2 1 1; Call 3 2 2; Call 4 2 2; Cancel 2; Answer 1 200 (Ok (lit "T")) 5; Resume 2 6; Resume 3 6; Resume 4 6;
                Call 1 50 50; Call 1 105 105; Answer 1 200 (Err OSError) 106] init)
  = let t := mkToken (lit "T") 5%Z in
    [Called 1; Sent 1 0; Called 2; Called 3; Called 4; Fetched 1 t; Returned 1 t None; Cancelled 2; Returned 3 t (Some 6%Z);
     Returned 4 t (Some 6%Z); Called 1; Returned 1 t (Some 50%Z); Called 1; Sent 1 105; Failed 1 OSError; Raised 1 OSError].
Proof. reflexivity. Qed.

(** The status of the answer is not looked at: the text of an error page becomes
    the token, for all callers, until it expires. *)
Theorem C71_error_page_refuted :
  ~ (forall ttl es c l, run ttl es init = (c, l) ->
       forall i t, In (Fetched i t) l -> exists j s v now, In (Answer j s (Ok v) now) es /\ v = value t /\ (200 <= s < 300)%N).
Proof.
  intros H. specialize (H 100%Z [Call 1 0 0; Answer 1 500 (Ok (lit "Internal Server Error")) 1] _ _ eq_refl).
  destruct (H 1%nat (mkToken (lit "Internal Server Error") 1%Z)) as (j & s & v & now & Hin & _ & Hs).
  - right. right. left. reflexivity.
  - destruct Hin as [E|[E|[]]]; [discriminate E|]. injection E as <- <- _ _. lia.
Qed.
Print Assumptions C71_error_page_refuted.
