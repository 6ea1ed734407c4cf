(** C106: the tasks of a call with event streams in both directions, in every schedule. *)
From Verif Require Import Base StreamCall_Model StreamCall_Proofs StreamCall_Props DuplexCall_Model DuplexCall_Proofs.

(** Whoever is given a duplex stream, its request is with the transport, and it is the
    only one; and nobody can wait for the output or close the stream before. *)
Theorem C106_ready : forall ls d, dsteps ls begun = Some d ->
  (List.length (s_sent (d_call d)) <= 1)%nat /\
  (d_users d <> [] -> exists v, s_caller (d_call d) = CEnded (Returned v)) /\
  forall v, s_caller (d_call d) = CEnded (Returned v) ->
    exists r, s_sent (d_call d) = [r] /\ s_request (d_call d) = Some (Returned r) /\ s_transport (d_call d) <> TNone.
Proof.
  intros ls d H. destruct (dreachable _ _ H) as [(bls & Bs & _) _ Op Us _ _ _ _]. split; [exact (C102_once _ _ Bs)|].
  split; [intros N; apply Op, Us, N|]. intros v C. exact (C102_ready _ _ v Bs C).
Qed.
Print Assumptions C106_ready.

(** Whoever has awaited the output got what the one output task ended with, unless it was
    itself cancelled; and that task ends with what the call ended with, if this is not an
    output, with what the creation of the receiver did, if it is one, or as cancelled,
    if some task that used the stream was. *)
Theorem C106_output : forall ls d i o, dsteps ls begun = Some d -> nth_error (d_users d) i = Some (UEnded false o) ->
  d_task d = OEnded o \/ (o = Cancelled /\ In (DCancel i) ls).
Proof. intros ls d i o H U. exact (v_user _ _ (dreachable _ _ H) _ _ U). Qed.
Print Assumptions C106_output.
Theorem C106_task : forall ls d o, dsteps ls begun = Some d -> d_task d = OEnded o ->
  (s_execution (d_call d) = XEnded o /\ forall v, o <> Returned v) \/
  (exists v, s_execution (d_call d) = XEnded (Returned v) /\ o <> Cancelled) \/
  (o = Cancelled /\ exists i, In (DCancel i) ls).
Proof.
  intros ls d o H E. destruct (dreachable _ _ H) as [(bls & Bs & So) Li _ _ _ _ _ Mu]. rewrite E in Li. cbn in Li.
  destruct Li as [[_ ->]|(w & W & Ow)]; [right; right; split; [reflexivity|apply Mu; now right]|].
  destruct (C102_output _ _ 0%nat w Bs) as [X|[X I]]; [now rewrite W|..].
  - destruct Ow as [[-> N]|[[v ->] N]]; [left; auto|right; left; eauto].
  - subst w. destruct Ow as [[-> N]|[[v V] _]]; [|discriminate V]. right. right. split; [reflexivity|]. apply So. now exists 0%nat.
Qed.
Print Assumptions C106_task.

(** The output that is kept is the one that all are given. *)
Theorem C106_kept : forall ls d v, dsteps ls begun = Some d -> d_stream d = Some v -> d_task d = OEnded (Returned v).
Proof. intros ls d v H. exact (v_stream _ _ (dreachable _ _ H) v). Qed.
Print Assumptions C106_kept.

(** A close that returned has closed the input stream and then the output stream. *)
Theorem C106_closed : forall ls d i v, dsteps ls begun = Some d -> nth_error (d_users d) i = Some (UEnded true (Returned v)) ->
  exists x y z, d_closes d = x ++ ClosesOutput i :: y ++ ClosesInput i :: z.
Proof. intros ls d i v H U. exact (proj2 (v_user _ _ (dreachable _ _ H) _ _ U)). Qed.
Print Assumptions C106_closed.

(** Nobody waits in vain: from every state there is a way, without cancellations, on
    which a task that waits for the output ends, or begins to close the streams. *)
Theorem C106_user_ends : forall ls d i c m, dsteps ls begun = Some d -> nth_error (d_users d) i = Some (UWaits c m) ->
  exists ls' d', dsteps ls' d = Some d' /\ (List.length ls' <= 5)%nat /\
    (forall l, In l ls' -> match l with DCancel _ | DCall CancelCaller => False | _ => True end) /\
    ((exists o, nth_error (d_users d') i = Some (UEnded c o)) \/ (c = true /\ nth_error (d_users d') i = Some (UInput false))).
Proof.
  intros ls d i c m H U. destruct (task_ends _ _ H) as (ls' & d' & o & K & E & Us & P & L).
  { apply (v_users _ _ (dreachable _ _ H)). intros X. rewrite X in U. destruct i; discriminate. }
  exists (ls' ++ [DWakes i]). rewrite dsteps_app, K. destruct d' as [s t st us cs]. cbn in E, Us. subst t us. cbn. rewrite U.
  set (q := if m then Cancelled else o). unfold goes_on. 
  assert (G : forall u, nth_error (set_nth i u (d_users d)) i = Some u) by (intros u; now rewrite nth_set, Nat.eqb_refl, U).
  assert (Pl : forall l, In l (ls' ++ [DWakes i]) -> match l with DCancel _ | DCall CancelCaller => False | _ => True end).
  { intros l I. apply in_app_iff in I as [I|[<-|[]]]; [|exact Logic.I]. rewrite Forall_forall in P. exact (P _ I). }
  assert (Le : (List.length (ls' ++ [DWakes i]) <= 5)%nat) by (rewrite app_length; cbn; lia).
  destruct q as [v|e|]; [destruct c|..]; eexists; (split; [reflexivity|]); (split; [exact Le|]); (split; [exact Pl|]); cbn; rewrite G; eauto.
Qed.
Print Assumptions C106_user_ends.

(** It is not true that closing the stream tells the service that no more events come:
    until the service has answered, [close] closes neither stream, so with a service that
    answers when its input has ended, it waits until it is cancelled. *)
Theorem C106_close_waits_refuted :
  (exists ls d, dsteps ls begun = Some d /\ nth_error (d_users d) 0 = Some (UWaits true false) /\ s_transport (d_call d) = TRuns false /\ forall i, ~ In (DCancel i) ls) /\
  forall ls d i m a, dsteps ls begun = Some d -> nth_error (d_users d) i = Some (UWaits true m) -> s_transport (d_call d) = TRuns a ->
  (forall j, ~ In (DCancel j) ls) ->
  forall ls' d', dsteps ls' d = Some d' -> (forall l, In l ls' -> match l with DCancel _ | DCall (Answers _) => False | _ => True end) ->
  nth_error (d_users d') i = Some (UWaits true m) /\ d_closes d' = [].
Proof.
  split.
  { exists [DCall (Reaches 5 (Raised OSError)); DCall (Opens (Returned 0)); DTask (Returned 0); DCloses]. eexists. split; [reflexivity|]. cbn.
    split; [reflexivity|]. split; [reflexivity|]. intros i [X|[X|[X|[X|[]]]]]; discriminate. }
  intros ls d i m a H U T N ls' d' K P.
  assert (G : nth_error (d_users d') i = Some (UWaits true m) /\ s_transport (d_call d') = TRuns a).
  { revert d' K P. induction ls' as [|l ls' IH] using rev_ind; intros d' K P; [cbn in K; injection K as <-; auto|].
    rewrite dsteps_app in K. destruct (dsteps ls' d) as [e|] eqn:Q; [|discriminate]. cbn in K. destruct (dstep l e) as [u|] eqn:St; [|discriminate]. injection K as <-.
    destruct (IH e eq_refl) as [Ue Te]; [intros k I; apply P, in_app_iff; now left|].
    assert (Pl := P l ltac:(apply in_app_iff; right; now left)).
    assert (R : dsteps (ls ++ ls') begun = Some e) by (rewrite dsteps_app, H; exact Q).
    assert (Nc : forall j, ~ In (DCancel j) (ls ++ ls')).
    { intros j I. apply in_app_iff in I as [I|I]; [exact (N j I)|]. exact (P (DCancel j) ltac:(apply in_app_iff; now left)). }
    assert (Lc : forall j, l <> DCancel j) by (intros j ->; exact Pl).
    split.
    - apply (waits_on _ _ _ _ _ _ St Ue); [|exact Lc]. apply (runs_on _ _ _ R Nc Te). apply (v_users _ _ (dreachable _ _ R)). intros X. rewrite X in Ue. destruct i; discriminate.
    - apply (transport_runs _ _ _ _ _ (dreachable _ _ R) St Te); [|exact Lc]. intros o ->. exact Pl. }
  split; [exact (proj1 G)|]. destruct (d_closes d') eqn:C; [reflexivity|]. exfalso.
  assert (R : dsteps (ls ++ ls') begun = Some d') by (rewrite dsteps_app, H; exact K).
  destruct (v_closes _ _ (dreachable _ _ R)) as [v V]; [congruence|]. revert V. apply (runs_on _ _ a R); [|exact (proj2 G)|].
  - intros j I. apply in_app_iff in I as [I|I]; [exact (N j I)|]. exact (P _ I).
  - apply (v_users _ _ (dreachable _ _ R)). intros X. destruct G as [G _]. rewrite X in G. destruct i; discriminate.
Qed.
Print Assumptions C106_close_waits_refuted.

(** Nor that [close], and so the end of an [async with], closes the input stream: when the
    call has failed it raises what the call raised, every time, and the input stream is
    never closed.  A call can fail with anything. *)
Theorem C106_close_failed_refuted :
  (forall e, exists ls d, dsteps ls begun = Some d /\ d_task d = OEnded (Raised e) /\ forall i, ~ In (DCancel i) ls) /\
  forall ls d o, dsteps ls begun = Some d -> d_task d = OEnded o -> (forall v, o <> Returned v) ->
  forall ls' d', dsteps ls' d = Some d' ->
  d_closes d' = [] /\
  exists d'', dstep DCloses d' = Some d'' /\ d_users d'' = d_users d' ++ [UEnded true o] /\ d_closes d'' = [].
Proof.
  split.
  { intros e. exists [DCall (Reaches 5 (Raised e)); DCall (Opens (Returned 0)); DCall (Answers (Raised e)); DCall (Receives (Raised e)); DTask (Returned 0)],
      (mkDuplex (mkState (Some (Returned 5)) (CEnded (Returned 0)) (XEnded (Raised e)) (TEnded (Raised e)) [5%nat] None [WEnded (Raised e)]) (OEnded (Raised e)) None [] []).
    split; [reflexivity|]. split; [reflexivity|]. intros i [X|[X|[X|[X|[X|[]]]]]]; discriminate. }
  intros ls d o H E N ls' d' K. assert (E' := task_ended_all _ _ _ _ _ H E K).
  assert (R : dsteps (ls ++ ls') begun = Some d') by (rewrite dsteps_app, H; exact K).
  assert (C : d_closes d' = []).
  { destruct (d_closes d') eqn:Q; [reflexivity|]. destruct (v_closes _ _ (dreachable _ _ R)) as [v V]; [congruence|]. rewrite E' in V. injection V as V. now elim (N v). }
  assert (Sn : d_stream d' = None).
  { destruct (d_stream d') as [v|] eqn:Q; [|reflexivity]. assert (V := v_stream _ _ (dreachable _ _ R) v Q). rewrite E' in V. injection V as V. now elim (N v). }
  split; [exact C|]. destruct d' as [s t st us cs]. cbn in *. subst. cbn.
  destruct o as [v|e|]; [now elim (N v)|..]; eexists; (split; [reflexivity|]); auto.
Qed.
Print Assumptions C106_close_failed_refuted.

(** Nor that cancelling who waits for the output gives the call up: if the output task has
    not been run yet, it ends and takes everybody who waits with it, and nobody will
    stop the execution or the transport. *)
Theorem C106_given_up_refuted :
  (exists ls d, dsteps ls begun = Some d /\ s_transport (d_call d) = TRuns false /\ d_task d = OStart true) /\
  (forall ls d i c m, dsteps ls begun = Some d -> nth_error (d_users d) i = Some (UWaits c m) -> d_task d = OStart false ->
     exists d', dstep (DCancel i) d = Some d' /\ d_task d' = OStart true) /\
  forall ls d, dsteps ls begun = Some d -> d_task d = OStart true ->
  forall ls' d', dsteps ls' d = Some d' ->
  s_transport (d_call d') <> TRuns true /\ s_execution (d_call d') <> XEnded Cancelled /\
  (forall o, d_task d' = OEnded o -> o = Cancelled) /\ forall i o, nth_error (d_users d') i = Some (UEnded false o) -> o = Cancelled.
Proof.
  split; [|split].
  - exists [DCall (Reaches 5 (Raised OSError)); DCall (Opens (Returned 0)); DAwaits; DCancel 0]. eexists. split; [reflexivity|]. split; reflexivity.
  - intros ls d i c m _ U T. destruct d as [s t st us cs]. cbn in *. subst t. rewrite U. eexists. split; reflexivity.
  - intros ls d H T ls' d' K. assert (V := dreachable _ _ H).
    assert (Nv : never d) by (split; [now left|]; assert (L := v_linked _ _ V); rewrite T in L; exact L).
    destruct (never_all _ _ _ _ H Nv K) as [T' W]. assert (R : dsteps (ls ++ ls') begun = Some d') by (rewrite dsteps_app, H; exact K).
    destruct (v_base _ _ (dreachable _ _ R)) as (bls & Bs & _). destruct (kept _ _ Bs) as [_ So].
    split; [intros X; apply So; [apply (i_asked _ _ (reachable _ _ Bs)); tauto|exact W]|].
    split; [intros X; apply So; [apply (i_asked _ _ (reachable _ _ Bs)); tauto|exact W]|].
    split; [intros o E; destruct T' as [X|X]; congruence|].
    intros i o U. destruct (v_user _ _ (dreachable _ _ R) _ _ U) as [X|[X _]]; [destruct T' as [Y|Y]; congruence|exact X].
Qed.
Print Assumptions C106_given_up_refuted.

(** And later, while the request is being sent, cancelling one who waits cancels all. *)
Theorem C106_apart_refuted : forall ls d i j c c' m n a o, dsteps ls begun = Some d ->
  nth_error (d_users d) i = Some (UWaits c m) -> nth_error (d_users d) j = Some (UWaits c' n) ->
  d_task d = OAwaits -> s_execution (d_call d) = XSending false -> s_transport (d_call d) = TRuns a -> o <> Cancelled ->
  exists d', dsteps [DCancel i; DCall (Answers Cancelled); DCall (Receives o); DTask o; DWakes j] d = Some d' /\
    nth_error (d_users d') j = Some (UEnded c' Cancelled).
Proof.
  intros ls d i j c c' m n a o H Ui Uj T E Tr O. destruct (dreachable _ _ H) as [_ Li _ _ _ _ _ _]. rewrite T in Li. destruct Li as [w W].
  destruct d as [[rf ca ex tr se ou ws] t st us cs]. cbn in *. subst. assert (Al : allowed false o = true) by (destruct o; [reflexivity|reflexivity|congruence]).
  rewrite Ui. cbn. rewrite !Al. cbn. rewrite ?Al.
  destruct w; cbn; rewrite Uj; destruct n; cbn; eexists; (split; [reflexivity|]); cbn; rewrite nth_set, Nat.eqb_refl, Uj; reflexivity.
Qed.
Print Assumptions C106_apart_refuted.

(** A call whose output is 7: one task awaits it before it is there, another closes the
    stream; both streams are closed. *)
Definition ex_open := [DCall (Reaches 5 (Raised OSError)); DCall (Opens (Returned 0)); DAwaits; DTask (Returned 0); DCloses].
Definition ex_answer := [DCall (Answers (Returned 3)); DCall (Receives (Raised OSError)); DCall (Finishes (Returned 9)); DTask (Returned 7)].
Example C106_ex : dsteps (ex_open ++ ex_answer ++ [DWakes 0; DWakes 1; DInput 1 (Returned 0); DOutput 1 (Returned 0)]) begun =
  Some (mkDuplex (mkState (Some (Returned 5)) (CEnded (Returned 0)) (XEnded (Returned 9)) (TEnded (Returned 3)) [5%nat] (Some 9%nat) [WEnded (Returned 9)])
          (OEnded (Returned 7)) (Some 7%nat) [UEnded false (Returned 7); UEnded true (Returned 0)] [ClosesOutput 1; ClosesInput 1]).
Proof. reflexivity. Qed.
(** Both wait, the request is being sent: the hypotheses of [C106_apart_refuted]. *)
Example C106_ex_apart : exists d, dsteps ex_open begun = Some d /\ d_users d = [UWaits false false; UWaits true false] /\ d_task d = OAwaits /\
  s_execution (d_call d) = XSending false /\ s_transport (d_call d) = TRuns false.
Proof. eexists. split; [reflexivity|]. auto. Qed.
