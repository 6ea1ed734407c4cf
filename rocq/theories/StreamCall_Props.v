(** C102: the tasks of a call with an input stream, in every schedule. *)
From Verif Require Import Base StreamCall_Model StreamCall_Proofs.

(** Whoever is given a stream, its request is with the transport, and it is the only one. *)
Theorem C102_ready : forall ls s v, steps ls opened = Some s -> s_caller s = CEnded (Returned v) ->
  exists r, s_sent s = [r] /\ s_request s = Some (Returned r) /\ s_transport s <> TNone.
Proof.
  intros ls s v H C. destruct (reachable _ _ H) as [A B _ _ _ _ _ _ _ _]. destruct (B v C) as [r R]. exists r.
  destruct (s_execution s).
  - destruct A as (_ & _ & [X|X]); congruence.
  - destruct A as (q & X & Y & Z). repeat split; congruence.
  - destruct A as (q & w & X & Y & Z). repeat split; congruence.
  - destruct A as [(q & X & Y & t & Z)|[(_ & _ & [X|X])|(q & X & Y & _)]]; try congruence. repeat split; congruence.
Qed.
Print Assumptions C102_ready.

(** No call sends two requests. *)
Theorem C102_once : forall ls s, steps ls opened = Some s -> (List.length (s_sent s) <= 1)%nat.
Proof.
  intros ls s H. destruct (reachable _ _ H) as [A _ _ _ _ _ _ _ _ _]. destruct (s_execution s).
  - destruct A as (-> & _). auto.
  - destruct A as (r & -> & _). auto.
  - destruct A as (r & v & -> & _). auto.
  - destruct A as [(r & -> & _)|[(-> & _)|(r & -> & _)]]; auto.
Qed.
Print Assumptions C102_once.

(** Whoever waits for the output gets what the call ended with, unless it was itself
    cancelled; so all of them get the same. *)
Theorem C102_output : forall ls s i o, steps ls opened = Some s -> nth_error (s_waiters s) i = Some (WEnded o) ->
  s_execution s = XEnded o \/ (o = Cancelled /\ In (CancelWaiter i) ls).
Proof. intros ls s i o H. apply (i_ended _ _ (reachable _ _ H)). Qed.
Print Assumptions C102_output.

(** Nobody waits in vain: from every state there is a way, without cancellations, on which
    it gets something. *)
Theorem C102_waiter_ends : forall ls s i m, steps ls opened = Some s -> nth_error (s_waiters s) i = Some (WWaits m) ->
  exists ls' s' o, steps ls' s = Some s' /\ nth_error (s_waiters s') i = Some (WEnded o) /\
    (List.length ls' <= 4)%nat /\ forall l, In l ls' -> match l with CancelCaller | CancelWaiter _ => False | _ => True end.
Proof.
  intros ls s i m H W. destruct (reachable _ _ H) as [A B _ D _ _ _ _ _ _].
  assert (K : forall rf ca ex tr se ou ws o, nth_error ws i = Some (WWaits m) -> ex = XEnded o ->
    exists s' o', step (Wakes i) (mkState rf ca ex tr se ou ws) = Some s' /\ nth_error (s_waiters s') i = Some (WEnded o')).
  { intros rf ca ex tr se ou ws o Wi ->. cbn. rewrite Wi. eexists _, _. split; [reflexivity|]. cbn. rewrite nth_set, Nat.eqb_refl, Wi. reflexivity. }
  destruct s as [rf ca ex tr se ou ws]. cbn in *.
  assert (Dw : exists v, ca = CEnded (Returned v)) by (apply D; intros ->; destruct i; discriminate).
  destruct ex as [|m'|asked|o].
  - exfalso. destruct Dw as [v ->]. destruct (B v eq_refl) as [r R]. destruct A as (_ & _ & [X|X]); congruence.
  - destruct A as (r & -> & -> & T).
    destruct tr as [|asked|[v|e|]].
    + congruence.
    + destruct (K (Some (Returned r)) ca (XEnded (if m' then Cancelled else Returned 0)) (TEnded (Raised OSError)) [r] ou ws _ W eq_refl) as (s' & o & St & Nt).
      exists [Answers (Raised OSError); Receives (Returned 0); Wakes i], s', o. split; [|split; [exact Nt|split; [cbn; lia|]]].
      * cbn [steps step s_transport s_execution allowed]. cbn [s_request s_caller s_execution s_transport s_sent s_output s_waiters]. destruct m'; now rewrite St.
      * intros l [<-|[<-|[<-|[]]]]; exact I.
    + destruct m'.
      * destruct (K (Some (Returned r)) ca (XEnded Cancelled) (TEnded (Returned v)) [r] ou ws _ W eq_refl) as (s' & o & St & Nt).
        exists [Receives (Returned 0); Wakes i], s', o. split; [|split; [exact Nt|split; [cbn; lia|]]].
        -- cbn [steps step s_transport s_execution allowed]. cbn [s_request s_caller s_execution s_transport s_sent s_output s_waiters]. now rewrite St.
        -- intros l [<-|[<-|[]]]; exact I.
      * destruct (K (Some (Returned r)) ca (XEnded (Returned 0)) (TEnded (Returned v)) [r] ou ws _ W eq_refl) as (s' & o & St & Nt).
        exists [Receives (Returned 0); Finishes (Returned 0); Wakes i], s', o. split; [|split; [exact Nt|split; [cbn; lia|]]].
        -- cbn [steps step s_transport s_execution allowed]. cbn [s_request s_caller s_execution s_transport s_sent s_output s_waiters]. now rewrite St.
        -- intros l [<-|[<-|[<-|[]]]]; exact I.
    + destruct (K (Some (Returned r)) ca (XEnded (if m' then Cancelled else Returned 0)) (TEnded (Raised e)) [r] ou ws _ W eq_refl) as (s' & o & St & Nt).
      exists [Receives (Returned 0); Wakes i], s', o. split; [|split; [exact Nt|split; [cbn; lia|]]].
      * cbn [steps step s_transport s_execution allowed]. cbn [s_request s_caller s_execution s_transport s_sent s_output s_waiters]. destruct m'; now rewrite St.
      * intros l [<-|[<-|[]]]; exact I.
    + destruct (K (Some (Returned r)) ca (XEnded Cancelled) (TEnded Cancelled) [r] ou ws _ W eq_refl) as (s' & o & St & Nt).
      exists [Receives (Returned 0); Wakes i], s', o. split; [|split; [exact Nt|split; [cbn; lia|]]].
      * cbn [steps step s_transport s_execution allowed]. cbn [s_request s_caller s_execution s_transport s_sent s_output s_waiters]. destruct m'; now rewrite St.
      * intros l [<-|[<-|[]]]; exact I.
  - destruct (K rf ca (XEnded (Returned 0)) tr se ou ws _ W eq_refl) as (s' & o & St & Nt).
    exists [Finishes (Returned 0); Wakes i], s', o. split; [|split; [exact Nt|split; [cbn; lia|]]].
    + cbn [steps step s_transport s_execution allowed]. cbn [s_request s_caller s_execution s_transport s_sent s_output s_waiters]. now rewrite St.
    + intros l [<-|[<-|[]]]; exact I.
  - destruct (K rf ca (XEnded o) tr se ou ws _ W eq_refl) as (s' & o' & St & Nt).
    exists [Wakes i], s', o'. split; [|split; [exact Nt|split; [cbn; lia|]]].
    + cbn [steps step]. cbn [s_request s_caller s_execution s_transport s_sent s_output s_waiters]. now rewrite St.
    + intros l [<-|[]]; exact I.
Qed.
Print Assumptions C102_waiter_ends.

(** A call is cancelled only by somebody who waits for its output. *)
Theorem C102_cancelled_by : forall ls s, steps ls opened = Some s -> s_execution s = XEnded Cancelled \/ s_transport s = TEnded Cancelled ->
  exists i, In (CancelWaiter i) ls.
Proof. intros ls s H C. apply (i_asked _ _ (reachable _ _ H)). tauto. Qed.
Print Assumptions C102_cancelled_by.

(** A caller that was cancelled before it had its stream gets the cancellation. *)
Theorem C102_caller : forall ls s o, steps ls opened = Some s -> s_caller s = CEnded o -> (o = Cancelled <-> In CancelCaller ls).
Proof.
  intros ls s o H C. split.
  - intros ->. apply (i_ccaller _ _ (reachable _ _ H)). auto.
  - intros I. destruct (proj1 (kept _ _ H) I) as [[_ [m X]]|[[X _]|X]]; congruence.
Qed.
Print Assumptions C102_caller.

(** When the caller waits, and no longer has to be run, then the call has not reached
    transmission, and if it has ended it never will: the caller then waits until it is
    cancelled, whatever happens (C20).  Every failure before transmission leads there. *)
Theorem C102_caller_waits_refuted :
  (forall o, o <> Cancelled -> exists s, steps [Fails o] opened = Some s /\ s_execution s = XEnded o /\ s_request s = None) /\
  forall ls s m, steps ls opened = Some s -> s_caller s = CWaits m -> s_request s = None ->
  s_sent s = [] /\
  forall o, s_execution s = XEnded o -> forall ls' s', steps ls' s = Some s' -> ~ In CancelCaller ls' -> s_caller s' = CWaits false.
Proof.
  split.
  { intros o O. exists (mkState None (CWaits false) (XEnded o) TNone [] None []). destruct o; [auto|auto|congruence]. }
  intros ls s m H C R. destruct (reachable _ _ H) as [A _ Cw _ _ _ _ _ _ _]. split.
  - destruct (s_execution s).
    + now destruct A as (X & _).
    + destruct A as (r & _ & X & _). congruence.
    + destruct A as (r & v & _ & X & _). congruence.
    + destruct A as [(r & _ & X & _)|[(X & _)|(r & _ & X & _)]]; congruence.
  - intros o E ls'. assert (T : s_transport s = TNone).
    { rewrite E in A. destruct A as [(r & _ & X & _)|[(_ & X & _)|(r & _ & X & _)]]; congruence. }
    specialize (Cw R).
    assert (N : s_waiters s = []).
    { destruct (s_waiters s) eqn:Q; [reflexivity|]. destruct (i_waiters _ _ (reachable _ _ H)) as [v X]; congruence. }
    clear H A C m. revert s E T Cw R N. induction ls' as [|l ls' IH]; intros s E T Cw R N s' St NI.
    + cbn in St. now injection St as <-.
    + cbn [steps] in St. destruct s as [rf ca ex tr se ou ws]. cbn in *. subst.
      destruct l; cbn in St; try discriminate.
      * exfalso. apply NI. now left.
      * destruct i; discriminate.
      * destruct i; discriminate.
Qed.
Print Assumptions C102_caller_waits_refuted.

(** It is not true that a cancelled call is given up: if its caller is cancelled before
    the request is sent, the request is sent all the same, nobody will ever wait for the
    output, and nobody cancels the transport. *)
Theorem C102_given_up_refuted : forall ls s, steps ls opened = Some s -> In CancelCaller ls ->
  (s_execution s = XBefore -> forall r o, o <> Cancelled -> exists s', step (Reaches r o) s = Some s' /\ s_sent s' = [r] /\ s_transport s' = TRuns false) /\
  (forall ls' s', steps ls' s = Some s' -> s_waiters s' = [] /\ s_transport s' <> TRuns true /\ s_execution s' <> XEnded Cancelled).
Proof.
  intros ls s H I. split.
  - intros E r o O. destruct (reachable _ _ H) as [A _ _ _ _ _ _ _ _ _]. destruct (kept _ _ H) as [Lo _]. specialize (Lo I).
    destruct s as [rf ca ex tr se ou ws]. cbn in *. subst ex. destruct A as (-> & -> & _).
    assert (Al : allowed false o = true) by (destruct o; [reflexivity|reflexivity|congruence]). cbn. rewrite Al. destruct rf; eexists; (split; [reflexivity|auto]).
  - intros ls' s' St. assert (K : steps (ls ++ ls') opened = Some s') by (rewrite steps_app, H; exact St).
    assert (I' : In CancelCaller (ls ++ ls')) by (apply in_app_iff; now left). destruct (kept _ _ K) as [Lo So]. specialize (Lo I').
    assert (N : s_waiters s' = []).
    { destruct (s_waiters s') eqn:Q; [reflexivity|]. destruct (i_waiters _ _ (reachable _ _ K)) as [v X]; [congruence|]. destruct Lo as [[_ [m Y]]|[[Y _]|Y]]; congruence. }
    split; [exact N|]. split; intros X; apply So; try exact N; apply (i_asked _ _ (reachable _ _ K)); tauto.
Qed.
Print Assumptions C102_given_up_refuted.

(** And it is not true that those who wait for the output do not disturb each other: when
    one of them is cancelled while the request is being sent, and the transport then stops,
    everybody else is cancelled, too. *)
Theorem C102_apart_refuted : forall ls s i j m n a o, steps ls opened = Some s ->
  nth_error (s_waiters s) i = Some (WWaits m) -> nth_error (s_waiters s) j = Some (WWaits n) ->
  s_execution s = XSending false -> s_transport s = TRuns a -> o <> Cancelled ->
  exists s', steps [CancelWaiter i; Answers Cancelled; Receives o; Wakes j] s = Some s' /\ nth_error (s_waiters s') j = Some (WEnded Cancelled).
Proof.
  intros ls s i j m n a o _ Wi Wj E T O. destruct s as [rf ca ex tr se ou ws]. cbn in *. subst.
  assert (Al : allowed false o = true) by (destruct o; [reflexivity|reflexivity|congruence]).
  rewrite Wi. unfold cancel_execution. cbn. rewrite Al. cbn. rewrite Wj. eexists. split; [reflexivity|]. cbn. rewrite nth_set, Nat.eqb_refl, Wj. now destruct n.
Qed.
Print Assumptions C102_apart_refuted.

(** A call whose output is 7; two tasks wait for it.  The same, when the first of them is
    cancelled; and one whose caller is cancelled. *)
Example C102_ex :
  option_map (fun s => (s_waiters s, s_sent s))
    (steps [Reaches 1 (Returned 0); Opens (Returned 5); Waits; Waits; Answers (Returned 2); Receives (Returned 0); Finishes (Returned 7); Wakes 1; Wakes 0; Waits] opened)
    = Some ([WEnded (Returned 7); WEnded (Returned 7); WEnded (Returned 7)], [1]) /\
  option_map s_waiters
    (steps [Reaches 1 (Returned 0); Opens (Returned 5); Waits; Waits; CancelWaiter 0; Answers Cancelled; Receives (Returned 0); Wakes 0; Wakes 1] opened)
    = Some [WEnded Cancelled; WEnded Cancelled] /\
  option_map (fun s => (s_caller s, s_sent s, s_transport s)) (steps [CancelCaller; Opens (Returned 5); Reaches 1 (Raised RuntimeError)] opened)
    = Some (CEnded Cancelled, [1], TRuns false) /\
  option_map (fun s => (s_caller s, s_request s)) (steps [Fails (Raised ValueError)] opened) = Some (CWaits false, None).
Proof. auto. Qed.
