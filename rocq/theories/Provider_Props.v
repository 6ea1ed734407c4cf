(** C30 and C31: the byte provider is a bounded first-in-first-out buffer; when a
    blocked call is sure to return. *)
From Verif Require Import Base Base_Proofs Provider_Model Provider_Spec Provider_Proofs ProviderLive_Proofs.

Ltac find_in := cbn; repeat (first [left; reflexivity | right]).

(** ** C30 *)

(** Chunks come out in the order their writes were accepted. *)
Theorem C30_order : forall initial m p0 acts p,
  new_provider initial m = Ok p0 -> schedule acts p0 = Some p ->
  exists rest, start_data initial ++ accepted (history p) = delivered (history p) ++ rest.
Proof.
  intros initial m p0 acts p N S. assert (I := inv_schedule _ _ _ _ S (inv_new _ _ _ N)).
  destruct (inv_lost _ _ I) as [lost [E _]]. exists (data p ++ lost). exact E.
Qed.
Print Assumptions C30_order.

(** None is lost unless somebody closes without flushing: what was accepted and
    not delivered is in the buffer; and when a reader is told the end, or a close
    has returned, everything has been delivered. *)
Theorem C30_no_loss : forall initial m p0 acts p,
  new_provider initial m = Ok p0 -> schedule acts p0 = Some p -> ~ discarded (history p) ->
  start_data initial ++ accepted (history p) = delivered (history p) ++ data p /\
  (forall i f, In (Returned i Next Stop) (history p) \/ In (Returned i (Close f) Done) (history p) ->
     start_data initial ++ accepted (history p) = delivered (history p)).
Proof.
  intros initial m p0 acts p N S D. assert (I := inv_schedule _ _ _ _ S (inv_new _ _ _ N)).
  destruct (inv_lost _ _ I) as [lost [E L]]. rewrite (L D), app_nil_r in E. split; [exact E|].
  intros i f H. rewrite E, (inv_closed _ _ I (ended _ _ _ _ _ S (new_log _ _ _ N) H)). apply app_nil_r.
Qed.
Print Assumptions C30_no_loss.

(** Never more than the configured number of chunks is buffered. *)
Theorem C30_bounded : forall initial m p0 acts p,
  new_provider initial m = Ok p0 -> schedule acts p0 = Some p ->
  List.length (data p) <= m /\
  (~ discarded (history p) ->
   List.length (start_data initial ++ accepted (history p)) <= List.length (delivered (history p)) + m).
Proof.
  intros initial m p0 acts p N S. assert (I := inv_schedule _ _ _ _ S (inv_new _ _ _ N)).
  assert (M : max_chunks p = m).
  { rewrite (max_schedule _ _ _ S). revert N. unfold new_provider. destruct (Nat.ltb m 1); [discriminate|].
    intros N. injection N as <-. reflexivity. }
  assert (L := inv_len _ _ I). rewrite M in L. split; [exact L|]. intros D.
  destruct (C30_no_loss _ _ _ _ _ N S D) as [E _]. rewrite E, app_length. lia.
Qed.
Print Assumptions C30_bounded.

(** No write is accepted once a close has been called; once it has returned, or at
    once if it does not flush, nothing is delivered either. *)
Theorem C30_after_close : forall initial m p0 acts p h1 h2 i f,
  new_provider initial m = Ok p0 -> schedule acts p0 = Some p ->
  (history p = h1 ++ Called i (Close f) :: h2 -> accepted h2 = [] /\ (f = false -> delivered h2 = [])) /\
  (history p = h1 ++ Returned i (Close f) Done :: h2 -> accepted h2 = [] /\ delivered h2 = []).
Proof.
  intros initial m p0 acts p h1 h2 i f N S. assert (L := new_log _ _ _ N). split; intros H.
  - eapply after_close_called; eassumption.
  - eapply after_close_returned; eassumption.
Qed.
Print Assumptions C30_after_close.

(** A write called after a close raises at once. *)
Theorem C30_late_write_raises : forall initial m p0 acts p h1 h2 h3 i f j b,
  new_provider initial m = Ok p0 -> schedule acts p0 = Some p ->
  history p = h1 ++ Called i (Close f) :: h2 ++ Called j (Write b) :: h3 ->
  exists h4, h3 = Returned j (Write b) (Raised SmithyErr) :: h4.
Proof. intros initial m p0 acts p h1 h2 h3 i f j b N S H. eapply late_write; [exact S | eapply new_log; exact N | exact H]. Qed.
Print Assumptions C30_late_write_raises.

(** A provider that can hold nothing is refused; any other is created. *)
Theorem C30_capacity : forall initial m, (exists p0, new_provider initial m = Ok p0) <-> 1 <= m.
Proof.
  intros initial m. unfold new_provider. destruct (Nat.ltb m 1) eqn:E.
  - apply Nat.ltb_lt in E. split; [intros [p0 H]; discriminate H | lia].
  - apply Nat.ltb_ge in E. split; [trivial|]. intros _. eexists. reflexivity.
Qed.
Print Assumptions C30_capacity.

Definition fresh (m : nat) : provider := mkProvider [] false false false m [] 0 [].
Definition after (acts : list action) (p : provider) : provider :=
  match schedule acts p with Some q => q | None => p end.

(** Two writers on a buffer of one chunk, a reader, and a flushing close. *)
Definition busy_day : list action :=
  [Start (Write [1%N]); Start (Write [2%N]); Start (Close true); Start Next; Resume 1; Start (Write [3%N]); Resume 2; Start Next].
Definition busy_end := Eval vm_compute in after busy_day (fresh 1).
Example C30_meets : exists p,
  new_provider None 1 = Ok (fresh 1) /\ schedule busy_day (fresh 1) = Some p /\ ~ discarded (history p) /\
  accepted (history p) = [[1%N]] /\ delivered (history p) = [[1%N]] /\
  In (Returned 1 (Write [2%N]) (Raised SmithyErr)) (history p) /\ In (Returned 5 Next Stop) (history p) /\
  exists h1 h2 h3, history p = h1 ++ Called 2 (Close true) :: h2 ++ Called 4 (Write [3%N]) :: h3.
Proof.
  exists busy_end. repeat match goal with |- _ /\ _ => split end; try reflexivity.
  - intros [i D]. cbn in D. repeat (destruct D as [D | D]; [discriminate D|]). exact D.
  - find_in.
  - find_in.
  - exists [Called 0 (Write [1%N]); Returned 0 (Write [1%N]) Done; Called 1 (Write [2%N])],
      [Called 3 Next; Returned 3 Next (Chunk [1%N]); Returned 1 (Write [2%N]) (Raised SmithyErr)].
    eexists. reflexivity.
Qed.

(** The order is that of acceptance, not of the calls: with two writers the second
    call can overtake the first. *)
Example C30_overtaken :
  accepted (history (after [Start (Write [1%N]); Start (Write [2%N]); Start Next; Start (Write [3%N]); Resume 1; Start Next; Resume 1] (fresh 1)))
  = [[1%N]; [3%N]; [2%N]].
Proof. reflexivity. Qed.

(** ** C31 *)

(** With one producer and one consumer, neither making a call while its last one
    waits: when a producer's call waits, something can happen that brings it
    nearer its end (a woken call runs, or the reader is free and gets a chunk). *)
Theorem C31_never_stuck_partial : forall initial m p0 acts p w,
  new_provider initial m = Ok p0 -> orderly acts p0 = true -> schedule acts p0 = Some p ->
  In w (waiters p) -> producer (w_call w) = true ->
  (exists i p', act (Resume i) p = Some p') \/
  (busy false p = false /\ exists b p', act (Start Next) p = Some p' /\ In (Returned (next_id p) Next (Chunk b)) (history p')).
Proof.
  intros initial m p0 acts p w N O S I P.
  destruct (live_orderly _ _ _ _ _ (live_new _ _ _ N) O S) as [prod [cons V]].
  destruct (never_stuck _ _ _ _ V I P) as [R | [B [b [p' [A L]]]]]; [now left | right].
  split; [exact B|]. exists b, p'. split; [exact A|]. unfold history. rewrite <- in_rev. exact L.
Qed.
Print Assumptions C31_never_stuck_partial.

(** And every run of the reader and of woken calls longer than [3 * m + 3] steps
    makes the waiting call return normally. *)
Theorem C31_returns_partial : forall initial m p0 acts p w more p',
  new_provider initial m = Ok p0 -> orderly acts p0 = true -> schedule acts p0 = Some p ->
  In w (waiters p) -> producer (w_call w) = true ->
  orderly more p = true -> forallb reader_side more = true -> schedule more p = Some p' ->
  3 * m + 3 < List.length more ->
  In (Returned (w_id w) (w_call w) Done) (history p').
Proof.
  intros initial m p0 acts p w more p' N O S I P O' R S' M.
  destruct (live_orderly _ _ _ _ _ (live_new _ _ _ N) O S) as [prod [cons V]].
  assert (E := in_waiters _ _ _ _ V I P). subst prod.
  unfold history. rewrite <- in_rev. eapply returns; try eassumption.
  assert (B := measure_bound _ _ _ V).
  assert (Mx : max_chunks p = m).
  { rewrite (max_schedule _ _ _ S). revert N. unfold new_provider. destruct (Nat.ltb m 1); [discriminate|].
    intros N. injection N as <-. reflexivity. }
  rewrite Mx in B. lia.
Qed.
Print Assumptions C31_returns_partial.

(** A writer, blocked on a full buffer, and a reader that keeps reading. *)
Definition lone_writer : list action := [Start (Write [1%N]); Start (Write [2%N])].
Definition keeps_reading : list action := [Start Next; Resume 1; Start Next; Start Next].
Definition blocked := Eval vm_compute in after lone_writer (fresh 1).
Definition unblocked := Eval vm_compute in after keeps_reading blocked.
Example C31_meets :
  schedule lone_writer (fresh 1) = Some blocked /\ schedule keeps_reading blocked = Some unblocked /\
  orderly lone_writer (fresh 1) = true /\
  waiters blocked = [mkWaiter 1 (Write [2%N]) false] /\
  orderly keeps_reading blocked = true /\
  forallb reader_side keeps_reading = true /\
  In (Returned 1 (Write [2%N]) Done) (history unblocked).
Proof. repeat match goal with |- _ /\ _ => split end; try reflexivity. find_in. Qed.

Definition two_writers_run : list action :=
  [Start (Write [1%N]); Start (Write [2%N]); Start (Write [3%N]); Start Next; Start Next; Resume 1; Resume 2].
Definition two_writers_end := Eval vm_compute in after two_writers_run (fresh 1).
(** Beyond that the claim is false of the code.  Two writers and a reader: the
    wake-up meant for the reader goes to the second writer, who cannot use it and
    does not pass it on.  The reader and the writer then wait for ever, although
    the buffer holds a chunk. *)
Theorem C31_two_writers_refuted : exists acts p,
  schedule acts (fresh 1) = Some p /\ forallb (fun a => match a with Start (Write _) | Start Next | Resume _ => true | _ => false end) acts = true /\
  stuck p /\ data p <> [] /\ closed p = false /\
  (exists i b, In (mkWaiter i (Write b) false) (waiters p)) /\ (exists j, In (mkWaiter j Next false) (waiters p)).
Proof.
  exists two_writers_run, two_writers_end. repeat match goal with |- _ /\ _ => split end; try reflexivity.
  - intros w I. cbn in I. destruct I as [<- | [<- | []]]; reflexivity.
  - discriminate.
  - exists 2, [3%N]. find_in.
  - exists 4. find_in.
Qed.
Print Assumptions C31_two_writers_refuted.

Definition flush_then_write_run : list action :=
  [Start (Write [1%N]); Start Flush; Start (Write [2%N]); Start Next; Resume 1; Start Next].
Definition flush_then_write_end := Eval vm_compute in after flush_then_write_run (fresh 16).
(** A flush completes without waking the writer it had held up. *)
Theorem C31_flush_then_write_refuted : exists acts p,
  schedule acts (fresh 16) = Some p /\ stuck p /\ data p = [] /\ flushing p = false /\ closed p = false /\
  In (Returned 1 Flush Done) (history p) /\
  In (mkWaiter 2 (Write [2%N]) false) (waiters p) /\ In (mkWaiter 4 Next false) (waiters p).
Proof.
  exists flush_then_write_run, flush_then_write_end. repeat match goal with |- _ /\ _ => split end; try reflexivity; try solve [find_in].
  intros w I. cbn in I. destruct I as [<- | [<- | []]]; reflexivity.
Qed.
Print Assumptions C31_flush_then_write_refuted.

Definition write_then_flush_run : list action :=
  [Start (Write [1%N]); Start (Write [2%N]); Start Flush; Start Next; Resume 1; Start Next].
Definition write_then_flush_end := Eval vm_compute in after write_then_flush_run (fresh 1).
(** A writer waiting before the flush takes its wake-up: the flush never returns
    although the buffer is empty. *)
Theorem C31_write_then_flush_refuted : exists acts p,
  schedule acts (fresh 1) = Some p /\ stuck p /\ data p = [] /\ closed p = false /\
  In (mkWaiter 2 Flush false) (waiters p) /\ In (mkWaiter 1 (Write [2%N]) false) (waiters p) /\
  In (mkWaiter 4 Next false) (waiters p).
Proof.
  exists write_then_flush_run, write_then_flush_end. repeat match goal with |- _ /\ _ => split end; try reflexivity; try solve [find_in].
  intros w I. cbn in I. destruct I as [<- | [<- | [<- | []]]]; reflexivity.
Qed.
Print Assumptions C31_write_then_flush_refuted.

Definition cancelled_flush_run : list action :=
  [Start (Write [1%N]); Start Flush; Cancel 1; Start Next; Start (Write [2%N])].
Definition cancelled_flush_end := Eval vm_compute in after cancelled_flush_run (fresh 16).
(** A cancelled flush leaves writes blocked: nobody is flushing, the buffer is
    empty, and the write waits. *)
Theorem C31_cancelled_flush_refuted : exists acts p,
  schedule acts (fresh 16) = Some p /\ stuck p /\ data p = [] /\ closed p = false /\
  In (Returned 1 Flush Cancelled) (history p) /\ waiters p = [mkWaiter 3 (Write [2%N]) false].
Proof.
  exists cancelled_flush_run, cancelled_flush_end. repeat match goal with |- _ /\ _ => split end; try reflexivity; try solve [find_in].
  intros w I. cbn in I. destruct I as [<- | []]; reflexivity.
Qed.
Print Assumptions C31_cancelled_flush_refuted.
