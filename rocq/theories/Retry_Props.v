(** Retries: properties C11 to C15. *)
From Coq Require Import QArith Qminmax Lqa.
From Verif Require Import Base Retry_Model Retry_Spec Retry_Proofs.
Local Open Scope Z_scope.

(** C11. Threads make any acquire and release calls on one quota, and are
    scheduled in any way: the capacity stays between zero and the maximum, and
    the calls behave as if each were indivisible — one log of all calls, in
    which every acquire is granted exactly when the capacity of that moment
    covers its price, refused calls change nothing, and each thread's calls
    appear in program order. *)
Theorem C11_concurrent_quota (cap : Z) (programs : list (list qcall)) (schedule : list nat) :
  0 <= cap -> Forall (Forall release_ok) programs ->
  let s := qsys_run cap programs schedule in
  0 <= y_avail s <= cap /\
  explained cap (y_log s) (y_avail s) /\
  (forall i p, nth_error programs i = Some p -> exists rest, p = calls_of i (y_log s) ++ rest).
Proof.
  intros H1 H2 s. pose proof (qrun_inv cap programs schedule H1 H2) as I. fold s in I.
  split; [apply I|]. split; [apply I|]. intros i p Hp.
  destruct (nth_error (y_threads s) i) as [t|] eqn:Et.
  - exists (pending (t_pc t) ++ t_todo t). symmetry. exact (qi_order _ _ _ I i t p Et Hp).
  - apply nth_error_None in Et. rewrite (qi_len _ _ _ I) in Et.
    apply nth_error_None in Et. congruence.
Qed.
Print Assumptions C11_concurrent_quota.

(** ... and no schedule blocks them: from every reachable state all calls can
    still be finished. *)
Theorem C11_no_deadlock (cap : Z) (programs : list (list qcall)) (schedule : list nat) :
  0 <= cap -> Forall (Forall release_ok) programs ->
  exists more, Forall ended_thread (y_threads (qsys_run cap programs (schedule ++ more))).
Proof.
  intros H1 H2.
  destruct (qsys_finishes cap programs _ H1 H2 (qrun_inv cap programs schedule H1 H2)) as (more & H).
  exists more. unfold qsys_run in *. rewrite fold_left_app. exact H.
Qed.
Print Assumptions C11_no_deadlock.

(** Two threads, interleaved inside their critical sections: the second acquire
    is refused because only 14 + 5 tokens were there. *)
Definition ex_slow : option retry_info := Some (mkInfo (Some true) None true).
Example ex_C11 :
  let s := qsys_run 19 [[QAcquire None]; [QAcquire ex_slow; QAcquire ex_slow; QRelease 0]]
             [0; 1; 0; 1; 0; 0; 1; 0; 1; 1; 1; 1; 1; 1; 1; 1; 1; 1; 1; 1; 1; 1]%nat in
  y_log s = [(0, QAcquire None, QGot 14); (1, QAcquire ex_slow, QGot 5);
             (1, QAcquire ex_slow, QRefused); (1, QRelease 0, QReleased)]%nat /\ y_avail s = 1.
Proof. vm_compute. split; reflexivity. Qed.

(** A negative release amount is a caller error that breaks the lower bound, so
    the hypothesis on amounts is needed. *)
Theorem C11_negative_release_refuted :
  exists cap programs schedule, 0 <= cap /\ y_avail (qsys_run cap programs schedule) < 0.
Proof.
  exists 14, [[QAcquire None; QRelease (-5)]], (repeat 0%nat 10). split; [lia|]. vm_compute. reflexivity.
Qed.
Print Assumptions C11_negative_release_refuted.

(** C12. Whatever the attempts answer, whatever other operations do with the
    shared strategy (anything [attempt] and [rewind] do to it, as long as they
    leave its max_attempts alone): an operation under the standard strategy ends
    after at least one and at most max_attempts attempts, and every attempt but
    the last failed with an error marked safe to retry. *)
Section C12.
  Context {A Out Er : Type}.
  Variable info : Er -> option retry_info.
  Variable of_exn : exn -> Er.
  Variable draw : A -> Q * A.
  Variable failure : Out -> option Er.
  Variable long_polling : bool.
  Definition marked_safe (o : Out) : Prop :=
    exists e i, failure o = Some e /\ info e = Some i /\ ri_safe i = Some true.

  Theorem C12_standard (attempt : standard * A -> Out * (standard * A))
      (rewind : standard * A -> option Er * (standard * A)) (m : Z) (fuel : nat) (w : standard * A) :
    (forall w, d_max (fst (snd (attempt w))) = d_max (fst w)) ->
    (forall w, d_max (fst (snd (rewind w))) = d_max (fst w)) ->
    d_max (fst w) = m -> (Z.to_nat (Z.max 1 m) <= fuel)%nat ->
    exists res tr w', retry k_delay std_acquire (std_refresh info of_exn draw) std_success
                        attempt failure rewind long_polling true fuel w = Some (res, tr, w') /\
      1 <= Z.of_nat (List.length (attempts tr)) <= Z.max 1 m /\
      Forall marked_safe (removelast (attempts tr)).
  Proof.
    intros Ha Hr Hm Hf. unfold retry, std_acquire. cbn [fst snd].
    destruct (loop_bounded (W := standard * A) (Out := Out) k_delay (std_refresh info of_exn draw) std_success
                attempt failure rewind long_polling k_count m
                (fun e => exists i, info e = Some i /\ ri_safe i = Some true)
                (fun w => d_max (fst w) = m)) with (fuel := fuel) (t := standard_acquire (fst w)) (w := w)
      as (res & tr & w' & E & H1 & H2).
    - intros t e w0 r w1 H E. destruct (std_grants _ _ _ _ _ _ _ _ E) as [E1 _]. congruence.
    - intros w0 o w1 H E. specialize (Ha w0). rewrite E in Ha. cbn [snd] in Ha. congruence.
    - intros w0 o w1 H E. specialize (Hr w0). rewrite E in Hr. cbn [snd] in Hr. congruence.
    - intros t e w0 t' w1 H E. destruct (std_grants _ _ _ _ _ _ _ _ E) as [_ E1].
      rewrite H in E1. apply E1. reflexivity.
    - exact Hm.
    - cbn [standard_acquire k_count]. lia.
    - lia.
    - exists res, tr, w'. split; [exact E|]. cbn [standard_acquire k_count] in H1.
      split; [lia|]. revert H2. apply Forall_impl. intros o (e & Ef & i & Hi & Hs).
      exists e, i. auto.
  Qed.

  Theorem C12_simple (attempt : simple * A -> Out * (simple * A))
      (rewind : simple * A -> option Er * (simple * A)) (m : Z) (fuel : nat) (w : simple * A) :
    (forall w, s_max (fst (snd (attempt w))) = s_max (fst w)) ->
    (forall w, s_max (fst (snd (rewind w))) = s_max (fst w)) ->
    s_max (fst w) = m -> (Z.to_nat (Z.max 1 m) <= fuel)%nat ->
    exists res tr w', retry k_delay smp_acquire (smp_refresh info of_exn draw) smp_success
                        attempt failure rewind long_polling true fuel w = Some (res, tr, w') /\
      1 <= Z.of_nat (List.length (attempts tr)) <= Z.max 1 m /\
      Forall marked_safe (removelast (attempts tr)).
  Proof.
    intros Ha Hr Hm Hf. unfold retry, smp_acquire. cbn [fst snd].
    destruct (loop_bounded (W := simple * A) (Out := Out) k_delay (smp_refresh info of_exn draw) smp_success
                attempt failure rewind long_polling k_count m
                (fun e => exists i, info e = Some i /\ ri_safe i = Some true)
                (fun w => s_max (fst w) = m)) with (fuel := fuel) (t := simple_acquire (fst w)) (w := w)
      as (res & tr & w' & E & H1 & H2).
    - intros t e w0 r w1 H E. destruct (smp_grants _ _ _ _ _ _ _ _ E) as [E1 _]. congruence.
    - intros w0 o w1 H E. specialize (Ha w0). rewrite E in Ha. cbn [snd] in Ha. congruence.
    - intros w0 o w1 H E. specialize (Hr w0). rewrite E in Hr. cbn [snd] in Hr. congruence.
    - intros t e w0 t' w1 H E. destruct (smp_grants _ _ _ _ _ _ _ _ E) as [_ E1].
      rewrite H in E1. apply E1. reflexivity.
    - exact Hm.
    - cbn [simple_acquire k_count]. lia.
    - lia.
    - exists res, tr, w'. split; [exact E|]. cbn [simple_acquire k_count] in H1.
      split; [lia|]. revert H2. apply Forall_impl. intros o (e & Ef & i & Hi & Hs).
      exists e, i. auto.
  Qed.

  (** A call with an input stream makes exactly one attempt, under any strategy. *)
  Theorem C12_not_retryable {W Tok : Type} (delay_of : Tok -> Q) acquire refresh success
      (attempt : W -> Out * W) rewind fuel w :
    retry (Err := Er) delay_of acquire refresh success attempt failure rewind long_polling false fuel w =
    let (o, w') := attempt w in Some (Returned o, [AAttempt o], w').
  Proof. reflexivity. Qed.

  (** The bound is reached: when every attempt fails with an error marked safe to
      retry, all max_attempts attempts are made — with the simple strategy for up
      to 1025 attempts, with the standard strategy if the quota covers them and
      nobody else uses it meanwhile. *)
  Theorem C12_simple_uses_all (attempt : simple * A -> Out * (simple * A))
      (rewind : simple * A -> option Er * (simple * A)) (m : Z) (fuel : nat) (w : simple * A) :
    (forall w, fst (snd (attempt w)) = fst w /\ marked_safe (fst (attempt w))) ->
    (forall w, fst (snd (rewind w)) = fst w /\ fst (rewind w) = None) ->
    s_max (fst w) = m -> m <= 1025 -> (Z.to_nat (Z.max 1 m) <= fuel)%nat ->
    (forall e i, info e = Some i -> ri_safe i = Some true) -> (forall e, info e <> None) ->
    exists e tr w', retry k_delay smp_acquire (smp_refresh info of_exn draw) smp_success
                        attempt failure rewind long_polling true fuel w = Some (Threw e, tr, w') /\
      Z.of_nat (List.length (attempts tr)) = Z.max 1 m.
  Proof.
    intros Ha Hr Hm Hb Hf Hsafe Hinfo. unfold retry, smp_acquire. cbn [fst snd].
    destruct (loop_exhausts (W := simple * A) (Out := Out) k_delay (smp_refresh info of_exn draw) smp_success
                attempt failure rewind long_polling k_count m
                (fun n w => s_max (fst w) = m)) with (fuel := fuel) (t := simple_acquire (fst w)) (w := w)
      as (e & tr & w' & E & H1).
    - intros n w0 o w1 H E. destruct (Ha w0) as [E1 (e & i & E2 & _)]. rewrite E in E1, E2.
      cbn [fst snd] in E1, E2. rewrite E1. eauto.
    - intros t e [s a] H Hlt. cbn [fst] in H. unfold smp_refresh. cbn [fst snd].
      destruct (draw a) as [q a']. unfold simple_refresh.
      destruct (info e) as [i|] eqn:Ei; [|contradiction (Hinfo e)].
      rewrite (Hsafe e i Ei). destruct (Z.leb_spec (s_max s) (k_count t + 1)); [lia|].
      assert (Hd : exists d b, compute_delay (s_backoff s) (k_count t + 1) q = (Ok d, b)).
      { unfold compute_delay. destruct (k_count t + 1 =? 0); [eauto|].
        unfold next_delay. rewrite uncapped_le by lia. destruct (b_jitter (s_backoff s)); cbn [bind]; eauto. }
      destruct Hd as (d & b & Hd). rewrite Hd. eexists _, _. split; [reflexivity|].
      cbn [k_count fst s_max]. auto.
    - intros t e [s a] H Hge. cbn [fst] in H. unfold smp_refresh. cbn [fst snd].
      destruct (draw a) as [q a']. unfold simple_refresh.
      destruct (info e) as [i|] eqn:Ei; [|contradiction (Hinfo e)].
      rewrite (Hsafe e i Ei). destruct (Z.leb_spec (s_max s) (k_count t + 1)); [|lia]. eauto.
    - intros n w0 H. destruct (Hr w0) as [E1 E2]. destruct (rewind w0) as [x w1]. cbn [fst snd] in *.
      subst x. exists w1. rewrite E1. auto.
    - exact Hm.
    - cbn [simple_acquire k_count]. lia.
    - lia.
    - exists e, tr, w'. split; [exact E|]. cbn [simple_acquire k_count] in H1. lia.
  Qed.

  Theorem C12_standard_uses_all (attempt : standard * A -> Out * (standard * A))
      (rewind : standard * A -> option Er * (standard * A)) (m : Z) (fuel : nat) (w : standard * A) :
    (forall w, fst (snd (attempt w)) = fst w /\ marked_safe (fst (attempt w))) ->
    (forall w, fst (snd (rewind w)) = fst w /\ fst (rewind w) = None) ->
    d_max (fst w) = m -> m <= 1025 -> (Z.to_nat (Z.max 1 m) <= fuel)%nat ->
    14 * (m - 1) <= q_avail (d_quota (fst w)) ->
    (forall e i, info e = Some i -> ri_safe i = Some true) -> (forall e, info e <> None) ->
    exists e tr w', retry k_delay std_acquire (std_refresh info of_exn draw) std_success
                        attempt failure rewind long_polling true fuel w = Some (Threw e, tr, w') /\
      Z.of_nat (List.length (attempts tr)) = Z.max 1 m.
  Proof.
    intros Ha Hr Hm Hb Hf Hq Hsafe Hinfo. unfold retry, std_acquire. cbn [fst snd].
    destruct (loop_exhausts (W := standard * A) (Out := Out) k_delay (std_refresh info of_exn draw) std_success
                attempt failure rewind long_polling k_count m
                (fun n w => d_max (fst w) = m /\ 14 * (m - 1 - n) <= q_avail (d_quota (fst w))))
      with (fuel := fuel) (t := standard_acquire (fst w)) (w := w)
      as (e & tr & w' & E & H1).
    - intros n w0 o w1 H E. destruct (Ha w0) as [E1 (e & i & E2 & _)]. rewrite E in E1, E2.
      cbn [fst snd] in E1, E2. rewrite E1. eauto.
    - intros t e [s a] [H Hav] Hlt. cbn [fst] in H, Hav. unfold std_refresh. cbn [fst snd].
      destruct (draw a) as [q a']. unfold standard_refresh.
      destruct (info e) as [i|] eqn:Ei; [|contradiction (Hinfo e)].
      rewrite (Hsafe e i Ei). destruct (Z.leb_spec (d_max s) (k_count t + 1)); [lia|].
      assert (Hd : forall bo, exists d b, compute_delay bo (k_count t + 1) q = (Ok d, b)).
      { intros bo. unfold compute_delay. destruct (k_count t + 1 =? 0); [eauto|].
        unfold next_delay. rewrite uncapped_le by lia. destruct (b_jitter bo); cbn [bind]; eauto. }
      destruct (Hd (if ri_throttling i then d_throttling s else d_backoff s)) as (d & b & Hd').
      rewrite Hd'. cbv zeta. unfold q_acquire.
      assert (Hqq : d_quota (if ri_throttling i
         then {| d_backoff := d_backoff s; d_throttling := b; d_max := d_max s; d_quota := d_quota s |}
         else {| d_backoff := b; d_throttling := d_throttling s; d_max := d_max s; d_quota := d_quota s |})
         = d_quota s) by (destruct (ri_throttling i); reflexivity).
      rewrite Hqq.
      assert (Hc : 0 <= cost_of (Some i) <= 14).
      { cbn [cost_of]. destruct (ri_throttling i); unfold THROTTLING_RETRY_COST, RETRY_COST; lia. }
      destruct (Z.ltb_spec (q_avail (d_quota s)) (cost_of (Some i))); [lia|].
      eexists _, _. split; [reflexivity|].
      cbn [k_count fst d_max d_quota q_avail]. destruct (ri_throttling i); cbn [d_max]; split; auto; split; auto; lia.
    - intros t e [s a] [H Hav] Hge. cbn [fst] in H. unfold std_refresh. cbn [fst snd].
      destruct (draw a) as [q a']. unfold standard_refresh.
      destruct (info e) as [i|] eqn:Ei; [|contradiction (Hinfo e)].
      rewrite (Hsafe e i Ei). destruct (Z.leb_spec (d_max s) (k_count t + 1)); [|lia]. eauto.
    - intros n w0 H. destruct (Hr w0) as [E1 E2]. destruct (rewind w0) as [x w1]. cbn [fst snd] in *.
      subst x. exists w1. rewrite E1. auto.
    - cbn [standard_acquire k_count]. split; [exact Hm|lia].
    - cbn [standard_acquire k_count]. lia.
    - lia.
    - exists e, tr, w'. split; [exact E|]. cbn [standard_acquire k_count] in H1. lia.
  Qed.
End C12.
Print Assumptions C12_standard.
Print Assumptions C12_simple.
Print Assumptions C12_not_retryable.
Print Assumptions C12_simple_uses_all.
Print Assumptions C12_standard_uses_all.

(** A concrete service: fails with a throttling error as often as the counter
    says, then answers. *)
Definition ex_attempt (w : standard * nat) : (nat + retry_info) * (standard * nat) :=
  match snd w with
  | O => (inl 200%nat, w)
  | Datatypes.S n => (inr (mkInfo (Some true) None true), (fst w, n))
  end.
Definition ex_failure (o : nat + retry_info) : option retry_info :=
  match o with inl _ => None | inr i => Some i end.
Definition ex_run (max cap : Z) (failures : nat) :=
  match new_standard max cap with
  | Ok s =>
    match retry k_delay std_acquire (std_refresh Some (fun _ => mkInfo None None false) (fun n => (1 # 2, n)))
            std_success ex_attempt ex_failure (fun w => (None, w)) false true 10 (s, failures) with
    | Some (res, tr, w) => Some (res, List.length (attempts tr), List.length (successes tr), q_avail (d_quota (fst w)))
    | None => None
    end
  | Err _ => None
  end.
Example ex_C12 :
  ex_run 3 500 2 = Some (Returned (inl 200%nat), 3%nat, 1%nat, 495) /\
  ex_run 3 500 3 = Some (Threw (mkInfo (Some true) None true), 3%nat, 0%nat, 490) /\
  ex_run 3 7 3 = Some (Threw (mkInfo (Some true) None true), 2%nat, 0%nat, 2).
Proof. vm_compute. repeat split. Qed.

(** max_attempts = 0 is accepted and still makes one attempt: "at most
    max_attempts" holds only for max_attempts of one or more. *)
Theorem C12_zero_attempts_refuted :
  exists s, new_standard 0 500 = Ok s /\
    exists res tr w', retry k_delay std_acquire (std_refresh Some (fun _ => mkInfo None None false) (fun n => (1 # 2, n)))
            std_success ex_attempt ex_failure (fun w => (None, w)) false true 10 (s, 0%nat) = Some (res, tr, w') /\
      List.length (attempts tr) = 1%nat.
Proof. eexists. split; [reflexivity|]. eexists _, _, _. split; reflexivity. Qed.
Print Assumptions C12_zero_attempts_refuted.

(** C13. Over any history of calls on one backoff object, with any jitter and
    any random draws, every delay is between zero and the maximum; the only
    other outcome is OverflowError. *)
Theorem C13_history (scale mx : Q) (j : jitter) (calls : list (Z * Q)) (d : result Q) :
  (0 <= scale)%Q -> (0 <= mx)%Q -> Forall (fun c => 0 <= snd c <= 1)%Q calls ->
  In d (delays (new_backoff scale mx j) calls) ->
  match d with Ok q => (0 <= q <= mx)%Q | Err e => e = OverflowError end.
Proof.
  intros H1 H2 H3 H4. apply (delays_ok (new_backoff scale mx j) calls d); auto.
  repeat split; cbn; auto.
Qed.
Print Assumptions C13_history.

(** Each delay is in the documented range of its jitter type and attempt number,
    and up to attempt 1024 there always is one. *)
Theorem C13_documented (b : backoff) (n : Z) (r : Q) :
  (0 <= b_scale b)%Q -> (0 <= b_max b)%Q -> (0 <= b_prev b)%Q -> (0 <= r <= 1)%Q -> n <> 0 ->
  match compute_delay b n r with
  | (Ok d, b') => documented (b_scale b) (b_max b) (b_prev b) (b_jitter b) n d /\ b_prev b' = d
  | (Err e, _) => 1024 < n
  end.
Proof.
  intros H1 H2 H3 H4 H5. destruct (compute_delay b n r) as [[d|e] b'] eqn:E;
    destruct (compute_delay_ok b n r _ _ (conj H1 (conj H2 H3)) H4 E) as (_ & _ & _ & _ & H).
  - split; [apply H, H5|]. unfold compute_delay in E.
    destruct (Z.eqb_spec n 0); [contradiction|]. destruct (next_delay b n r); [|discriminate].
    injection E as <- <-. reflexivity.
  - apply H.
Qed.
Print Assumptions C13_documented.

(** The first attempt has no delay. *)
Theorem C13_first (b : backoff) (r : Q) (s : simple) (d : standard) :
  compute_delay b 0 r = (Ok 0%Q, b) /\ k_delay (simple_acquire s) = 0%Q /\ k_delay (standard_acquire d) = 0%Q.
Proof. repeat split. Qed.
Print Assumptions C13_first.

(** Tokens of the standard strategy: with [t_i] the delay computed by the backoff
    for this kind of error, the granted (or reported) delay is [t_i] without a
    retry-after, the retry-after itself when it lies in [t_i, t_i + 5], and its
    nearest end otherwise. *)
Definition nearest (lo hi x y : Q) : Prop :=
  ((x < lo -> y == lo) /\ (hi < x -> y == hi) /\ (lo <= x <= hi -> y == x))%Q.

Theorem C13_retry_after (s : standard) (t : token) (i : retry_info) (r : Q) :
  match fst (standard_refresh s t (Some i) r) with
  | Granted (mkToken _ d _) | Refused (Some d) =>
    exists ti, fst (compute_delay (if ri_throttling i then d_throttling s else d_backoff s) (k_count t + 1) r) = Ok ti /\
      match ri_after i with
      | None => d = ti
      | Some a => nearest ti (ti + 5) a d
      end
  | _ => True
  end.
Proof.
  unfold standard_refresh. destruct (ri_safe i) as [[|]|]; try exact I.
  destruct (d_max s <=? k_count t + 1); [exact I|].
  destruct (compute_delay (if ri_throttling i then d_throttling s else d_backoff s) (k_count t + 1) r)
    as [[ti|x] b'] eqn:Ed; [|exact I]. cbv zeta.
  assert (H : match ri_after i with None => clamp_delay ti (ri_after i) = ti
                                  | Some a => nearest ti (ti + 5) a (clamp_delay ti (ri_after i)) end).
  { destruct (ri_after i) as [a|]; [|reflexivity]. unfold clamp_delay, RETRY_AFTER_MAX_ADDITIONAL.
    unfold pmax, pmin. repeat split; intros;
    destruct (Qlt_le_dec (5 + ti) a); destruct (Qlt_le_dec ti _); lra. }
  destruct (q_acquire _ _) as [[c|e] q]; cbn [fst]; exists ti; (split; [reflexivity|exact H]).
Qed.
Print Assumptions C13_retry_after.

(** Over any history of operations sharing a default standard strategy, no token
    asks for a sleep outside [0, 25] seconds. *)
Theorem C13_standard_sleeps (m cap : Z) (st : standard) (cs : list opcall) (i : nat) (t : token) :
  new_standard m cap = Ok st ->
  Forall (fun c => match c with OFail _ _ r => 0 <= r <= 1 | _ => True end)%Q cs ->
  h_tokens (run_ops st cs) i = Some t -> (0 <= k_delay t <= 25)%Q.
Proof.
  unfold new_standard. destruct (m <? 0); [discriminate|]. intros E Hcs. injection E as <-.
  unfold run_ops.
  match goal with |- context [fold_left opstep cs ?s0] => set (s := s0) end.
  assert (H : strategy_ok (h_strategy s) /\ forall j t, h_tokens s j = Some t -> (0 <= k_delay t <= 25)%Q).
  { subst s. cbn [h_strategy h_tokens]. split; [|discriminate].
    unfold strategy_ok, backoff_ok, new_backoff. cbn. repeat split; lra. }
  clearbody s. revert s H. induction Hcs as [|c cs Hc _ IH]; intros s [Hs Ht] H; [eapply Ht, H|].
  cbn [fold_left] in H. apply (IH (opstep s c)); [|exact H]. clear IH H. unfold opstep.
  destruct c as [j|j e r|j]; destruct (h_tokens s j) as [t0|] eqn:Et; try (split; assumption).
  - cbn [h_strategy h_tokens]. split; [exact Hs|]. intros k t1. unfold set_token.
    destruct (Nat.eqb k j); [|apply Ht]. intros E. injection E as <-. cbn. lra.
  - destruct (standard_refresh (h_strategy s) t0 e r) as [res st'] eqn:Er.
    destruct (standard_refresh_delay _ _ _ _ _ _ Hs Hc Er) as [Hs' Hd].
    destruct res as [t'|a|x]; cbn [h_strategy h_tokens]; (split; [exact Hs'|]); intros k t1; unfold set_token;
      destruct (Nat.eqb k j); try apply Ht; intros E; try discriminate E.
    injection E as <-. exact Hd.
  - cbn [h_strategy h_tokens]. split.
    + unfold strategy_ok, standard_success in *. cbn [d_backoff d_throttling]. exact Hs.
    + intros k t1. unfold set_token. destruct (Nat.eqb k j); [discriminate|apply Ht].
Qed.
Print Assumptions C13_standard_sleeps.

Example ex_C13 :
  delays (new_backoff (1 # 20) 20 JFull) [(0, 1 # 2); (1, 1 # 2); (5, 1 # 2); (12, 1 # 2)]
    = [Ok 0; Ok (1 # 40); Ok (16 # 40); Ok (20 # 2)]%Q /\
  k_delay (match fst (standard_refresh
      (mkStandard (new_backoff (1 # 20) 20 JFull) (new_backoff 1 20 JFull) 3 (new_quota 500))
      (mkToken 0 0 0) (Some (mkInfo (Some true) (Some 100%Q) false)) (1 # 2)) with
      Granted t => t | _ => mkToken 0 0 0 end) = (5 + (1 # 40))%Q.
Proof. vm_compute. split; reflexivity. Qed.

(** "For every attempt number" fails of the code: from attempt 1025 on, the
    power of two is not a float and OverflowError is raised. *)
Theorem C13_every_attempt_refuted :
  exists b n r, (0 <= r <= 1)%Q /\ fst (compute_delay b n r) = Err OverflowError.
Proof. exists (new_backoff (1 # 20) 20 JFull), 1025, 0%Q. split; [lra|reflexivity]. Qed.
Print Assumptions C13_every_attempt_refuted.

(** The documentation of decorrelated jitter (a draw between the scale and three
    times the previous delay) is not what is computed: the draw can exceed that. *)
Theorem C13_decorrelated_doc_refuted :
  exists b n r d, (0 <= r <= 1)%Q /\ b_jitter b = JDecorrelated /\ (b_scale b <= b_prev b)%Q /\
    fst (compute_delay b n r) = Ok d /\ ~ (d <= Qmin (b_max b) (3 * b_prev b))%Q.
Proof.
  exists (new_backoff 1 20 JDecorrelated), 1, (9 # 10)%Q, (37 # 10)%Q.
  repeat split; vm_compute; congruence.
Qed.
Print Assumptions C13_decorrelated_doc_refuted.

(** C14. After any history of operations on a shared standard strategy, the
    capacity is the start value minus what the observed history owes: each retry
    owes 14 (5 when throttled), each success gives back what its operation's last
    retry took (1 if it had none), a failure gives back nothing, and what would
    exceed the start value is lost. *)
Theorem C14_accounting (m cap : Z) (st : standard) (cs : list opcall) :
  0 <= cap -> new_standard m cap = Ok st ->
  let s := run_ops st cs in
  q_avail (d_quota (h_strategy s)) = cap - owed (charges [] (h_seen s)) /\
  0 <= q_avail (d_quota (h_strategy s)) <= cap.
Proof.
  intros Hc E s.
  assert (Hq : d_quota st = new_quota cap).
  { unfold new_standard in E. destruct (m <? 0); [discriminate|]. injection E as <-. reflexivity. }
  pose proof (run_ops_inv cap st cs Hc Hq) as I. fold s in I.
  split; [apply I|]. destruct I as [I1 I2 I4 I3]. pose proof (owed_nonneg (charges [] (h_seen s))).
  lia.
Qed.
Print Assumptions C14_accounting.

(** Read forwards: each observation moves the capacity by its charge, up to the
    start value. *)
Theorem C14_owed_forwards (l : list Z) (c : Z) : owed [] = 0 /\ owed (l ++ [c]) = Z.max 0 (owed l + c).
Proof. split; [reflexivity|apply owed_snoc]. Qed.
Print Assumptions C14_owed_forwards.
Example ex_C14 :
  let fail := Some (mkInfo (Some true) None false) in
  match new_standard 5 500 with
  | Ok st =>
    let s := run_ops st [OStart 0; OFail 0 fail 0; OStart 1; OFail 1 ex_slow 0; OSucceed 0; OSucceed 1;
                         OStart 2; OFail 2 fail 0; OFail 2 ex_slow 0; OSucceed 2; OStart 3; OSucceed 3]%Q in
    q_avail (d_quota (h_strategy s)) = 487 /\
    charges [] (h_seen s) = [0; 14; 0; 5; -14; -5; 0; 14; 5; -5; 0; -1]
  | Err _ => False
  end.
Proof. vm_compute. split; reflexivity. Qed.

(** C15. Any run of the loop, with any strategy, attempts and errors: a number
    of failed rounds — sleep as the token says, attempt, get a new token for the
    failure, rewind — and one last round.  The last round returns the last
    attempt's outcome and records success exactly when it succeeded; otherwise it
    throws the failure of that last attempt (or an exception thrown by the
    strategy or by rewinding). *)
Theorem C15_loop {W Out Er Tok : Type} (delay_of : Tok -> Q) refresh success
    (attempt : W -> Out * W) (failure : Out -> option Er) rewind long_polling fuel t w res tr w' :
  retry_loop delay_of refresh success attempt failure rewind long_polling fuel t w = Some (res, tr, w') ->
  exists rounds tlast last o,
    tr = flat_map (round delay_of) rounds ++ last /\
    linked refresh failure t rounds tlast /\
    last_round delay_of failure long_polling tlast last res o /\
    attempts tr = map (fun x => snd (fst x)) rounds ++ [o].
Proof. apply loop_shape. Qed.
Print Assumptions C15_loop.

(** In particular, success is recorded at most once, and exactly when the last
    attempt succeeded. *)
Theorem C15_success {W Out Er Tok : Type} (delay_of : Tok -> Q) refresh success
    (attempt : W -> Out * W) (failure : Out -> option Er) rewind long_polling fuel t w res tr w' :
  retry_loop delay_of refresh success attempt failure rewind long_polling fuel t w = Some (res, tr, w') ->
  exists before o, attempts tr = before ++ [o] /\
    Forall (fun x => failure x <> None) before /\
    (failure o = None -> List.length (successes tr) = 1%nat) /\
    (failure o <> None -> successes tr = [] /\ exists e, res = Threw e) /\
    (forall x, res = Returned x -> x = o).
Proof.
  intros H. destruct (loop_shape _ _ _ _ _ _ _ _ _ _ _ _ _ H) as (rounds & tlast & last & o & E1 & E2 & E3 & E4).
  exists (map (fun x => snd (fst x)) rounds), o. split; [exact E4|].
  assert (Hr : successes (flat_map (round delay_of) rounds) = [] ).
  { clear. unfold successes. induction rounds as [|[[t0 o] e] r IH]; [reflexivity|].
    cbn [flat_map]. rewrite flat_map_app, IH. unfold round, pause.
    destruct (Qeq_bool (delay_of t0) 0); reflexivity. }
  split.
  { clear -E2. revert t E2. induction rounds as [|[[t0 o] e] r IH]; intros t H; [constructor|].
    cbn [linked] in H. destruct H as (_ & Hf & t' & w & w' & _ & Hl). constructor; [cbn; congruence|].
    eapply IH, Hl. }
  assert (Hs : successes tr = successes last).
  { rewrite E1. unfold successes. rewrite flat_map_app. fold (successes (flat_map (round delay_of) rounds)).
    rewrite Hr. reflexivity. }
  rewrite Hs. unfold pause in E3.
  destruct E3 as [o Hf|o e Hf|o e back Hf Hb|o e e' Hf|o e e' Hf]; unfold successes, pause;
    (split; [intros; try congruence|split; [intros; try congruence|intros x0 Ex; congruence]]);
    destruct (Qeq_bool (delay_of tlast) 0); try reflexivity; try (split; [reflexivity|eauto]);
    destruct Hb as [->|(d & -> & _)]; (split; [reflexivity|eauto]).
Qed.
Print Assumptions C15_success.
