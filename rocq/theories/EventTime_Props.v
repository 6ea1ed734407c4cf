(** Timestamps in event headers: property C80. *)
From Verif Require Import Base Time_Model Time_Spec Time_Proofs Time_Props EventStream_Model EventStream_Spec EventStream_Proofs
  EventTime_Model EventTime_Proofs.
Local Open Scope Z_scope.

Lemma event_millis_is d o : real d -> offset d = Some o ->
  event_millis d = trunc (fmul (ratio (instant_of d) 1000000) 1000).
Proof. intros R O. unfold event_millis, timestamp. rewrite (utc_us_is d R). reflexivity. Qed.
Lemma written d : Z.abs (event_millis d) < 2 ^ 60 ->
  exists b, encode_timestamp d = Ok b /\ forall rest,
    unpack_timestamp (b ++ rest) = do u <- epoch_seconds_to_datetime (SFloat (ratio (event_millis d) 1000)); Ok (u, 8%nat).
Proof.
  intros H. assert (F : fits (8 * Z.of_nat 8) (event_millis d)) by (unfold fits; change (2 ^ (8 * Z.of_nat 8 - 1)) with (2 ^ 60 * 8); lia).
  exists (be_bytes 8 (twos_of_Z 8 (event_millis d))). split.
  - unfold encode_timestamp. apply pack_signed_ok. split; [exact F|reflexivity].
  - intros rest. unfold unpack_timestamp. rewrite dec_int_be; [reflexivity|lia|exact F].
Qed.
Lemma read_exact z : in_years (1000 * z) -> Z.abs z < 1000 * 2 ^ 33 ->
  exists u, epoch_seconds_to_datetime (SFloat (ratio z 1000)) = Ok u /\ real u /\ offset u = Some 0 /\ instant_of u = 1000 * z.
Proof.
  intros Y H. rewrite read_millis by (change (2 ^ 38) with (2 ^ 33 * 32); lia). rewrite float_back_exact by lia.
  destruct (from_us_ok _ Y) as (u & E & R & O & I). exists u. rewrite E. auto.
Qed.

(** C80. Reading: a count of milliseconds within 2^33 seconds of the epoch (the years
    1698 to 2242) is read as exactly that instant. *)
Theorem C80_read z b rest : Z.abs z < 1000 * 2 ^ 33 -> pack_signed 8 z = Ok b ->
  exists u, unpack_timestamp (b ++ rest) = Ok (u, 8%nat) /\ real u /\ offset u = Some 0 /\ instant_of u = 1000 * z.
Proof.
  intros H P. apply pack_signed_ok in P. destruct P as [F ->]. unfold unpack_timestamp. rewrite dec_int_be by (try lia; exact F).
  cbn [bind]. destruct (read_exact z) as (u & E & R); [|exact H|].
  - apply in_years_is. unfold DAY, EPOCH, MAXORD. change (2 ^ 33) with 8589934592 in H. lia.
  - exists u. rewrite E. cbn [bind]. auto.
Qed.
Print Assumptions C80_read.
Example C80_read_ex : unpack_timestamp [0; 0; 1; 139; 207; 229; 104; 123; 7]%N = Ok (mkDt 2023 11 14 22 13 20 123000 (Some 0), 8%nat).
Proof. vm_compute. reflexivity. Qed.

(** Writing: every instant of these years comes back as a whole millisecond that is
    at most one millisecond nearer to the epoch. *)
Theorem C80_written d o : real d -> offset d = Some o -> Z.abs (instant_of d) < 1000000 * 2 ^ 33 ->
  exists b u, encode_timestamp d = Ok b /\ (forall rest, unpack_timestamp (b ++ rest) = Ok (u, 8%nat)) /\
    real u /\ offset u = Some 0 /\ (1000 | instant_of u) /\
    0 <= (instant_of d - instant_of u) * Z.sgn (instant_of d) <= 1000.
Proof.
  intros R O H. pose proof (event_millis_is d o R O) as M. pose proof (millis_small (instant_of d) H) as S. cbv zeta in S. rewrite <- M in S.
  assert (B : 0 <= (instant_of d - 1000 * event_millis d) * Z.sgn (instant_of d) <= 1000).
  { destruct S as [S|[N S]].
    - rewrite S. pose proof (Z.quot_rem (instant_of d) 1000 ltac:(lia)) as Q.
      destruct (Z.sgn_spec (instant_of d)) as [[P G]|[[P G]|[P G]]]; rewrite G.
      + pose proof (Z.rem_bound_pos (instant_of d) 1000 ltac:(lia) ltac:(lia)). lia.
      + lia.
      + pose proof (Z.rem_bound_pos_neg (instant_of d) 1000 ltac:(lia) ltac:(lia)). lia.
    - destruct (Z.sgn_spec (instant_of d)) as [[P G]|[[P G]|[P G]]]; rewrite G in *; lia. }
  assert (Sm : Z.abs (event_millis d) < 1000 * 2 ^ 33).
  { change (2 ^ 33) with 8589934592 in *. destruct (Z.sgn_spec (instant_of d)) as [[P G]|[[P G]|[P G]]]; rewrite G in B; [lia| |lia].
    assert (event_millis d = 0) as ->; [|lia]. rewrite M, <- P. reflexivity. }
  destruct (written d) as (b & E & U); [change (2 ^ 60) with (2 ^ 33 * 134217728); lia|].
  destruct (read_exact (event_millis d)) as (u & E2 & R2 & O2 & I2).
  { apply in_years_is. unfold DAY, EPOCH, MAXORD. change (2 ^ 33) with 8589934592 in *. lia. }
  { exact Sm. }
  exists b, u. split; [exact E|]. split; [intros rest; rewrite U, E2; reflexivity|]. split; [exact R2|]. split; [exact O2|].
  rewrite I2. split; [exists (event_millis d); apply Z.mul_comm|exact B].
Qed.
Print Assumptions C80_written.

(** Whole milliseconds come back exactly unless they lie in the last 2.3 per cent
    below a power of two of milliseconds. *)
Theorem C80_exact d o n j : real d -> offset d = Some o -> instant_of d = 1000 * n ->
  10 <= j <= 42 -> 2 ^ j < Z.abs n < 1000 * 2 ^ (j - 9) ->
  exists b u, encode_timestamp d = Ok b /\ (forall rest, unpack_timestamp (b ++ rest) = Ok (u, 8%nat)) /\
    real u /\ offset u = Some 0 /\ instant_of u = instant_of d.
Proof.
  intros R O I J H. pose proof (event_millis_is d o R O) as M. rewrite I, (millis_exact n j) in M; [|lia|exact H].
  assert (Sm : Z.abs n < 1000 * 2 ^ 33).
  { eapply Z.lt_le_trans; [apply H|]. apply Z.mul_le_mono_nonneg_l; [lia|]. apply Z.pow_le_mono_r; lia. }
  destruct (written d) as (b & E & U); [rewrite M; change (2 ^ 60) with (2 ^ 33 * 134217728); lia|].
  rewrite M in U. destruct (read_exact n) as (u & E2 & R2 & O2 & I2).
  { apply in_years_is. unfold DAY, EPOCH, MAXORD. change (2 ^ 33) with 8589934592 in *. lia. }
  { exact Sm. }
  exists b, u. split; [exact E|]. split; [intros rest; rewrite U, E2; reflexivity|]. split; [exact R2|]. split; [exact O2|].
  rewrite I2, I. reflexivity.
Qed.
Print Assumptions C80_exact.
(** In particular from 4 November 2004 until the nineteenth of January 2038. *)
Theorem C80_present d o n : real d -> offset d = Some o -> instant_of d = 1000 * n ->
  instant 2004 11 4 0 0 0 0 0 <= instant_of d < instant 2038 1 19 3 14 8 0 0 ->
  exists b u, encode_timestamp d = Ok b /\ (forall rest, unpack_timestamp (b ++ rest) = Ok (u, 8%nat)) /\
    real u /\ offset u = Some 0 /\ instant_of u = instant_of d.
Proof.
  intros R O I H. apply (C80_exact d o n 40 R O I); [lia|].
  assert (A : instant 2004 11 4 0 0 0 0 0 = 1099526400000000).
  { change (instant_of (mkDt 2004 11 4 0 0 0 0 (Some 0)) = 1099526400000000). rewrite <- utc_us_is.
    - vm_compute. reflexivity.
    - split; cbn [year month day hour minute second micro]; unfold real_date, real_time; cbn; lia. }
  assert (B : instant 2038 1 19 3 14 8 0 0 = 2147483648000000).
  { change (instant_of (mkDt 2038 1 19 3 14 8 0 (Some 0)) = 2147483648000000). rewrite <- utc_us_is.
    - vm_compute. reflexivity.
    - split; cbn [year month day hour minute second micro]; unfold real_date, real_time; cbn; lia. }
  rewrite A, B in H. change (2 ^ 40) with 1099511627776. change (2 ^ (40 - 9)) with 2147483648. lia.
Qed.
Print Assumptions C80_present.
Example C80_present_ex : exists b, encode_timestamp (mkDt 2026 11 17 17 0 0 123000 (Some 3600000000)) = Ok b
  /\ unpack_timestamp b = Ok (mkDt 2026 11 17 16 0 0 123000 (Some 0), 8%nat).
Proof. exists [0; 0; 1; 161; 234; 60; 144; 123]%N. split; vm_compute; reflexivity. Qed.

(** In any year the instant read is within 1045 microseconds of the one written. *)
Theorem C80_near d o : real d -> offset d = Some o -> in_years (instant_of d + 1045) -> in_years (instant_of d - 1045) ->
  exists b u, encode_timestamp d = Ok b /\ (forall rest, unpack_timestamp (b ++ rest) = Ok (u, 8%nat)) /\
    real u /\ offset u = Some 0 /\ Z.abs (instant_of u - instant_of d) <= 1045.
Proof.
  intros R O Y1 Y2. pose proof (event_millis_is d o R O) as M. rewrite in_years_is in Y1, Y2.
  assert (S : Z.abs (instant_of d) < 1000000 * 2 ^ 38) by (change (2 ^ 38) with 274877906944; unfold DAY, EPOCH, MAXORD in *; lia).
  pose proof (millis_near (instant_of d) S) as N. rewrite <- M in N.
  change (2 ^ 38) with 274877906944 in S.
  destruct (written d) as (b & E & U); [change (2 ^ 60) with 1152921504606846976; lia|].
  pose proof (float_back_near (1000 * event_millis d)) as F.
  assert (Sm : Z.abs (1000 * event_millis d) < 1000000 * 2 ^ 38) by (change (2 ^ 38) with 274877906944; unfold DAY, EPOCH, MAXORD in *; lia).
  specialize (F Sm).
  destruct (from_us_ok (float_back (1000 * event_millis d))) as (u & E2 & R2 & O2 & I2).
  { apply in_years_is. lia. }
  exists b, u. split; [exact E|]. split; [intros rest; rewrite U, read_millis, E2 by lia; reflexivity|].
  split; [exact R2|]. split; [exact O2|]. rewrite I2. lia.
Qed.
Print Assumptions C80_near.

(** Not exactly: the second millisecond after the end of 32-bit time comes back as the first. *)
Theorem C80_lost_refuted : exists b, encode_timestamp (mkDt 2038 1 19 3 14 8 2000 (Some 0)) = Ok b
  /\ unpack_timestamp b = Ok (mkDt 2038 1 19 3 14 8 1000 (Some 0), 8%nat).
Proof. exists [0; 0; 1; 244; 0; 0; 0; 1]%N. split; vm_compute; reflexivity. Qed.
Print Assumptions C80_lost_refuted.
(** A count that the format allows may be unreadable. *)
Theorem C80_range_refuted : exists z b, pack_signed 8 z = Ok b /\ unpack_timestamp b = Err ValueError.
Proof. exists (2 ^ 62), [64; 0; 0; 0; 0; 0; 0; 0]%N. split; vm_compute; reflexivity. Qed.
Print Assumptions C80_range_refuted.
