From Verif Require Import Base Base_Proofs Time_Model Time_Spec Time_Proofs Time_Props EventTime_Model.
Local Open Scope Z_scope.

(** ** The exponent of a quotient *)
Lemma ratio_expo_low p q k : p <> 0 -> 0 < q -> 0 <= k < 53 -> q * 2 ^ k <= Z.abs p -> k - 52 <= expo (ratio p q).
Proof.
  intros P Q K H. unfold ratio. destruct (Z.eqb_spec p 0) as [|_]; [contradiction|].
  set (e0 := Z.log2 (Z.abs p) - Z.log2 q - 53).
  assert (E0 : k - 53 <= e0).
  { pose proof (Z.log2_le_mono _ _ H) as L. rewrite Z.log2_mul_pow2 in L by lia. subst e0. lia. }
  destruct (scaled p q e0) as [a b] eqn:S0.
  set (e := if 2 ^ 53 * b <=? Z.abs a then e0 + 1 else e0).
  assert (Ee : k - 52 <= e).
  { subst e. destruct (Z.leb_spec (2 ^ 53 * b) (Z.abs a)) as [L|L]; [lia|].
    destruct (Z.eq_dec e0 (k - 53)) as [E|]; [|lia]. exfalso. unfold scaled in S0.
    destruct (Z.ltb_spec e0 0) as [Ng|]; [|lia]. injection S0 as <- <-.
    rewrite Z.abs_mul, (Z.abs_eq (2 ^ _)) in L by (apply Z.pow_nonneg; lia).
    replace (2 ^ 53) with (2 ^ k * 2 ^ (- e0)) in L by (rewrite <- Z.pow_add_r by lia; f_equal; lia).
    assert (0 < 2 ^ (- e0)) by (apply Z.pow_pos_nonneg; lia). nia. }
  destruct (scaled p q e). cbn [expo]. exact Ee.
Qed.
(** The quotient is scaled to between [2^52] and [2^53]. *)
Lemma ratio_form p q : p <> 0 -> 0 < q -> Z.abs p < q * 2 ^ 52 ->
  let e := expo (ratio p q) in
  e < 0 /\ q * 2 ^ 52 <= Z.abs p * 2 ^ (- e) < q * 2 ^ 53 /\ mant (ratio p q) = div_even (p * 2 ^ (- e)) q.
Proof.
  intros P Q H. cbv zeta.
  destruct (ratio_small p q 52 P Q ltac:(lia) H) as [Neg _]. split; [lia|].
  revert Neg. unfold ratio. destruct (Z.eqb_spec p 0) as [|_]; [contradiction|].
  set (e0 := Z.log2 (Z.abs p) - Z.log2 q - 53).
  pose proof (Z.log2_spec (Z.abs p) ltac:(lia)) as [A1 A2]. pose proof (Z.log2_spec q Q) as [B1 B2].
  pose proof (Z.log2_nonneg q) as Lq. pose proof (Z.log2_nonneg (Z.abs p)) as Lp.
  assert (E0 : e0 < 0).
  { assert (2 ^ Z.log2 (Z.abs p) < 2 ^ (Z.succ (Z.log2 q) + 52)).
    { rewrite Z.pow_add_r by lia. eapply Z.le_lt_trans; [exact A1|]. eapply Z.lt_trans; [exact H|].
      apply Z.mul_lt_mono_pos_r; [reflexivity|exact B2]. }
    apply Z.pow_lt_mono_r_iff in H0; subst e0; lia. }
  assert (S0 : scaled p q e0 = (p * 2 ^ (- e0), q)) by (unfold scaled; destruct (Z.ltb_spec e0 0); [reflexivity|lia]).
  assert (D0 : 0 < 2 ^ (- e0)) by (apply Z.pow_pos_nonneg; lia).
  assert (L0 : q * 2 ^ 52 <= Z.abs p * 2 ^ (- e0)).
  { apply Z.le_trans with (2 ^ Z.log2 (Z.abs p) * 2 ^ (- e0)); [|apply Z.mul_le_mono_nonneg_r; lia].
    rewrite <- Z.pow_add_r by lia. replace (Z.log2 (Z.abs p) + - e0) with (Z.succ (Z.log2 q) + 52) by (subst e0; lia).
    rewrite Z.pow_add_r by lia. apply Z.mul_le_mono_nonneg_r; [apply Z.pow_nonneg; lia|lia]. }
  assert (U0 : Z.abs p * 2 ^ (- e0) < q * 2 ^ 54).
  { apply Z.lt_le_trans with (2 ^ Z.succ (Z.log2 (Z.abs p)) * 2 ^ (- e0)); [apply Z.mul_lt_mono_pos_r; assumption|].
    rewrite <- Z.pow_add_r by lia. replace (Z.succ (Z.log2 (Z.abs p)) + - e0) with (Z.log2 q + 54) by (subst e0; lia).
    rewrite Z.pow_add_r by lia. apply Z.mul_le_mono_nonneg_r; [apply Z.pow_nonneg; lia|lia]. }
  rewrite S0. rewrite Z.abs_mul, (Z.abs_eq (2 ^ (- e0))) by lia.
  destruct (Z.leb_spec (2 ^ 53 * q) (Z.abs p * 2 ^ (- e0))) as [L|L]; intros Neg.
  - assert (E1 : e0 + 1 < 0).
    { destruct (Z.eq_dec e0 (-1)) as [E|]; [|lia]. exfalso. rewrite E in L. change (2 ^ (- (-1))) with 2 in L. lia. }
    assert (P2 : 2 ^ (- e0) = 2 * 2 ^ (- (e0 + 1))).
    { replace (- e0) with (Z.succ (- (e0 + 1))) by lia. apply Z.pow_succ_r. lia. }
    unfold scaled. destruct (Z.ltb_spec (e0 + 1) 0) as [_|]; [|lia]. cbn [expo mant].
    split; [|reflexivity]. rewrite P2 in L, U0. lia.
  - rewrite S0. cbn [expo mant]. split; [lia|reflexivity].
Qed.
(** A float depends on the quotient alone. *)
Lemma div_even_scale c a b : 0 < c -> 0 < b -> div_even (c * a) (c * b) = div_even a b.
Proof.
  intros C B. unfold div_even. cbv zeta. rewrite Z.div_mul_cancel_l, Z.mul_mod_distr_l by lia.
  assert (E1 : (2 * (c * (a mod b)) <? c * b) = (2 * (a mod b) <? b)).
  { apply Bool.eq_true_iff_eq. rewrite !Z.ltb_lt. nia. }
  assert (E2 : (c * b <? 2 * (c * (a mod b))) = (b <? 2 * (a mod b))).
  { apply Bool.eq_true_iff_eq. rewrite !Z.ltb_lt. nia. }
  rewrite E1, E2. reflexivity.
Qed.
Lemma bracket_unique x y a b : 0 < x -> 0 < y -> 0 <= a -> 0 <= b ->
  y <= x * 2 ^ a < 2 * y -> y <= x * 2 ^ b < 2 * y -> a = b.
Proof.
  intros X Y A B Ha Hb.
  assert (T : forall u v, 0 <= u -> u < v -> y <= x * 2 ^ u -> x * 2 ^ v < 2 * y -> False).
  { intros u v U UV H1 H2. assert (2 ^ Z.succ u <= 2 ^ v) by (apply Z.pow_le_mono_r; lia).
    rewrite Z.pow_succ_r in H by lia. nia. }
  destruct (Z.lt_trichotomy a b) as [L|[E|L]]; [|exact E|]; exfalso; [apply (T a b)|apply (T b a)]; lia.
Qed.
Lemma ratio_scale c p q : 0 < c -> p <> 0 -> 0 < q -> Z.abs p < q * 2 ^ 52 -> ratio (c * p) (c * q) = ratio p q.
Proof.
  intros C P Q H.
  destruct (ratio_form p q P Q H) as (E1 & F1 & M1).
  destruct (ratio_form (c * p) (c * q) ltac:(nia) ltac:(nia) ltac:(rewrite Z.abs_mul, (Z.abs_eq c) by lia; nia)) as (E2 & F2 & M2).
  rewrite Z.abs_mul, (Z.abs_eq c) in F2 by lia.
  assert (E : - expo (ratio (c * p) (c * q)) = - expo (ratio p q)).
  { apply (bracket_unique (Z.abs p) (q * 2 ^ 52)); try lia; nia. }
  destruct (ratio p q) as [m e], (ratio (c * p) (c * q)) as [m2 e2]. cbn [expo mant] in *.
  assert (e2 = e) as -> by lia. f_equal. rewrite M1, M2.
  replace (c * p * 2 ^ (- e)) with (c * (p * 2 ^ (- e))) by ring. apply div_even_scale; assumption.
Qed.

(** ** Reading *)
Lemma read_millis z : Z.abs z < 1000 * 2 ^ 38 ->
  epoch_seconds_to_datetime (SFloat (ratio z 1000))
  = match of_us (Some 0) (float_back (1000 * z) + EPOCH) with Ok d => Ok d | Err _ => Err ValueError end.
Proof.
  intros H. cbn [epoch_seconds_to_datetime].
  assert (ratio z 1000 = ratio (1000 * z) 1000000) as ->.
  { destruct (Z.eq_dec z 0) as [->|N]; [reflexivity|]. symmetry. apply (ratio_scale 1000 z 1000); lia. }
  destruct (from_float_norm (ratio (1000 * z) 1000000)) as (n & En & Ef). rewrite Ef, En. reflexivity.
Qed.

(** ** Writing: two roundings, then towards zero *)
Lemma millis_float u k : u <> 0 -> 0 <= k <= 38 -> Z.abs u < 1000000 * 2 ^ k ->
  exists m D m' D', 2 ^ (53 - k) <= D /\ 2 ^ (43 - k) <= D' /\
    D = 2 ^ (- expo (ratio u 1000000)) /\ m = mant (ratio u 1000000) /\
    D' = 2 ^ (- expo (fmul (ratio u 1000000) 1000)) /\
    Z.abs (2 * (m * 1000000 - u * D)) <= 1000000 /\
    Z.abs (2 * (m' * D - m * 1000 * D')) <= D /\
    trunc (fmul (ratio u 1000000) 1000) = Z.quot m' D' /\ m <> 0.
Proof.
  intros N K H. destruct (ratio_small u 1000000 k N ltac:(lia) ltac:(lia) H) as [E R].
  destruct (ratio_form u 1000000 N ltac:(lia)) as (_ & F & _).
  { eapply Z.lt_le_trans; [exact H|]. apply Z.mul_le_mono_nonneg_l; [lia|]. apply Z.pow_le_mono_r; lia. }
  set (x := ratio u 1000000) in *. destruct x as [m e]. cbn [mant expo] in *.
  set (D := 2 ^ (- e)) in *.
  assert (HD : 2 ^ (53 - k) <= D) by (apply Z.pow_le_mono_r; lia).
  assert (HD0 : 0 < D) by (apply Z.pow_pos_nonneg; lia).
  assert (HDk : D * 2 ^ k >= 2 ^ 53).
  { replace (2 ^ 53) with (2 ^ (53 - k) * 2 ^ k) by (rewrite <- Z.pow_add_r by lia; f_equal; lia).
    assert (0 < 2 ^ k) by (apply Z.pow_pos_nonneg; lia). nia. }
  change (2 ^ 52) with 4503599627370496 in F. change (2 ^ 53) with 9007199254740992 in *.
  assert (Nm : m <> 0) by (intros ->; nia).
  assert (Bm : Z.abs (m * 1000) < D * 2 ^ (k + 10)).
  { rewrite Z.pow_add_r by lia. change (2 ^ 10) with 1024.
    assert (Z.abs m * 1000000 <= Z.abs u * D + 500000) by nia.
    assert (Z.abs u * D < 1000000 * 2 ^ k * D) by nia.
    assert (0 < 2 ^ k) by (apply Z.pow_pos_nonneg; lia). nia. }
  unfold fmul. cbn [expo mant]. destruct (Z.ltb_spec e 0) as [_|]; [|lia]. fold D.
  destruct (ratio_small (m * 1000) D (k + 10) ltac:(lia) HD0 ltac:(lia) Bm) as [E' R'].
  set (y := ratio (m * 1000) D) in *. destruct y as [m' e']. cbn [mant expo] in *.
  exists m, D, m', (2 ^ (- e')). split; [exact HD|]. split; [apply Z.pow_le_mono_r; lia|].
  split; [reflexivity|]. split; [reflexivity|]. split; [reflexivity|]. split; [exact R|]. split; [exact R'|].
  split; [|exact Nm]. unfold trunc. cbn [expo mant]. destruct (Z.ltb_spec e' 0) as [|Ge]; [reflexivity|clear - Ge E' K; lia].
Qed.
Lemma millis_err u k : u <> 0 -> 0 <= k <= 38 -> Z.abs u < 1000000 * 2 ^ k ->
  exists D m' D', 2 ^ (53 - k) <= D /\ 2 ^ (43 - k) <= D' /\
    Z.abs (2 * (1000 * m' - u * D')) * D <= 1000 * D + 1000000 * D' /\
    trunc (fmul (ratio u 1000000) 1000) = Z.quot m' D'.
Proof.
  intros N K H. destruct (millis_float u k N K H) as (m & D & m' & D' & HD & HD' & _ & _ & _ & R & R' & T & _).
  exists D, m', D'. split; [exact HD|]. split; [exact HD'|]. split; [|exact T].
  assert (HD0 : 0 < D) by (pose proof (Z.pow_pos_nonneg 2 (53 - k) ltac:(lia) ltac:(lia)); lia).
  assert (HD0' : 0 < D') by (pose proof (Z.pow_pos_nonneg 2 (43 - k) ltac:(lia) ltac:(lia)); lia).
  assert (A : Z.abs (2 * (m' * D - m * 1000 * D') * 1000) <= 1000 * D).
  { rewrite Z.abs_mul. change (Z.abs 1000) with 1000. lia. }
  assert (B : Z.abs (2 * (m * 1000000 - u * D) * D') <= 1000000 * D').
  { rewrite Z.abs_mul, (Z.abs_eq D') by lia. apply Z.mul_le_mono_nonneg_r; [lia|exact R]. }
  replace (Z.abs (2 * (1000 * m' - u * D')) * D) with (Z.abs (2 * (1000 * m' - u * D') * D))
    by (rewrite (Z.abs_mul _ D), (Z.abs_eq D) by lia; reflexivity).
  replace (2 * (1000 * m' - u * D') * D) with (2 * (m' * D - m * 1000 * D') * 1000 + 2 * (m * 1000000 - u * D) * D') by ring.
  lia.
Qed.
Lemma millis_near u : Z.abs u < 1000000 * 2 ^ 38 -> Z.abs (1000 * trunc (fmul (ratio u 1000000) 1000) - u) <= 1030.
Proof.
  intros H. destruct (Z.eq_dec u 0) as [->|N]; [vm_compute; discriminate|].
  destruct (millis_err u 38 N ltac:(lia) H) as (D & m' & D' & HD & HD' & E & ->).
  change (2 ^ (53 - 38)) with 32768 in HD. change (2 ^ (43 - 38)) with 32 in HD'.
  assert (A : Z.abs (1000 * m' - u * D') <= 31 * D').
  { destruct (Z_le_gt_dec (Z.abs (1000 * m' - u * D')) (31 * D')) as [|G]; [assumption|exfalso]. nia. }
  pose proof (Z.quot_rem m' D' ltac:(lia)) as Hq. pose proof (Z.rem_bound_abs m' D' ltac:(lia)) as Hr.
  set (z := Z.quot m' D') in *. set (r := Z.rem m' D') in *. clearbody z r. subst m'. clear E HD H.
  assert (Z.abs ((1000 * z - u) * D') < 1031 * D') by nia.
  rewrite Z.abs_mul, (Z.abs_eq D') in H by lia. nia.
Qed.
Lemma millis_small u : Z.abs u < 1000000 * 2 ^ 33 ->
  let z := trunc (fmul (ratio u 1000000) 1000) in
  z = Z.quot u 1000 \/ (u <> 0 /\ u = 1000 * (z + Z.sgn u)).
Proof.
  intros H. cbv zeta. destruct (Z.eq_dec u 0) as [->|N]; [left; vm_compute; reflexivity|].
  destruct (millis_err u 33 N ltac:(lia) H) as (D & m' & D' & HD & HD' & E & ->).
  change (2 ^ (53 - 33)) with 1048576 in HD. change (2 ^ (43 - 33)) with 1024 in HD'.
  assert (A : Z.abs (1000 * m' - u * D') < D').
  { destruct (Z_lt_ge_dec (Z.abs (1000 * m' - u * D')) D') as [|G]; [assumption|exfalso]. nia. }
  clear E HD H D.
  assert (T : forall u m', 0 < u -> Z.abs (1000 * m' - u * D') < D' ->
            Z.quot m' D' = Z.quot u 1000 \/ u = 1000 * (Z.quot m' D' + 1)).
  { clear u m' N A. intros u m' U A.
    assert (M : 0 <= m') by nia.
    rewrite (Z.quot_div_nonneg m' D'), (Z.quot_div_nonneg u 1000) by lia.
    pose proof (Z.div_mod m' D' ltac:(lia)) as Hq. pose proof (Z.mod_pos_bound m' D' ltac:(lia)) as Hr.
    set (z := m' / D') in *. set (r := m' mod D') in *. clearbody z r. subst m'.
    assert (1000 * z <= u) by nia. assert (u <= 1000 * z + 1000) by nia.
    destruct (Z.eq_dec u (1000 * (z + 1))) as [|Ne]; [right; assumption|left].
    apply (Z.div_unique u 1000 z (u - 1000 * z)); lia. }
  destruct (Z_lt_ge_dec 0 u) as [P|P].
  - destruct (T u m' P A) as [L|L]; [left; exact L|right]. split; [exact N|]. rewrite Z.sgn_pos by exact P. exact L.
  - destruct (T (- u) (- m') ltac:(lia)) as [L|L].
    + replace (1000 * - m' - - u * D') with (- (1000 * m' - u * D')) by ring. rewrite Z.abs_opp. exact A.
    + left. rewrite !Z.quot_opp_l in L by lia. lia.
    + right. split; [exact N|]. rewrite Z.quot_opp_l in L by lia. rewrite Z.sgn_neg by lia. lia.
Qed.
(** Whole milliseconds outside the topmost part of a power of two. *)
Lemma millis_exact n j : 10 <= j <= 47 -> 2 ^ j < Z.abs n < 1000 * 2 ^ (j - 9) ->
  trunc (fmul (ratio (1000 * n) 1000000) 1000) = n.
Proof.
  intros J [L U].
  assert (P9 : 2 ^ j = 512 * 2 ^ (j - 9)) by (change 512 with (2 ^ 9); rewrite <- Z.pow_add_r by lia; f_equal; lia).
  assert (P0 : 0 < 2 ^ (j - 9)) by (apply Z.pow_pos_nonneg; lia).
  destruct (millis_float (1000 * n) (j - 9) ltac:(lia) ltac:(lia) ltac:(lia)) as (m & D & m' & D' & HD & HD' & ED & Em & ED' & R & R' & -> & Nm).
  assert (HD0 : 0 < D) by (rewrite ED; apply Z.pow_pos_nonneg; [lia|]; 
    destruct (ratio_small (1000 * n) 1000000 (j - 9) ltac:(lia) ltac:(lia) ltac:(lia) ltac:(lia)); lia).
  destruct (ratio_small (1000 * n) 1000000 (j - 9) ltac:(lia) ltac:(lia) ltac:(lia) ltac:(lia)) as [Ex _].
  (* the exponent of the product *)
  assert (P62 : 2 ^ (53 - (j - 9)) = 2 ^ (62 - j)) by (f_equal; lia). rewrite P62 in HD.
  assert (PJ : 2 ^ j * 2 ^ (62 - j) = 2 ^ 62) by (rewrite <- Z.pow_add_r by lia; f_equal; lia).
  assert (R1 : Z.abs (2 * (m * 1000 - n * D)) <= 1000).
  { replace (Z.abs (2 * (m * 1000000 - 1000 * n * D))) with (Z.abs (2 * (m * 1000 - n * D)) * 1000) in R.
    - lia.
    - replace (2 * (m * 1000000 - 1000 * n * D)) with (2 * (m * 1000 - n * D) * 1000) by ring.
      rewrite (Z.abs_mul _ 1000). reflexivity. }
  assert (B15 : 2 ^ (62 - j) >= 32768) by (change 32768 with (2 ^ 15); apply Z.le_ge, Z.pow_le_mono_r; lia).
  assert (Lo : D * 2 ^ j <= Z.abs (m * 1000)).
  { assert (Hn : Z.abs n * D <= Z.abs (m * 1000) + 500).
    { rewrite <- (Z.abs_eq D) at 1 by (clear - HD0; lia). rewrite <- Z.abs_mul. clear - R1. lia. }
    assert (Hj : (2 ^ j + 1) * D <= Z.abs n * D) by (apply Z.mul_le_mono_nonneg_r; clear - HD0 L; lia).
    assert (HD5 : 500 <= D) by (clear - HD B15; lia). rewrite Z.mul_add_distr_r in Hj. rewrite (Z.mul_comm D). clear - Hn Hj HD5. lia. }
  assert (E' : j - 52 <= expo (fmul (ratio (1000 * n) 1000000) 1000)).
  { unfold fmul. destruct (Z.ltb_spec (expo (ratio (1000 * n) 1000000)) 0) as [_|]; [|lia].
    rewrite <- ED, <- Em. apply ratio_expo_low; lia. }
  assert (HDD : 1024 * D' <= D).
  { rewrite ED', ED. change 1024 with (2 ^ 10).
    set (e1 := expo (fmul (ratio (1000 * n) 1000000) 1000)) in *. set (e0 := expo (ratio (1000 * n) 1000000)) in *.
    destruct (Z_le_gt_dec e1 0) as [Le|Gt].
    - rewrite <- Z.pow_add_r by lia. apply Z.pow_le_mono_r; lia.
    - exfalso. assert (HX : D' = 0) by (rewrite ED'; apply Z.pow_neg_r; lia).
      assert (0 < 2 ^ (43 - (j - 9))) by (apply Z.pow_pos_nonneg; lia). lia. }
  assert (HD0' : 0 < D') by (assert (0 < 2 ^ (43 - (j - 9))) by (apply Z.pow_pos_nonneg; lia); lia).
  assert (M : m' = n * D').
  { assert (Z.abs (2 * (m * 1000 - n * D) * D') <= 1000 * D') by (rewrite Z.abs_mul, (Z.abs_eq D') by (clear - HD0'; lia); apply Z.mul_le_mono_nonneg_r; [clear - HD0'; lia|exact R1]).
    assert (Z.abs (2 * (m' - n * D') * D) <= D + 1000 * D').
    { replace (2 * (m' - n * D') * D) with (2 * (m' * D - m * 1000 * D') + 2 * (m * 1000 - n * D) * D') by ring. lia. }
    rewrite Z.abs_mul, (Z.abs_eq D) in H0 by (clear - HD0; lia).
    assert (A : Z.abs (2 * (m' - n * D')) < 2) by (apply (Z.mul_lt_mono_pos_r D _ _ HD0); clear - H0 HDD HD0; lia).
    clear - A. lia. }
  rewrite M. apply Z.quot_mul. lia.
Qed.
