(** Algebra of CRC-32: linearity, injectivity, detection of short bursts. *)
From Verif Require Import Base Base_Proofs EventStream_Model.
Ltac Zify.zify_post_hook ::= Z.div_mod_to_equations.
Local Open Scope N_scope.

Definition B32 : N := 4294967296.

Lemma lt_pow2_bits a k : (forall i, k <= i -> N.testbit a i = false) -> a < 2 ^ k.
Proof.
  intros H. destruct (N.eq_dec a 0) as [->|Ha].
  - apply N.neq_0_lt_0, N.pow_nonzero; lia.
  - apply N.log2_lt_pow2; [lia|].
    destruct (N.lt_ge_cases (N.log2 a) k) as [L|L]; [exact L|].
    specialize (H _ L). rewrite N.bit_log2 in H by exact Ha. discriminate.
Qed.

Lemma bits_lt_pow2 a k i : a < 2 ^ k -> k <= i -> N.testbit a i = false.
Proof.
  intros Ha Hi. destruct (N.eq_dec a 0) as [->|H0]; [apply N.bits_0|].
  apply N.bits_above_log2. apply N.log2_lt_pow2 in Ha; lia.
Qed.

Lemma B32_pow : B32 = 2 ^ 32. Proof. reflexivity. Qed.

Lemma lxor_lt a b k : a < 2 ^ k -> b < 2 ^ k -> N.lxor a b < 2 ^ k.
Proof.
  intros Ha Hb. apply lt_pow2_bits. intros i Hi.
  rewrite N.lxor_spec, (bits_lt_pow2 a k i Ha Hi), (bits_lt_pow2 b k i Hb Hi). reflexivity.
Qed.

Lemma lxor_lt32 a b : a < B32 -> b < B32 -> N.lxor a b < B32.
Proof. rewrite B32_pow; apply lxor_lt. Qed.

Lemma crc_bit_lin a b : crc_bit (N.lxor a b) = N.lxor (crc_bit a) (crc_bit b).
Proof.
  unfold crc_bit. rewrite N.lxor_spec, N.shiftr_lxor.
  destruct (N.testbit a 0), (N.testbit b 0); cbn [xorb].
  - rewrite (N.lxor_comm (N.shiftr b 1) POLY), N.lxor_assoc,
      <- (N.lxor_assoc POLY), N.lxor_nilpotent, N.lxor_0_l. reflexivity.
  - rewrite !N.lxor_assoc, (N.lxor_comm (N.shiftr b 1)). reflexivity.
  - rewrite N.lxor_assoc. reflexivity.
  - reflexivity.
Qed.

Lemma crc_bits_lin k a b : crc_bits k (N.lxor a b) = N.lxor (crc_bits k a) (crc_bits k b).
Proof. revert a b; induction k; intros; cbn [crc_bits]; [reflexivity|]. rewrite crc_bit_lin; apply IHk. Qed.

Lemma crc_bit_lt r : r < B32 -> crc_bit r < B32.
Proof.
  intros H. unfold crc_bit.
  assert (Hs : N.shiftr r 1 < B32) by (rewrite N.shiftr_div_pow2; change (2 ^ 1) with 2; lia).
  destruct (N.testbit r 0); [|exact Hs]. apply lxor_lt32; [exact Hs | reflexivity].
Qed.

Lemma crc_bits_lt k r : r < B32 -> crc_bits k r < B32.
Proof. revert r; induction k; intros r H; cbn [crc_bits]; [exact H|]. apply IHk, crc_bit_lt, H. Qed.

Lemma crc_bit_zero r : r < B32 -> crc_bit r = 0 -> r = 0.
Proof.
  intros H E. unfold crc_bit in E.
  rewrite N.shiftr_div_pow2 in E. change (2 ^ 1) with 2 in E.
  destruct (N.testbit r 0) eqn:Hb.
  - apply N.lxor_eq in E. unfold POLY in E. unfold B32 in H. lia.
  - apply N.bit0_eqb in Hb || idtac. rewrite N.bit0_odd in Hb.
    assert (r mod 2 = 0).
    { rewrite <- N.negb_even in Hb. apply negb_false_iff in Hb.
      apply N.even_spec in Hb. destruct Hb as [q Hq]. lia. }
    lia.
Qed.

Lemma crc_bit_inj a b : a < B32 -> b < B32 -> crc_bit a = crc_bit b -> a = b.
Proof.
  intros Ha Hb E. apply N.lxor_eq. apply crc_bit_zero; [apply lxor_lt32; assumption|].
  rewrite crc_bit_lin, E. apply N.lxor_nilpotent.
Qed.

Lemma crc_bits_inj k a b : a < B32 -> b < B32 -> crc_bits k a = crc_bits k b -> a = b.
Proof.
  revert a b; induction k; intros a b Ha Hb E; cbn [crc_bits] in E; [exact E|].
  apply crc_bit_inj; auto. apply IHk; auto using crc_bit_lt.
Qed.

Lemma crc_bit_double y : crc_bit (2 * y) = y.
Proof.
  unfold crc_bit. rewrite N.testbit_even_0, N.shiftr_div_pow2. change (2 ^ 1) with 2. lia.
Qed.

Lemma crc_bits_shift k y : crc_bits k (y * 2 ^ N.of_nat k) = y.
Proof.
  induction k as [|k IH]; cbn [crc_bits].
  - change (N.of_nat 0) with 0. rewrite N.pow_0_r. lia.
  - rewrite Nat2N.inj_succ, N.pow_succ_r'.
    replace (y * (2 * 2 ^ N.of_nat k)) with (2 * (y * 2 ^ N.of_nat k)) by lia.
    rewrite crc_bit_double. exact IH.
Qed.

Lemma crc_bits_add j k r : crc_bits (j + k) r = crc_bits k (crc_bits j r).
Proof. revert r; induction j; intros; cbn [Nat.add crc_bits]; auto. Qed.

(** little endian word of a byte string *)
Fixpoint le_word (w : bytes) : N :=
  match w with [] => 0 | b :: r => N.lxor b (le_word r * 256) end.

Lemma crc_fold_word w r :
  fold_left crc_byte w r = crc_bits (8 * List.length w) (N.lxor r (le_word w)).
Proof.
  revert r; induction w as [|b w IH]; intros r.
  - cbn. rewrite N.lxor_0_r. reflexivity.
  - cbn [fold_left le_word List.length]. rewrite IH. unfold crc_byte.
    replace (8 * S (List.length w))%nat with (8 + 8 * List.length w)%nat by lia.
    rewrite crc_bits_add. f_equal.
    rewrite <- N.lxor_assoc. rewrite (crc_bits_lin 8 (N.lxor r b)). f_equal.
    symmetry. apply (crc_bits_shift 8).
Qed.

Lemma is_byte_lt b : is_byte b = true <-> b < 256.
Proof. unfold is_byte; apply N.ltb_lt. Qed.

Lemma lxor_byte_add b y : b < 256 -> N.lxor b (y * 256) = b + y * 256.
Proof.
  intros Hb. symmetry.
  assert (Hl : N.land b (y * 256) = 0).
  { apply N.bits_inj. intros i. rewrite N.land_spec, N.bits_0.
    change 256 with (2 ^ 8). destruct (N.lt_ge_cases i 8) as [L|L].
    - rewrite N.mul_pow2_bits_low by exact L. apply andb_false_r.
    - rewrite (bits_lt_pow2 b 8 i); [reflexivity | exact Hb | exact L]. }
  rewrite N.add_nocarry_lxor by exact Hl. reflexivity.
Qed.

Lemma le_word_lt w : all_bytes w = true -> le_word w < 256 ^ len w.
Proof.
  induction w as [|b w IH]; cbn [all_bytes forallb le_word]; intros H.
  - change (256 ^ len (@nil N)) with 1. lia.
  - apply andb_true_iff in H as [Hb Hw]. apply is_byte_lt in Hb. specialize (IH Hw).
    rewrite lxor_byte_add by exact Hb. rewrite len_cons, N.pow_add_r, N.pow_1_r. lia.
Qed.

Lemma le_word_inj w1 w2 :
  all_bytes w1 = true -> all_bytes w2 = true -> List.length w1 = List.length w2 ->
  le_word w1 = le_word w2 -> w1 = w2.
Proof.
  revert w2; induction w1 as [|a w1 IH]; intros [|b w2] H1 H2 Hl E; cbn in Hl; try discriminate; [reflexivity|].
  cbn [all_bytes forallb] in H1, H2. apply andb_true_iff in H1 as [Ha H1], H2 as [Hb H2].
  apply is_byte_lt in Ha, Hb. cbn [le_word] in E. rewrite !lxor_byte_add in E by assumption.
  assert (a = b /\ le_word w1 = le_word w2) as [-> E'] by lia.
  f_equal. apply IH; auto.
Qed.

Lemma le_word_32 w : all_bytes w = true -> (List.length w <= 4)%nat -> le_word w < B32.
Proof.
  intros H Hl. pose proof (le_word_lt w H) as L.
  assert (256 ^ len w <= 256 ^ 4) by (apply N.pow_le_mono_r; unfold len; lia).
  change (256 ^ 4) with B32 in *. lia.
Qed.

Lemma crc_window_inj w1 w2 r :
  r < B32 -> all_bytes w1 = true -> all_bytes w2 = true ->
  List.length w1 = List.length w2 -> (List.length w1 <= 4)%nat ->
  fold_left crc_byte w1 r = fold_left crc_byte w2 r -> w1 = w2.
Proof.
  intros Hr H1 H2 Hl H4 E. rewrite !crc_fold_word, <- Hl in E.
  apply crc_bits_inj in E.
  - apply le_word_inj; auto.
    assert (N.lxor r (N.lxor r (le_word w1)) = N.lxor r (N.lxor r (le_word w2))) as E2 by congruence.
    rewrite <- !N.lxor_assoc, N.lxor_nilpotent, !N.lxor_0_l in E2. exact E2.
  - apply lxor_lt32; auto using le_word_32.
  - apply lxor_lt32; auto. apply le_word_32; auto. lia.
Qed.

Lemma crc_byte_lt r b : r < B32 -> b < 256 -> crc_byte r b < B32.
Proof. intros Hr Hb. apply crc_bits_lt, lxor_lt32; auto. unfold B32; lia. Qed.

Lemma crc_fold_lt data r : r < B32 -> all_bytes data = true -> fold_left crc_byte data r < B32.
Proof.
  revert r; induction data as [|b d IH]; intros r Hr H; cbn [fold_left]; [exact Hr|].
  cbn [all_bytes forallb] in H. apply andb_true_iff in H as [Hb Hd]. apply is_byte_lt in Hb.
  apply IH; auto using crc_byte_lt.
Qed.

Lemma crc_fold_inj data r1 r2 :
  r1 < B32 -> r2 < B32 -> all_bytes data = true ->
  fold_left crc_byte data r1 = fold_left crc_byte data r2 -> r1 = r2.
Proof.
  revert r1 r2; induction data as [|b d IH]; intros r1 r2 H1 H2 H E; cbn [fold_left] in E; [exact E|].
  cbn [all_bytes forallb] in H. apply andb_true_iff in H as [Hb Hd]. apply is_byte_lt in Hb.
  apply IH in E; auto using crc_byte_lt.
  unfold crc_byte in E. apply crc_bits_inj in E; try (apply lxor_lt32; auto; unfold B32; lia).
  assert (N.lxor (N.lxor r1 b) b = N.lxor (N.lxor r2 b) b) as E2 by congruence.
  rewrite !N.lxor_assoc, N.lxor_nilpotent, !N.lxor_0_r in E2. exact E2.
Qed.

Lemma mask_lt : MASK32 < B32. Proof. reflexivity. Qed.

Lemma crc32_lt data crc : all_bytes data = true -> crc < B32 -> crc32 data crc < B32.
Proof.
  intros H Hc. unfold crc32. apply lxor_lt32; [|exact mask_lt].
  apply crc_fold_lt; auto. apply lxor_lt32; auto using mask_lt.
Qed.

(** Feeding the data in two parts is the same as feeding it at once. *)
Lemma crc32_app a b crc : crc32 (a ++ b) crc = crc32 b (crc32 a crc).
Proof.
  unfold crc32. rewrite fold_left_app.
  rewrite N.lxor_assoc, N.lxor_nilpotent, N.lxor_0_r. reflexivity.
Qed.

(** Two texts that differ only within four adjacent bytes have different CRCs. *)
Lemma crc32_burst a w1 w2 b crc :
  crc < B32 -> all_bytes a = true -> all_bytes w1 = true -> all_bytes w2 = true -> all_bytes b = true ->
  List.length w1 = List.length w2 -> (List.length w1 <= 4)%nat ->
  crc32 (a ++ w1 ++ b) crc = crc32 (a ++ w2 ++ b) crc -> w1 = w2.
Proof.
  intros Hc Ha H1 H2 Hb Hl H4 E. unfold crc32 in E.
  assert (E2 : fold_left crc_byte (a ++ w1 ++ b) (N.lxor crc MASK32) =
               fold_left crc_byte (a ++ w2 ++ b) (N.lxor crc MASK32)).
  { set (x := fold_left crc_byte (a ++ w1 ++ b) _) in *. set (y := fold_left crc_byte (a ++ w2 ++ b) _) in *.
    assert (N.lxor (N.lxor x MASK32) MASK32 = N.lxor (N.lxor y MASK32) MASK32) as E3 by congruence.
    rewrite !N.lxor_assoc, N.lxor_nilpotent, !N.lxor_0_r in E3. exact E3. }
  rewrite !fold_left_app in E2.
  assert (Hr : fold_left crc_byte a (N.lxor crc MASK32) < B32).
  { apply crc_fold_lt; auto. apply lxor_lt32; auto using mask_lt. }
  apply crc_fold_inj in E2; auto using crc_fold_lt.
  apply crc_window_inj in E2; auto.
Qed.
