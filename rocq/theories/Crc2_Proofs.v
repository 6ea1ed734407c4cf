(** CRC-32 and bursts that straddle the data and the checksum itself. *)
From Verif Require Import Base Base_Proofs EventStream_Model Crc_Proofs.
Ltac Zify.zify_post_hook ::= Z.div_mod_to_equations.
Local Open Scope N_scope.

(** ** Inverse of the bit step *)
Definition crc_unbit (r : N) : N :=
  if N.testbit r 31 then 2 * (N.lxor r POLY) + 1 else 2 * r.
Fixpoint crc_unbits (k : nat) (r : N) : N :=
  match k with O => r | S k' => crc_unbit (crc_unbits k' r) end.

Lemma crc_bit_odd y : crc_bit (2 * y + 1) = N.lxor y POLY.
Proof.
  unfold crc_bit. rewrite N.testbit_odd_0, N.shiftr_div_pow2. change (2 ^ 1) with 2.
  replace ((2 * y + 1) / 2) with y by lia. reflexivity.
Qed.

Lemma crc_bit_unbit r : crc_bit (crc_unbit r) = r.
Proof.
  unfold crc_unbit. destruct (N.testbit r 31).
  - rewrite crc_bit_odd, N.lxor_assoc, N.lxor_nilpotent, N.lxor_0_r. reflexivity.
  - apply crc_bit_double.
Qed.

Lemma crc_bits_unbits k r : crc_bits k (crc_unbits k r) = r.
Proof.
  induction k as [|k IH]; [reflexivity|].
  cbn [crc_unbits crc_bits]. rewrite crc_bit_unbit. exact IH.
Qed.

Lemma crc_unbit_lt r : r < B32 -> crc_unbit r < B32.
Proof.
  intros H. unfold crc_unbit. destruct (N.testbit r 31) eqn:Hb.
  - assert (Hl : N.lxor r POLY < 2 ^ 31).
    { apply lt_pow2_bits. intros i Hi. destruct (N.eq_dec i 31) as [->|Hne].
      - rewrite N.lxor_spec, Hb. reflexivity.
      - rewrite N.lxor_spec, (bits_lt_pow2 r 32 i), (bits_lt_pow2 POLY 32 i); auto; try lia.
        reflexivity. }
    change (2 ^ 31) with 2147483648 in Hl. unfold B32. lia.
  - assert (Hl : r < 2 ^ 31).
    { apply lt_pow2_bits. intros i Hi. destruct (N.eq_dec i 31) as [->|Hne]; [exact Hb|].
      apply (bits_lt_pow2 r 32); [exact H|lia]. }
    change (2 ^ 31) with 2147483648 in Hl. unfold B32. lia.
Qed.

Lemma crc_unbits_lt k r : r < B32 -> crc_unbits k r < B32.
Proof. intros H; induction k; cbn [crc_unbits]; auto using crc_unbit_lt. Qed.

(** ** Enumerations over bytes *)
Definition below (k : nat) : list N := map N.of_nat (seq 0 k).
Lemma below_in k x : x < N.of_nat k -> In x (below k).
Proof.
  intros H. unfold below. apply in_map_iff. exists (N.to_nat x). split; [apply N2Nat.id|].
  apply in_seq. lia.
Qed.

Lemma forallb_below (f : N -> bool) k : forallb f (below k) = true -> forall x, x < N.of_nat k -> f x = true.
Proof. intros H x Hx. rewrite forallb_forall in H. apply H, below_in, Hx. Qed.

Definition f1 (d : N) : bool := ((d =? 0) || negb (crc_bits 8 d mod 256 =? 0))%bool.
Definition f2 (t : N) : bool := ((t =? 0) || (65536 <=? crc_unbits 16 (t * 16777216)))%bool.
Definition f3 (t : N) : bool := ((t =? 0) || (16777216 <=? crc_unbits 24 (t * 16777216)))%bool.
Lemma check1 : forall x, x < N.of_nat 256 -> f1 x = true.
Proof. apply forallb_below. vm_compute. reflexivity. Qed.
Lemma check2 : forall x, x < N.of_nat 256 -> f2 x = true.
Proof. apply forallb_below. vm_compute. reflexivity. Qed.
Lemma check3 : forall x, x < N.of_nat 256 -> f3 x = true.
Proof. apply forallb_below. vm_compute. reflexivity. Qed.
Lemma c256 x : x < 256 -> x < N.of_nat 256.
Proof. exact (fun H => H). Qed.

Lemma kernel1 d : d < 256 -> crc_bits 8 d mod 256 = 0 -> d = 0.
Proof.
  intros H E. pose proof (check1 d (c256 _ H)) as C. unfold f1 in C.
  apply orb_true_iff in C as [C|C]; [apply N.eqb_eq, C|].
  apply negb_true_iff, N.eqb_neq in C. contradiction.
Qed.

Lemma crc_bits_0 k : crc_bits k 0 = 0.
Proof. induction k; [reflexivity|]. cbn [crc_bits]. exact IHk. Qed.

Lemma kernel2 d : d < 65536 -> crc_bits 16 d mod 16777216 = 0 -> d = 0.
Proof.
  intros H E.
  assert (Hd0 : d < B32) by (unfold B32; lia).
  pose proof (crc_bits_lt 16 d Hd0) as Hd.
  revert E Hd. generalize (eq_refl (crc_bits 16 d)). generalize (crc_bits 16 d) at 1 3 4.
  intros c Ec E Hd. set (t := c / 16777216).
  assert (Ht : t < 256) by (unfold t, B32 in *; lia).
  assert (Et : c = t * 16777216) by (unfold t; lia).
  pose proof (check2 t (c256 _ Ht)) as C. unfold f2 in C.
  assert (Hd2 : d = crc_unbits 16 (t * 16777216)).
  { apply (crc_bits_inj 16); [exact Hd0| |].
    - apply crc_unbits_lt. unfold B32. lia.
    - rewrite crc_bits_unbits, <- Et. symmetry. exact Ec. }
  rewrite <- Hd2 in C. apply orb_true_iff in C as [C|C].
  - apply N.eqb_eq in C. rewrite C in Et. apply (crc_bits_inj 16); [exact Hd0|reflexivity|].
    rewrite crc_bits_0, <- Ec, Et. reflexivity.
  - apply N.leb_le in C. lia.
Qed.

Lemma kernel3 d : d < 16777216 -> crc_bits 24 d mod 16777216 = 0 -> d = 0.
Proof.
  intros H E.
  assert (Hd0 : d < B32) by (unfold B32; lia).
  pose proof (crc_bits_lt 24 d Hd0) as Hd.
  revert E Hd. generalize (eq_refl (crc_bits 24 d)). generalize (crc_bits 24 d) at 1 3 4.
  intros c Ec E Hd. set (t := c / 16777216).
  assert (Ht : t < 256) by (unfold t, B32 in *; lia).
  assert (Et : c = t * 16777216) by (unfold t; lia).
  pose proof (check3 t (c256 _ Ht)) as C. unfold f3 in C.
  assert (Hd2 : d = crc_unbits 24 (t * 16777216)).
  { apply (crc_bits_inj 24); [exact Hd0| |].
    - apply crc_unbits_lt. unfold B32. lia.
    - rewrite crc_bits_unbits, <- Et. symmetry. exact Ec. }
  rewrite <- Hd2 in C. apply orb_true_iff in C as [C|C].
  - apply N.eqb_eq in C. rewrite C in Et. apply (crc_bits_inj 24); [exact Hd0|reflexivity|].
    rewrite crc_bits_0, <- Ec, Et. reflexivity.
  - apply N.leb_le in C. lia.
Qed.

(** ** Difference of two checksums *)
Lemma crc_tail_delta a w1 w2 crc :
  List.length w1 = List.length w2 ->
  N.lxor (crc32 (a ++ w1) crc) (crc32 (a ++ w2) crc) =
  crc_bits (8 * List.length w1) (N.lxor (le_word w1) (le_word w2)).
Proof.
  intros Hl. unfold crc32. rewrite !fold_left_app.
  generalize (fold_left crc_byte a (N.lxor crc MASK32)). intros r.
  rewrite !crc_fold_word, <- Hl. set (k := (8 * List.length w1)%nat).
  rewrite !crc_bits_lin. generalize (crc_bits k r) (crc_bits k (le_word w1)) (crc_bits k (le_word w2)).
  intros x y z. apply N.bits_inj; intros i. rewrite !N.lxor_spec.
  destruct (N.testbit x i), (N.testbit y i), (N.testbit z i), (N.testbit MASK32 i); reflexivity.
Qed.

Lemma be_val_acc_add acc bs : be_val_acc acc bs = acc * 256 ^ len bs + be_val bs.
Proof.
  unfold be_val. revert acc; induction bs as [|b bs IH]; intros acc; cbn [be_val_acc].
  - rewrite len_nil, N.pow_0_r. lia.
  - rewrite IH, (IH (0 * 256 + b)), len_cons, N.pow_add_r, N.pow_1_r. lia.
Qed.

Lemma be_val_app a b : be_val (a ++ b) = be_val a * 256 ^ len b + be_val b.
Proof.
  change (be_val (a ++ b)) with (be_val_acc 0 (a ++ b)). change (be_val a) with (be_val_acc 0 a).
  generalize 0. induction a as [|x a IH]; intros acc; cbn [app be_val_acc].
  - apply be_val_acc_add.
  - apply IH.
Qed.

Lemma mod_lxor a b k : a mod 2 ^ k = b mod 2 ^ k -> N.lxor a b mod 2 ^ k = 0.
Proof.
  intros E. apply N.bits_inj. intros i. rewrite N.bits_0.
  destruct (N.lt_ge_cases i k) as [L|L].
  - rewrite N.mod_pow2_bits_low, N.lxor_spec by exact L.
    rewrite <- (N.mod_pow2_bits_low a k i), <- (N.mod_pow2_bits_low b k i), E by exact L.
    apply xorb_nilpotent.
  - apply N.mod_pow2_bits_high. exact L.
Qed.

(** Two checksums that agree in their low bytes differ by a multiple. *)
Lemma be_val_low k a1 a2 b : len b = k -> N.lxor (be_val (a1 ++ b)) (be_val (a2 ++ b)) mod 2 ^ (8 * k) = 0.
Proof.
  intros <-. apply mod_lxor. rewrite !be_val_app. rewrite N.pow_mul_r. change (2 ^ 8) with 256.
  rewrite !(N.add_comm (_ * _)), !N.mod_add by (apply N.pow_nonzero; lia). reflexivity.
Qed.

Lemma kernel k d :
  (k = 1 \/ k = 2 \/ k = 3)%nat ->
  d < 256 ^ N.of_nat k ->
  crc_bits (8 * k) d mod 2 ^ (8 * N.of_nat (if Nat.eqb k 2 then 3 else k)) = 0 -> d = 0.
Proof.
  intros [-> | [-> | ->] ] H E.
  - apply kernel1; [exact H|exact E].
  - apply kernel2; [exact H|exact E].
  - apply kernel3; [exact H|exact E].
Qed.

Lemma mod_pow_weaken x a b : b <= a -> x mod 2 ^ a = 0 -> x mod 2 ^ b = 0.
Proof.
  intros L E. apply N.mod_divide in E; [|apply N.pow_nonzero; lia].
  apply N.mod_divide; [apply N.pow_nonzero; lia|].
  eapply N.divide_trans; [|exact E]. exists (2 ^ (a - b)). rewrite <- N.pow_add_r. f_equal. lia.
Qed.

(** A burst of [k] data bytes and [j] checksum bytes, [k + j <= 4], other than 2 + 2,
    always leaves a wrong checksum. *)
Lemma crc_straddle a w1 w2 crc u1 u2 v :
  crc < B32 -> all_bytes a = true ->
  all_bytes w1 = true -> all_bytes w2 = true -> List.length w1 = List.length w2 ->
  all_bytes u1 = true -> all_bytes u2 = true -> all_bytes v = true ->
  List.length u1 = List.length u2 -> (List.length u1 + List.length v = 4)%nat ->
  (1 <= List.length w1)%nat -> (1 <= List.length u1)%nat ->
  (List.length w1 + List.length u1 <= 4)%nat ->
  ~ (List.length w1 = 2 /\ List.length u1 = 2)%nat ->
  be_val (u1 ++ v) = crc32 (a ++ w1) crc -> be_val (u2 ++ v) = crc32 (a ++ w2) crc ->
  w1 = w2.
Proof.
  intros Hc Ha H1 H2 Hl Hu1 Hu2 Hv Hlu Huv K1 J1 KJ Hn E1 E2.
  pose proof (be_val_low (len v) u1 u2 v eq_refl) as Hlow. rewrite E1, E2 in Hlow.
  rewrite crc_tail_delta in Hlow by exact Hl.
  assert (Hd : N.lxor (le_word w1) (le_word w2) < 256 ^ N.of_nat (List.length w1)).
  { pose proof (le_word_lt w1 H1) as A1. pose proof (le_word_lt w2 H2) as A2.
    change (len w1) with (N.of_nat (List.length w1)) in A1.
    change (len w2) with (N.of_nat (List.length w2)) in A2. rewrite <- Hl in A2.
    change 256 with (2 ^ 8) in *. rewrite <- !N.pow_mul_r in *. apply lxor_lt; assumption. }
  apply le_word_inj; auto. apply N.lxor_eq.
  apply (kernel (List.length w1)); [lia|exact Hd|].
  eapply mod_pow_weaken; [|exact Hlow].
  unfold len. destruct (Nat.eqb_spec (List.length w1) 2); lia.
Qed.

(** ** Lists that differ in a window *)
Definition win (i n : nat) (l l' : bytes) : Prop :=
  List.length l = List.length l' /\ firstn i l = firstn i l' /\ skipn (i + n) l = skipn (i + n) l'.

Lemma win_split i n l1 l1' l2 l2' :
  List.length l1 = List.length l1' -> win i n (l1 ++ l2) (l1' ++ l2') ->
  win i n l1 l1' /\ win (i - List.length l1) (n - (List.length l1 - i)) l2 l2'.
Proof.
  intros Hl (H1 & H2 & H3). rewrite !app_length in H1. rewrite !firstn_app in H2. rewrite !skipn_app in H3.
  assert (G : forall (a a' b b' : bytes), List.length a = List.length a' -> a ++ b = a' ++ b' -> a = a' /\ b = b').
  { induction a as [|x a IH]; intros [|x' a'] b b' L E; cbn in *; try discriminate; [auto|].
    injection E as -> E. destruct (IH a' b b') as [-> ->]; auto. }
  apply G in H2 as [A1 A2]; [|rewrite !firstn_length; lia].
  apply G in H3 as [B1 B2]; [|rewrite !skipn_length; lia].
  rewrite <- Hl in A2, B2.
  split; [split; [exact Hl|split; assumption]|].
  split; [lia|]. split; [exact A2|].
  replace (i - List.length l1 + (n - (List.length l1 - i)))%nat with (i + n - List.length l1)%nat by lia.
  exact B2.
Qed.

Lemma win_eq_before i n l l' : win i n l l' -> (List.length l <= i)%nat -> l = l'.
Proof. intros (H1 & H2 & _) L. rewrite !firstn_all2 in H2 by lia. exact H2. Qed.

Lemma win_zero i l l' : win i 0 l l' -> l = l'.
Proof.
  intros (H1 & H2 & H3). rewrite Nat.add_0_r in H3.
  rewrite <- (firstn_skipn i l), <- (firstn_skipn i l'), H2, H3. reflexivity.
Qed.

Lemma win_parts i n l l' : win i n l l' ->
  exists a w w' b, l = a ++ w ++ b /\ l' = a ++ w' ++ b /\ List.length w = List.length w' /\ (List.length w <= n)%nat /\
    a = firstn i l /\ b = skipn (i + n) l.
Proof.
  intros (H1 & H2 & H3).
  exists (firstn i l), (firstn n (skipn i l)), (firstn n (skipn i l')), (skipn (i + n) l).
  assert (E : forall m : bytes, m = firstn i m ++ firstn n (skipn i m) ++ skipn (i + n) m).
  { intros m. replace (i + n)%nat with (n + i)%nat by lia. rewrite <- skipn_skipn, firstn_skipn, firstn_skipn. reflexivity. }
  split; [apply E|]. split; [rewrite H2, H3; apply E|].
  split; [rewrite !firstn_length, !skipn_length; lia|]. split; [rewrite firstn_length; lia|auto].
Qed.

Lemma win_of_parts (a w w' b : bytes) :
  List.length w = List.length w' -> win (List.length a) (List.length w) (a ++ w ++ b) (a ++ w' ++ b).
Proof.
  intros H. split; [rewrite !app_length; lia|]. split.
  - rewrite !firstn_app_exact by reflexivity. reflexivity.
  - rewrite !(app_assoc a). rewrite !skipn_app_exact; [reflexivity| |]; rewrite app_length; lia.
Qed.
