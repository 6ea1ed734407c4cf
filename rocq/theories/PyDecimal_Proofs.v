(** Decimal numerals and Decimal. *)
From Coq Require Import DecimalFacts DecimalN.
From Verif Require Import Base PySort_Model PySort_Proofs PyDecimal_Model.
Local Open Scope N_scope.

Definition all_digits (s : text) : Prop := forall c, In c s -> 48 <= c <= 57.

Lemma digits_val_some s : forall acc, all_digits s -> exists v, digits_val acc s = Some v.
Proof.
  induction s as [|c s IH]; intros acc H; cbn [digits_val]; [eauto|].
  assert (E : 48 <= c <= 57) by (apply H; left; reflexivity).
  replace ((48 <=? c) && (c <=? 57)) with true by lia. apply IH. intros d Hd. apply H. right. exact Hd.
Qed.
Lemma digits_val_bounds s : forall acc v, digits_val acc s = Some v ->
  acc * 10 ^ N.of_nat (List.length s) <= v < (acc + 1) * 10 ^ N.of_nat (List.length s).
Proof.
  induction s as [|c s IH]; intros acc v H; cbn [digits_val List.length] in *.
  - injection H as <-. change (10 ^ N.of_nat 0) with 1. lia.
  - destruct ((48 <=? c) && (c <=? 57)) eqn:E; [|discriminate H]. apply IH in H.
    rewrite Nat2N.inj_succ, N.pow_succ_r'. set (p := 10 ^ N.of_nat (List.length s)) in *. nia.
Qed.
Lemma digits_val_acc s : forall acc v, digits_val 0 s = Some v ->
  digits_val acc s = Some (acc * 10 ^ N.of_nat (List.length s) + v).
Proof.
  assert (G : forall s acc0 acc v, digits_val acc0 s = Some v ->
             digits_val (acc + acc0) s = Some (acc * 10 ^ N.of_nat (List.length s) + v)).
  { induction s0 as [|c s0 IH]; intros a0 acc v H; cbn [digits_val List.length] in *.
    - injection H as <-. change (10 ^ N.of_nat 0) with 1. f_equal. lia.
    - destruct ((48 <=? c) && (c <=? 57)) eqn:E; [|discriminate H].
      rewrite Nat2N.inj_succ, N.pow_succ_r'. apply (IH _ (10 * acc)) in H.
      replace (10 * (acc + a0) + (c - 48)) with (10 * acc + (10 * a0 + (c - 48))) by lia.
      rewrite H. f_equal. lia. }
  intros acc v H. apply (G _ 0 acc) in H. rewrite N.add_0_r in H. exact H.
Qed.
Lemma zeros_val k : forall acc, digits_val acc (repeat 48 k) = Some (acc * 10 ^ N.of_nat k).
Proof.
  induction k as [|k IH]; intros acc; cbn [repeat digits_val].
  - change (10 ^ N.of_nat 0) with 1. f_equal. lia.
  - change ((48 <=? 48) && (48 <=? 57)) with true. cbn match. rewrite IH, Nat2N.inj_succ, N.pow_succ_r'. f_equal. lia.
Qed.
Lemma zeros_digits k : all_digits (repeat 48 k).
Proof. intros c H. apply repeat_spec in H. lia. Qed.
Lemma all_digits_app a b : all_digits a -> all_digits b -> all_digits (a ++ b).
Proof. intros A B c H. apply in_app_or in H as [H|H]; auto. Qed.
Lemma all_digits_firstn k s : all_digits s -> all_digits (firstn k s).
Proof. intros A c H. apply A. rewrite <- (firstn_skipn k s). apply in_or_app. now left. Qed.
Lemma all_digits_skipn k s : all_digits s -> all_digits (skipn k s).
Proof. intros A c H. apply A. rewrite <- (firstn_skipn k s). apply in_or_app. now right. Qed.
Lemma dec_all n : all_digits (dec n).
Proof. intros c H. eapply dec_digits, H. Qed.
Lemma dec_val n : digits_val 0 (dec n) = Some n.
Proof.
  assert (H := parse_dec_dec n). unfold parse_dec in H. destruct (dec n) eqn:E; [discriminate H | exact H].
Qed.

Lemma dec_head n : n <> 0 -> exists h t, dec n = h :: t /\ 49 <= h <= 57.
Proof.
  intros Hn. assert (D := dec_all n). assert (V := dec_val n). unfold dec in *.
  destruct (N.to_uint n) as [|u|u|u|u|u|u|u|u|u|u] eqn:E; cbn [uint_text] in *.
  { cbn in V. congruence. }
  2-10: eexists; eexists; split; [reflexivity | lia].
  exfalso. assert (T := Unsigned.of_to n). rewrite E in T.
  assert (O : N.to_uint n = Decimal.unorm u).
  { rewrite <- T. change (N.of_uint (Decimal.D0 u)) with (N.of_uint u). apply Unsigned.to_of. }
  assert (Nu : u <> Decimal.Nil) by (intros ->; cbn in T; congruence).
  assert (L := nb_digits_unorm u Nu). rewrite <- O, E in L. cbn [Decimal.nb_digits] in L. lia.
Qed.
Lemma dec_0 : dec 0 = [48].
Proof. reflexivity. Qed.

(** Fewer than 10 ^ k: at most k digits. *)
Lemma dec_length n k : (0 < k)%nat -> n < 10 ^ N.of_nat k -> (List.length (dec n) <= k)%nat.
Proof.
  intros Hk H. destruct (N.eq_dec n 0) as [->|Hn]; [rewrite dec_0; cbn; lia|].
  destruct (dec_head n Hn) as (h & t & E & Hh). assert (V := dec_val n). rewrite E in V |- *.
  cbn [digits_val] in V. replace ((48 <=? h) && (h <=? 57)) with true in V by lia.
  apply digits_val_bounds in V. cbn [List.length].
  destruct (Nat.le_gt_cases (S (List.length t)) k) as [L|L]; [exact L|exfalso].
  assert (P : 10 ^ N.of_nat k <= 10 ^ N.of_nat (List.length t)) by (apply N.pow_le_mono_r; lia).
  nia.
Qed.

(** ** Stripping zeros *)

Definition value_at (k : Z) (c : N) (e : Z) : Z := (Z.of_N c * 10 ^ (e - k))%Z.
Lemma strip_zeros_value fuel : forall c e c' e' k, strip_zeros fuel c e = (c', e') -> (k <= e)%Z ->
  (e <= e')%Z /\ value_at k c' e' = value_at k c e /\ (c <> 0 -> c' <> 0) /\ c' <= c.
Proof.
  induction fuel as [|f IH]; intros c e c' e' k H K; cbn [strip_zeros] in H.
  - injection H as <- <-. repeat split; auto; lia.
  - destruct (N.eqb_spec (c mod 10) 0) as [M|M].
    + assert (D := N.div_mod' c 10). rewrite M, N.add_0_r in D.
      destruct (IH _ _ _ _ k H ltac:(lia)) as (A & B & C & F). split; [lia|]. split.
      * rewrite B. unfold value_at. rewrite D at 2. replace (e + 1 - k)%Z with (Z.succ (e - k)) by lia.
        rewrite Z.pow_succ_r by lia. lia.
      * split; [|lia]. intros Hc. apply C. lia.
    + injection H as <- <-. repeat split; auto; lia.
Qed.
