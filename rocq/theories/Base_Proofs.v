(** Lemmas about the shared vocabulary of [Base]. *)
From Verif Require Import Base.
Ltac Zify.zify_post_hook ::= Z.div_mod_to_equations.
Local Open Scope N_scope.

Lemma text_eqb_eq a b : text_eqb a b = true <-> a = b.
Proof.
  revert b; induction a as [|x a IH]; intros [|y b]; cbn [text_eqb]; try (split; congruence).
  rewrite andb_true_iff, N.eqb_eq, IH. split; [intros [-> ->]; reflexivity | intros H; injection H; auto].
Qed.

Lemma text_eqb_refl a : text_eqb a a = true.
Proof. apply text_eqb_eq; reflexivity. Qed.

Lemma text_eqb_neq a b : text_eqb a b = false <-> a <> b.
Proof.
  split.
  - intros H E; apply text_eqb_eq in E; congruence.
  - intros H; destruct (text_eqb a b) eqn:E; [apply text_eqb_eq in E; contradiction | reflexivity].
Qed.

Lemma text_eq_dec (a b : list N) : {a = b} + {a <> b}.
Proof. apply list_eq_dec, N.eq_dec. Qed.

Lemma mem_text_In k l : mem_text k l = true <-> In k l.
Proof.
  unfold mem_text; rewrite existsb_exists; split.
  - intros (x & Hx & E); apply text_eqb_eq in E; subst; assumption.
  - intros H; exists k; split; [assumption | apply text_eqb_refl].
Qed.

Lemma mem_text_notIn k l : mem_text k l = false <-> ~ In k l.
Proof.
  rewrite <- mem_text_In; destruct (mem_text k l); split; congruence.
Qed.

Lemma len_app {A} (a b : list A) : len (a ++ b) = len a + len b.
Proof. unfold len; rewrite app_length; lia. Qed.

Lemma len_cons {A} (x : A) (a : list A) : len (x :: a) = 1 + len a.
Proof. unfold len; cbn [List.length]; lia. Qed.

Lemma len_nil {A} : len (@nil A) = 0.
Proof. reflexivity. Qed.

Lemma be_bytes_length k n : List.length (be_bytes k n) = k.
Proof. induction k; cbn [be_bytes List.length]; congruence. Qed.

Lemma be_val_acc_app acc a b : be_val_acc acc (a ++ b) = be_val_acc (be_val_acc acc a) b.
Proof. revert acc; induction a; intros; cbn [app be_val_acc]; auto. Qed.

Lemma pow256_pos k : 0 < 256 ^ k.
Proof. apply N.neq_0_lt_0, N.pow_nonzero; lia. Qed.

Lemma be_val_acc_bytes k acc n :
  n < 256 ^ N.of_nat k -> be_val_acc acc (be_bytes k n) = acc * 256 ^ N.of_nat k + n.
Proof.
  revert acc n; induction k as [|k IH]; intros acc n Hn.
  - cbn [be_bytes be_val_acc]. change (N.of_nat 0) with 0 in *. rewrite N.pow_0_r in *. lia.
  - cbn [be_bytes be_val_acc].
    assert (Hp : 256 ^ N.of_nat (S k) = 256 * 256 ^ N.of_nat k).
    { rewrite Nat2N.inj_succ, N.pow_succ_r'; reflexivity. }
    pose proof (pow256_pos (N.of_nat k)) as Hpos.
    set (P := 256 ^ N.of_nat k) in *.
    assert (Hbytes : be_bytes k n = be_bytes k (n mod P)).
    { clear -P Hpos. unfold P in *. clearbody P. clear P.
      assert (G : forall j, (j <= k)%nat -> be_bytes j n = be_bytes j (n mod 256 ^ N.of_nat k)).
      { induction j as [|j IHj]; intros Hj; [reflexivity|].
        cbn [be_bytes]. rewrite IHj by lia. f_equal.
        pose proof (pow256_pos (N.of_nat j)) as Hj0.
        assert (E : 256 ^ N.of_nat k = 256 ^ N.of_nat j * (256 * 256 ^ N.of_nat (k - j - 1))).
        { rewrite <- N.pow_succ_r', <- N.pow_add_r. f_equal. lia. }
        rewrite E. set (A := 256 ^ N.of_nat j) in *. set (B := 256 ^ N.of_nat (k - j - 1)) in *.
        assert (HB : 0 < B) by apply pow256_pos.
        rewrite N.mod_mul_r by lia.
        rewrite (N.mul_comm A ((n / A) mod (256 * B))), N.add_comm.
        rewrite N.div_add_l by lia.
        rewrite (N.div_small (n mod A) A) by (apply N.mod_lt; lia).
        rewrite N.add_0_r. rewrite N.mod_mul_r by lia.
        rewrite (N.mul_comm 256), N.mod_add by lia.
        rewrite N.mod_mod by lia. reflexivity. }
      apply G; lia. }
    rewrite Hbytes, IH by (apply N.mod_lt; lia).
    rewrite (N.mod_small (n / P)) by (apply N.div_lt_upper_bound; lia).
    rewrite Hp. pose proof (N.div_mod' n P). lia.
Qed.

Lemma be_val_bytes k n : n < 256 ^ N.of_nat k -> be_val (be_bytes k n) = n.
Proof. intros H; unfold be_val; rewrite be_val_acc_bytes by exact H; lia. Qed.

Lemma be_bytes_all k n : all_bytes (be_bytes k n) = true.
Proof.
  induction k; cbn [be_bytes all_bytes forallb]; [reflexivity|].
  apply andb_true_iff; split; [|exact IHk].
  unfold is_byte. apply N.ltb_lt. apply N.mod_lt; lia.
Qed.

(** Big endian values of byte strings of equal length determine the bytes. *)
Lemma be_val_acc_inj a b x y :
  all_bytes a = true -> all_bytes b = true -> List.length a = List.length b ->
  be_val_acc x a = be_val_acc y b -> x = y /\ a = b.
Proof.
  revert b x y; induction a as [|u a IH]; intros [|v b] x y Ha Hb Hl E; cbn in *; try discriminate.
  - auto.
  - apply andb_true_iff in Ha, Hb. destruct Ha as [Hu Ha], Hb as [Hv Hb].
    injection Hl as Hl. destruct (IH b _ _ Ha Hb Hl E) as [E1 E2].
    unfold is_byte in *. apply N.ltb_lt in Hu, Hv.
    assert (x = y /\ u = v) as [-> ->] by lia. subst; auto.
Qed.

Lemma be_val_inj a b :
  all_bytes a = true -> all_bytes b = true -> List.length a = List.length b ->
  be_val a = be_val b -> a = b.
Proof. intros Ha Hb Hl E; apply (be_val_acc_inj a b 0 0 Ha Hb Hl E). Qed.

Lemma be_val_acc_lt bs acc :
  all_bytes bs = true -> be_val_acc acc bs < (acc + 1) * 256 ^ len bs.
Proof.
  revert acc; induction bs as [|b r IH]; intros acc H; cbn [all_bytes forallb be_val_acc] in H |- *.
  - rewrite len_nil, N.pow_0_r; lia.
  - apply andb_true_iff in H; destruct H as [Hb Hr].
    unfold is_byte in Hb; apply N.ltb_lt in Hb.
    specialize (IH (acc * 256 + b) Hr).
    rewrite len_cons. rewrite N.pow_add_r, N.pow_1_r.
    eapply N.lt_le_trans; [exact IH|].
    rewrite N.mul_assoc. apply N.mul_le_mono_r. lia.
Qed.

Lemma be_val_lt bs : all_bytes bs = true -> be_val bs < 256 ^ len bs.
Proof. intros H; pose proof (be_val_acc_lt bs 0 H); unfold be_val; lia. Qed.

Lemma be_bytes_val bs :
  all_bytes bs = true -> be_bytes (List.length bs) (be_val bs) = bs.
Proof.
  intros H. pose proof (be_val_lt bs H) as Hlt. unfold len in Hlt.
  apply be_val_inj; auto using be_bytes_all.
  - apply be_bytes_length.
  - apply be_val_bytes; exact Hlt.
Qed.

(** Two's complement. *)
Lemma pow2_8 k : (2 ^ (8 * Z.of_nat (S k)) = 256 * 2 ^ (8 * Z.of_nat k))%Z.
Proof. rewrite Nat2Z.inj_succ. replace (8 * Z.succ (Z.of_nat k))%Z with (8 + 8 * Z.of_nat k)%Z by lia.
  rewrite Z.pow_add_r by lia. reflexivity. Qed.

Lemma pow2_half k : (0 < k)%nat -> (2 ^ (8 * Z.of_nat k) = 2 * 2 ^ (8 * Z.of_nat k - 1))%Z.
Proof. intros H. rewrite <- Z.pow_succ_r by lia. f_equal; lia. Qed.

Lemma pow256_2 k : Z.of_N (256 ^ N.of_nat k) = (2 ^ (8 * Z.of_nat k))%Z.
Proof.
  rewrite N2Z.inj_pow. change (Z.of_N 256) with (2 ^ 8)%Z.
  rewrite <- Z.pow_mul_r by lia. f_equal; lia.
Qed.

Lemma twos_lt k z : twos_of_Z k z < 256 ^ N.of_nat k.
Proof.
  apply N2Z.inj_lt. rewrite pow256_2. unfold twos_of_Z.
  pose proof (Z.mod_pos_bound z (2 ^ (8 * Z.of_nat k))) as H.
  assert (0 < 2 ^ (8 * Z.of_nat k))%Z by (apply Z.pow_pos_nonneg; lia).
  rewrite Z2N.id by lia. lia.
Qed.

Lemma twos_roundtrip k z :
  (0 < k)%nat ->
  (- 2 ^ (8 * Z.of_nat k - 1) <= z < 2 ^ (8 * Z.of_nat k - 1))%Z ->
  Z_of_twos k (twos_of_Z k z) = z.
Proof.
  intros Hk Hz. unfold Z_of_twos, twos_of_Z.
  pose proof (pow2_half k Hk) as Hh.
  set (H := (2 ^ (8 * Z.of_nat k - 1))%Z) in *. rewrite Hh.
  assert (0 < H)%Z by (apply Z.pow_pos_nonneg; lia).
  pose proof (Z.mod_pos_bound z (2 * H)).
  rewrite Z2N.id by lia.
  destruct (Z.ltb_spec z 0).
  - assert (E : (z mod (2 * H) = z + 2 * H)%Z).
    { symmetry; apply (Z.mod_unique _ _ (-1)); lia. }
    rewrite E. destruct (Z.ltb_spec (z + 2 * H) H); lia.
  - rewrite Z.mod_small by lia. destruct (Z.ltb_spec z H); lia.
Qed.

Lemma firstn_app_exact {A} (a b : list A) n :
  n = List.length a -> firstn n (a ++ b) = a.
Proof. intros ->. rewrite firstn_app, Nat.sub_diag, firstn_all. cbn; apply app_nil_r. Qed.

Lemma skipn_app_exact {A} (a b : list A) n :
  n = List.length a -> skipn n (a ++ b) = b.
Proof. intros ->. rewrite skipn_app, Nat.sub_diag, skipn_all. reflexivity. Qed.

Lemma all_bytes_app a b : all_bytes (a ++ b) = (all_bytes a && all_bytes b)%bool.
Proof. apply forallb_app. Qed.

Lemma skipn_skipn {A} n i (l : list A) : skipn n (skipn i l) = skipn (n + i) l.
Proof.
  revert l; induction i as [|i IH]; intros l; [rewrite Nat.add_0_r; reflexivity|].
  rewrite Nat.add_succ_r. destruct l; cbn [skipn]; [apply skipn_nil|apply IH].
Qed.
