(** Lemmas for the errors made from responses. *)
From Verif Require Import Base Base_Proofs PyText_Model PyText_Proofs PyDict_Model PyDict_Proofs PySort_Model Header_Model Fields_Model HttpVal_Model HttpVal_Proofs ConfigFile_Proofs Shape_Model Shape_Spec Shape_Props.
From Verif Require Import Time_Model Time_Proofs Errors_Model Errors_Spec.
From Coq Require Import Lia.
Local Open Scope Z_scope.

(** ** Integers *)
Lemma is_digit_iff c : HttpVal_Model.is_digit c = true <-> (48 <= c <= 57)%N.
Proof. unfold HttpVal_Model.is_digit. rewrite andb_true_iff, !N.leb_le. tauto. Qed.
Lemma digits_text_head t v : digits_text t v -> exists c r, t = c :: r /\ (48 <= c <= 57)%N.
Proof. induction 1 as [c H | t v c _ (x & r & -> & X) _ | t v c _ (x & r & -> & X) _]; [now exists c, [] | |]; eexists x, _; (split; [reflexivity | exact X]). Qed.
Lemma digits_text_last t v : digits_text t v -> exists c r, t = r ++ [c] /\ (48 <= c <= 57)%N.
Proof.
  destruct 1 as [c H | t v c _ H | t v c _ H]; [exists c, []; now split | exists c, t; now split | exists c, (t ++ [95%N]); split; [now rewrite <- app_assoc | exact H]].
Qed.
(** Reading goes from left to right, so the digits are taken with what was read before. *)
Inductive digits_from (acc : N) : bool -> text -> N -> Prop :=
| F_nil : digits_from acc false [] acc
| F_digit us c t v : (48 <= c <= 57)%N -> digits_from (acc * 10 + (c - 48)) false t v -> digits_from acc us (c :: t) v
| F_under t v : digits_from acc true t v -> digits_from acc false (95%N :: t) v.
Lemma digits_from_iff t : forall acc us v, int_digits acc us t = Some v <-> digits_from acc us t v.
Proof.
  induction t as [|c t IH]; intros acc us v; cbn [int_digits].
  - destruct us; split; intros H; inversion H; subst; constructor.
  - destruct (HttpVal_Model.is_digit c) eqn:D.
    + rewrite IH. apply is_digit_iff in D. split; intros H; [now constructor|]. inversion H; subst; [assumption | lia].
    + destruct ((c =? 95)%N && negb us) eqn:U.
      * apply andb_true_iff in U as [U1 U2]. apply N.eqb_eq in U1 as ->. destruct us; [discriminate|]. rewrite IH. split; intros H; [now constructor|].
        inversion H; subst; [lia | assumption].
      * split; intros H; [discriminate|]. exfalso. inversion H; subst.
        -- apply is_digit_iff in H3. congruence.
        -- discriminate U.
Qed.
Lemma digits_from_digits t : forall acc us v u w, digits_from acc us t v ->
  (us = true -> digits_text u w -> False) -> digits_text u w -> w = Z.of_N acc -> us = false -> digits_text (u ++ t) (Z.of_N v).
Proof.
  assert (G : forall n t, (List.length t < n)%nat -> forall acc v u, digits_from acc false t v -> digits_text u (Z.of_N acc) -> digits_text (u ++ t) (Z.of_N v)).
  { induction n as [|n IH]; intros s L acc v u H U; [lia|]. inversion H; subst; cbn [List.length] in L.
    - now rewrite app_nil_r.
    - change (c :: t0) with ([c] ++ t0). rewrite app_assoc. apply (IH t0 ltac:(lia) _ _ _ H1).
      replace (Z.of_N (acc * 10 + (c - 48))) with (10 * Z.of_N acc + (Z.of_N c - 48)) by lia. now apply D_more.
    - inversion H0; subst; cbn [List.length] in L.
      change (95%N :: c :: t1) with ([95%N; c] ++ t1). rewrite app_assoc. apply (IH t1 ltac:(lia) _ _ _ H2).
      replace (Z.of_N (acc * 10 + (c - 48))) with (10 * Z.of_N acc + (Z.of_N c - 48)) by lia. now apply D_under. }
  intros acc us v u w H _ U -> ->. now apply (G (S (List.length t)) t (Nat.lt_succ_diag_r _) acc v u).
Qed.
Lemma digits_from_snoc t : forall acc us v c, digits_from acc us t v -> t <> [] -> (48 <= c <= 57)%N ->
  digits_from acc us (t ++ [c]) (v * 10 + (c - 48)) /\ digits_from acc us (t ++ [95%N; c]) (v * 10 + (c - 48)).
Proof.
  assert (B : forall acc c, (48 <= c <= 57)%N -> forall us, digits_from acc us [c] (acc * 10 + (c - 48))) by (intros; constructor; [assumption | constructor]).
  induction t as [|x t IH]; intros acc us v c H Z0 C; [congruence|]. cbn [app]. inversion H; subst.
  - destruct t as [|y t].
    + inversion H5; subst. cbn [app]. split; constructor; try assumption; [now apply B | constructor; now apply B].
    + destruct (IH _ _ _ c H5 ltac:(discriminate) C) as [I1 I2]. split; constructor; assumption.
  - destruct t as [|y t]; [inversion H4|].
    destruct (IH _ _ _ c H4 ltac:(discriminate) C) as [I1 I2]. split; constructor; assumption.
Qed.
Lemma digits_text_iff t z : (exists v, int_digits 0 true t = Some v /\ z = Z.of_N v) <-> digits_text t z.
Proof.
  split.
  - intros (v & H & ->). apply digits_from_iff in H. inversion H; subst.
    change (c :: t0) with ([c] ++ t0). eapply digits_from_digits; [exact H1 | discriminate | | reflexivity | reflexivity].
    replace (Z.of_N (0 * 10 + (c - 48))) with (Z.of_N c - 48) by lia. now constructor.
  - intros H. assert (N0 : t <> []) by (destruct (digits_text_head _ _ H) as (? & ? & -> & _); discriminate).
    enough (exists v, digits_from 0 true t v /\ z = Z.of_N v) as (v & F & ->) by (exists v; split; [now apply digits_from_iff | reflexivity]).
    clear N0. induction H as [c H | t v c H IH C | t v c H IH C].
    + exists (0 * 10 + (c - 48))%N. split; [constructor; [assumption | constructor] | lia].
    + destruct IH as (w & F & ->). destruct (digits_from_snoc t 0 true w c F) as [F1 _]; [destruct (digits_text_head _ _ H) as (? & ? & -> & _); discriminate | exact C|].
      exists (w * 10 + (c - 48))%N. split; [exact F1 | lia].
    + destruct IH as (w & F & ->). destruct (digits_from_snoc t 0 true w c F) as [_ F1]; [destruct (digits_text_head _ _ H) as (? & ? & -> & _); discriminate | exact C|].
      exists (w * 10 + (c - 48))%N. split; [exact F1 | lia].
Qed.
Lemma digit_solid c : (48 <= c <= 57)%N -> is_space c = false.
Proof. intros H. destruct (is_space c) eqn:E; [|reflexivity]. unfold is_space in E. rewrite !orb_true_iff, ?andb_true_iff, ?N.eqb_eq, ?N.leb_le in E. lia. Qed.

Lemma take_sign_digit c r : (48 <= c <= 57)%N -> take_sign (c :: r) = (false, c :: r).
Proof. intros H. cbn [take_sign]. destruct (N.eqb_spec c 45); [lia|]. destruct (N.eqb_spec c 43); [lia|]. reflexivity. Qed.
Lemma trim_around a s b : white a -> white b -> (forall c r, s = c :: r -> is_space c = false) ->
  (forall r c, s = r ++ [c] -> is_space c = false) -> strip (a ++ s ++ b) = s.
Proof. intros A B H1 H2. apply Trim_strip. exists a, b. exact (conj eq_refl (conj A (conj B (conj H1 H2)))). Qed.
Lemma py_int_iff t z : py_int t = Ok z <-> int_text t z.
Proof.
  split.
  - unfold py_int. set (s := strip t). destruct (proj2 (Trim_strip t s) eq_refl) as (a & b & E & A & B & _ & _).
    destruct (take_sign s) as [neg u] eqn:T. intros H.
    assert (D : exists v, digits_text u v /\ z = if neg then - v else v).
    { destruct u as [|c u]; [discriminate|]. destruct (int_digits 0 true (c :: u)) as [v|] eqn:I; [|discriminate].
      exists (Z.of_N v). split; [apply digits_text_iff; now exists v|]. destruct neg; injection H as <-; reflexivity. }
    destruct D as (v & D & ->). rewrite E. unfold take_sign in T. destruct s as [|c r].
    + injection T as <- <-. destruct (digits_text_head _ _ D) as (? & ? & X & _). discriminate X.
    + destruct (N.eqb_spec c 45) as [->|]; [injection T as <- <-; now apply I_minus|].
      destruct (N.eqb_spec c 43) as [->|]; [injection T as <- <-; now apply I_plus|].
      injection T as <- <-. now apply I_plain.
  - intros H. unfold py_int.
    destruct H as [a t v b A B D | a t v b A B D | a t v b A B D];
    destruct (digits_text_head _ _ D) as (c & r & E & C); destruct (digits_text_last _ _ D) as (c' & r' & E' & C');
    destruct (proj2 (digits_text_iff t v) D) as (n & I & ->).
    + rewrite trim_around; [| assumption | assumption | intros x y X; rewrite E in X; injection X as <- _; now apply digit_solid | intros x y X; rewrite E' in X; apply app_inj_tail in X as [_ <-]; now apply digit_solid].
      rewrite E, take_sign_digit by exact C. cbv iota. rewrite <- E, I. reflexivity.
    + change (43%N :: t ++ b) with ((43%N :: t) ++ b). rewrite trim_around; [| assumption | assumption | intros x y X; injection X as <- _; reflexivity | intros x y X; rewrite E' in X; change (43%N :: r' ++ [c']) with ((43%N :: r') ++ [c']) in X; apply app_inj_tail in X as [_ <-]; now apply digit_solid].
      change (take_sign (43%N :: t)) with (false, t). cbv iota. rewrite E. cbv iota. rewrite <- E, I. reflexivity.
    + change (45%N :: t ++ b) with ((45%N :: t) ++ b). rewrite trim_around; [| assumption | assumption | intros x y X; injection X as <- _; reflexivity | intros x y X; rewrite E' in X; change (45%N :: r' ++ [c']) with ((45%N :: r') ++ [c']) in X; apply app_inj_tail in X as [_ <-]; now apply digit_solid].
      change (take_sign (45%N :: t)) with (true, t). cbv iota. rewrite E. cbv iota. rewrite <- E, I. reflexivity.
Qed.
Lemma digits_text_nonneg t v : digits_text t v -> 0 <= v.
Proof. induction 1; lia. Qed.

(** ** Floats *)
Lemma div_even_nonneg p q : 0 <= p -> 0 < q -> 0 <= div_even p q.
Proof.
  intros P Q. unfold div_even. pose proof (Z.div_pos p q P Q). destruct (2 * (p mod q) <? q); [assumption|].
  destruct (q <? 2 * (p mod q)); [lia|]. destruct (Z.even (p / q)); lia.
Qed.
Lemma div_even_neg p q : 0 < q -> p <= - q -> div_even p q < 0.
Proof.
  intros Q R. unfold div_even. assert (p / q <= -1) by (apply Z.div_le_upper_bound; lia).
  pose proof (Z.div_mod p q ltac:(lia)). destruct (Z.ltb_spec (2 * (p mod q)) q); [lia|].
  assert (p / q <> -1) by (intros E; rewrite E in H0; lia).
  destruct (q <? 2 * (p mod q)); [lia|]. destruct (Z.even (p / q)); lia.
Qed.
Lemma scaled_pos p q e : 0 < q -> forall a b, scaled p q e = (a, b) -> 0 < b /\ (0 <= p -> 0 <= a) /\ (p < 0 -> a < 0).
Proof.
  intros Q a b. unfold scaled. destruct (Z.ltb_spec e 0); intros [= <- <-].
  - pose proof (Z.pow_pos_nonneg 2 (- e) ltac:(lia) ltac:(lia)). repeat split; intros; nia.
  - pose proof (Z.pow_pos_nonneg 2 e ltac:(lia) ltac:(lia)). repeat split; intros; nia.
Qed.
Lemma ratio_nonneg p q : 0 <= p -> 0 < q -> 0 <= mant (ratio p q).
Proof.
  intros P Q. unfold ratio. destruct (p =? 0); [cbn [mant]; lia|]. cbv zeta.
  destruct (scaled p q _) as [a b]. match goal with |- context [scaled p q ?e] => destruct (scaled p q e) as [a' b'] eqn:S end. cbn [mant].
  destruct (scaled_pos _ _ _ Q _ _ S) as (B & A & _). apply div_even_nonneg; [now apply A | exact B].
Qed.

Lemma scaled_large p q e a b : 0 < q -> p <> 0 -> e <= Z.log2 (Z.abs p) - Z.log2 q - 1 -> scaled p q e = (a, b) -> b <= Z.abs a.
Proof.
  intros Q P E S. pose proof (Z.log2_spec (Z.abs p) ltac:(lia)) as [A _]. pose proof (Z.log2_spec q Q) as [_ B].
  pose proof (Z.log2_nonneg (Z.abs p)). pose proof (Z.log2_nonneg q).
  unfold scaled in S. destruct (Z.ltb_spec e 0); injection S as <- <-.
  - rewrite Z.abs_mul, (Z.abs_eq (2 ^ _)) by (apply Z.pow_nonneg; lia).
    transitivity (2 ^ Z.log2 (Z.abs p) * 2 ^ (- e)); [|apply Z.mul_le_mono_nonneg_r; [apply Z.pow_nonneg; lia | exact A]].
    rewrite <- Z.pow_add_r by lia. transitivity (2 ^ Z.succ (Z.log2 q)); [lia|]. apply Z.pow_le_mono_r; lia.
  - transitivity (2 ^ Z.succ (Z.log2 q) * 2 ^ e); [apply Z.mul_le_mono_nonneg_r; [apply Z.pow_nonneg; lia | lia]|].
    rewrite <- Z.pow_add_r by lia. transitivity (2 ^ Z.log2 (Z.abs p)); [|exact A]. apply Z.pow_le_mono_r; lia.
Qed.
Lemma ratio_neg p q : p < 0 -> 0 < q -> mant (ratio p q) < 0.
Proof.
  intros P Q. unfold ratio. destruct (Z.eqb_spec p 0); [lia|]. cbv zeta.
  destruct (scaled p q _) as [a b] eqn:S0. match goal with |- context [scaled p q ?e] => destruct (scaled p q e) as [a' b'] eqn:S; assert (E : e <= Z.log2 (Z.abs p) - Z.log2 q - 1) by (destruct (_ <=? _); lia) end. cbn [mant].
  destruct (scaled_pos _ _ _ Q _ _ S) as (B & _ & A). pose proof (scaled_large _ _ _ _ _ Q n E S). apply div_even_neg; [exact B | specialize (A P); lia].
Qed.
Lemma fdiv_sign x : (0 <= mant x -> 0 <= mant (fdiv x 1000)) /\ (mant x < 0 -> mant (fdiv x 1000) < 0).
Proof.
  unfold fdiv. destruct (Z.ltb_spec (expo x) 0).
  - pose proof (Z.pow_pos_nonneg 2 (- expo x) ltac:(lia) ltac:(lia)). split; intros; [apply ratio_nonneg | apply ratio_neg]; nia.
  - pose proof (Z.pow_pos_nonneg 2 (expo x) ltac:(lia) ltac:(lia)). split; intros; [apply ratio_nonneg | apply ratio_neg]; nia.
Qed.
(** Small integers are floats exactly. *)
Lemma ratio_one n : 0 < n < 2 ^ 53 -> expo (ratio n 1) <= 0 /\ mant (ratio n 1) = n * 2 ^ (- expo (ratio n 1)).
Proof.
  intros H. unfold ratio. destruct (Z.eqb_spec n 0); [lia|]. change (Z.log2 1) with 0. cbv zeta.
  assert (L : Z.log2 (Z.abs n) < 53) by (apply Z.log2_lt_pow2; lia).
  set (e0 := Z.log2 (Z.abs n) - 0 - 53). pose proof (Z.log2_nonneg (Z.abs n)).
  assert (S0 : scaled n 1 e0 = (n * 2 ^ (- e0), 1)) by (unfold scaled; destruct (Z.ltb_spec e0 0); [reflexivity | lia]).
  rewrite S0. set (e := if _ <=? _ then _ else _).
  assert (Ee : e <= 0) by (subst e; destruct (_ <=? _); lia).
  assert (S : scaled n 1 e = (n * 2 ^ (- e), 1)).
  { unfold scaled. destruct (Z.ltb_spec e 0); [reflexivity|]. replace e with 0 by lia. change (2 ^ - 0) with 1. rewrite !Z.mul_1_r. reflexivity. }
  rewrite S. cbn [mant expo]. split; [exact Ee|]. unfold div_even. rewrite Z.mod_1_r, Z.div_1_r. reflexivity.
Qed.
(** [ratio] depends on the ratio only, for powers of two. *)
Lemma ratio_shift p q j : p <> 0 -> 0 < q -> 0 <= j -> ratio (p * 2 ^ j) (q * 2 ^ j) = ratio p q.
Proof.
  intros P Q J. pose proof (Z.pow_pos_nonneg 2 j ltac:(lia) J) as W. unfold ratio.
  destruct (Z.eqb_spec p 0); [lia|]. destruct (Z.eqb_spec (p * 2 ^ j) 0); [nia|].
  assert (E : Z.log2 (Z.abs (p * 2 ^ j)) - Z.log2 (q * 2 ^ j) = Z.log2 (Z.abs p) - Z.log2 q).
  { rewrite Z.abs_mul, (Z.abs_eq (2 ^ j)) by lia. rewrite !Z.log2_mul_pow2 by lia. lia. }
  rewrite E. set (e0 := Z.log2 (Z.abs p) - Z.log2 q - 53).
  assert (K : forall e, scaled (p * 2 ^ j) (q * 2 ^ j) e = (fst (scaled p q e) * 2 ^ j, snd (scaled p q e) * 2 ^ j)).
  { intros e. unfold scaled. destruct (e <? 0); cbn [fst snd]; f_equal; ring. }
  rewrite K. destruct (scaled p q e0) as [a b] eqn:S. cbn [fst snd].
  assert (C : (2 ^ 53 * (b * 2 ^ j) <=? Z.abs (a * 2 ^ j)) = (2 ^ 53 * b <=? Z.abs a)).
  { rewrite Z.abs_mul, (Z.abs_eq (2 ^ j)) by lia. rewrite Z.mul_assoc. apply eq_true_iff_eq. rewrite !Z.leb_le. symmetry. apply Z.mul_le_mono_pos_r, W. }
  rewrite C. set (e := if 2 ^ 53 * b <=? Z.abs a then e0 + 1 else e0). rewrite K. destruct (scaled p q e) as [a' b'] eqn:S'. cbn [fst snd]. f_equal.
  destruct (scaled_pos _ _ _ Q _ _ S') as (B & _). unfold div_even. rewrite Z.div_mul_cancel_r by lia. rewrite Z.mul_mod_distr_r by lia.
  replace (2 * (a' mod b' * 2 ^ j) <? b' * 2 ^ j) with (2 * (a' mod b') <? b') by (apply eq_true_iff_eq; rewrite !Z.ltb_lt, Z.mul_assoc; apply Z.mul_lt_mono_pos_r, W).
  replace (b' * 2 ^ j <? 2 * (a' mod b' * 2 ^ j)) with (b' <? 2 * (a' mod b')) by (apply eq_true_iff_eq; rewrite !Z.ltb_lt, Z.mul_assoc; apply Z.mul_lt_mono_pos_r, W).
  reflexivity.
Qed.
Lemma fdiv_small n : 0 < n < 2 ^ 53 -> fdiv (ratio n 1) 1000 = ratio n 1000.
Proof.
  intros H. destruct (ratio_one n H) as [E M]. unfold fdiv. destruct (Z.ltb_spec (expo (ratio n 1)) 0).
  - rewrite M. apply ratio_shift; lia.
  - rewrite M. replace (expo (ratio n 1)) with 0 by lia. change (2 ^ - 0) with 1. change (2 ^ 0) with 1. now rewrite !Z.mul_1_r.
Qed.

(** ** Looking up *)
Lemma get_values fs n vs : NoDup (map fst fs) -> (has_values fs n vs <-> exists f, dict_get n fs = Some f /\ f_values f = vs).
Proof.
  intros D. split; intros (f & H & E); exists f; (split; [|exact E]); [now apply dict_In_get | now apply dict_get_In].
Qed.
Lemma has_get {V} id (d : list (text * V)) : dict_has id d = true -> exists v, dict_get id d = Some v.
Proof. unfold dict_has. destruct (dict_get id d) as [v|]; [now exists v | discriminate]. Qed.
Lemma reg_get_iff r : sound r -> forall id s, reg_get id r = Ok s <-> registered id s r.
Proof.
  revert r. fix IH 1. intros [types sub] S id s. inversion S as [? ? D R]; subst. cbn [reg_get]. unfold dict_has. destruct (dict_get id types) as [v|] eqn:G.
  - split; [intros [= <-]; apply Here; now apply dict_get_In|]. intros H. inversion H; subst.
    + f_equal. rewrite (dict_In_get _ _ _ D H1) in G. congruence.
    + apply dict_get_In in G. elim H2. apply in_map_iff. now exists (id, v).
  - destruct sub as [r|].
    + pose proof (IH r (R r eq_refl) id s) as I. rewrite I. split; intros H; [apply Below; [now apply dict_get_None | exact H]|].
      inversion H; subst; [|assumption]. apply dict_get_None in G. elim G. apply in_map_iff. now exists (id, s).
    + split; [discriminate|]. intros H. inversion H; subst. apply dict_get_None in G. elim G. apply in_map_iff. now exists (id, s).
Qed.
Lemma reg_has_get id r : reg_has id r = match reg_get id r with Ok _ => true | Err _ => false end.
Proof.
  revert r. fix IH 1. intros [types sub]. cbn [reg_has reg_get]. unfold dict_has. destruct (dict_get id types); [reflexivity|].
  destruct sub as [r|]; [exact (IH r) | reflexivity].
Qed.
Lemma reg_get_err id r e : reg_get id r = Err e -> e = KeyError.
Proof.
  revert r. fix IH 1. intros [types sub]. cbn [reg_get]. unfold dict_has. destruct (dict_get id types); [discriminate|].
  destruct sub as [r|]; [exact (IH r) | clear IH; intros [= <-]; reflexivity].
Qed.
Lemma reg_cases r id : sound r -> (reg_has id r = true /\ exists s, reg_get id r = Ok s /\ registered id s r) \/ (reg_has id r = false /\ unknown r id).
Proof.
  intros S. rewrite reg_has_get. destruct (reg_get id r) as [s|e] eqn:G.
  - left. split; [reflexivity|]. exists s. split; [reflexivity | now apply reg_get_iff].
  - right. split; [reflexivity|]. intros s H. apply reg_get_iff in H; [congruence | exact S].
Qed.
Lemma registered_fun r id s s' : sound r -> registered id s r -> registered id s' r -> s = s'.
Proof. intros S A B. apply reg_get_iff in A, B; try exact S. congruence. Qed.

(** ** Codes *)
Lemma before_colon_iff code b : before_colon code b <-> fst (cut_at 58 code) = b.
Proof.
  unfold before_colon. split.
  - intros [H [-> | [r ->]]]; [now rewrite PyText_Proofs.cut_at_none | now rewrite cut_at_app].
  - intros <-. destruct (in_dec N.eq_dec 58%N code) as [I|I].
    + apply in_split in I as (l & r & ->). revert l. clear.
      assert (G : forall s, exists a b, s ++ 58%N :: a = b ++ 58%N :: a) by (intros; now exists [], s).
      intros l. assert (X : exists a b, l ++ 58%N :: r = a ++ 58%N :: b /\ ~ In 58%N a).
      { clear G. induction l as [|x l (a & b & E & H)]; [exists [], r; split; [reflexivity | intros []]|].
        destruct (N.eq_dec x 58) as [->|Hx]; [exists [], (l ++ 58%N :: r); split; [reflexivity | intros []]|].
        exists (x :: a), b. cbn [app]. rewrite E. split; [reflexivity|]. intros [|]; [congruence | contradiction]. }
      destruct X as (a & b & E & H). rewrite E, cut_at_app by exact H. split; [exact H | right; now exists b].
    + rewrite PyText_Proofs.cut_at_none by exact I. split; [exact I | now left].
Qed.
Lemma has_In c s : has c s = true <-> In c s.
Proof. unfold has. rewrite existsb_exists. split; [intros (x & I & E); now apply N.eqb_eq in E as -> | intros I; exists c; split; [exact I | apply N.eqb_refl]]. Qed.
Lemma blank_iff s : blank s = true <-> s = [].
Proof. destruct s; split; (reflexivity || discriminate). Qed.
Lemma new_id_form id x : new_id id = Ok x -> id_form id (s_namespace x) (s_name x) (s_member x) /\ s_id x = id.
Proof. intros H. apply C48_parse in H as [A B]. now split. Qed.
Lemma form_new_id id ns name m : id_form id ns name m -> new_id id = Ok (mkShapeId id ns name m).
Proof. intros H. apply C48_parse. cbn. now split. Qed.
Lemma id_form_hash id ns name m : id_form id ns name m -> In 35%N id.
Proof. intros (_ & _ & _ & _ & _ & ->). apply in_or_app. right. now left. Qed.
Lemma parse_error_code_some code ns x : parse_error_code code ns = Ok (Some x) -> denotes code ns (s_id x) (s_name x).
Proof.
  unfold parse_error_code. destruct code as [|c code]; [discriminate|]. set (cc := c :: code). set (b := fst (cut_at 58 cc)).
  assert (B : before_colon cc b) by now apply before_colon_iff.
  destruct (has 35 b) eqn:Hh.
  - destruct (new_id b) as [y|] eqn:E; [|discriminate]. cbn [bind]. intros [= <-]. apply new_id_form in E as [E <-]. now apply Full with (ns := s_namespace y) (m := s_member y).
  - destruct (blank b || blank ns) eqn:Bl; [discriminate|]. apply orb_false_iff in Bl as [B1 B2].
    destruct (Shape_Model.from_parts ns b None) as [y|] eqn:E; [|discriminate]. cbn [bind]. intros [= <-]. apply new_id_form in E as [E I].
    apply Short with (b := b) (ns := s_namespace y) (m := s_member y); try assumption; try (intros ->; discriminate).
    + intros K. apply has_In in K. congruence.
    + now rewrite I.
Qed.
Lemma denotes_parse code ns id name : denotes code ns id name -> exists x, parse_error_code code ns = Ok (Some x) /\ s_id x = id /\ s_name x = name.
Proof.
  intros H. unfold parse_error_code. destruct code as [|c code].
  - exfalso. destruct H as [ns' m [_ [E | [r E]]] F | b ns' m [_ [E | [r E]]] _ Bn _ _ _].
    + subst id. now apply id_form_hash in F.
    + destruct id; discriminate.
    + now subst b.
    + destruct b; discriminate.
  - destruct H as [ns' m B F | b ns' m B Hn Bn Nn E F].
    + apply before_colon_iff in B. rewrite B. rewrite (proj2 (has_In 35 id)) by now apply id_form_hash in F.
      rewrite (form_new_id _ _ _ _ F). now eexists.
    + apply before_colon_iff in B. rewrite B. destruct (has 35 b) eqn:Hh; [apply has_In in Hh; contradiction|].
      destruct b as [|b0 b]; [congruence|]. destruct ns as [|n0 ns]; [congruence|]. cbn [blank orb].
      unfold Shape_Model.from_parts. change ((n0 :: ns) ++ 35%N :: b0 :: b) with ((n0 :: ns) ++ [35%N] ++ b0 :: b). rewrite <- E, (form_new_id _ _ _ _ F). now eexists.
Qed.
Lemma nameless_iff code ns : nameless code ns <-> parse_error_code code ns = Ok None.
Proof.
  unfold nameless, parse_error_code. split.
  - intros (b & B & Hn & E). destruct code as [|c code]; [reflexivity|]. apply before_colon_iff in B. rewrite B.
    destruct (has 35 b) eqn:Hh; [apply has_In in Hh; contradiction|]. destruct E as [-> | ->]; [reflexivity|]. now rewrite orb_true_r.
  - destruct code as [|c code].
    + intros _. exists []. split; [split; [intros [] | now left]|]. split; [intros [] | now left].
    + set (b := fst (cut_at 58 (c :: code))). intros H. exists b. split; [now apply before_colon_iff|]. destruct (has 35 b) eqn:Hh.
      * destruct (new_id b); discriminate.
      * split; [intros K; apply has_In in K; congruence|]. destruct (blank b) eqn:B1; [left; now apply blank_iff|].
        destruct (blank ns) eqn:B2; [right; now apply blank_iff|]. cbn [orb] in H. destruct (Shape_Model.from_parts ns b None); discriminate.
Qed.
Lemma resolve_error_id_spec errors i : 
  (exists pre e post, errors = pre ++ e :: post /\ (forall x, In x pre -> s_name x <> s_name i) /\ s_name e = s_name i /\ resolve_error_id errors i = e)
  \/ ((forall x, In x errors -> s_name x <> s_name i) /\ resolve_error_id errors i = i).
Proof.
  induction errors as [|e errors IH]; cbn [resolve_error_id]; [right; split; [intros x [] | reflexivity]|].
  destruct (text_eqb (s_name e) (s_name i)) eqn:E.
  - left. exists [], e, errors. apply text_eqb_eq in E. repeat split; [intros x [] | exact E].
  - apply text_eqb_neq in E. destruct IH as [(pre & x & post & -> & A & B & C) | [A B]].
    + left. exists (e :: pre), x, post. repeat split; try assumption. intros y [<- | Hy]; [exact E | now apply A].
    + right. split; [intros y [<- | Hy]; [exact E | now apply A] | exact B].
Qed.
