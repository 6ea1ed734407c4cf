(** Facts about sorting, the order of texts and decimal numbers. *)
From Verif Require Import Base Base_Proofs PySort_Model.
From Coq Require Import DecimalN DecimalFacts Permutation Sorted DecimalPos.
Local Open Scope N_scope.

Lemma text_leb_refl a : text_leb a a = true.
Proof. induction a as [|x a IH]; cbn [text_leb]; [reflexivity|]. now rewrite N.eqb_refl. Qed.
Lemma text_leb_total a : forall b, text_leb a b = true \/ text_leb b a = true.
Proof.
  induction a as [|x a IH]; intros [|y b]; cbn [text_leb]; auto.
  rewrite (N.eqb_sym y x). destruct (x =? y) eqn:E; [apply IH|]. apply N.eqb_neq in E. lia.
Qed.
Lemma text_leb_antisym a : forall b, text_leb a b = true -> text_leb b a = true -> a = b.
Proof.
  induction a as [|x a IH]; intros [|y b]; cbn [text_leb]; try discriminate; [reflexivity|].
  rewrite (N.eqb_sym y x). destruct (x =? y) eqn:E.
  - apply N.eqb_eq in E. subst y. intros H1 H2. f_equal. now apply IH.
  - apply N.eqb_neq in E. lia.
Qed.
Lemma text_leb_trans a : forall b c, text_leb a b = true -> text_leb b c = true -> text_leb a c = true.
Proof.
  induction a as [|x a IH]; intros [|y b] [|z c]; cbn [text_leb]; try discriminate; try reflexivity.
  destruct (x =? y) eqn:E1.
  - apply N.eqb_eq in E1. subst y. destruct (x =? z); [apply IH | trivial].
  - apply N.eqb_neq in E1. destruct (y =? z) eqn:E2.
    + apply N.eqb_eq in E2. subst z. intros H1 _. destruct (x =? y) eqn:E3; [lia | exact H1].
    + apply N.eqb_neq in E2. intros H1 H2. destruct (x =? z) eqn:E3; lia.
Qed.

Lemma pair_leb_total p q : pair_leb p q = true \/ pair_leb q p = true.
Proof.
  unfold pair_leb. destruct (text_eqb (fst p) (fst q)) eqn:E.
  - apply text_eqb_eq in E. rewrite E, text_eqb_refl. apply text_leb_total.
  - assert (E' : text_eqb (fst q) (fst p) = false) by (apply text_eqb_neq in E; apply text_eqb_neq; congruence).
    rewrite E'. apply text_leb_total.
Qed.
Lemma pair_leb_antisym p q : pair_leb p q = true -> pair_leb q p = true -> p = q.
Proof.
  destruct p as [a b], q as [c d]. unfold pair_leb. cbn [fst snd]. destruct (text_eqb a c) eqn:E.
  - apply text_eqb_eq in E. subst c. rewrite text_eqb_refl. intros H1 H2. f_equal. now apply text_leb_antisym.
  - apply text_eqb_neq in E. intros H1. destruct (text_eqb c a) eqn:E'; [apply text_eqb_eq in E'; congruence|].
    intros H2. now elim E; apply text_leb_antisym.
Qed.
Lemma pair_leb_trans p q r : pair_leb p q = true -> pair_leb q r = true -> pair_leb p r = true.
Proof.
  destruct p as [a b], q as [c d], r as [e f]. unfold pair_leb. cbn [fst snd].
  destruct (text_eqb a c) eqn:E1.
  - apply text_eqb_eq in E1. subst c. destruct (text_eqb a e) eqn:E2; [apply text_leb_trans | trivial].
  - destruct (text_eqb c e) eqn:E2.
    + apply text_eqb_eq in E2. subst e. rewrite E1. trivial.
    + intros H1 H2. assert (H := text_leb_trans _ _ _ H1 H2). destruct (text_eqb a e) eqn:E3; [|exact H].
      apply text_eqb_eq in E3. subst e. apply text_eqb_neq in E1. now elim E1; apply text_leb_antisym.
Qed.

Section Sort.
  Context {A : Type}.
  Variable leb : A -> A -> bool.
  Hypothesis total : forall a b, leb a b = true \/ leb b a = true.
  Hypothesis trans : forall a b c, leb a b = true -> leb b c = true -> leb a c = true.

  Definition Le (a b : A) : Prop := leb a b = true.

  Lemma insert_perm x l : Permutation (insert leb x l) (x :: l).
  Proof.
    induction l as [|y l IH]; cbn [insert]; [reflexivity|]. destruct (leb x y); [reflexivity|].
    rewrite IH. apply perm_swap.
  Qed.
  Lemma sorted_perm l : Permutation (sorted leb l) l.
  Proof. induction l as [|x l IH]; cbn [sorted]; [reflexivity|]. rewrite insert_perm. now constructor. Qed.

  Lemma insert_sorted x l : StronglySorted Le l -> StronglySorted Le (insert leb x l).
  Proof.
    induction l as [|y l IH]; cbn [insert]; intros H.
    - constructor; constructor.
    - inversion H as [|? ? H1 H2]; subst. destruct (leb x y) eqn:E.
      + constructor; [exact H|]. constructor; [exact E|]. eapply Forall_impl; [|exact H2].
        intros z Hz. eapply trans; eassumption.
      + constructor; [now apply IH|]. rewrite insert_perm. constructor; [|exact H2].
        destruct (total x y) as [T | T]; [congruence | exact T].
  Qed.
  Lemma sorted_sorted l : StronglySorted Le (sorted leb l).
  Proof. induction l as [|x l IH]; cbn [sorted]; [constructor | now apply insert_sorted]. Qed.

  Hypothesis antisym : forall a b, leb a b = true -> leb b a = true -> a = b.

  Lemma sorted_unique l1 : forall l2, StronglySorted Le l1 -> StronglySorted Le l2 -> Permutation l1 l2 -> l1 = l2.
  Proof.
    induction l1 as [|x l1 IH]; intros l2 S1 S2 P.
    - apply Permutation_nil in P. now subst.
    - destruct l2 as [|y l2]; [apply Permutation_sym, Permutation_nil in P; discriminate P|].
      inversion S1 as [|? ? A1 A2]; inversion S2 as [|? ? B1 B2]; subst.
      assert (E : x = y).
      { assert (X : In x (y :: l2)) by (eapply Permutation_in; [exact P | now left]).
        assert (Y : In y (x :: l1)) by (eapply Permutation_in; [apply Permutation_sym; exact P | now left]).
        destruct X as [X | X]; [now symmetry|]. destruct Y as [Y | Y]; [exact Y|].
        rewrite Forall_forall in A2, B2. apply antisym; [apply A2, Y | apply B2, X]. }
      subst y. f_equal. apply IH; try assumption. eapply Permutation_cons_inv; exact P.
  Qed.

  Lemma sorted_of_perm l1 l2 : Permutation l1 l2 -> sorted leb l1 = sorted leb l2.
  Proof.
    intros P. apply sorted_unique; try apply sorted_sorted. rewrite !sorted_perm. exact P.
  Qed.
  Lemma sorted_is l s : StronglySorted Le s -> Permutation s l -> sorted leb l = s.
  Proof. intros S P. apply sorted_unique; [apply sorted_sorted | exact S |]. rewrite sorted_perm. now symmetry. Qed.
End Sort.

(** ** Decimal numbers *)

Lemma digits_val_app s : forall acc t, digits_val acc (s ++ t) =
  match digits_val acc s with Some n => digits_val n t | None => None end.
Proof. induction s as [|c s IH]; intros acc t; cbn [app digits_val]; [reflexivity|]. destruct (_ && _); [apply IH | reflexivity]. Qed.

Lemma uint_acc d : forall p, digits_val (Npos p) (uint_text d) = Some (Npos (Pos.of_uint_acc d p)).
Proof.
  induction d; intros p; cbn [uint_text digits_val Pos.of_uint_acc]; [reflexivity|..];
    match goal with |- (if ?b then _ else _) = _ => change b with true; cbn match end; rewrite <- IHd; f_equal; lia.
Qed.
Lemma uint_val d : digits_val 0 (uint_text d) = Some (N.of_uint d).
Proof.
  induction d; cbn [uint_text digits_val]; [reflexivity|..];
    match goal with |- (if ?b then _ else _) = _ => change b with true; cbn match end.
  - exact IHd.
  - apply (uint_acc d 1).
  - apply (uint_acc d 2).
  - apply (uint_acc d 3).
  - apply (uint_acc d 4).
  - apply (uint_acc d 5).
  - apply (uint_acc d 6).
  - apply (uint_acc d 7).
  - apply (uint_acc d 8).
  - apply (uint_acc d 9).
Qed.
Lemma dec_nonempty n : dec n <> [].
Proof.
  unfold dec. intros H. assert (E := DecimalN.Unsigned.of_to n).
  destruct n as [|p]; [discriminate H|].
  destruct (N.to_uint (Npos p)) eqn:U; cbn in H; try discriminate H. cbn in E. discriminate E.
Qed.
Lemma parse_dec_dec n : parse_dec (dec n) = Some n.
Proof.
  unfold parse_dec. assert (H := dec_nonempty n). destruct (dec n) eqn:E; [now elim H|]. rewrite <- E.
  unfold dec. rewrite uint_val, DecimalN.Unsigned.of_to. reflexivity.
Qed.
Lemma dec_inj a b : dec a = dec b -> a = b.
Proof. intros H. apply (f_equal parse_dec) in H. rewrite !parse_dec_dec in H. congruence. Qed.
Lemma uint_text_digits d c : In c (uint_text d) -> 48 <= c <= 57.
Proof. induction d; cbn [uint_text]; [intros [] | intros [H | H]; [lia | auto] ..]. Qed.
Lemma dec_digits n c : In c (dec n) -> 48 <= c <= 57.
Proof. apply uint_text_digits. Qed.
