(** The patterns of rfc3986.py and the grammar of RFC 3986. *)
From Verif Require Import Base Base_Proofs PyText_Model PyText_Proofs PySort_Model Http_Model Uri_Model Uri_Spec.
Local Open Scope N_scope.

(** ** The language of a regular expression *)
Inductive lang : re -> text -> Prop :=
| L_eps : lang REps []
| L_chr p c : p c = true -> lang (RChar p) [c]
| L_cat a b s t : lang a s -> lang b t -> lang (RCat a b) (s ++ t)
| L_left a b s : lang a s -> lang (RAlt a b) s
| L_right a b s : lang b s -> lang (RAlt a b) s
| L_stop a : lang (RStar a) []
| L_more a s t : lang a s -> lang (RStar a) t -> lang (RStar a) (s ++ t).

Lemma lang_none s : ~ lang RNone s.
Proof. intros H. inversion H. Qed.
Lemma lang_eps s : lang REps s <-> s = [].
Proof. split; [intros H; now inversion H | intros ->; constructor]. Qed.
Lemma lang_char p s : lang (RChar p) s <-> exists c, s = [c] /\ p c = true.
Proof. split; [intros H; inversion H; eauto | intros (c & -> & H); now constructor]. Qed.
Lemma lang_cat a b s : lang (RCat a b) s <-> exists u v, s = u ++ v /\ lang a u /\ lang b v.
Proof. split; [intros H; inversion H; subst; eauto 6 | intros (u & v & -> & H & H'); now constructor]. Qed.
Lemma lang_alt a b s : lang (RAlt a b) s <-> lang a s \/ lang b s.
Proof. split; [intros H; inversion H; subst; auto | intros [H|H]; [now apply L_left | now apply L_right]]. Qed.
Lemma lang_star a s : lang (RStar a) s <-> exists l, Forall (lang a) l /\ s = List.concat l.
Proof.
  split.
  - intros H. remember (RStar a) as r eqn:E. induction H; try discriminate E.
    + exists []. split; constructor.
    + injection E as ->. destruct (IHlang2 eq_refl) as (l & F & ->). exists (s :: l). split; [now constructor | reflexivity].
  - intros (l & F & ->). induction F; cbn [List.concat]; now constructor.
Qed.
Lemma lang_smart_cat a b s : lang (cat a b) s <-> lang (RCat a b) s.
Proof.
  assert (N1 : forall x, lang RNone x <-> lang (RCat RNone b) x).
  { intros x. rewrite lang_cat. split; [intros H; inversion H | intros (u & v & _ & H & _); inversion H]. }
  assert (N2 : forall a x, lang RNone x <-> lang (RCat a RNone) x).
  { intros a' x. rewrite lang_cat. split; [intros H; inversion H | intros (u & v & _ & _ & H); inversion H]. }
  assert (E : forall x, lang b x <-> lang (RCat REps b) x).
  { intros x. rewrite lang_cat. split; [intros H; exists [], x; repeat split; auto; constructor|].
    intros (u & v & -> & H & H'). apply lang_eps in H. now subst u. }
  unfold cat. destruct a, b; try reflexivity; auto.
Qed.
Lemma lang_smart_alt a b s : lang (alt a b) s <-> lang (RAlt a b) s.
Proof.
  unfold alt. rewrite lang_alt. destruct a, b; rewrite ?lang_alt; try tauto;
    split; intros H; auto; destruct H as [H|H]; auto; now apply lang_none in H.
Qed.
Lemma nullable_spec r : nullable r = true <-> lang r [].
Proof.
  induction r; cbn [nullable].
  - split; [discriminate | intros H; inversion H].
  - split; constructor.
  - split; [discriminate | intros H; inversion H].
  - rewrite andb_true_iff, IHr1, IHr2, lang_cat. split; [intros [A B]; exists [], []; auto|].
    intros (u & v & E & A & B). destruct u; [|discriminate E]. destruct v; [auto | discriminate E].
  - rewrite orb_true_iff, IHr1, IHr2, lang_alt. tauto.
  - split; constructor.
Qed.
Lemma deriv_spec c r : forall s, lang (deriv c r) s <-> lang r (c :: s).
Proof.
  induction r; intros s; cbn [deriv].
  - split; intros H; inversion H.
  - split; intros H; inversion H.
  - rewrite lang_char. destruct (p c) eqn:P.
    + rewrite lang_eps. split; [intros ->; eauto|]. intros (d & E & _). now injection E.
    + split; [intros H; inversion H|]. intros (d & E & Q). injection E as E1 E2. subst. congruence.
  - assert (C : lang (cat (deriv c r1) r2) s <-> exists u v, s = u ++ v /\ lang r1 (c :: u) /\ lang r2 v).
    { rewrite lang_smart_cat, lang_cat. split; intros (u & v & E & A & B); exists u, v; (split; [exact E | split; [now apply IHr1 | exact B]]). }
    rewrite (lang_cat r1 r2). destruct (nullable r1) eqn:Nu.
    + rewrite lang_smart_alt, lang_alt, C, IHr2. apply nullable_spec in Nu. split.
      * intros [(u & v & -> & A & B)|B]; [now exists (c :: u), v | now exists [], (c :: s)].
      * intros ([|d u] & v & E & A & B); cbn in E; [right; now subst v|]. injection E as <- ->. left. eauto.
    + rewrite C. split.
      * intros (u & v & -> & A & B). now exists (c :: u), v.
      * intros ([|d u] & v & E & A & B); cbn in E.
        { apply nullable_spec in A. congruence. }
        injection E as <- ->. eauto.
  - rewrite lang_smart_alt, !lang_alt, IHr1, IHr2. reflexivity.
  - rewrite lang_smart_cat, lang_cat. split.
    + intros (u & v & -> & A & B). apply IHr in A. exact (L_more r (c :: u) v A B).
    + intros H. remember (c :: s) as w eqn:E. remember (RStar r) as q eqn:Q. revert c s E IHr. induction H; intros; try discriminate Q; try discriminate E.
      injection Q as ->. destruct s as [|d s].
      * cbn in E. now apply IHlang2.
      * cbn in E. injection E as <- <-. exists s, t. split; [reflexivity|]. split; [now apply IHr | exact H0].
Qed.
Lemma full_match_spec s : forall r, full_match r s = true <-> lang r s.
Proof. induction s as [|c s IH]; intros r; cbn [full_match]; [apply nullable_spec | rewrite IH; apply deriv_spec]. Qed.
Lemma anchored_spec r s : anchored r s = true <-> lang r s \/ exists t, s = t ++ [10] /\ lang r t.
Proof.
  unfold anchored. rewrite orb_true_iff, full_match_spec. apply or_iff_compat_l.
  split.
  - intros H. destruct (rev s) as [|c t] eqn:E; [discriminate H|].
    destruct (N.eq_dec c 10) as [->|Hn].
    + exists (rev t). split; [rewrite <- (rev_involutive s), E; reflexivity | now apply full_match_spec].
    + exfalso. destruct c as [|[[|[[]|[]|]|]|[[|[]|]|[[]|[]|]|]|]]; try discriminate H. now elim Hn.
  - intros (t & -> & L). rewrite rev_app_distr. cbn [rev app]. rewrite rev_involutive. now apply full_match_spec.
Qed.
Lemma lang_chr c s : lang (chr c) s <-> s = [c].
Proof. unfold chr. rewrite lang_char. split; [intros (d & -> & E); apply N.eqb_eq in E; now subst | intros ->; exists c; split; [reflexivity | apply N.eqb_refl]]. Qed.
Lemma lang_rlit t : forall s, lang (rlit t) s <-> s = t.
Proof.
  induction t as [|c t IH]; intros s; [apply lang_eps|]. destruct t as [|d t]; [apply lang_chr|].
  change (rlit (c :: d :: t)) with (RCat (chr c) (rlit (d :: t))). rewrite lang_cat. split.
  - intros (u & v & -> & A & B). apply lang_chr in A. apply IH in B. now subst.
  - intros ->. exists [c], (d :: t). split; [reflexivity|]. split; [now apply lang_chr | now apply IH].
Qed.
Lemma lang_times r n : forall s, lang (times n r) s <-> exists l, List.length l = n /\ Forall (lang r) l /\ s = List.concat l.
Proof.
  induction n as [|n IH]; intros s; cbn [times].
  - rewrite lang_eps. split; [intros ->; exists []; repeat split; constructor | intros (l & E & _ & ->); now destruct l].
  - rewrite lang_cat. split.
    + intros (u & v & -> & A & B). apply IH in B. destruct B as (l & E & F & ->). exists (u :: l). cbn. repeat split; auto.
    + intros ([|u l] & E & F & ->); [discriminate E|]. inversion F; subst. exists u, (List.concat l). split; [reflexivity|]. split; [assumption|]. apply IH. exists l. repeat split; auto.
Qed.
Lemma lang_upto r n : forall s, lang (upto n r) s <-> exists l, (List.length l <= n)%nat /\ Forall (lang r) l /\ s = List.concat l.
Proof.
  induction n as [|n IH]; intros s; cbn [upto].
  - rewrite lang_eps. split; [intros ->; exists []; repeat split; constructor | intros ([|x l] & E & _ & ->); [reflexivity | cbn in E; lia]].
  - rewrite lang_alt, lang_eps, lang_cat. split.
    + intros [->|(u & v & -> & A & B)]; [exists []; cbn; repeat split; auto; lia|]. apply IH in B. destruct B as (l & E & F & ->). exists (u :: l). cbn. repeat split; auto. lia.
    + intros ([|u l] & E & F & ->); [now left|]. right. inversion F; subst. exists u, (List.concat l). split; [reflexivity|]. split; [assumption|]. apply IH. exists l. repeat split; auto. cbn in E. lia.
Qed.
Lemma lang_opt r s : lang (opt r) s <-> s = [] \/ lang r s.
Proof. unfold opt. rewrite lang_alt, lang_eps. reflexivity. Qed.
Lemma lang_chars p l : Forall (lang (RChar p)) l -> List.length (List.concat l) = List.length l /\ Forall (fun c => p c = true) (List.concat l).
Proof.
  induction 1 as [|x l H F [IH1 IH2]]; [split; [reflexivity | constructor]|]. apply lang_char in H. destruct H as (c & -> & P). cbn. split; [now rewrite IH1 | now constructor].
Qed.
Lemma chars_lang p s : Forall (fun c => p c = true) s -> Forall (lang (RChar p)) (map (fun c => [c]) s) /\ List.concat (map (fun c => [c]) s) = s.
Proof. induction 1 as [|c s H F [IH1 IH2]]; [split; [constructor | reflexivity]|]. cbn. split; [constructor; [now constructor | assumption] | now rewrite IH2]. Qed.
Lemma lang_upto_char p n s : lang (upto n (RChar p)) s <-> (List.length s <= n)%nat /\ Forall (fun c => p c = true) s.
Proof.
  rewrite lang_upto. split.
  - intros (l & E & F & ->). destruct (lang_chars p l F) as [A B]. split; [now rewrite A | exact B].
  - intros (L & F). destruct (chars_lang p s F) as [A B]. exists (map (fun c => [c]) s). rewrite map_length. now rewrite B.
Qed.
Lemma lang_star_char p s : lang (RStar (RChar p)) s <-> Forall (fun c => p c = true) s.
Proof.
  rewrite lang_star. split.
  - intros (l & F & ->). now destruct (lang_chars p l F).
  - intros F. destruct (chars_lang p s F) as [A B]. exists (map (fun c => [c]) s). now rewrite B.
Qed.
Lemma lang_char_upto p n s : lang (RCat (RChar p) (upto n (RChar p))) s <-> (1 <= List.length s <= S n)%nat /\ Forall (fun c => p c = true) s.
Proof.
  rewrite lang_cat. split.
  - intros (u & v & -> & A & B). apply lang_char in A. destruct A as (c & -> & P). apply lang_upto_char in B. destruct B as [L F]. cbn. split; [lia | now constructor].
  - intros ([L1 L2] & F). destruct s as [|c s]; [cbn in L1; lia|]. inversion F; subst. exists [c], s. split; [reflexivity|]. split; [now constructor|]. apply lang_upto_char. split; [cbn in L2; lia | assumption].
Qed.
Lemma lang_plus_char p s : lang (plus (RChar p)) s <-> s <> [] /\ Forall (fun c => p c = true) s.
Proof.
  unfold plus. rewrite lang_cat. split.
  - intros (u & v & -> & A & B). apply lang_char in A. destruct A as (c & -> & P). apply lang_star_char in B. split; [discriminate | now constructor].
  - intros (L & F). destruct s as [|c s]; [now elim L|]. inversion F; subst. exists [c], s. split; [reflexivity|]. split; [now constructor | now apply lang_star_char].
Qed.

(** ** Characters *)
Lemma between_spec a b c : between a b c = true <-> a <= c <= b.
Proof. unfold between. rewrite andb_true_iff, !N.leb_le. reflexivity. Qed.
Lemma hex_spec c : hex c = true <-> hexdig c.
Proof. unfold hex, hexdig, a_digit. rewrite !orb_true_iff, !between_spec. tauto. Qed.
Lemma digit_spec c : digit c = true <-> a_digit c.
Proof. apply between_spec. Qed.
Lemma unreserved_spec c : unreserved_re c = true <-> unreserved c.
Proof.
  unfold unreserved_re, unreserved, letter, a_digit. rewrite !orb_true_iff, !between_spec, has_In.
  assert (E : In c (lit "._~-") <-> In c (lit "-._~")) by (cbn; tauto). rewrite E. tauto.
Qed.
Lemma sub_delim_spec c : sub_delimiters c = true <-> sub_delim c.
Proof. apply has_In. Qed.
Lemma Forall_iff {A} (P Q : A -> Prop) l : (forall x, P x <-> Q x) -> Forall P l <-> Forall Q l.
Proof. intros H. split; apply Forall_impl; intros a; apply H. Qed.

Lemma h16_spec s : lang HEXDIG_RE s <-> h16 s.
Proof. unfold HEXDIG_RE, h16. rewrite lang_char_upto. apply and_iff_compat_l, Forall_iff, hex_spec. Qed.
Lemma short_spec s : lang octet_re s <-> short_number s.
Proof. unfold octet_re, short_number. rewrite lang_char_upto. apply and_iff_compat_l, Forall_iff, digit_spec. Qed.
Lemma dotted_spec s : lang IPv4_RE s <-> dotted short_number s.
Proof.
  assert (O : forall x, lang (RCat octet_re (chr 46)) x <-> exists a, short_number a /\ x = a ++ [46]).
  { intros x. rewrite lang_cat. split.
    - intros (u & v & -> & A & B). apply lang_chr in B. apply short_spec in A. subst. eauto.
    - intros (a & A & ->). exists a, [46]. split; [reflexivity|]. split; [now apply short_spec | now apply lang_chr]. }
  unfold IPv4_RE. rewrite lang_cat. split.
  - intros (u & v & -> & A & B). apply lang_times in A. destruct A as (l & L & F & ->). apply short_spec in B.
    destruct l as [|x [|y [|z [|]]]]; try discriminate L. inversion F as [|? ? Fx F1]; subst. inversion F1 as [|? ? Fy F2]; subst. inversion F2 as [|? ? Fz F3]; subst.
    apply O in Fx, Fy, Fz. destruct Fx as (a & Ha & ->), Fy as (b & Hb & ->), Fz as (c & Hc & ->).
    exists a, b, c, v. repeat (split; [assumption|]). cbn. now rewrite app_nil_r, <- !app_assoc.
  - intros (a & b & c & d & Ha & Hb & Hc & Hd & ->). exists ((a ++ [46]) ++ (b ++ [46]) ++ (c ++ [46])), d.
    split; [cbn; now rewrite <- !app_assoc|]. split; [|now apply short_spec].
    apply lang_times. exists [a ++ [46]; b ++ [46]; c ++ [46]]. split; [reflexivity|]. split; [|cbn; now rewrite app_nil_r].
    repeat (apply Forall_cons; [apply O; eauto|]). apply Forall_nil.
Qed.

(** ** Groups of an IPv6 address *)
Definition colons (gs : list text) : text := List.concat (map (fun g => g ++ [58]) gs).
Lemma join_last gs g : join [58] (gs ++ [g]) = colons gs ++ g.
Proof.
  induction gs as [|h gs IH]; [reflexivity|]. cbn [app colons map List.concat]. fold (colons gs).
  destruct (gs ++ [g]) as [|x l] eqn:E; [now destruct gs|]. rewrite join_cons2, IH. now rewrite <- !app_assoc.
Qed.
Lemma colons_app a b : colons (a ++ b) = colons a ++ colons b.
Proof. unfold colons. now rewrite map_app, concat_app. Qed.
Lemma lang_hexc s : lang hexc s <-> exists g, h16 g /\ s = g ++ [58].
Proof.
  unfold hexc. rewrite lang_cat. split.
  - intros (u & v & -> & A & B). apply lang_chr in B. apply h16_spec in A. subst. eauto.
  - intros (g & G & ->). exists g, [58]. split; [reflexivity|]. split; [now apply h16_spec | now apply lang_chr].
Qed.
Lemma hexc_list l : Forall (lang hexc) l <-> exists gs, List.length gs = List.length l /\ Forall h16 gs /\ List.concat l = colons gs /\ l = map (fun g => g ++ [58]) gs.
Proof.
  split.
  - induction 1 as [|x l H F (gs & E & G & C & M)]; [exists []; repeat split; constructor|].
    apply lang_hexc in H. destruct H as (g & Hg & ->). exists (g :: gs). cbn. rewrite E, C. subst l. repeat split; auto.
  - intros (gs & _ & G & _ & ->). apply Forall_map. eapply Forall_impl; [|exact G]. intros g Hg. apply lang_hexc. eauto.
Qed.
Lemma lang_times_hexc n s : lang (times n hexc) s <-> exists gs, List.length gs = n /\ Forall h16 gs /\ s = colons gs.
Proof.
  rewrite lang_times. split.
  - intros (l & L & F & ->). apply hexc_list in F. destruct F as (gs & E & G & C & _). exists gs. rewrite E. auto.
  - intros (gs & L & G & ->). exists (map (fun g => g ++ [58]) gs). rewrite map_length. split; [exact L|]. split; [|reflexivity].
    apply hexc_list. exists gs. rewrite map_length. auto.
Qed.
Lemma lang_upto_hexc n s : lang (upto n hexc) s <-> exists gs, (List.length gs <= n)%nat /\ Forall h16 gs /\ s = colons gs.
Proof.
  rewrite lang_upto. split.
  - intros (l & L & F & ->). apply hexc_list in F. destruct F as (gs & E & G & C & _). exists gs. rewrite E. auto.
  - intros (gs & L & G & ->). exists (map (fun g => g ++ [58]) gs). rewrite map_length. split; [exact L|]. split; [|reflexivity].
    apply hexc_list. exists gs. rewrite map_length. auto.
Qed.
(** What stands before the double colon. *)
Lemma lang_before k s : lang (opt (RCat (upto k hexc) HEXDIG_RE)) s <-> exists gs, (List.length gs <= S k)%nat /\ Forall h16 gs /\ s = join [58] gs.
Proof.
  rewrite lang_opt, lang_cat. split.
  - intros [->|(u & v & -> & A & B)]; [exists []; cbn; repeat split; auto; lia|].
    apply lang_upto_hexc in A. destruct A as (gs & L & G & ->). apply h16_spec in B. exists (gs ++ [v]). rewrite app_length, join_last. cbn.
    split; [lia|]. split; [apply Forall_app; auto | reflexivity].
  - intros (gs & L & G & ->). destruct gs as [|g gs] using rev_ind; [now left|]. clear IHgs. right. rewrite join_last. rewrite app_length in L. cbn in L.
    apply Forall_app in G. destruct G as [G1 G2]. inversion G2; subst.
    exists (colons gs), g. split; [reflexivity|]. split; [|now apply h16_spec]. apply lang_upto_hexc. exists gs. split; [lia | auto].
Qed.
(** What ends with 32 bits. *)
Lemma lang_after m s : lang (RCat (times m hexc) LS32_RE) s <-> exists gs, groups short_number gs (m + 2) /\ s = join [58] gs.
Proof.
  rewrite lang_cat. split.
  - intros (u & v & -> & A & B). apply lang_times_hexc in A. destruct A as (gs & L & G & ->). unfold LS32_RE in B. rewrite lang_alt, dotted_spec in B. destruct B as [B|B].
    + apply lang_cat in B. destruct B as (a & r & -> & A & B). apply lang_cat in B. destruct B as (c & b & -> & C & B). apply lang_chr in C. subst c. apply h16_spec in A, B.
      exists ((gs ++ [a]) ++ [b]). split.
      * left. rewrite !app_length, L. cbn. split; [|lia]. apply Forall_app. split; [apply Forall_app; auto | auto].
      * rewrite join_last, colons_app, <- !app_assoc. cbn. now rewrite app_nil_r, <- app_assoc.
    + exists (gs ++ [v]). split; [right; exists gs, v; rewrite L; auto | now rewrite join_last].
  - intros (gs & [[G L]|(hs & v4 & -> & G & D & L)] & ->).
    + destruct gs as [|b gs _] using rev_ind; [cbn in L; lia|]. destruct gs as [|a gs _] using rev_ind; [cbn in L; lia|].
      rewrite !app_length in L. cbn in L. apply Forall_app in G. destruct G as [G Gb]. apply Forall_app in G. destruct G as [G Ga]. inversion Ga; inversion Gb; subst.
      exists (colons gs), (a ++ [58] ++ b). split; [rewrite join_last, colons_app, <- !app_assoc; cbn; now rewrite app_nil_r, <- app_assoc|].
      split; [apply lang_times_hexc; exists gs; split; [lia | auto]|].
      apply L_left. apply lang_cat. exists a, ([58] ++ b). split; [reflexivity|]. split; [now apply h16_spec|].
      apply lang_cat. exists [58], b. split; [reflexivity|]. split; [now apply lang_chr | now apply h16_spec].
    + exists (colons hs), v4. split; [apply join_last|]. split; [apply lang_times_hexc; exists hs; split; [lia | auto]|].
      apply L_right. now apply dotted_spec.
Qed.
(** A variation with a double colon. *)
Lemma lang_double x y s (P Q : list text -> Prop) :
  (forall t, lang x t <-> exists gs, P gs /\ t = join [58] gs) -> (forall t, lang y t <-> exists gs, Q gs /\ t = join [58] gs) ->
  lang (RCat x (RCat dcolon y)) s <-> exists b a, P b /\ Q a /\ s = join [58] b ++ lit "::" ++ join [58] a.
Proof.
  intros Hx Hy. rewrite lang_cat. split.
  - intros (u & v & -> & A & B). apply lang_cat in B. destruct B as (c & w & -> & C & B). apply lang_rlit in C. subst c.
    apply Hx in A. apply Hy in B. destruct A as (b & Hb & ->), B as (a & Ha & ->). exists b, a. auto.
  - intros (b & a & Hb & Ha & ->). exists (join [58] b), (lit "::" ++ join [58] a). split; [reflexivity|]. split; [apply Hx; eauto|].
    apply lang_cat. exists (lit "::"), (join [58] a). split; [reflexivity|]. split; [now apply lang_rlit | apply Hy; eauto].
Qed.
Definition befores (k : nat) (gs : list text) : Prop := (List.length gs <= k)%nat /\ Forall h16 gs.
Lemma before0 t : lang REps t <-> exists gs, befores 0 gs /\ t = join [58] gs.
Proof.
  rewrite lang_eps. split; [intros ->; exists []; repeat split; auto|]. intros ([|g gs] & [L _] & ->); [reflexivity | cbn in L; lia].
Qed.
Lemma before1 t : lang (opt HEXDIG_RE) t <-> exists gs, befores 1 gs /\ t = join [58] gs.
Proof.
  rewrite lang_opt, h16_spec. split.
  - intros [->|H]; [exists []; repeat split; auto|]. exists [t]. repeat split; auto.
  - intros ([|g [|]] & [L F] & ->); [now left | inversion F; now right | cbn in L; lia].
Qed.
Lemma before_k k t : lang (opt (RCat (upto k hexc) HEXDIG_RE)) t <-> exists gs, befores (S k) gs /\ t = join [58] gs.
Proof. rewrite lang_before. unfold befores. split; intros (gs & H); exists gs; tauto. Qed.
Lemma before2 t : lang (opt (RCat (opt hexc) HEXDIG_RE)) t <-> exists gs, befores 2 gs /\ t = join [58] gs.
Proof.
  rewrite <- (before_k 1). rewrite !lang_opt, !lang_cat. apply or_iff_compat_l.
  assert (E : forall u, lang (opt hexc) u <-> lang (upto 1 hexc) u).
  { intros u. unfold opt. cbn [upto]. rewrite !lang_alt, lang_cat. apply or_iff_compat_l. split.
    - intros H. exists u, []. rewrite app_nil_r. repeat split; auto. constructor.
    - intros (a & b & -> & A & B). apply lang_eps in B. subst. now rewrite app_nil_r. }
  split; intros (u & v & H & A & B); exists u, v; (split; [exact H | split; [now apply E | exact B]]).
Qed.
Lemma after0 t : lang REps t <-> exists gs, groups short_number gs 0 /\ t = join [58] gs.
Proof.
  rewrite lang_eps. split; [intros ->; exists []; split; [left; auto | reflexivity]|].
  intros (gs & [[_ L]|(hs & v & _ & _ & _ & L)] & ->); [now destruct gs | lia].
Qed.
Lemma after1 t : lang HEXDIG_RE t <-> exists gs, groups short_number gs 1 /\ t = join [58] gs.
Proof.
  rewrite h16_spec. split; [intros H; exists [t]; split; [left; auto | reflexivity]|].
  intros (gs & [[F L]|(hs & v & _ & _ & _ & L)] & ->); [|lia]. destruct gs as [|g [|]]; try discriminate L. now inversion F.
Qed.
Lemma after_m m t : lang (RCat (times m hexc) LS32_RE) t <-> exists gs, groups short_number gs (m + 2) /\ t = join [58] gs.
Proof. apply lang_after. Qed.
Lemma after2 t : lang LS32_RE t <-> exists gs, groups short_number gs 2 /\ t = join [58] gs.
Proof.
  rewrite <- (after_m 0). cbn [times]. rewrite <- lang_smart_cat. reflexivity.
Qed.
Lemma after3 t : lang (RCat hexc LS32_RE) t <-> exists gs, groups short_number gs 3 /\ t = join [58] gs.
Proof.
  rewrite <- (after_m 1). cbn [times]. rewrite !lang_cat. split; intros (u & v & -> & A & B).
  - exists u, v. repeat split; auto. apply lang_cat. exists u, []. rewrite app_nil_r. repeat split; auto. constructor.
  - exists u, v. repeat split; auto. apply lang_cat in A. destruct A as (a & b & -> & A & E). apply lang_eps in E. subst. now rewrite app_nil_r.
Qed.
Lemma last_eps x s : lang (RCat x dcolon) s <-> lang (RCat x (RCat dcolon REps)) s.
Proof.
  rewrite !lang_cat. split; intros (u & v & -> & A & B); exists u, v; (split; [reflexivity | split; [exact A|]]).
  - apply lang_cat. exists v, []. rewrite app_nil_r. repeat split; auto. constructor.
  - apply lang_cat in B. destruct B as (a & b & -> & B & E). apply lang_eps in E. subst. now rewrite app_nil_r.
Qed.
Lemma first_eps y s : lang (RCat dcolon y) s <-> lang (RCat REps (RCat dcolon y)) s.
Proof. now rewrite <- (lang_smart_cat REps). Qed.
Lemma ipv6_spec s : lang IPv6_RE s <-> ipv6 short_number s.
Proof.
  unfold IPv6_RE, variations. cbn [fold_right]. rewrite !lang_alt.
  rewrite (lang_after 6), first_eps, last_eps.
  rewrite (lang_double _ _ s _ _ before0 (after_m 5)), (lang_double _ _ s _ _ before1 (after_m 4)), (lang_double _ _ s _ _ before2 (after_m 3)),
    (lang_double _ _ s _ _ (before_k 2) (after_m 2)), (lang_double _ _ s _ _ (before_k 3) after3), (lang_double _ _ s _ _ (before_k 4) after2),
    (lang_double _ _ s _ _ (before_k 5) after1), (lang_double _ _ s _ _ (before_k 6) after0).
  assert (None : lang RNone s <-> False) by (split; [apply lang_none | intros []]). rewrite None.
  cbn [Nat.add]. unfold ipv6, befores. split.
  - intros H. destruct H as [(gs & G & ->)|H]; [left; now exists gs|]. right.
    repeat (destruct H as [(b & a & [L F] & G & ->)|H]; [exists b, a; eexists; split; [exact F|]; split; [exact G|]; split; [lia | reflexivity]|]). destruct H.
  - intros [(gs & G & ->)|(b & a & n & F & G & L & ->)]; [left; now exists gs|]. right.
    destruct n as [|[|[|[|[|[|[|[|n]]]]]]]]; [do 7 right; left | do 6 right; left | do 5 right; left | do 4 right; left | do 3 right; left | do 2 right; left | right; left | left | lia];
      exists b, a; repeat split; auto; lia.
Qed.

(** ** Encoded characters, zones, hosts *)
Lemma pct_spec s : lang PCT_ENCODED s <-> exists a b, s = [37; a; b] /\ hexdig a /\ hexdig b.
Proof.
  unfold PCT_ENCODED. rewrite lang_cat. split.
  - intros (u & v & -> & A & B). apply lang_chr in A. subst u. apply lang_times in B. destruct B as (l & L & F & ->).
    destruct (lang_chars hex l F) as [C D]. rewrite L in C. destruct (List.concat l) as [|a [|b [|]]]; try discriminate C.
    inversion D as [|? ? Ha D']; subst. inversion D' as [|? ? Hb _]; subst. apply hex_spec in Ha, Hb. now exists a, b.
  - intros (a & b & -> & A & B). exists [37], [a; b]. split; [reflexivity|]. split; [now apply lang_chr|].
    apply lang_times. exists [[a]; [b]]. split; [reflexivity|]. split; [repeat constructor; now apply hex_spec | reflexivity].
Qed.
Lemma encoded_spec p ok r s : (forall c, p c = true <-> ok c) -> (forall t, lang r t <-> lang PCT_ENCODED t \/ lang (RChar p) t) ->
  lang (RStar r) s <-> encoded ok s.
Proof.
  intros H R. rewrite lang_star. unfold encoded. split; intros (l & A & B); exists l.
  - split; [exact B|]. eapply Forall_impl; [|exact A]. intros t T. apply R in T. rewrite pct_spec, lang_char in T. destruct T as [T|(c & -> & T)]; [now right|]. left. exists c. split; [reflexivity | now apply H].
  - split; [|exact A]. eapply Forall_impl; [|exact B]. intros t T. apply R. rewrite pct_spec, lang_char. destruct T as [(c & -> & T)|T]; [right; exists c; split; [reflexivity | now apply H] | now left].
Qed.
Lemma reg_name_spec s : lang REG_NAME s <-> reg_name s.
Proof.
  apply (encoded_spec (fun c => sub_delimiters c || unreserved_re c)).
  - intros c. rewrite orb_true_iff, sub_delim_spec, unreserved_spec. tauto.
  - intros t. apply lang_alt.
Qed.
Lemma zone_id_spec s : lang ZONE_ID s <-> s <> [] /\ encoded unreserved s.
Proof.
  unfold ZONE_ID, plus. assert (R : forall t, lang (RAlt (RChar unreserved_re) PCT_ENCODED) t <-> lang PCT_ENCODED t \/ lang (RChar unreserved_re) t).
  { intros t. rewrite lang_alt. tauto. }
  rewrite <- (encoded_spec _ _ _ s unreserved_spec R). rewrite lang_cat. split.
  - intros (u & v & -> & A & B). split; [|now constructor]. apply R in A. rewrite pct_spec, lang_char in A. destruct A as [(a & b & -> & _)|(c & -> & _)]; discriminate.
  - intros (Ne & A). apply lang_star in A. destruct A as ([|x l] & F & ->); [now elim Ne|]. inversion F; subst. exists x, (List.concat l). split; [reflexivity|]. split; [assumption|]. apply lang_star. eauto.
Qed.
Lemma ipv6_zone_spec s : lang IPv6_ADDRZ_RFC4007_RE s <-> ipv6_zone short_number zone_marks s.
Proof.
  unfold IPv6_ADDRZ_RFC4007_RE, ipv6_zone. rewrite lang_cat.
  assert (Z : forall z, lang (opt (RCat (RAlt (rlit (lit "%25")) (chr 37)) ZONE_ID)) z <-> zone zone_marks z).
  { intros z. rewrite lang_opt, lang_cat. unfold zone. apply or_iff_compat_l. split.
    - intros (u & v & -> & A & B). apply zone_id_spec in B. destruct B as [Ne B]. exists u, v. rewrite lang_alt, lang_rlit, lang_chr in A. unfold zone_marks. cbn [In]. repeat split; auto. destruct A as [->| ->]; auto.
    - intros (m & v & I & Ne & B & ->). exists m, v. split; [reflexivity|]. split; [|now apply zone_id_spec]. rewrite lang_alt, lang_rlit, lang_chr. unfold zone_marks in I. destruct I as [<-|[<-|[]]]; auto. }
  split; intros (u & v & H1 & H2 & H3); exists u, v.
  - split; [now apply ipv6_spec|]. split; [now apply Z | exact H1].
  - split; [exact H3|]. split; [now apply ipv6_spec | now apply Z].
Qed.
Lemma future_spec s : lang IPv_FUTURE_RE s <-> ip_future (lit "v") s.
Proof.
  unfold IPv_FUTURE_RE, ip_future. rewrite lang_cat. split.
  - intros (u & v & -> & A & B). apply lang_chr in A. subst u. apply lang_cat in B. destruct B as (hs & w & -> & B & C). apply lang_plus_char in B. destruct B as [B1 B2].
    apply lang_cat in C. destruct C as (d & cs & -> & D & C). apply lang_chr in D. subst d. apply lang_plus_char in C. destruct C as [C1 C2].
    exists 118, hs, cs. split; [now left|]. split; [exact B1|]. split; [eapply Forall_impl; [|exact B2]; intros; now apply hex_spec|]. split; [exact C1|]. split; [|reflexivity].
    eapply Forall_impl; [|exact C2]. intros c Hc. cbn beta in Hc. rewrite !orb_true_iff, unreserved_spec, sub_delim_spec, N.eqb_eq in Hc. tauto.
  - intros (x & hs & cs & [<-|[]] & B1 & B2 & C1 & C2 & ->). exists [118], (hs ++ lit "." ++ cs). split; [reflexivity|]. split; [now apply lang_chr|].
    apply lang_cat. exists hs, (lit "." ++ cs). split; [reflexivity|]. split; [apply lang_plus_char; split; [exact B1 | eapply Forall_impl; [|exact B2]; intros; now apply hex_spec]|].
    apply lang_cat. exists (lit "."), cs. split; [reflexivity|]. split; [now apply lang_chr|]. apply lang_plus_char. split; [exact C1|].
    eapply Forall_impl; [|exact C2]. intros c Hc. cbn beta in Hc |- *. rewrite !orb_true_iff, unreserved_spec, sub_delim_spec, N.eqb_eq. tauto.
Qed.
Lemma brackets_spec r s : lang (RCat (chr 91) (RCat r (chr 93))) s <-> exists a, lang r a /\ s = [91] ++ a ++ [93].
Proof.
  rewrite lang_cat. split.
  - intros (u & v & -> & A & B). apply lang_chr in A. subst u. apply lang_cat in B. destruct B as (a & c & -> & B & C). apply lang_chr in C. subst c. eauto.
  - intros (a & A & ->). exists [91], (a ++ [93]). split; [reflexivity|]. split; [now apply lang_chr|]. apply lang_cat. exists a, [93]. split; [reflexivity|]. split; [exact A | now apply lang_chr].
Qed.
Lemma dotted_reg s : dotted short_number s -> reg_name s.
Proof.
  intros (a & b & c & d & [_ Ha] & [_ Hb] & [_ Hc] & [_ Hd] & ->).
  assert (F : Forall (fun x => a_digit x \/ x = 46) (a ++ lit "." ++ b ++ lit "." ++ c ++ lit "." ++ d)).
  { assert (D : forall l, Forall a_digit l -> Forall (fun x => a_digit x \/ x = 46) l) by (intros l; apply Forall_impl; auto).
    repeat (apply Forall_app; split; auto); constructor; auto. }
  revert F. generalize (a ++ lit "." ++ b ++ lit "." ++ c ++ lit "." ++ d). intros w F. exists (map (fun x => [x]) w). split.
  - clear F. induction w; cbn; congruence.
  - apply Forall_map. eapply Forall_impl; [|exact F]. intros x X. left. exists x. split; [reflexivity|]. left. unfold unreserved. destruct X as [X| ->]; [auto|]. right. right. cbn. auto.
Qed.
Lemma host_spec s : lang HOST_RE s <-> code_host s.
Proof.
  unfold HOST_RE, code_host, ip_literal. rewrite !lang_alt, reg_name_spec, dotted_spec. unfold IP_LITERAL_RE. rewrite brackets_spec. split.
  - intros [H|[H|(a & A & ->)]]; [now left | left; now apply dotted_reg|]. right. exists a. split; [|reflexivity]. now rewrite lang_alt, ipv6_zone_spec, future_spec in A.
  - intros [H|(a & A & ->)]; [now left|]. right. right. exists a. split; [|reflexivity]. now rewrite lang_alt, ipv6_zone_spec, future_spec.
Qed.

(** ** Hosts *)
Lemma app_last_inj {A} (x y : A) l l' : l ++ [x] = l' ++ [y] -> l = l' /\ x = y.
Proof. apply app_inj_tail. Qed.
Lemma ipv6_matcher_spec h : IPv6_MATCHER (bracketed h) = true <-> ipv6_zone short_number zone_marks h.
Proof.
  unfold IPv6_MATCHER, bracketed. rewrite anchored_spec, brackets_spec. split.
  - intros [(a & A & E)|(t & E & _)].
    + injection E as E. apply app_last_inj in E. destruct E as [-> _]. now apply ipv6_zone_spec.
    + rewrite app_assoc in E. apply app_last_inj in E. destruct E as [_ E]. discriminate E.
  - intros H. left. exists h. split; [now apply ipv6_zone_spec | reflexivity].
Qed.
(** A host, or one with a newline at its end. *)
Definition and_newline (P : text -> Prop) (h : text) : Prop := P h \/ exists b, h = b ++ [10] /\ P b.
Lemma anchored_iff r P h : (forall s, lang r s <-> P s) -> anchored r h = true <-> and_newline P h.
Proof.
  intros H. rewrite anchored_spec, H. apply or_iff_compat_l. split; intros (b & -> & B); exists b; (split; [reflexivity | now apply H]).
Qed.
Lemma host_ok_spec h : host_ok h = true <-> and_newline code_host h \/ ipv6_zone short_number zone_marks h.
Proof. unfold host_ok, HOST_MATCHER. rewrite orb_true_iff, ipv6_matcher_spec, (anchored_iff _ _ _ host_spec). reflexivity. Qed.

(** ** Characters of hosts *)
Definition name_char (c : N) : Prop := unreserved c \/ sub_delim c \/ c = 37.
Lemma hexdig_unreserved c : hexdig c -> unreserved c.
Proof. unfold hexdig, unreserved, letter. intros [H|[H|H]]; auto; left; lia. Qed.
Lemma encoded_chars ok s : encoded ok s -> Forall (fun c => ok c \/ unreserved c \/ c = 37) s.
Proof.
  intros (l & -> & F). induction F as [|x l H F IH]; [constructor|]. cbn [List.concat]. apply Forall_app. split; [|exact IH].
  destruct H as [(c & -> & H)|(a & b & -> & A & B)]; repeat (apply Forall_cons || apply Forall_nil); auto; right; left; now apply hexdig_unreserved.
Qed.
Lemma reg_chars s : reg_name s -> Forall name_char s.
Proof. intros H. apply encoded_chars in H. eapply Forall_impl; [|exact H]. unfold name_char. intros c. cbn beta. tauto. Qed.
Lemma h16_chars s : h16 s -> Forall hexdig s.
Proof. now intros [_ H]. Qed.
Lemma short_chars s : short_number s -> Forall a_digit s.
Proof. now intros [_ H]. Qed.
Definition quad_char (c : N) : Prop := a_digit c \/ c = 46.
Lemma dotted_chars s : dotted short_number s -> Forall quad_char s.
Proof.
  intros (a & b & c & d & [_ Ha] & [_ Hb] & [_ Hc] & [_ Hd] & ->).
  assert (D : forall l, Forall a_digit l -> Forall quad_char l) by (intros l; apply Forall_impl; unfold quad_char; auto).
  repeat (apply Forall_app; split; auto); constructor; unfold quad_char; auto.
Qed.
Definition six_char (c : N) : Prop := hexdig c \/ c = 46 \/ c = 58.
Lemma join_chars (P : N -> Prop) gs : P 58 -> Forall (Forall P) gs -> Forall P (join (lit ":") gs).
Proof.
  intros H F. induction F as [|x l Hx F IH]; [constructor|]. destruct l as [|y l]; [exact Hx|].
  rewrite join_cons2. apply Forall_app. split; [exact Hx|]. apply Forall_app. split; [constructor; [exact H | constructor] | exact IH].
Qed.
Lemma groups_chars gs n : groups short_number gs n -> Forall (Forall six_char) gs.
Proof.
  assert (A : forall l, Forall h16 l -> Forall (Forall six_char) l).
  { intros l. apply Forall_impl. intros g G. apply h16_chars in G. eapply Forall_impl; [|exact G]. unfold six_char. auto. }
  intros [[F _]|(hs & v & -> & F & D & _)]; [auto|]. apply Forall_app. split; [auto|]. constructor; [|constructor].
  apply dotted_chars in D. eapply Forall_impl; [|exact D]. unfold six_char, quad_char, hexdig. tauto.
Qed.
Lemma ipv6_chars s : ipv6 short_number s -> Forall six_char s.
Proof.
  assert (C : six_char 58) by (unfold six_char; auto).
  intros [(gs & G & ->)|(b & a & n & F & G & _ & ->)].
  - apply join_chars; [exact C | now apply groups_chars in G].
  - apply Forall_app. split; [apply join_chars; [exact C | now apply (groups_chars b (List.length b)); left]|].
    apply Forall_app. split; [repeat constructor; exact C|]. apply join_chars; [exact C | now apply groups_chars in G].
Qed.
Lemma groups_colon gs n : groups short_number gs n -> (3 <= n)%nat -> In 58 (join (lit ":") gs).
Proof.
  intros G L. assert (exists x y l, gs = x :: y :: l) as (x & y & l & ->).
  { destruct G as [[_ E]|(hs & v & -> & _ & _ & E)].
    - destruct gs as [|x [|y l]]; cbn in E; try lia. eauto.
    - destruct hs as [|x [|y l]]; cbn in E; try lia; cbn; eauto. }
  rewrite join_cons2. apply in_or_app. right. now left.
Qed.
Lemma ipv6_colon s : ipv6 short_number s -> In 58 s.
Proof.
  intros [(gs & G & ->)|(b & a & n & F & G & _ & ->)]; [eapply groups_colon; [exact G | lia]|].
  apply in_or_app. right. now left.
Qed.
Definition zone_char (c : N) : Prop := unreserved c \/ c = 37.
Lemma zone_chars z : zone zone_marks z -> Forall zone_char z.
Proof.
  intros [->|(m & z' & I & _ & E & ->)]; [constructor|]. apply Forall_app. split.
  - unfold zone_marks in I. destruct I as [<-|[<-|[]]]; cbn [lit]; repeat (apply Forall_cons; [unfold zone_char, unreserved, a_digit; first [right; reflexivity | left; right; left; cbn; lia]|]); apply Forall_nil.
  - apply encoded_chars in E. eapply Forall_impl; [|exact E]. unfold zone_char. cbn beta. tauto.
Qed.
Definition literal_char (c : N) : Prop := unreserved c \/ sub_delim c \/ c = 37 \/ c = 58.
Lemma six_literal c : six_char c -> literal_char c.
Proof.
  unfold six_char, literal_char. intros [H|[->| ->]]; auto; [left; now apply hexdig_unreserved|]. left. right. right. cbn. auto.
Qed.
Lemma ipv6_zone_chars s : ipv6_zone short_number zone_marks s -> Forall literal_char s.
Proof.
  intros (a & z & A & Z & ->). apply Forall_app. split.
  - apply ipv6_chars in A. eapply Forall_impl; [|exact A]. exact six_literal.
  - apply zone_chars in Z. eapply Forall_impl; [|exact Z]. unfold zone_char, literal_char. tauto.
Qed.
Lemma literal_inner a : ipv6_zone short_number zone_marks a \/ ip_future (lit "v") a -> Forall literal_char a.
Proof.
  intros [H|(x & hs & cs & [<-|[]] & _ & H & _ & C & ->)]; [now apply ipv6_zone_chars|].
  change ([N_of_ascii "v"] ++ hs ++ lit "." ++ cs) with (118 :: hs ++ 46 :: cs).
  constructor; [left; left; right; lia|]. apply Forall_app. split; [eapply Forall_impl; [|exact H]; intros c Hc; left; now apply hexdig_unreserved|].
  constructor; [left; right; right; cbn; auto|]. eapply Forall_impl; [|exact C]. unfold literal_char. cbn beta. tauto.
Qed.
(** Which characters are none of these. *)
Lemma name_no c : name_char c -> ~ In c (lit "/?#@[]:\ <>{}|^`") /\ c <> 34 /\ 32 < c < 127.
Proof.
  intros H. assert (B : 32 < c < 127).
  { destruct H as [[[H|H]|[H|H]]|[H| ->]]; try (unfold a_digit in *; lia); cbn in H; lia. }
  split; [|split; [|exact B]].
  - intros I. cbn in I. destruct H as [[[H|H]|[H|H]]|[H|H]]; unfold a_digit in *; cbn in H; lia.
  - intros ->. destruct H as [[[H|H]|[H|H]]|[H|H]]; unfold a_digit in *; cbn in H; lia.
Qed.
Lemma literal_no c : literal_char c -> ~ In c (lit "/?#@[]\ <>{}|^`") /\ c <> 34 /\ 32 < c < 127.
Proof.
  intros [H|[H|[H| ->]]].
  - destruct (name_no c) as (A & B & C); [now left|]. split; [|auto]. intros I. apply A. cbn in I |- *. tauto.
  - destruct (name_no c) as (A & B & C); [right; now left|]. split; [|auto]. intros I. apply A. cbn in I |- *. tauto.
  - destruct (name_no c) as (A & B & C); [right; now right|]. split; [|auto]. intros I. apply A. cbn in I |- *. tauto.
  - split; [|lia]. cbn. lia.
Qed.
