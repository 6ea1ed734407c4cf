(** Proofs about path patterns. *)
From Verif Require Import Base Base_Proofs Utf8_Model Utf8_Proofs PyText_Model PyText_Proofs PyDict_Model PyDict_Proofs
  Http_Model Http_Spec Http_Proofs.
Local Open Scope N_scope.

Section Path.
  Variable uni_word : N -> bool.

  Lemma name_char_word c : name_char c = true -> is_word uni_word c = true.
  Proof.
    intros H. unfold is_word. replace (c <? 128) with true; [exact H|]. symmetry. apply N.ltb_lt.
    unfold name_char in H. rewrite !orb_true_iff, !andb_true_iff, !N.leb_le, N.eqb_eq in H. lia.
  Qed.
  Lemma name_char_not c : name_char c = true -> c <> 123 /\ c <> 125 /\ c <> 43 /\ c <> 33 /\ c <> 58 /\ c <> 46 /\ c <> 91.
  Proof. unfold name_char. rewrite !orb_true_iff, !andb_true_iff, !N.leb_le, N.eqb_eq. lia. Qed.
  Lemma label_notin n c : label_name n -> name_char c = false -> ~ In c n.
  Proof. intros [H _] E Hin. apply H in Hin. congruence. Qed.
  Lemma label_nonempty n : label_name n -> exists c r, n = c :: r.
  Proof. intros [_ (c & Hc & _)]. destruct n; [destruct Hc|eauto]. Qed.

  Lemma take_word_app n c r : (forall x, In x n -> name_char x = true) -> is_word uni_word c = false ->
    take_word uni_word (n ++ c :: r) = (n, c :: r).
  Proof.
    intros H Hc. induction n as [|x n IH]; cbn [app take_word]; [rewrite Hc; reflexivity|].
    rewrite (name_char_word x) by (apply H; left; reflexivity).
    rewrite IH by (intros y Hy; apply H; right; exact Hy). reflexivity.
  Qed.

  Lemma greedy_skip t r : ~ In 123 t -> greedy_labels uni_word (t ++ r) = greedy_labels uni_word r.
  Proof.
    induction t as [|c t IH]; intros H; [reflexivity|]. cbn [app greedy_labels].
    destruct (N.eqb_spec c 123) as [->|_]; [exfalso; apply H; left; reflexivity|].
    apply IH. intros Hx; apply H; right; exact Hx.
  Qed.
  Lemma greedy_cons r : greedy_labels uni_word (123 :: r) =
    match take_word uni_word r with
    | ((_ :: _) as w, 43 :: 125 :: _) => w :: greedy_labels uni_word r
    | _ => greedy_labels uni_word r
    end.
  Proof. reflexivity. Qed.

  Fixpoint greedy_of (ps : list piece) : list text :=
    match ps with [] => [] | Greedy n :: r => n :: greedy_of r | _ :: r => greedy_of r end.
  Lemma greedy_of_In n ps : In n (greedy_of ps) <-> In (Greedy n) ps.
  Proof.
    induction ps as [|p ps IH]; cbn [greedy_of]; [tauto|].
    destruct p; cbn [In]; rewrite IH; split; intros H; auto; destruct H as [H|H]; auto; try discriminate H;
      [left; congruence|injection H as ->; auto].
  Qed.
  Lemma greedy_labels_show ps : Forall good_piece ps -> greedy_labels uni_word (show ps) = greedy_of ps.
  Proof.
    induction ps as [|p ps IH]; intros H; [reflexivity|]. inversion H as [|? ? Hp Hps]; subst.
    change (show (p :: ps)) with (show_piece p ++ show ps). specialize (IH Hps).
    destruct p as [t|n|n]; cbn [show_piece greedy_of good_piece] in *.
    - rewrite greedy_skip by apply Hp. exact IH.
    - assert (N123 : ~ In 123 n) by (apply label_notin; auto).
      replace (([123] ++ n ++ [125]) ++ show ps) with (123 :: n ++ 125 :: show ps)
        by (cbn [app]; rewrite <- app_assoc; reflexivity).
      rewrite greedy_cons, take_word_app; [|apply Hp|reflexivity].
      destruct (label_nonempty n Hp) as (c & r & ->).
      rewrite greedy_skip by exact N123. exact IH.
    - assert (N123 : ~ In 123 n) by (apply label_notin; auto).
      replace (([123] ++ n ++ [43; 125]) ++ show ps) with (123 :: n ++ 43 :: 125 :: show ps)
        by (cbn [app]; rewrite <- app_assoc; reflexivity).
      rewrite greedy_cons, take_word_app; [|apply Hp|reflexivity].
      destruct (label_nonempty n Hp) as (c & r & ->).
      rewrite greedy_skip by exact N123. cbn [greedy_labels N.eqb Pos.eqb]. f_equal. exact IH.
  Qed.

  (** The pattern without the plus signs. *)
  Definition plain_piece (p : piece) : piece := match p with Greedy n => Label n | _ => p end.
  Definition not_close (r : text) : Prop := forall d r', r = d :: r' -> d <> 125.
  Lemma drop_plus_lit t r : ~ In 125 t -> not_close r -> drop_plus (t ++ r) = t ++ drop_plus r.
  Proof.
    intros Ht Hr. induction t as [|c t IH]; [reflexivity|].
    assert (Ht' : ~ In 125 t) by (intros Hx; apply Ht; right; exact Hx). specialize (IH Ht').
    cbn [app drop_plus]. destruct (c =? 43) eqn:E; [|rewrite IH; reflexivity].
    destruct (t ++ r) as [|d tr] eqn:Etr.
    - apply app_eq_nil in Etr. destruct Etr as [-> ->]. reflexivity.
    - assert (Hd : d <> 125).
      { destruct t as [|x t]; cbn [app] in Etr.
        - eapply Hr; exact Etr.
        - injection Etr as -> _. intros ->. apply Ht'. left; reflexivity. }
      apply N.eqb_neq in Hd. rewrite Hd, IH. reflexivity.
  Qed.
  Lemma show_not_close ps : Forall good_piece ps -> not_close (show ps).
  Proof.
    induction ps as [|p ps IH]; intros H d r' E; [discriminate E|]. inversion H as [|? ? Hp Hps]; subst.
    change (show (p :: ps)) with (show_piece p ++ show ps) in E.
    destruct p as [t|n|n]; cbn [show_piece app] in E; [|injection E as <- _; discriminate|injection E as <- _; discriminate].
    destruct t as [|c t]; cbn [app] in E; [eapply IH; eauto|]. injection E as -> _.
    intros ->. apply (proj2 Hp). left; reflexivity.
  Qed.
  Lemma drop_plus_close r : drop_plus (125 :: r) = 125 :: drop_plus r.
  Proof. reflexivity. Qed.
  Lemma drop_plus_open r : drop_plus (123 :: r) = 123 :: drop_plus r.
  Proof. reflexivity. Qed.
  Lemma drop_plus_word n r : (forall c, In c n -> name_char c = true) -> drop_plus (n ++ r) = n ++ drop_plus r.
  Proof.
    induction n as [|c n IH]; intros H; [reflexivity|]. cbn [app drop_plus].
    destruct (name_char_not c (H c (or_introl eq_refl))) as (_ & _ & H43 & _).
    apply N.eqb_neq in H43. rewrite H43, IH; [reflexivity|]. intros x Hx; apply H; right; exact Hx.
  Qed.
  Lemma drop_plus_show ps : Forall good_piece ps -> drop_plus (show ps) = show (map plain_piece ps).
  Proof.
    induction ps as [|p ps IH]; intros H; [reflexivity|]. inversion H as [|? ? Hp Hps]; subst.
    specialize (IH Hps). cbn [map].
    change (show (p :: ps)) with (show_piece p ++ show ps).
    change (show (plain_piece p :: map plain_piece ps)) with (show_piece (plain_piece p) ++ show (map plain_piece ps)).
    destruct p as [t|n|n]; cbn [show_piece plain_piece good_piece] in *.
    - rewrite drop_plus_lit; [rewrite IH; reflexivity|apply Hp|apply show_not_close; exact Hps].
    - replace (([123] ++ n ++ [125]) ++ show ps) with (123 :: n ++ 125 :: show ps)
        by (cbn [app]; rewrite <- app_assoc; reflexivity).
      rewrite drop_plus_open, drop_plus_word, drop_plus_close, IH by apply Hp.
      cbn [app]. rewrite <- app_assoc. reflexivity.
    - replace (([123] ++ n ++ [43; 125]) ++ show ps) with (123 :: n ++ 43 :: 125 :: show ps)
        by (cbn [app]; rewrite <- app_assoc; reflexivity).
      rewrite drop_plus_open, drop_plus_word by apply Hp.
      change (drop_plus (43 :: 125 :: show ps)) with (125 :: drop_plus (show ps)). rewrite IH.
      cbn [app]. rewrite <- app_assoc. reflexivity.
  Qed.

  (** Formatting. *)
  Definition value (kwargs : list (text * text)) (n : text) : text :=
    match dict_get n kwargs with Some v => v | None => [] end.
  Definition bound (kwargs : list (text * text)) (p : piece) : bool :=
    match p with Lit _ => true | Label n | Greedy n => dict_has n kwargs end.

  Lemma format_lit kwargs t r : ~ In 123 t -> ~ In 125 t ->
    str_format kwargs None (t ++ r) = (do x <- str_format kwargs None r; Ok (t ++ x)).
  Proof.
    induction t as [|c t IH]; intros H1 H2.
    - cbn [app]. destruct (str_format kwargs None r); reflexivity.
    - cbn [app str_format].
      destruct (N.eqb_spec c 123) as [->|_]; [exfalso; apply H1; left; reflexivity|].
      destruct (N.eqb_spec c 125) as [->|_]; [exfalso; apply H2; left; reflexivity|].
      rewrite IH; [|intros Hx; apply H1; right; exact Hx|intros Hx; apply H2; right; exact Hx].
      destruct (str_format kwargs None r); reflexivity.
  Qed.
  Lemma format_field kwargs n r : forall acc, ~ In 125 n ->
    str_format kwargs (Some acc) (n ++ 125 :: r)
    = (do v <- field_value kwargs (acc ++ n); do x <- str_format kwargs None r; Ok (v ++ x)).
  Proof.
    induction n as [|c n IH]; intros acc H; cbn [app str_format].
    - rewrite app_nil_r. reflexivity.
    - destruct (N.eqb_spec c 125) as [->|_]; [exfalso; apply H; left; reflexivity|].
      rewrite IH by (intros Hx; apply H; right; exact Hx). rewrite <- app_assoc. reflexivity.
  Qed.
  Lemma field_value_label kwargs n : label_name n ->
    field_value kwargs n = match dict_get n kwargs with Some v => Ok v | None => Err KeyError end.
  Proof.
    intros [H1 (c & Hc & Hd)]. unfold field_value.
    replace (existsb _ n) with false.
    - replace (forallb is_digit n) with false; [reflexivity|]. symmetry.
      destruct (forallb is_digit n) eqn:E; [|reflexivity]. rewrite forallb_forall in E. specialize (E c Hc).
      unfold is_digit in E. rewrite andb_true_iff, !N.leb_le in E. lia.
    - symmetry. match goal with |- ?e = false => destruct e eqn:E; [|reflexivity] end.
      apply existsb_exists in E. destruct E as (x & Hx & E). apply H1, name_char_not in Hx.
      rewrite !orb_true_iff, !N.eqb_eq in E. lia.
  Qed.
  Lemma format_show kwargs ps : Forall good_piece ps ->
    str_format kwargs None (show (map plain_piece ps))
    = if forallb (bound kwargs) ps then Ok (fill (value kwargs) ps) else Err KeyError.
  Proof.
    induction ps as [|p ps IH]; intros H; [reflexivity|]. inversion H as [|? ? Hp Hps]; subst.
    specialize (IH Hps). cbn [map forallb].
    change (show (plain_piece p :: map plain_piece ps)) with (show_piece (plain_piece p) ++ show (map plain_piece ps)).
    change (fill (value kwargs) (p :: ps)) with (fill_piece (value kwargs) p ++ fill (value kwargs) ps).
    assert (L : forall n, label_name n ->
      str_format kwargs None (([123] ++ n ++ [125]) ++ show (map plain_piece ps))
      = if dict_has n kwargs && forallb (bound kwargs) ps then Ok (value kwargs n ++ fill (value kwargs) ps) else Err KeyError).
    { intros n Hn.
      replace (([123] ++ n ++ [125]) ++ show (map plain_piece ps)) with (123 :: n ++ 125 :: show (map plain_piece ps))
        by (cbn [app]; rewrite <- app_assoc; reflexivity).
      assert (E : str_format kwargs None (123 :: n ++ 125 :: show (map plain_piece ps))
                  = str_format kwargs (Some []) (n ++ 125 :: show (map plain_piece ps))).
      { destruct (label_nonempty n Hn) as (c & r & ->). cbn [app].
        destruct (name_char_not c (proj1 Hn c (or_introl eq_refl))) as (N1 & _). apply N.eqb_neq in N1.
        cbn [str_format N.eqb Pos.eqb]. rewrite N1. reflexivity. }
      rewrite E, format_field by (apply label_notin; auto).
      cbn [app]. rewrite field_value_label by exact Hn. unfold dict_has, value.
      destruct (dict_get n kwargs) as [v|]; cbn [bind andb]; [|reflexivity].
      rewrite IH. destruct (forallb (bound kwargs) ps); reflexivity. }
    destruct p as [t|n|n]; cbn [show_piece plain_piece good_piece bound fill_piece] in *.
    - rewrite format_lit by apply Hp. rewrite IH. destruct (forallb (bound kwargs) ps); reflexivity.
    - apply L; exact Hp.
    - apply L; exact Hp.
  Qed.

  (** What [format] gives, for every pattern in the syntax. *)
  Theorem path_format_ok ps kwargs path : Forall good_piece ps ->
    path_format uni_word (show ps) kwargs = Ok path <->
      (forall n v, In (n, v) kwargs -> In 47 v -> is_greedy n ps) /\
      (forall n, is_label n ps -> exists v, dict_get n kwargs = Some v) /\
      path = fill (value kwargs) ps /\ has_sub [47; 47] path = false.
  Proof.
    intros Hg. unfold path_format. rewrite greedy_labels_show, drop_plus_show, format_show by exact Hg.
    assert (B : forallb (bound kwargs) ps = true <-> forall n, is_label n ps -> exists v, dict_get n kwargs = Some v).
    { rewrite forallb_forall. unfold is_label, bound, dict_has. split.
      - intros H n [Hn|Hn]; apply H in Hn; destruct (dict_get n kwargs); eauto; discriminate Hn.
      - intros H p Hp. destruct p as [t|n|n]; [reflexivity| |];
          destruct (H n) as (v & ->); auto. }
    match goal with |- context [if existsb ?f kwargs then _ else _] => destruct (existsb f kwargs) eqn:Ex end.
    - split; [intros H; discriminate H|]. intros (H & _). exfalso.
      apply existsb_exists in Ex. destruct Ex as ([n v] & Hin & E). cbn [fst snd] in E.
      apply andb_true_iff in E. destruct E as [E1 E2]. apply has_In in E1.
      specialize (H n v Hin E1). apply greedy_of_In, mem_text_In in H. rewrite H in E2. discriminate E2.
    - assert (S : forall n v, In (n, v) kwargs -> In 47 v -> is_greedy n ps).
      { intros n v Hin Hv. apply greedy_of_In, mem_text_In.
        destruct (mem_text n (greedy_of ps)) eqn:Em; [reflexivity|]. exfalso.
        assert (X : existsb (fun kv => has SLASH (snd kv) && negb (mem_text (fst kv) (greedy_of ps))) kwargs = true).
        { apply existsb_exists. exists (n, v). split; [exact Hin|]. cbn [fst snd]. rewrite Em.
          apply has_In in Hv. unfold SLASH. rewrite Hv. reflexivity. }
        congruence. }
      destruct (forallb (bound kwargs) ps) eqn:Eb; cbn [bind].
      + unfold SLASH. destruct (has_sub [47; 47] (fill (value kwargs) ps)) eqn:Es.
        * split; [intros H; discriminate H|]. intros (_ & _ & -> & E). congruence.
        * split; [intros H; injection H as <-; repeat split; auto; apply B; reflexivity|].
          intros (_ & _ & -> & _). reflexivity.
      + split; [intros H; discriminate H|]. intros (_ & H & _). apply B in H. congruence.
  Qed.

  (** Segments. *)
  Lemma fill_app val a b : fill val (a ++ b) = fill val a ++ fill val b.
  Proof. unfold fill. rewrite map_app, concat_app. reflexivity. Qed.
  Lemma fill_segments val segs : segs <> [] ->
    fill val (segments segs) = join [47] (map (fill val) segs).
  Proof.
    destruct segs as [|s r]; [congruence|]. intros _. cbn [segments]. revert s.
    induction r as [|s' r IH]; intros s.
    - cbn [flat_map map join]. rewrite app_nil_r. reflexivity.
    - cbn [flat_map map]. rewrite join_cons2. specialize (IH s'). cbn [map] in IH. rewrite <- IH.
      rewrite (fill_app val s). cbn [app]. reflexivity.
  Qed.
  Lemma split_join_flat c ps : ps <> [] -> split_on c (join [c] ps) = flat_map (split_on c) ps.
  Proof.
    induction ps as [|p ps IH]; [congruence|]. intros _. destruct ps as [|q ps].
    - cbn [join flat_map]. rewrite app_nil_r. reflexivity.
    - rewrite join_cons2. cbn [app]. rewrite split_on_app2, IH by discriminate. reflexivity.
  Qed.
  Lemma plain_fill_no_slash val seg : Forall no_slash seg -> only_plain seg ->
    (forall n, In (Label n) seg -> ~ In 47 (val n)) -> ~ In 47 (fill val seg).
  Proof.
    intros H1 H2 H3 Hin. unfold fill in Hin. apply in_concat in Hin. destruct Hin as (x & Hx & Hc).
    apply in_map_iff in Hx. destruct Hx as (p & <- & Hp). rewrite Forall_forall in H1. specialize (H1 p Hp).
    destruct p as [t|n|n]; cbn [fill_piece no_slash] in *; [tauto|eapply H3; eauto|eapply H2; exact Hp].
  Qed.
  Lemma no_double_inner s : has_sub [47; 47] s = false ->
    forall a p b, split_on 47 s = a ++ p :: b -> a <> [] -> b <> [] -> p <> [].
  Proof.
    intros Hs a p b E Ha Hb ->. assert (X : has_sub [47; 47] s = true); [|congruence].
    apply has_sub_spec. rewrite <- (join_split_on 47 s), E.
    assert (J : forall a b, a <> [] -> b <> [] -> join [47] (a ++ [] :: b) = join [47] a ++ [47; 47] ++ join [47] b).
    { clear. induction a as [|x a IH]; intros b Ha Hb; [congruence|]. destruct a as [|y a].
      - destruct b as [|z b]; [congruence|]. cbn [app]. rewrite !join_cons2. reflexivity.
      - change ((x :: y :: a) ++ [] :: b) with (x :: y :: (a ++ [] :: b)). rewrite join_cons2.
        change (y :: (a ++ [] :: b)) with ((y :: a) ++ [] :: b). rewrite IH; [|discriminate|exact Hb].
        rewrite join_cons2, <- !app_assoc. reflexivity. }
    rewrite J by assumption. eauto.
  Qed.

  (** The serializer. *)
  Lemma label_values_spec pattern labels : forall acc kwargs,
    label_values uni_word pattern labels acc = Ok kwargs -> NoDup (map fst labels) ->
    (forall n, ~ In n (map fst labels) -> dict_get n kwargs = dict_get n acc) /\
    (forall n v, In (n, v) labels -> exists q, label_value uni_word pattern n v = Ok q /\ dict_get n kwargs = Some q) /\
    (forall n q, In (n, q) kwargs -> In (n, q) acc \/ exists v, In (n, v) labels /\ label_value uni_word pattern n v = Ok q).
  Proof.
    induction labels as [|[k v] rest IH]; intros acc kwargs; cbn [label_values map fst].
    - intros H _; injection H as <-. repeat split; auto. intros n v [].
    - destruct (label_value uni_word pattern k v) as [q|] eqn:Eq; [|discriminate]. cbn [bind].
      intros H Hnd. inversion Hnd as [|? ? Hk Hnd']; subst. destruct (IH _ _ H Hnd') as (A & B & C). repeat split.
      + intros n Hn. rewrite A by (intros Hx; apply Hn; right; exact Hx).
        apply dict_get_set_ne. intros ->. apply Hn; left; reflexivity.
      + intros n w [E|Hin]; [|apply B; exact Hin]. injection E as <- <-. exists q. split; [exact Eq|].
        rewrite A by exact Hk. apply dict_get_set_eq.
      + intros n w Hin. destruct (C n w Hin) as [Hi|(x & Hx & Ex)]; [|right; exists x; split; [right; exact Hx|exact Ex]].
        apply dict_set_In in Hi. destruct Hi as [E|Hi]; [|left; exact Hi]. injection E as -> ->.
        right. exists v. split; [left; reflexivity|exact Eq].
  Qed.
End Path.
