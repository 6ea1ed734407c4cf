(** Lines: the tests of the parser agree with the grammar. *)
From Verif Require Import Base Base_Proofs PyText_Model PyText_Proofs PyDict_Model PyDict_Proofs
  ConfigFile_Model ConfigFile_Spec.
Local Open Scope N_scope.

(** ** Texts *)

Lemma Trim_strip raw v : Trim raw v <-> strip raw = v.
Proof.
  split.
  - intros (a & b & -> & Ha & Hb & Hf & Hl). apply strip_by_mid; assumption.
  - intros <-. destruct (strip_by_split is_space raw) as (w & w' & E & Hw & Hw').
    exists w, w'. split; [exact E|]. split; [exact Hw|]. split; [exact Hw'|]. split.
    + intros c r Ec. exact (strip_by_first is_space raw c r Ec).
    + intros r c Ec. exact (strip_by_last is_space raw r c Ec).
Qed.
Lemma white_strip s : white s <-> strip s = [].
Proof. symmetry. apply (strip_by_nil is_space s). Qed.
Lemma Trim_fun raw v v' : Trim raw v -> Trim raw v' -> v = v'.
Proof. rewrite !Trim_strip. intros <- <-. reflexivity. Qed.

Lemma white_app a b : white (a ++ b) <-> white a /\ white b.
Proof.
  unfold white. split.
  - intros H; split; intros c Hc; apply H, in_or_app; auto.
  - intros [Ha Hb] c Hc. apply in_app_or in Hc; destruct Hc; auto.
Qed.

Lemma lstrip_at w c b : white w -> is_space c = false -> lstrip (w ++ c :: b) = c :: b.
Proof. intros Hw Hc. unfold lstrip, lstrip_by. rewrite drop_while_app_l by exact Hw. apply drop_while_id, Hc. Qed.
Lemma drop_while_stop p a c b : p c = false -> drop_while p (a ++ c :: b) = drop_while p a ++ c :: b.
Proof.
  intros Hc. induction a as [|x a IH]; cbn [app].
  - cbn [drop_while app]. rewrite Hc. reflexivity.
  - cbn [drop_while]. destruct (p x); [exact IH|reflexivity].
Qed.
Lemma rstrip_at a c b : is_space c = false -> rstrip (a ++ c :: b) = a ++ c :: rstrip b.
Proof.
  intros Hc. unfold rstrip, rstrip_by. rewrite rev_app_distr. cbn [rev]. rewrite <- app_assoc. cbn [app].
  rewrite drop_while_stop by exact Hc. rewrite rev_app_distr. cbn [rev]. rewrite rev_involutive, <- app_assoc.
  reflexivity.
Qed.
Lemma strip_at w c b : white w -> is_space c = false -> strip (w ++ c :: b) = c :: rstrip b.
Proof.
  intros Hw Hc. unfold strip, strip_by. change (lstrip_by is_space (w ++ c :: b)) with (lstrip (w ++ c :: b)).
  rewrite lstrip_at by assumption. exact (rstrip_at [] c b Hc).
Qed.
Lemma strip_nonspace c s : is_space c = false -> In c s -> strip s <> [].
Proof. intros Hc Hi E. apply white_strip in E. rewrite (E c Hi) in Hc. discriminate. Qed.
Lemma lstrip_split s : exists w, s = w ++ lstrip s /\ white w.
Proof. exact (drop_while_split is_space s). Qed.

(** ** Characters *)

Lemma is_blank_spec c : is_blank c = true <-> blank c.
Proof. unfold is_blank, blank. rewrite Bool.orb_true_iff, !N.eqb_eq. reflexivity. Qed.
Lemma is_marker_spec c : is_marker c = true <-> marker c.
Proof. unfold is_marker, marker. rewrite Bool.orb_true_iff, !N.eqb_eq. reflexivity. Qed.
Lemma blank_space c : blank c -> is_space c = true.
Proof. intros [-> | ->]; reflexivity. Qed.
Lemma marker_nonspace c : marker c -> is_space c = false.
Proof. intros [-> | ->]; reflexivity. Qed.

Lemma indented_blank c r : indented (c :: r) <-> is_blank c = true.
Proof.
  rewrite is_blank_spec. split.
  - intros (c' & r' & [= -> ->] & H). exact H.
  - intros H. exists c, r. auto.
Qed.

Lemma ident_char_spec c : ident_char c = true <-> id_char c.
Proof.
  unfold ident_char, id_char. rewrite !Bool.orb_true_iff, !Bool.andb_true_iff, !N.leb_le, has_In. tauto.
Qed.
Lemma ident_chars_spec s : ident_chars s = true <-> identifier s.
Proof.
  unfold ident_chars, identifier. destruct s as [|c s]; [split; [discriminate|intros [H _]; congruence]|].
  rewrite forallb_forall. split.
  - intros H; split; [discriminate|]. intros x Hx. apply ident_char_spec, H, Hx.
  - intros [_ H] x Hx. apply ident_char_spec, H, Hx.
Qed.

Lemma ends_with_spec p s : ends_with p s = true <-> exists a, s = a ++ p.
Proof.
  unfold ends_with. rewrite starts_with_spec. split.
  - intros [r E]. exists (rev r). apply (f_equal (@rev N)) in E. rewrite rev_involutive, rev_app_distr, rev_involutive in E. exact E.
  - intros [a ->]. exists (rev a). apply rev_app_distr.
Qed.
Lemma ident_re_strip k : ident_re (strip k) = true <-> identifier (strip k).
Proof.
  unfold ident_re. rewrite Bool.orb_true_iff, ident_chars_spec. split; [|auto].
  intros [H|H]; [exact H|exfalso]. apply Bool.andb_true_iff in H. destruct H as [H _].
  apply ends_with_spec in H. destruct H as [a Ea].
  pose proof (strip_by_last is_space k a 10 Ea) as H. discriminate H.
Qed.

Lemma lower_char_spec x y :
  ((65 <= x <= 90 /\ y = x + 32) \/ (~ 65 <= x <= 90 /\ y = x)) <-> lower_char x = y.
Proof.
  unfold lower_char. destruct (N.leb_spec 65 x), (N.leb_spec x 90); cbn [andb]; split; intros; lia.
Qed.
Lemma Lower_spec a b : Lower a b <-> ascii_lower a = b.
Proof.
  unfold Lower, ascii_lower. revert b. induction a as [|x a IH]; intros b; cbn [map].
  - split; [intros H; inversion H; reflexivity|intros <-; constructor].
  - split.
    + intros H. inversion H as [|? y ? b' Hx Hr]; subst. apply lower_char_spec in Hx. apply IH in Hr.
      rewrite Hx, Hr. reflexivity.
    + intros <-. constructor; [apply lower_char_spec; reflexivity|apply IH; reflexivity].
Qed.

(** ** Values *)

(** The first marker after a blank, read from the left; [seen] reversed. *)
Lemma comment_free_snoc s c :
  comment_free s -> (forall d a, s = a ++ [d] -> ~ (blank d /\ marker c)) -> comment_free (s ++ [c]).
Proof.
  intros Hs Hc (a & x & m & b & E & Hx & Hm). destruct b as [|y b] using rev_ind; [|clear IHb].
  - change (a ++ [x; m] ++ []) with (a ++ [x] ++ [m]) in E. rewrite app_assoc in E. apply app_inj_tail in E.
    destruct E as [E ->]. exact (Hc x a E (conj Hx Hm)).
  - apply Hs. exists a, x, m, b. rewrite !app_assoc in E. apply app_inj_tail in E. destruct E as [E _].
    rewrite E, <- !app_assoc. auto.
Qed.
Lemma comment_free_prefix s t : comment_free (s ++ t) -> comment_free s.
Proof. intros H (a & x & m & b & -> & Hx & Hm). apply H. exists a, x, m, (b ++ t). rewrite <- !app_assoc. auto. Qed.

Lemma strip_comment_from_spec s : forall seen, comment_free (rev seen) ->
  (comment_free (rev seen ++ s) /\ strip_comment_from seen s = rev seen ++ s)
  \/ exists a c m b, rev seen ++ s = a ++ [c; m] ++ b /\ blank c /\ marker m /\ comment_free (a ++ [c])
     /\ strip_comment_from seen s = rstrip a.
Proof.
  induction s as [|c s IH]; intros seen Hs; cbn [strip_comment_from].
  - left. rewrite app_nil_r. auto.
  - assert (Hgo : comment_free (rev seen ++ [c]) -> 
       (comment_free (rev seen ++ c :: s) /\ strip_comment_from (c :: seen) s = rev seen ++ c :: s)
       \/ exists a x m b, rev seen ++ c :: s = a ++ [x; m] ++ b /\ blank x /\ marker m /\ comment_free (a ++ [x])
          /\ strip_comment_from (c :: seen) s = rstrip a).
    { intros H. specialize (IH (c :: seen)). cbn [rev] in IH. rewrite <- app_assoc in IH. exact (IH H). }
    destruct seen as [|d seen].
    + apply Hgo. apply comment_free_snoc; [exact Hs|]. intros d a E. destruct a; discriminate E.
    + destruct (is_marker c && is_blank d) eqn:E.
      * right. apply Bool.andb_true_iff in E. destruct E as [Em Eb].
        exists (rev seen), d, c, s. cbn [rev] in Hs |- *. rewrite <- !app_assoc. cbn [app].
        apply is_marker_spec in Em. apply is_blank_spec in Eb. auto.
      * apply Hgo. apply comment_free_snoc; [exact Hs|]. intros x a Ex [Hb Hm]. cbn [rev] in Ex.
        apply app_inj_tail in Ex. destruct Ex as [_ ->]. apply is_blank_spec in Hb. apply is_marker_spec in Hm.
        rewrite Hb, Hm in E. discriminate.
Qed.

Lemma rstrip_strip a : (forall c r, a = c :: r -> is_space c = false) -> strip a = rstrip a.
Proof.
  intros H. unfold strip, strip_by. destruct a as [|c a]; [reflexivity|].
  unfold lstrip_by. rewrite drop_while_id by (eapply H; reflexivity). reflexivity.
Qed.

(** A comment is cut at its first place only. *)
Lemma first_comment_unique a c m b a' c' m' b' :
  a ++ [c; m] ++ b = a' ++ [c'; m'] ++ b' -> blank c -> marker m -> blank c' -> marker m' ->
  comment_free (a ++ [c]) -> comment_free (a' ++ [c']) -> a = a'.
Proof.
  revert a'. induction a as [|x a IH]; intros [|y a'] E Hc Hm Hc' Hm' F F'; [reflexivity| | |].
  - exfalso. cbn [app] in E. injection E as E1 E2. subst y.
    destruct a' as [|z a']; cbn [app] in E2.
    + injection E2 as -> _. destruct Hm as [-> | ->]; destruct Hc' as [H|H]; discriminate H.
    + injection E2 as -> _. apply F'. exists [], c, z, (a' ++ [c']). auto.
  - exfalso. cbn [app] in E. injection E as E1 E2. subst x.
    destruct a as [|z a]; cbn [app] in E2.
    + injection E2 as E3 _. subst c. destruct Hm' as [-> | ->]; destruct Hc as [H|H]; discriminate H.
    + injection E2 as E3 _. subst z. apply F. exists [], c', m', (a ++ [c]). auto.
  - cbn [app] in E. injection E as -> E. f_equal. apply (IH a' E Hc Hm Hc' Hm').
    + intros (p & q & r & s & Eq & H1 & H2). apply F. exists (y :: p), q, r, s. cbn [app]. rewrite Eq. auto.
    + intros (p & q & r & s & Eq & H1 & H2). apply F'. exists (y :: p), q, r, s. cbn [app]. rewrite Eq. auto.
Qed.

Lemma value_of_spec raw v : value_of raw v <-> strip_inline_comment (strip raw) = v.
Proof.
  assert (Hfree : comment_free (rev [])) by (intros (a & c & m & b & E & _); destruct a; discriminate E).
  pose proof (strip_comment_from_spec (strip raw) [] Hfree) as H. cbn [rev app] in H. fold (strip_inline_comment (strip raw)) in H.
  assert (Hfirst : forall a c m b, strip raw = a ++ [c; m] ++ b -> blank c -> strip a = rstrip a).
  { intros a c m b E Hb. apply rstrip_strip. intros x r ->. eapply (strip_by_first is_space raw). exact E. }
  split.
  - intros (t & Ht & Hv). apply Trim_strip in Ht. rewrite Ht in H, Hfirst |- *.
    destruct Hv as [[Hf ->]|(a & c & m & b & Et & Hc & Hm & Hf & Hv)].
    + destruct H as [[_ H]|(a & c & m & b & Et & Hc & Hm & _)]; [exact H|].
      exfalso. apply Hf. exists a, c, m, b. auto.
    + apply Trim_strip in Hv. rewrite (Hfirst a c m b Et Hc) in Hv.
      destruct H as [[H _]|(a' & c' & m' & b' & Et' & Hc' & Hm' & Hf' & H)].
      * exfalso. apply H. exists a, c, m, b. auto.
      * rewrite H. rewrite Et in Et'. rewrite <- (first_comment_unique _ _ _ _ _ _ _ _ Et' Hc Hm Hc' Hm' Hf Hf').
        exact Hv.
  - intros <-. exists (strip raw). split; [apply Trim_strip; reflexivity|].
    destruct H as [[Hf H]|(a & c & m & b & Et & Hc & Hm & Hf & H)]; [left; auto|right].
    exists a, c, m, b. rewrite H. split; [exact Et|]. split; [exact Hc|]. split; [exact Hm|]. split; [exact Hf|].
    apply Trim_strip. exact (Hfirst a c m b Et Hc).
Qed.

(** ** Kinds of lines *)

Lemma noise_parse n l st : noise l -> parse_line n l st = Parsed st.
Proof.
  intros [H|(c & r & -> & H)].
  - unfold parse_line. apply white_strip in H. rewrite H. reflexivity.
  - unfold parse_line. destruct (strip (c :: r)); [reflexivity|].
    assert (is_blank c = false) as ->.
    { destruct (is_blank c) eqn:E; [|reflexivity]. apply is_blank_spec, blank_space in E.
      rewrite (marker_nonspace c H) in E. discriminate. }
    apply is_marker_spec in H. rewrite H. reflexivity.
Qed.

Lemma cut_at_inv c s a b : cut_at c s = (a, Some b) -> s = a ++ c :: b /\ ~ In c a.
Proof.
  revert a. induction s as [|x s IH]; intros a; cbn [cut_at]; [discriminate|].
  destruct (N.eqb_spec x c) as [->|Hx].
  - intros [= <- <-]. split; [reflexivity|intros []].
  - destruct (cut_at c s) as [a' [b'|]]; [|discriminate]. intros [= <- <-].
    destruct (IH a' eq_refl) as [-> H]. split; [reflexivity|]. intros [E|E]; [exact (Hx E)|exact (H E)].
Qed.
Lemma cut_at_inv_none c s a : cut_at c s = (a, None) -> ~ In c s.
Proof.
  revert a. induction s as [|x s IH]; intros a; cbn [cut_at]; [intros _ []|].
  destruct (N.eqb_spec x c) as [->|Hx]; [discriminate|].
  destruct (cut_at c s) as [a' [b'|]]; [discriminate|]. intros _ [E|E]; [exact (Hx E)|exact (IH a' eq_refl E)].
Qed.

Lemma header_parse n l name : header l name ->
  exists c r, l = c :: r /\ strip l <> [] /\ is_blank c = false /\ is_marker c = false
  /\ starts_with [91] (lstrip l) = true /\ parse_section_line l n = Parsed name.
Proof.
  intros (Hi & Hn & w & inner & junk & E & Hw & Hb & Ht).
  destruct l as [|c r]; [destruct w; discriminate E|]. exists c, r. split; [reflexivity|].
  assert (Hs : strip (c :: r) = 91 :: inner ++ 93 :: rstrip junk).
  { rewrite E. cbn [app]. rewrite strip_at by (exact Hw || reflexivity). rewrite rstrip_at by reflexivity. reflexivity. }
  split; [rewrite Hs; discriminate|].
  split. { destruct (is_blank c) eqn:Eb; [|reflexivity]. exfalso. apply Hi. apply indented_blank. exact Eb. }
  split.
  { destruct (is_marker c) eqn:Em; [|reflexivity]. exfalso. apply is_marker_spec in Em. destruct w as [|x w].
    - cbn [app] in E. injection E as -> _. destruct Em as [Em|Em]; discriminate Em.
    - cbn [app] in E. injection E as -> _. pose proof (Hw x (or_introl eq_refl)) as H.
      rewrite (marker_nonspace x Em) in H. discriminate. }
  split.
  { rewrite E. cbn [app]. rewrite lstrip_at by (exact Hw || reflexivity). reflexivity. }
  unfold parse_section_line. rewrite Hs.
  change (91 :: inner ++ 93 :: rstrip junk) with ((91 :: inner) ++ 93 :: rstrip junk).
  rewrite cut_at_app.
  - cbn [skipn]. apply Trim_strip in Ht. rewrite Ht. destruct name; [congruence|reflexivity].
  - intros [H|H]; [discriminate H|exact (Hb H)].
Qed.

Lemma starts_bracket l : starts_with [91] (lstrip l) = true <-> exists w r, white w /\ l = w ++ [91] ++ r.
Proof.
  rewrite starts_with_spec. split.
  - intros [r E]. destruct (lstrip_split l) as (w & El & Hw). rewrite E in El. exists w, r. auto.
  - intros (w & r & Hw & ->). cbn [app]. rewrite lstrip_at by (exact Hw || reflexivity). exists r. reflexivity.
Qed.

Lemma parse_header n c r name : is_blank c = false -> starts_with [91] (lstrip (c :: r)) = true ->
  parse_section_line (c :: r) n = Parsed name -> header (c :: r) name.
Proof.
  intros Hc Hs Hp. apply starts_bracket in Hs. destruct Hs as (w & x & Hw & E).
  unfold parse_section_line in Hp. rewrite E in Hp. cbn [app] in Hp.
  rewrite strip_at in Hp by (exact Hw || reflexivity).
  destruct (cut_at 93 (91 :: rstrip x)) as [before [after|]] eqn:Ec; [|discriminate Hp].
  apply cut_at_inv in Ec. destruct Ec as [Ec Hn].
  destruct before as [|y inner]; [discriminate Ec|]. cbn [app] in Ec. injection Ec as <- Ex.
  cbn [skipn] in Hp.
  split. { intros H. apply indented_blank in H. congruence. }
  destruct (strip inner) as [|z t] eqn:Et; [discriminate|]. injection Hp as <-.
  split; [discriminate|].
  unfold rstrip, rstrip_by in Ex.
  destruct (drop_while_split is_space (rev x)) as (w' & Ew & Hw').
  apply (f_equal (@rev N)) in Ew. rewrite rev_involutive, rev_app_distr, Ex in Ew.
  exists w, inner, (after ++ rev w'). rewrite E, Ew. rewrite <- !app_assoc. cbn [app].
  split; [reflexivity|]. split; [exact Hw|]. split; [intros H; apply Hn; right; exact H|].
  apply Trim_strip. exact Et.
Qed.

(** A line with an equals sign is no blank line. *)
Lemma assignment_parse n l name raw : assignment l name raw ->
  exists c r, l = c :: r /\ strip l <> [] /\ is_blank c = false /\ is_marker c = false
  /\ starts_with [91] (lstrip l) = false
  /\ parse_property_line l n =
     Parsed (if ident_re name then Some (ascii_lower name, strip_inline_comment (strip raw)) else None).
Proof.
  intros (Hi & Hn & Hb & k & E & Hk & Ht & Hne).
  destruct l as [|c r]; [destruct k; discriminate E|]. exists c, r. split; [reflexivity|].
  split. { intros H. apply Hn. left. apply white_strip. exact H. }
  split. { destruct (is_blank c) eqn:Eb; [|reflexivity]. exfalso. apply Hi. apply indented_blank. exact Eb. }
  split.
  { destruct (is_marker c) eqn:Em; [|reflexivity]. exfalso. apply Hn. right. exists c, r.
    apply is_marker_spec in Em. auto. }
  split.
  { destruct (starts_with [91] (lstrip (c :: r))) eqn:Es; [|reflexivity]. exfalso. apply starts_bracket in Es.
    destruct Es as (w & x & Hw & Ew). exact (Hb w x Hw Ew). }
  unfold parse_property_line. rewrite E. cbn [app]. rewrite cut_at_app by exact Hk.
  apply Trim_strip in Ht. rewrite Ht. destruct name as [|y t]; [congruence|].
  destruct (ident_re (y :: t)); reflexivity.
Qed.

Lemma parse_assignment n c r p : strip (c :: r) <> [] -> is_blank c = false -> is_marker c = false ->
  starts_with [91] (lstrip (c :: r)) = false -> parse_property_line (c :: r) n = Parsed p ->
  exists name raw, assignment (c :: r) name raw /\ name = strip name
  /\ p = if ident_re name then Some (ascii_lower name, strip_inline_comment (strip raw)) else None.
Proof.
  intros Hs Hc Hm Hb Hp. unfold parse_property_line in Hp.
  destruct (cut_at 61 (c :: r)) as [k [v|]] eqn:Ec; [|discriminate Hp].
  apply cut_at_inv in Ec. destruct Ec as [E Hk].
  destruct (strip k) as [|y t] eqn:Et; [discriminate Hp|].
  exists (y :: t), v. split; [|split].
  - split. { intros H. apply indented_blank in H. congruence. }
    split. { intros [H|(c' & r' & [= <- <-] & H)]; [apply white_strip in H; congruence|]. apply is_marker_spec in H. congruence. }
    split. { intros w x Hw Ew. assert (starts_with [91] (lstrip (c :: r)) = true) by (apply starts_bracket; eauto). congruence. }
    exists k. split; [exact E|]. split; [exact Hk|]. split; [apply Trim_strip; exact Et|discriminate].
  - rewrite <- Et. symmetry. apply Trim_strip.
    destruct (proj2 (Trim_strip k _) eq_refl) as (a & b & _ & _ & _ & H1 & H2).
    exists [], []. rewrite app_nil_r. cbn [app]. repeat split; try exact H1; try exact H2; intros ? [].
  - destruct (ident_re (y :: t)); cbn [negb] in Hp; injection Hp as <-; reflexivity.
Qed.

Lemma assignment_strip l name raw : assignment l name raw -> exists k, name = strip k.
Proof. intros (_ & _ & _ & k & _ & _ & Ht & _). exists k. symmetry. apply Trim_strip. exact Ht. Qed.

Lemma property_parse n l k v : property l k v ->
  exists c r, l = c :: r /\ strip l <> [] /\ is_blank c = false /\ is_marker c = false
  /\ starts_with [91] (lstrip l) = false /\ parse_property_line l n = Parsed (Some (k, v)).
Proof.
  intros (name & raw & Ha & Hid & Hl & Hv).
  destruct (assignment_strip _ _ _ Ha) as [k0 Ek].
  destruct (assignment_parse n l name raw Ha) as (c & r & E & H1 & H2 & H3 & H4 & H5).
  exists c, r. split; [exact E|]. split; [exact H1|]. split; [exact H2|]. split; [exact H3|]. split; [exact H4|].
  rewrite H5. apply Lower_spec in Hl. apply value_of_spec in Hv. rewrite Hl, Hv.
  rewrite Ek in Hid |- *. apply ident_re_strip in Hid. rewrite Hid. reflexivity.
Qed.
Lemma bad_property_parse n l : bad_property l ->
  exists c r, l = c :: r /\ strip l <> [] /\ is_blank c = false /\ is_marker c = false
  /\ starts_with [91] (lstrip l) = false /\ parse_property_line l n = Parsed None.
Proof.
  intros (name & raw & Ha & Hid).
  destruct (assignment_strip _ _ _ Ha) as [k0 Ek].
  destruct (assignment_parse n l name raw Ha) as (c & r & E & H1 & H2 & H3 & H4 & H5).
  exists c, r. split; [exact E|]. split; [exact H1|]. split; [exact H2|]. split; [exact H3|]. split; [exact H4|].
  rewrite H5. destruct (ident_re name) eqn:Ei; [|reflexivity]. exfalso. apply Hid. rewrite Ek in Ei |- *.
  apply ident_re_strip. exact Ei.
Qed.
Lemma parse_property n c r p : strip (c :: r) <> [] -> is_blank c = false -> is_marker c = false ->
  starts_with [91] (lstrip (c :: r)) = false -> parse_property_line (c :: r) n = Parsed p ->
  match p with Some (k, v) => property (c :: r) k v | None => bad_property (c :: r) end.
Proof.
  intros Hs Hc Hm Hb Hp.
  destruct (parse_assignment n c r p Hs Hc Hm Hb Hp) as (name & raw & Ha & En & ->).
  destruct (ident_re name) eqn:Ei.
  - exists name, raw. split; [exact Ha|]. split; [rewrite En in Ei |- *; apply ident_re_strip; exact Ei|].
    split; [apply Lower_spec; reflexivity|apply value_of_spec; reflexivity].
  - exists name, raw. split; [exact Ha|]. intros H. rewrite En in Ei, H. apply ident_re_strip in H. congruence.
Qed.
