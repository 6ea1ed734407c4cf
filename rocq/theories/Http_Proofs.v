(** Proofs about query strings and percent encoding. *)
From Verif Require Import Base Base_Proofs Utf8_Model Utf8_Proofs PyText_Model PyText_Proofs Http_Model Http_Spec.
Local Open Scope N_scope.

(** The safe sets in use: ASCII, no percent sign. *)
Definition safe_ok (sf : list N) : Prop := forall c, In c sf -> c < 128 /\ c <> 37.

Lemma hex_value_digit d : d < 16 -> hex_value (hex_digit d) = Some d.
Proof.
  intros H. unfold hex_value, hex_digit. destruct (N.ltb_spec d 10).
  - replace (48 <=? 48 + d) with true by (symmetry; apply N.leb_le; lia).
    replace (48 + d <=? 57) with true by (symmetry; apply N.leb_le; lia). cbn [andb]. f_equal; lia.
  - replace (48 <=? 55 + d) with true by (symmetry; apply N.leb_le; lia).
    replace (55 + d <=? 57) with false by (symmetry; apply N.leb_gt; lia). cbn [andb].
    replace (65 <=? 55 + d) with true by (symmetry; apply N.leb_le; lia).
    replace (55 + d <=? 70) with true by (symmetry; apply N.leb_le; lia). cbn [andb]. f_equal; lia.
Qed.

Lemma unreserved_range b : is_unreserved b = true -> b < 128 /\ b <> 37.
Proof.
  unfold is_unreserved. rewrite !orb_true_iff, !andb_true_iff, !N.leb_le, !N.eqb_eq. lia.
Qed.

Lemma unquote_quote_byte sf b r : safe_ok sf -> b < 256 ->
  unquote (quote_byte sf b ++ r) = match unquote r with Some bs => Some (b :: bs) | None => None end.
Proof.
  intros Hs Hb. unfold quote_byte. destruct (is_unreserved b || has b sf) eqn:E.
  - assert (H : b < 128 /\ b <> 37).
    { apply orb_true_iff in E. destruct E as [E|E]; [apply unreserved_range; exact E|].
      apply has_In in E. apply Hs; exact E. }
    destruct H as [H1 H2]. cbn [app unquote].
    apply N.eqb_neq in H2. rewrite H2. apply N.ltb_lt in H1. rewrite H1. reflexivity.
  - cbn [app unquote]. rewrite N.eqb_refl.
    rewrite !hex_value_digit.
    + destruct (unquote r); [|reflexivity]. do 2 f_equal.
      pose proof (N.div_mod b 16). lia.
    + apply N.mod_lt; lia.
    + apply N.div_lt_upper_bound; lia.
Qed.
Lemma unquote_quote sf bs : safe_ok sf -> all_bytes bs = true -> unquote (quote_bytes sf bs) = Some bs.
Proof.
  intros Hs. induction bs as [|b bs IH]; intros H; [reflexivity|].
  cbn [all_bytes forallb] in H. apply andb_true_iff in H. destruct H as [H1 H2].
  change (quote_bytes sf (b :: bs)) with (quote_byte sf b ++ quote_bytes sf bs).
  rewrite unquote_quote_byte, IH; auto. apply N.ltb_lt; exact H1.
Qed.
Lemma decode_urlquote sf s q : safe_ok sf -> urlquote sf s = Ok q -> decode q = Some s.
Proof.
  intros Hs H. unfold urlquote in H. destruct (utf8_encode s) as [bs|] eqn:E; [|discriminate].
  cbn in H. injection H as <-. unfold decode.
  rewrite unquote_quote; [|exact Hs|eapply utf8_encode_bytes; exact E].
  rewrite (utf8_roundtrip _ _ E). reflexivity.
Qed.
Lemma urlquote_nil sf s : urlquote sf s = Ok [] -> s = [].
Proof.
  unfold urlquote. destruct (utf8_encode s) as [bs|] eqn:E; [|discriminate]. cbn. intros H.
  injection H as H. destruct bs as [|b bs].
  - destruct s as [|c s]; [reflexivity|]. cbn [utf8_encode] in E.
    unfold utf8_encode_cp in E.
    repeat match type of E with context [if ?b then _ else _] => destruct b end; cbn in E; try discriminate E;
      destruct (utf8_encode s); discriminate E.
  - exfalso. unfold quote_bytes in H. cbn [flat_map] in H. unfold quote_byte in H.
    destruct (is_unreserved b || has b sf); discriminate H.
Qed.
Lemma safe_nil : safe_ok []. Proof. intros c []. Qed.
Lemma safe_slash : safe_ok [47].
Proof. intros c [<-|[]]; lia. Qed.
Lemma safe_dot : safe_ok [46].
Proof. intros c [<-|[]]; lia. Qed.

(** Characters a quoted text does not hold. *)
Lemma urlquote_clean sf s q c : urlquote sf s = Ok q -> is_unreserved c = false -> ~ In c sf -> c <> 37 -> ~ In c q.
Proof. intros H Hu Hs Hp Hin. destruct (urlquote_chars _ _ _ _ H Hin) as [E|[E|E]]; [congruence|tauto|congruence]. Qed.

(** One parameter. *)
Lemma render_param_ok p t : render_param p = Ok t -> ~ In 38 t /\ decode_param t = Some p.
Proof.
  destruct p as [k [v|]]; unfold render_param; cbn [fst snd].
  - destruct (urlquote [] k) as [qk|] eqn:Ek; [|discriminate]. cbn [bind].
    destruct (urlquote [] v) as [qv|] eqn:Ev; [|discriminate]. cbn [bind]. intros H; injection H as <-.
    assert (K38 : ~ In 38 qk) by (eapply urlquote_clean; [exact Ek|reflexivity|intros []|discriminate]).
    assert (V38 : ~ In 38 qv) by (eapply urlquote_clean; [exact Ev|reflexivity|intros []|discriminate]).
    assert (K61 : ~ In 61 qk) by (eapply urlquote_clean; [exact Ek|reflexivity|intros []|discriminate]).
    split.
    + intros Hin. apply in_app_or in Hin. destruct Hin as [Hin|[Hin|Hin]]; [tauto|discriminate Hin|tauto].
    + unfold decode_param. change (qk ++ EQUALS :: qv) with (qk ++ 61 :: qv).
      change (cut_at 61 (qk ++ [EQUALS] ++ qv)) with (cut_at 61 (qk ++ 61 :: qv)).
      rewrite cut_at_app by exact K61.
      rewrite (decode_urlquote [] k qk safe_nil Ek), (decode_urlquote [] v qv safe_nil Ev). reflexivity.
  - intros Ek.
    assert (K38 : ~ In 38 t) by (eapply urlquote_clean; [exact Ek|reflexivity|intros []|discriminate]).
    assert (K61 : ~ In 61 t) by (eapply urlquote_clean; [exact Ek|reflexivity|intros []|discriminate]).
    split; [exact K38|]. unfold decode_param. rewrite cut_at_none by exact K61.
    rewrite (decode_urlquote [] k t safe_nil Ek). reflexivity.
Qed.
Lemma render_param_nil p : render_param p = Ok [] -> p = ([], None).
Proof.
  destruct p as [k [v|]]; unfold render_param; cbn [fst snd].
  - destruct (urlquote [] k) as [qk|]; [|discriminate]. cbn [bind].
    destruct (urlquote [] v) as [qv|]; [|discriminate]. cbn [bind]. intros H. injection H as H.
    destruct qk; discriminate H.
  - intros H. apply urlquote_nil in H. subst k. reflexivity.
Qed.

Lemma all_some_app {A} (l m : list (option A)) :
  all_some (l ++ m) = match all_some l, all_some m with Some a, Some b => Some (a ++ b) | _, _ => None end.
Proof.
  induction l as [|[x|] l IH]; cbn [app all_some]; [destruct (all_some m); reflexivity| |reflexivity].
  rewrite IH. destruct (all_some l), (all_some m); reflexivity.
Qed.

Lemma join_query_nonempty params : forall q r, q <> [] -> join_query_params params q = Ok r ->
  parse_query r = match parse_query q with Some ps => Some (ps ++ params) | None => None end /\ r <> [].
Proof.
  induction params as [|p params IH]; intros q r Hq; cbn [join_query_params].
  - intros H; injection H as <-. split; [|exact Hq]. destruct (parse_query q); [rewrite app_nil_r|]; reflexivity.
  - destruct (render_param p) as [t|] eqn:Ep; [|discriminate]. cbn [bind].
    destruct q as [|c q0]; [congruence|]. set (q := c :: q0) in *.
    intros H. apply IH in H; [|subst q; discriminate]. destruct H as [H Hr]. split; [|exact Hr].
    rewrite H. destruct (render_param_ok _ _ Ep) as [Ht Hd].
    assert (E : parse_query ((q ++ [AMP]) ++ t) = match parse_query q with Some ps => Some (ps ++ [p]) | None => None end).
    { replace (parse_query ((q ++ [AMP]) ++ t)) with (all_some (map decode_param (split_on 38 (q ++ 38 :: t))))
        by (rewrite <- app_assoc; subst q; reflexivity).
      rewrite split_on_app2, map_app, all_some_app, (split_on_none 38 t Ht).
      cbn [map all_some]. rewrite Hd. subst q. reflexivity. }
    rewrite E. destruct (parse_query q); [|reflexivity]. rewrite <- app_assoc. reflexivity.
Qed.
Lemma join_query_empty params : forall r, join_query_params params [] = Ok r ->
  match params with
  | ([], None) :: rest => join_query_params rest [] = Ok r
  | _ => parse_query r = Some params
  end.
Proof.
  destruct params as [|p params]; intros r; cbn [join_query_params].
  - intros H; injection H as <-. reflexivity.
  - destruct (render_param p) as [t|] eqn:Ep; [|discriminate]. cbn [bind app].
    destruct t as [|c t].
    + apply render_param_nil in Ep. subst p. auto.
    + intros H. assert (Hne : p <> ([], None)) by (intros ->; discriminate Ep).
      apply join_query_nonempty in H; [|discriminate]. destruct H as [H _].
      destruct (render_param_ok _ _ Ep) as [Ht Hd].
      assert (E : parse_query (c :: t) = Some [p]).
      { unfold parse_query. rewrite (split_on_none 38 (c :: t) Ht). cbn [map all_some]. rewrite Hd. reflexivity. }
      rewrite E in H. destruct p as [[|k0 k] [v|]]; try exact H. exfalso; apply Hne; reflexivity.
Qed.

(** Success: exactly the encodable texts. *)
Definition encodable (p : text * option text) : Prop :=
  valid_text (fst p) = true /\ match snd p with Some v => valid_text v = true | None => True end.
Lemma urlquote_valid sf s : valid_text s = true -> exists q, urlquote sf s = Ok q.
Proof. intros H. destruct (utf8_encode_valid s H) as (b & E). unfold urlquote. rewrite E. eexists; reflexivity. Qed.
Lemma join_query_ok params : forall q, Forall encodable params -> exists r, join_query_params params q = Ok r.
Proof.
  induction params as [|p params IH]; intros q H; cbn [join_query_params]; [eexists; reflexivity|].
  inversion H as [|? ? Hp Hps]; subst. assert (exists t, render_param p = Ok t) as (t & ->).
  { destruct p as [k [v|]]; unfold render_param; cbn [fst snd] in *; destruct Hp as [Hk Hv].
    - destruct (urlquote_valid [] k Hk) as (a & ->), (urlquote_valid [] v Hv) as (b & ->). eexists; reflexivity.
    - apply urlquote_valid; exact Hk. }
  cbn [bind]. apply IH; exact Hps.
Qed.

(** The characters of a written query string: those of the prefix, and
    unreserved characters, percent signs, ampersands and equals signs. *)
Lemma join_query_chars params : forall q r c, join_query_params params q = Ok r -> In c r ->
  In c q \/ is_unreserved c = true \/ c = 37 \/ c = 38 \/ c = 61.
Proof.
  induction params as [|p params IH]; intros q r c; cbn [join_query_params].
  - intros H; injection H as <-. auto.
  - destruct (render_param p) as [t|] eqn:Ep; [|discriminate]. cbn [bind]. intros H Hc.
    destruct (IH _ _ _ H Hc) as [Hin|Hr]; [|auto].
    assert (T : In c t -> is_unreserved c = true \/ c = 37 \/ c = 38 \/ c = 61).
    { intros Ht. destruct (is_unreserved c) eqn:Eu; [auto|]. right.
      destruct (N.eq_dec c 37); [auto|]. destruct (N.eq_dec c 61); [auto|]. exfalso.
      destruct p as [k [v|]]; unfold render_param in Ep; cbn [fst snd] in Ep.
      - destruct (urlquote [] k) as [qk|] eqn:Ek; [|discriminate]. cbn [bind] in Ep.
        destruct (urlquote [] v) as [qv|] eqn:Ev; [|discriminate]. cbn [bind] in Ep. injection Ep as <-.
        apply in_app_or in Ht. destruct Ht as [Ht|[Ht|Ht]].
        + eapply urlquote_clean with (1 := Ek); eauto.
        + unfold EQUALS in Ht. congruence.
        + eapply urlquote_clean with (1 := Ev); eauto.
      - eapply urlquote_clean with (1 := Ep); eauto. }
    apply in_app_or in Hin. destruct Hin as [Hin|Hin]; [|auto].
    destruct q as [|c0 q]; [destruct Hin|]. apply in_app_or in Hin. destruct Hin as [Hin|[Hin|[]]]; [auto|].
    unfold AMP in Hin. auto.
Qed.
