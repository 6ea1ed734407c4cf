(** UTF-8: decoding inverts encoding and conversely. *)
From Verif Require Import Base Utf8_Model Base_Proofs.
Ltac Zify.zify_post_hook ::= Z.div_mod_to_equations.
Local Open Scope N_scope.

Definition valid_text (s : text) : bool := forallb is_scalar s.

Lemma ltb_t a b : a < b -> (a <? b) = true. Proof. apply N.ltb_lt. Qed.
Lemma ltb_f a b : b <= a -> (a <? b) = false. Proof. apply N.ltb_ge. Qed.

Lemma is_scalar_spec c : is_scalar c = true <-> (c < 0xD800 \/ (0xE000 <= c /\ c < 0x110000)).
Proof. unfold is_scalar. lia. Qed.

Lemma utf8_encode_cp_ok c : is_scalar c = true -> exists b, utf8_encode_cp c = Ok b.
Proof.
  intros H; apply is_scalar_spec in H; unfold utf8_encode_cp.
  destruct (N.ltb_spec c 0x80); [eauto|].
  destruct (N.ltb_spec c 0x800); [eauto|].
  destruct ((0xD800 <=? c) && (c <? 0xE000))%bool eqn:E; [lia|].
  destruct (N.ltb_spec c 0x10000); [eauto|].
  destruct (N.ltb_spec c 0x110000); [eauto|lia].
Qed.

Lemma utf8_decode_cp c b bs s :
  utf8_encode_cp c = Ok b -> utf8_decode bs = Ok s -> utf8_decode (b ++ bs) = Ok (c :: s).
Proof.
  intros H Hs. unfold utf8_encode_cp in H.
  destruct (N.ltb_spec c 0x80) as [H1|H1].
  { injection H as <-. cbn [app utf8_decode]. rewrite ltb_t by lia. rewrite Hs. reflexivity. }
  destruct (N.ltb_spec c 0x800) as [H2|H2].
  { injection H as <-. cbn [app utf8_decode].
    rewrite (ltb_f (0xC0 + c / 64) 0x80), (ltb_f _ 0xC2), (ltb_t _ 0xE0) by lia.
    unfold is_cont. rewrite (proj2 (N.leb_le _ _)), ltb_t by lia.
    rewrite Hs. cbn [andb bind]. do 2 f_equal. lia. }
  destruct ((0xD800 <=? c) && (c <? 0xE000))%bool eqn:E; [discriminate|].
  destruct (N.ltb_spec c 0x10000) as [H3|H3].
  { injection H as <-. cbn [app utf8_decode].
    rewrite (ltb_f (0xE0 + c / 4096) 0x80), (ltb_f _ 0xC2), (ltb_f _ 0xE0), (ltb_t _ 0xF0) by lia.
    unfold is_cont.
    rewrite !(proj2 (N.leb_le 0x80 _)), !(ltb_t _ 0xC0) by lia. cbn [andb].
    replace ((0xE0 + c / 4096 - 0xE0) * 4096 + (0x80 + (c / 64) mod 64 - 0x80) * 64 +
             (0x80 + c mod 64 - 0x80)) with c by lia.
    rewrite (ltb_f c 0x800) by lia. rewrite E. cbn [orb]. rewrite Hs. reflexivity. }
  destruct (N.ltb_spec c 0x110000) as [H4|H4]; [|discriminate].
  injection H as <-. cbn [app utf8_decode].
  rewrite (ltb_f (0xF0 + c / 262144) 0x80), (ltb_f _ 0xC2), (ltb_f _ 0xE0), (ltb_f _ 0xF0), (ltb_t _ 0xF5) by lia.
  unfold is_cont.
  rewrite !(proj2 (N.leb_le 0x80 _)), !(ltb_t _ 0xC0) by lia. cbn [andb].
  replace ((0xF0 + c / 262144 - 0xF0) * 262144 + (0x80 + (c / 4096) mod 64 - 0x80) * 4096 +
           (0x80 + (c / 64) mod 64 - 0x80) * 64 + (0x80 + c mod 64 - 0x80)) with c by lia.
  rewrite (ltb_f c 0x10000) by lia.
  rewrite (proj2 (N.leb_gt 0x110000 c)) by lia. cbn [orb]. rewrite Hs. reflexivity.
Qed.

Lemma utf8_encode_valid s : valid_text s = true -> exists b, utf8_encode s = Ok b.
Proof.
  induction s as [|c s IH]; cbn [valid_text forallb utf8_encode]; intros H; [eauto|].
  apply andb_true_iff in H; destruct H as [Hc Hs].
  destruct (utf8_encode_cp_ok c Hc) as [b Hb]. destruct (IH Hs) as [bs Hbs].
  rewrite Hb; cbn [bind]; rewrite Hbs; cbn [bind]. eauto.
Qed.

Lemma utf8_roundtrip s b : utf8_encode s = Ok b -> utf8_decode b = Ok s.
Proof.
  revert b; induction s as [|c s IH]; intros b; cbn [utf8_encode].
  - intros H; injection H as <-; reflexivity.
  - destruct (utf8_encode_cp c) as [bc|e] eqn:Hc; cbn [bind]; [|discriminate].
    destruct (utf8_encode s) as [bs|e] eqn:Hs; cbn [bind]; [|discriminate].
    intros H; injection H as <-. apply utf8_decode_cp; auto.
Qed.

Lemma utf8_encode_cp_bytes c b : utf8_encode_cp c = Ok b -> all_bytes b = true.
Proof.
  unfold utf8_encode_cp.
  destruct (N.ltb_spec c 0x80).
  { intros E; injection E as <-. cbn. unfold is_byte. lia. }
  destruct (N.ltb_spec c 0x800).
  { intros E; injection E as <-. cbn. unfold is_byte. lia. }
  destruct ((0xD800 <=? c) && (c <? 0xE000))%bool; [discriminate|].
  destruct (N.ltb_spec c 0x10000).
  { intros E; injection E as <-. cbn. unfold is_byte. lia. }
  destruct (N.ltb_spec c 0x110000); [|discriminate].
  intros E; injection E as <-. cbn. unfold is_byte. lia.
Qed.

Lemma utf8_encode_bytes s b : utf8_encode s = Ok b -> all_bytes b = true.
Proof.
  revert b; induction s as [|c s IH]; intros b; cbn [utf8_encode].
  - intros H; injection H as <-; reflexivity.
  - destruct (utf8_encode_cp c) as [bc|e] eqn:Hc; cbn [bind]; [|discriminate].
    destruct (utf8_encode s) as [bs|e] eqn:Hs; cbn [bind]; [|discriminate].
    intros H; injection H as <-. rewrite all_bytes_app.
    rewrite (utf8_encode_cp_bytes _ _ Hc), (IH _ eq_refl). reflexivity.
Qed.

Lemma utf8_encode_inj s t b : utf8_encode s = Ok b -> utf8_encode t = Ok b -> s = t.
Proof.
  intros Hs Ht. apply utf8_roundtrip in Hs, Ht. congruence.
Qed.
