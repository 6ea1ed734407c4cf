(** Proofs about the event stream codec. *)
From Verif Require Import Base Utf8_Model EventStream_Model EventStream_Spec
  Base_Proofs Utf8_Proofs Crc_Proofs Crc2_Proofs.
Ltac Zify.zify_post_hook ::= Z.div_mod_to_equations.
Local Open Scope N_scope.

(** ** UTF-8 sizes *)
Lemma is_bytes_all b : is_bytes b <-> all_bytes b = true.
Proof.
  unfold is_bytes, all_bytes. rewrite forallb_forall. unfold is_byte.
  split; intros H x Hx; specialize (H x Hx); lia.
Qed.

Lemma encodable_valid s : encodable s <-> valid_text s = true.
Proof.
  unfold encodable, valid_text. rewrite forallb_forall.
  split; intros H c Hc; specialize (H c Hc); apply is_scalar_spec; exact H.
Qed.

Lemma utf8_encode_cp_scalar c b : utf8_encode_cp c = Ok b -> is_scalar c = true /\ len b = cp_size c.
Proof.
  unfold utf8_encode_cp, cp_size. rewrite is_scalar_spec.
  destruct (N.ltb_spec c 0x80); [intros E; injection E as <-; split; [lia|reflexivity]|].
  destruct (N.ltb_spec c 0x800); [intros E; injection E as <-; split; [lia|reflexivity]|].
  destruct ((0xD800 <=? c) && (c <? 0xE000))%bool eqn:Es; [discriminate|].
  destruct (N.ltb_spec c 0x10000); [intros E; injection E as <-; split; [lia|reflexivity]|].
  destruct (N.ltb_spec c 0x110000); [|discriminate].
  intros E; injection E as <-; split; [lia|reflexivity].
Qed.

Lemma utf8_encode_len s b : utf8_encode s = Ok b -> valid_text s = true /\ len b = text_size s.
Proof.
  revert b; induction s as [|c s IH]; intros b; cbn [utf8_encode].
  - intros E; injection E as <-; split; reflexivity.
  - destruct (utf8_encode_cp c) as [bc|e] eqn:Hc; cbn [bind]; [|discriminate].
    destruct (utf8_encode s) as [bs|e] eqn:Hs; cbn [bind]; [|discriminate].
    intros E; injection E as <-. destruct (IH _ eq_refl) as [Hv Hl].
    destruct (utf8_encode_cp_scalar _ _ Hc) as [Hcs Hcl].
    split; [cbn [valid_text forallb]; rewrite Hcs; exact Hv|].
    rewrite len_app, Hl, Hcl. reflexivity.
Qed.

(** ** struct *)
Lemma pack_unsigned_ok k n b :
  pack_unsigned k n = Ok b <-> (n < 256 ^ N.of_nat k /\ b = be_bytes k n).
Proof.
  unfold pack_unsigned. destruct (N.ltb_spec n (256 ^ N.of_nat k)); split.
  - intros E; injection E as <-; auto.
  - intros [_ ->]; reflexivity.
  - discriminate.
  - intros [H' _]; lia.
Qed.

Lemma pack_signed_ok k z b :
  pack_signed k z = Ok b <-> (fits (8 * Z.of_nat k) z /\ b = be_bytes k (twos_of_Z k z)).
Proof.
  unfold pack_signed, fits.
  destruct (Z.leb (- 2 ^ (8 * Z.of_nat k - 1)) z && Z.ltb z (2 ^ (8 * Z.of_nat k - 1)))%bool eqn:E; split.
  - intros H; injection H as <-; split; [lia|reflexivity].
  - intros [_ ->]; reflexivity.
  - discriminate.
  - intros [H _]; lia.
Qed.

Lemma wrap_int_ok {A} (r : result A) a : wrap_int r = Ok a <-> r = Ok a.
Proof. destruct r as [x|[]]; cbn; split; congruence. Qed.

Lemma unpack_unsigned_be k n rest :
  n < 256 ^ N.of_nat k -> unpack_unsigned k (firstn k (be_bytes k n ++ rest)) = Ok n.
Proof.
  intros H. unfold unpack_unsigned.
  rewrite firstn_app_exact by (symmetry; apply be_bytes_length).
  rewrite be_bytes_length, Nat.eqb_refl, be_val_bytes by exact H. reflexivity.
Qed.

Lemma skipn_be k n (rest : bytes) : skipn k (be_bytes k n ++ rest) = rest.
Proof. apply skipn_app_exact. symmetry; apply be_bytes_length. Qed.

Lemma dec_int_be k z rest :
  (0 < k)%nat -> fits (8 * Z.of_nat k) z ->
  dec_int k (be_bytes k (twos_of_Z k z) ++ rest) = Ok (z, k).
Proof.
  intros Hk Hz. unfold dec_int, unpack_signed.
  rewrite unpack_unsigned_be by apply twos_lt. cbn [bind].
  rewrite twos_roundtrip by assumption. reflexivity.
Qed.

Lemma dec_byte_array_be k b rest :
  len b < 256 ^ N.of_nat k -> len b <= 32767 ->
  dec_byte_array k (be_bytes k (len b) ++ b ++ rest) = Ok (b, (List.length b + k)%nat).
Proof.
  intros H1 H2. unfold dec_byte_array.
  rewrite unpack_unsigned_be by exact H1. cbn [bind].
  change MAX_HEADER_VALUE_BYTE_LENGTH with 32767.
  rewrite (proj2 (N.ltb_ge _ _)) by exact H2.
  rewrite skipn_be. replace (N.to_nat (len b)) with (List.length b) by (unfold len; lia).
  rewrite firstn_app_exact by reflexivity. reflexivity.
Qed.

(** ** Headers *)
Lemma encode_key_ok keys key ks b :
  encode_key keys key = Ok (ks, b) <->
  (~ In key keys /\ ks = key :: keys /\
   exists u, utf8_encode key = Ok u /\ len u < 256 /\ b = be_bytes 1 (len u) ++ u).
Proof.
  unfold encode_key. destruct (mem_text key keys) eqn:Hm.
  - apply mem_text_In in Hm. split; [discriminate|]. intros (H & _); contradiction.
  - apply mem_text_notIn in Hm. destruct (utf8_encode key) as [u|e] eqn:Hu; cbn [bind].
    + destruct (pack_unsigned 1 (len u)) as [l|e] eqn:Hp; cbn [bind].
      * apply pack_unsigned_ok in Hp. destruct Hp as [Hl ->]. split.
        -- intros E; injection E as <- <-. split; [exact Hm|]. split; [reflexivity|]. exists u. auto.
        -- intros (_ & -> & u' & E & _ & ->). injection E as <-. reflexivity.
      * split; [discriminate|]. intros (_ & _ & u' & E & Hlt & _). injection E as <-.
        assert (pack_unsigned 1 (len u) = Ok (be_bytes 1 (len u))) by (apply pack_unsigned_ok; auto).
        congruence.
    + split; [discriminate|]. intros (_ & _ & u' & E & _). discriminate.
Qed.

(** The bytes of the value part, once it encodes. *)
Inductive value_bytes : hvalue -> bytes -> Prop :=
| vb_bool b : value_bytes (HBool b) [if b then 0 else 1]
| vb_byte z : fits 8 z -> value_bytes (HByte z) ([2] ++ be_bytes 1 (twos_of_Z 1 z))
| vb_short z : fits 16 z -> value_bytes (HShort z) ([3] ++ be_bytes 2 (twos_of_Z 2 z))
| vb_int z : fits 32 z -> value_bytes (HInt z) ([4] ++ be_bytes 4 (twos_of_Z 4 z))
| vb_long z : fits 64 z -> value_bytes (HLong z) ([5] ++ be_bytes 8 (twos_of_Z 8 z))
| vb_blob b : len b <= 32767 -> value_bytes (HBlob b) ([6] ++ be_bytes 2 (len b) ++ b)
| vb_string s u : utf8_encode s = Ok u -> len u <= 32767 ->
    value_bytes (HString s) ([7] ++ be_bytes 2 (len u) ++ u)
| vb_ts z : fits 64 z -> value_bytes (HTimestamp z) ([8] ++ be_bytes 8 (twos_of_Z 8 z))
| vb_uuid b : value_bytes (HUuid b) ([9] ++ b).

Lemma pack16 n : n <= 32767 -> pack_unsigned 2 n = Ok (be_bytes 2 n).
Proof. intros H. apply pack_unsigned_ok. split; [|reflexivity]. change (256 ^ N.of_nat 2) with 65536. lia. Qed.

Ltac ek := match goal with
  | H : context [encode_key ?a ?b] |- _ => destruct (encode_key a b) as [[? ?]|?] eqn:?; cbn [bind] in H; [|discriminate H]
  | |- context [encode_key ?a ?b] => destruct (encode_key a b) as [[? ?]|?] eqn:?; cbn [bind]
  end.

Lemma encode_header_ok keys key v ks b :
  encode_header keys (key, v) = Ok (ks, b) <->
  exists kb vb, encode_key keys key = Ok (ks, kb) /\ value_bytes v vb /\ b = kb ++ vb.
Proof.
  split.
  - unfold encode_header. destruct v; intros H.
    + ek. injection H as <- <-. repeat eexists. constructor.
    + ek. destruct (wrap_int _) as [vb|e] eqn:Hp in H; cbn [bind] in H; [|discriminate].
      injection H as <- <-. apply wrap_int_ok, pack_signed_ok in Hp. destruct Hp as [Hf ->].
      repeat eexists. constructor; exact Hf.
    + ek. destruct (wrap_int _) as [vb|e] eqn:Hp in H; cbn [bind] in H; [|discriminate].
      injection H as <- <-. apply wrap_int_ok, pack_signed_ok in Hp. destruct Hp as [Hf ->].
      repeat eexists. constructor; exact Hf.
    + ek. destruct (wrap_int _) as [vb|e] eqn:Hp in H; cbn [bind] in H; [|discriminate].
      injection H as <- <-. apply wrap_int_ok, pack_signed_ok in Hp. destruct Hp as [Hf ->].
      repeat eexists. constructor; exact Hf.
    + ek. destruct (wrap_int _) as [vb|e] eqn:Hp in H; cbn [bind] in H; [|discriminate].
      injection H as <- <-. apply wrap_int_ok, pack_signed_ok in Hp. destruct Hp as [Hf ->].
      repeat eexists. constructor; exact Hf.
    + change MAX_HEADER_VALUE_BYTE_LENGTH with 32767 in H.
      destruct (N.ltb_spec 32767 (len b0)) as [L|L]; [discriminate|]. ek.
      rewrite pack16 in H by exact L. cbn [bind] in H. injection H as <- <-.
      repeat eexists. constructor; exact L.
    + destruct (utf8_encode s) as [u|e] eqn:Hu; cbn [bind] in H; [|discriminate].
      change MAX_HEADER_VALUE_BYTE_LENGTH with 32767 in H.
      destruct (N.ltb_spec 32767 (len u)) as [L|L]; [discriminate|]. ek.
      rewrite pack16 in H by exact L. cbn [bind] in H. injection H as <- <-.
      repeat eexists. econstructor; eassumption.
    + ek. destruct (pack_signed _ _) as [vb|e] eqn:Hp in H; cbn [bind] in H; [|discriminate].
      injection H as <- <-. apply pack_signed_ok in Hp. destruct Hp as [Hf ->].
      repeat eexists. constructor; exact Hf.
    + ek. injection H as <- <-. repeat eexists. constructor.
    + discriminate.
  - intros (kb & vb & Hk & Hv & ->). unfold encode_header.
    destruct Hv; try (rewrite Hk; cbn [bind]).
    + reflexivity.
    + rewrite (proj2 (wrap_int_ok _ _) (proj2 (pack_signed_ok 1 z _) (conj H eq_refl))). reflexivity.
    + rewrite (proj2 (wrap_int_ok _ _) (proj2 (pack_signed_ok 2 z _) (conj H eq_refl))). reflexivity.
    + rewrite (proj2 (wrap_int_ok _ _) (proj2 (pack_signed_ok 4 z _) (conj H eq_refl))). reflexivity.
    + rewrite (proj2 (wrap_int_ok _ _) (proj2 (pack_signed_ok 8 z _) (conj H eq_refl))). reflexivity.
    + change MAX_HEADER_VALUE_BYTE_LENGTH with 32767.
      rewrite (proj2 (N.ltb_ge _ _)) by exact H. cbn [bind]. rewrite pack16 by exact H. reflexivity.
    + rewrite H. cbn [bind]. change MAX_HEADER_VALUE_BYTE_LENGTH with 32767.
      rewrite (proj2 (N.ltb_ge _ _)) by exact H0. cbn [bind].
      rewrite pack16 by exact H0. reflexivity.
    + rewrite (proj2 (pack_signed_ok 8 z _) (conj H eq_refl)). reflexivity.
    + reflexivity.
Qed.

Lemma value_bytes_spec v : (exists b, value_bytes v b) <-> value_ok v.
Proof.
  split.
  - intros [b H]; destruct H; cbn [value_ok]; auto.
    apply utf8_encode_len in H as [Hv Hl]. split; [apply encodable_valid; exact Hv|lia].
  - destruct v; cbn [value_ok]; intros H; try (eexists; constructor; auto; fail).
    + destruct H as [He Hs]. apply encodable_valid in He.
      destruct (utf8_encode_valid s He) as [u Hu]. pose proof (utf8_encode_len _ _ Hu) as [_ Hl].
      eexists. econstructor; [exact Hu|lia].
    + contradiction.
Qed.

Lemma value_bytes_len v b : value_bytes v b -> len b = 1 + value_size v.
Proof.
  intros H; destruct H; cbn [value_size]; rewrite ?len_app, ?len_cons, ?len_nil;
    try reflexivity.
  all: try (apply utf8_encode_len in H as [_ Hl]; rewrite <- Hl);
    unfold len; rewrite ?be_bytes_length; cbn [List.length]; lia.
Qed.

Lemma value_bytes_bytes v b : value_typed v -> value_bytes v b -> all_bytes b = true.
Proof.
  intros Ht H; destruct H; cbn [value_typed] in Ht; rewrite ?all_bytes_app, ?be_bytes_all; try reflexivity.
  - destruct b; reflexivity.
  - apply is_bytes_all in Ht; rewrite Ht; reflexivity.
  - rewrite (utf8_encode_bytes _ _ H); reflexivity.
  - destruct Ht as [Ht _]. apply is_bytes_all in Ht; rewrite Ht; reflexivity.
Qed.

Lemma decode_header_encoded k kb u v vb rest :
  utf8_encode k = Ok u -> len u < 256 -> kb = be_bytes 1 (len u) ++ u ->
  value_bytes v vb -> value_typed v ->
  decode_header ((kb ++ vb) ++ rest) = Ok (k, v, rest).
Proof.
  intros Hu Hl -> Hv Ht. unfold decode_header.
  rewrite <- !app_assoc. unfold dec_utf8.
  rewrite dec_byte_array_be by (cbn; lia). cbn [bind].
  rewrite (utf8_roundtrip _ _ Hu). cbn [bind].
  assert (Hskip : skipn (List.length u + 1) (be_bytes 1 (len u) ++ u ++ vb ++ rest) = vb ++ rest).
  { rewrite app_assoc. apply skipn_app_exact. rewrite app_length, be_bytes_length. lia. }
  rewrite Hskip. clear Hskip.
  destruct Hv; cbn [value_typed] in Ht; rewrite <- ?app_assoc; cbn [app]; unfold dec_uint8; cbn [firstn];
    unfold unpack_unsigned; cbn [List.length Nat.eqb bind skipn];
    change (be_val [0]) with 0; change (be_val [1]) with 1; change (be_val [2]) with 2;
    change (be_val [3]) with 3; change (be_val [4]) with 4; change (be_val [5]) with 5;
    change (be_val [6]) with 6; change (be_val [7]) with 7; change (be_val [8]) with 8;
    change (be_val [9]) with 9.
  - destruct b; reflexivity.
  - unfold dec_value. rewrite dec_int_be by (auto; lia). cbn [bind]. rewrite skipn_be. reflexivity.
  - unfold dec_value. rewrite dec_int_be by (auto; lia). cbn [bind]. rewrite skipn_be. reflexivity.
  - unfold dec_value. rewrite dec_int_be by (auto; lia). cbn [bind]. rewrite skipn_be. reflexivity.
  - unfold dec_value. rewrite dec_int_be by (auto; lia). cbn [bind]. rewrite skipn_be. reflexivity.
  - unfold dec_value. rewrite dec_byte_array_be by (try (change (256 ^ N.of_nat 2) with 65536); lia). cbn [bind].
    rewrite app_assoc, skipn_app_exact by (rewrite app_length, be_bytes_length; lia). reflexivity.
  - unfold dec_value, dec_utf8.
    rewrite dec_byte_array_be by (try (change (256 ^ N.of_nat 2) with 65536); lia). cbn [bind].
    rewrite (utf8_roundtrip _ _ H). cbn [bind].
    rewrite app_assoc, skipn_app_exact by (rewrite app_length, be_bytes_length; lia). reflexivity.
  - unfold dec_value. rewrite dec_int_be by (auto; lia). cbn [bind]. rewrite skipn_be. reflexivity.
  - unfold dec_value, dec_uuid. destruct Ht as [_ Ht].
    rewrite firstn_app_exact, Ht by lia. cbn [Nat.eqb bind].
    rewrite skipn_app_exact by lia. reflexivity.
Qed.

(** The decoder's loop does not depend on its fuel. *)
Lemma decode_header_shorter data k v rest :
  data <> [] -> decode_header data = Ok (k, v, rest) -> (List.length rest < List.length data)%nat.
Proof.
  intros Hne. unfold decode_header, dec_utf8, dec_byte_array.
  destruct (unpack_unsigned 1 (firstn 1 data)) as [l|e]; cbn [bind]; [|discriminate].
  destruct (_ <? l); cbn [bind]; [discriminate|].
  destruct (utf8_decode _) as [s|e]; cbn [bind]; [|discriminate].
  destruct (dec_uint8 _) as [[ty n1]|e]; cbn [bind]; [|discriminate].
  destruct (dec_value _ _) as [[v' n2]|e]; cbn [bind]; [|discriminate].
  intros E; injection E as <- <- <-. rewrite !skipn_length.
  destruct data; [congruence|]. cbn [List.length]. lia.
Qed.

Lemma decode_headers_fuel n1 n2 acc data :
  (List.length data <= n1)%nat -> (List.length data <= n2)%nat ->
  decode_headers_loop n1 acc data = decode_headers_loop n2 acc data.
Proof.
  revert n2 acc data; induction n1 as [|n1 IH]; intros n2 acc data H1 H2.
  - destruct data; [|cbn in H1; lia]. destruct n2; reflexivity.
  - destruct data as [|b data]; [destruct n2; reflexivity|].
    destruct n2 as [|n2]; [cbn in H2; lia|]. cbn [decode_headers_loop].
    destruct (decode_header (b :: data)) as [[[k v] rest]|e] eqn:Hd; cbn [bind]; [|reflexivity].
    destruct (mem_text k (map fst acc)); [reflexivity|].
    apply decode_header_shorter in Hd; [|discriminate]. apply IH; lia.
Qed.

Lemma encode_headers_keys keys hs b :
  encode_headers keys hs = Ok b -> NoDup (map fst hs) /\ (forall k, In k (map fst hs) -> ~ In k keys).
Proof.
  revert keys b; induction hs as [|[k v] hs IH]; intros keys b H; cbn [encode_headers] in H.
  - split; [constructor | intros ? []].
  - destruct (encode_header keys (k, v)) as [[ks hb]|e] eqn:Hh; cbn [bind] in H; [|discriminate].
    destruct (encode_headers ks hs) as [bs|e] eqn:Hr; cbn [bind] in H; [|discriminate].
    apply encode_header_ok in Hh as (kb & vb & Hk & _ & _).
    apply encode_key_ok in Hk as (Hn & -> & _).
    destruct (IH _ _ Hr) as [Hnd Hni]. cbn [map fst]. split.
    + constructor; [|exact Hnd]. intros Hin. apply (Hni k Hin). left; reflexivity.
    + intros k' [<-|Hin]; [exact Hn|]. intros Hin'. apply (Hni k' Hin). right; exact Hin'.
Qed.

Lemma decode_headers_encoded keys hs b fuel acc :
  encode_headers keys hs = Ok b ->
  Forall (fun h => value_typed (snd h)) hs ->
  (forall k, In k (map fst acc) -> In k keys) ->
  (List.length b <= fuel)%nat ->
  decode_headers_loop fuel acc b = Ok (rev acc ++ hs).
Proof.
  revert keys b fuel acc; induction hs as [|[k v] hs IH]; intros keys b fuel acc H Ht Ha Hf; cbn [encode_headers] in H.
  - injection H as <-. rewrite app_nil_r. destruct fuel; reflexivity.
  - destruct (encode_header keys (k, v)) as [[ks hb]|e] eqn:Hh; cbn [bind] in H; [|discriminate].
    destruct (encode_headers ks hs) as [bs|e] eqn:Hr; cbn [bind] in H; [|discriminate].
    injection H as <-.
    apply encode_header_ok in Hh as (kb & vb & Hk & Hv & ->).
    apply encode_key_ok in Hk as (Hn & -> & u & Hu & Hlu & ->).
    inversion Ht as [|h0 t0 Ht1 Ht2]; subst. cbn [snd] in Ht1.
    pose proof (decode_header_encoded k _ u v vb bs Hu Hlu eq_refl Hv Ht1) as Hd.
    set (data := ((be_bytes 1 (len u) ++ u) ++ vb) ++ bs) in *.
    assert (Hne : data <> []) by (subst data; destruct (be_bytes 1 (len u)) eqn:E; [discriminate E|discriminate]).
    destruct data as [|d0 data'] eqn:Ed; [contradiction|]. rewrite <- Ed in *.
    destruct fuel as [|fuel]; [rewrite Ed in Hf; cbn in Hf; lia|].
    assert (Hstep : decode_headers_loop (S fuel) acc data =
                    decode_headers_loop fuel ((k, v) :: acc) bs).
    { rewrite Ed at 1. cbn [decode_headers_loop]. rewrite <- Ed, Hd. cbn [bind].
      rewrite (proj2 (mem_text_notIn _ _)); [reflexivity|]. intros Hin. apply Hn, Ha, Hin. }
    rewrite Hstep. apply decode_header_shorter in Hd; [|rewrite Ed; discriminate].
    rewrite (IH (k :: keys) bs fuel ((k, v) :: acc)); auto.
    + cbn [rev]. rewrite <- app_assoc. reflexivity.
    + cbn [map fst]. intros k' [<-|Hin]; [left; reflexivity | right; apply Ha, Hin].
    + lia.
Qed.

Lemma encode_headers_props keys hs b :
  encode_headers keys hs = Ok b ->
  Forall (fun h => encodable (fst h) /\ text_size (fst h) <= 255 /\ value_ok (snd h)) hs /\
  len b = headers_size hs /\
  (Forall (fun h => value_typed (snd h)) hs -> all_bytes b = true).
Proof.
  revert keys b; induction hs as [|[k v] hs IH]; intros keys b H; cbn [encode_headers] in H.
  - injection H as <-. split; [constructor|]. split; reflexivity.
  - destruct (encode_header keys (k, v)) as [[ks hb]|e] eqn:Hh; cbn [bind] in H; [|discriminate].
    destruct (encode_headers ks hs) as [bs|e] eqn:Hr; cbn [bind] in H; [|discriminate].
    injection H as <-.
    apply encode_header_ok in Hh as (kb & vb & Hk & Hv & ->).
    apply encode_key_ok in Hk as (Hn & -> & u & Hu & Hlu & ->).
    destruct (IH _ _ Hr) as (H1 & H2 & H3).
    pose proof (utf8_encode_len _ _ Hu) as [Hvu Hlen].
    split; [|split].
    + constructor; [|exact H1]. cbn [fst snd]. split; [apply encodable_valid; exact Hvu|].
      split; [lia|]. apply value_bytes_spec; eauto.
    + rewrite !len_app, (value_bytes_len _ _ Hv), H2, Hlen.
      change (headers_size ((k, v) :: hs)) with (1 + text_size k + 1 + value_size v + headers_size hs).
      unfold len. rewrite be_bytes_length. lia.
    + intros Ht. inversion Ht as [|h0 t0 Ht1 Ht2]; subst. cbn [snd] in Ht1.
      rewrite !all_bytes_app, be_bytes_all, (utf8_encode_bytes _ _ Hu),
        (value_bytes_bytes _ _ Ht1 Hv), (H3 Ht2). reflexivity.
Qed.

Lemma encode_headers_complete keys hs :
  NoDup (map fst hs) -> (forall k, In k (map fst hs) -> ~ In k keys) ->
  Forall (fun h => encodable (fst h) /\ text_size (fst h) <= 255 /\ value_ok (snd h)) hs ->
  exists b, encode_headers keys hs = Ok b.
Proof.
  revert keys; induction hs as [|[k v] hs IH]; intros keys Hnd Hni Hf; cbn [encode_headers]; [eauto|].
  inversion Hf as [|h0 t0 [He [Hs Hv]] Hf2]; subst. cbn [fst snd] in *.
  apply encodable_valid in He. destruct (utf8_encode_valid k He) as [u Hu].
  pose proof (utf8_encode_len _ _ Hu) as [_ Hl].
  apply value_bytes_spec in Hv. destruct Hv as [vb Hv].
  assert (Hk : encode_key keys k = Ok (k :: keys, be_bytes 1 (len u) ++ u)).
  { apply encode_key_ok. split; [apply Hni; left; reflexivity|]. split; [reflexivity|]. exists u. split; [exact Hu|]. split; [lia|reflexivity]. }
  rewrite (proj2 (encode_header_ok keys k v _ _) (ex_intro _ _ (ex_intro _ _ (conj Hk (conj Hv eq_refl))))).
  cbn [bind]. inversion Hnd; subst.
  destruct (IH (k :: keys)) as [bs Hbs]; auto.
  - intros k' Hk' [<-|Hin]; [contradiction|]. apply (Hni k'); [right; exact Hk'|exact Hin].
  - rewrite Hbs. cbn [bind]. eauto.
Qed.

(** ** Frames *)
Lemma be_word_roundtrip n rest : n < B32 -> unpack_unsigned 4 (firstn 4 (be_bytes 4 n ++ rest)) = Ok n.
Proof. intros H. apply unpack_unsigned_be. exact H. Qed.

(** The shape of an encoded frame. *)
Definition frame_of (hb p : bytes) : bytes :=
  let pre := be_bytes 4 (len hb + len p + 16) ++ be_bytes 4 (len hb) in
  let pc := crc32 pre 0 in
  pre ++ be_bytes 4 pc ++ (hb ++ p) ++ be_bytes 4 (crc32 (be_bytes 4 pc ++ hb ++ p) pc).

Lemma pre_all n m : all_bytes (be_bytes 4 n ++ be_bytes 4 m) = true.
Proof. rewrite all_bytes_app, !be_bytes_all. reflexivity. Qed.

Lemma encode_event_bytes_ok hb p f :
  all_bytes hb = true -> all_bytes p = true ->
  (encode_event_bytes hb p = Ok f <->
   (len hb <= 131072 /\ len p <= 16777216 /\ f = frame_of hb p)).
Proof.
  intros Hhb Hp. unfold encode_event_bytes.
  change MAX_HEADERS_LENGTH with 131072. change MAX_PAYLOAD_LENGTH with 16777216.
  destruct (N.ltb_spec 131072 (len hb)) as [L1|L1]; [split; [discriminate|lia]|].
  destruct (N.ltb_spec 16777216 (len p)) as [L2|L2]; [split; [discriminate|lia]|].
  unfold encode_prelude_bytes. change MESSAGE_METADATA_SIZE with 16.
  assert (E1 : pack_unsigned 4 (len hb + len p + 16) = Ok (be_bytes 4 (len hb + len p + 16))).
  { apply pack_unsigned_ok. change (256 ^ N.of_nat 4) with 4294967296. split; [lia|reflexivity]. }
  assert (E2 : pack_unsigned 4 (len hb) = Ok (be_bytes 4 (len hb))).
  { apply pack_unsigned_ok. change (256 ^ N.of_nat 4) with 4294967296. split; [lia|reflexivity]. }
  rewrite E1, E2. cbn [bind].
  set (pre := be_bytes 4 (len hb + len p + 16) ++ be_bytes 4 (len hb)).
  assert (Hpc : crc32 pre 0 < B32).
  { apply crc32_lt; [apply pre_all | reflexivity]. }
  assert (E3 : pack_unsigned 4 (crc32 pre 0) = Ok (be_bytes 4 (crc32 pre 0))).
  { apply pack_unsigned_ok. split; [exact Hpc|reflexivity]. }
  rewrite E3. cbn [bind].
  assert (E4 : pack_unsigned 4 (crc32 (be_bytes 4 (crc32 pre 0) ++ hb ++ p) (crc32 pre 0)) =
               Ok (be_bytes 4 (crc32 (be_bytes 4 (crc32 pre 0) ++ hb ++ p) (crc32 pre 0)))).
  { apply pack_unsigned_ok. split; [|reflexivity]. apply crc32_lt; auto.
    rewrite !all_bytes_app, be_bytes_all, Hhb, Hp. reflexivity. }
  rewrite E4. cbn [bind]. unfold frame_of. fold pre. split.
  - intros E; injection E as <-. split; [lia|]. split; [lia|]. rewrite <- !app_assoc. reflexivity.
  - intros (_ & _ & ->). rewrite <- !app_assoc. reflexivity.
Qed.

Lemma encode_message_ok m f :
  message_typed m ->
  (encode_message m = Ok f <->
   exists hb, encode_headers [] (m_headers m) = Ok hb /\ len hb <= 131072 /\
     len (m_payload m) <= 16777216 /\ f = frame_of hb (m_payload m)).
Proof.
  intros [Hp Ht]. apply is_bytes_all in Hp. unfold encode_message, get_headers_bytes.
  change MAX_HEADERS_LENGTH with 131072.
  destruct (encode_headers [] (m_headers m)) as [hb|e] eqn:Hh; cbn [bind].
  - pose proof (encode_headers_props _ _ _ Hh) as (_ & _ & Hall). specialize (Hall Ht).
    destruct (N.ltb_spec 131072 (len hb)) as [L|L]; cbn [bind].
    + split; [discriminate|]. intros (hb' & E & Hl & _). injection E as <-. lia.
    + rewrite encode_event_bytes_ok by assumption. split.
      * intros (H1 & H2 & ->). eauto.
      * intros (hb' & E & H1 & H2 & ->). injection E as <-. auto.
  - split; [discriminate|]. intros (hb' & E & _). discriminate.
Qed.

(** Encoding succeeds exactly on the messages within the limits. *)
Lemma encode_iff_within m :
  message_typed m -> ((exists f, encode_message m = Ok f) <-> within_limits m).
Proof.
  intros Ht. split.
  - intros [f Hf]. apply encode_message_ok in Hf as (hb & Hh & Hl & Hp & _); [|exact Ht].
    pose proof (encode_headers_keys _ _ _ Hh) as [Hnd _].
    pose proof (encode_headers_props _ _ _ Hh) as (Hf & Hlen & _).
    unfold within_limits. rewrite <- Hlen. auto.
  - intros (Hnd & Hf & Hs & Hp).
    destruct (encode_headers_complete [] (m_headers m) Hnd (fun _ _ H => H) Hf) as [hb Hh].
    pose proof (encode_headers_props _ _ _ Hh) as (_ & Hlen & _).
    exists (frame_of hb (m_payload m)). apply encode_message_ok; [exact Ht|].
    exists hb. rewrite Hlen. auto.
Qed.

Lemma frame_len hb p : List.length (frame_of hb p) = (16 + List.length hb + List.length p)%nat.
Proof. unfold frame_of. rewrite !app_length, !be_bytes_length. lia. Qed.

Lemma src_read_app n a rest :
  n = Z.of_nat (List.length a) -> src_read n (a ++ rest) = (a, rest).
Proof.
  intros ->. unfold src_read. rewrite (proj2 (Z.ltb_ge _ _)) by lia.
  rewrite Nat2Z.id, firstn_app_exact, skipn_app_exact by reflexivity. reflexivity.
Qed.

Lemma match_ne {A B} (l : list A) (x y : B) : l <> [] -> match l with [] => x | _ :: _ => y end = y.
Proof. destruct l; congruence. Qed.

(** Decoding from bytes cut into the five parts of a frame. *)
Lemma decode_event_parts pre pcb body fcb rest :
  List.length pre = 8%nat -> List.length pcb = 4%nat -> List.length fcb = 4%nat ->
  (be_val (firstn 4 pre) = len body + 16) ->
  decode_event (pre ++ pcb ++ body ++ fcb ++ rest) =
    (do _ <- validate_checksum pre (be_val pcb) 0;
     do pr <- mk_prelude (be_val (firstn 4 pre)) (be_val (skipn 4 pre)) (be_val pcb);
     do _ <- validate_checksum (pcb ++ body) (be_val fcb) (be_val pcb);
     do hs <- decode_headers (firstn (N.to_nat (be_val (skipn 4 pre))) body);
     do m <- mk_event_message hs (skipn (N.to_nat (be_val (skipn 4 pre))) body);
     Ok (Some (mkEvent pr m (be_val fcb)), rest)).
Proof.
  intros H1 H2 H3 Hb. unfold decode_event, decode_event_from.
  rewrite src_read_app by lia. cbn [bind].
  rewrite (match_ne pre) by (intros E0; rewrite E0 in *; discriminate).
  rewrite src_read_app by lia. cbn [bind].
  rewrite <- (app_nil_r pcb) at 1. rewrite firstn_app_exact by lia.
  unfold unpack_unsigned at 1. rewrite H2. cbn [Nat.eqb bind]. rewrite H1. cbn [Nat.eqb bind wrap_struct].
  destruct (validate_checksum pre (be_val pcb) 0); cbn [bind]; [|reflexivity].
  destruct (mk_prelude _ _ _); cbn [bind]; [|reflexivity].
  rewrite src_read_app by (rewrite Hb; change MESSAGE_METADATA_SIZE with 16; unfold len; lia). cbn [bind].
  rewrite src_read_app by lia. cbn [bind].
  rewrite <- (app_nil_r fcb) at 1. rewrite firstn_app_exact by lia.
  unfold unpack_unsigned. rewrite H3. cbn [Nat.eqb bind wrap_struct]. reflexivity.
Qed.

Lemma pre_total n m : n < B32 -> be_val (firstn 4 (be_bytes 4 n ++ be_bytes 4 m)) = n.
Proof. intros H. rewrite firstn_app_exact by (symmetry; apply be_bytes_length). apply be_val_bytes, H. Qed.
Lemma pre_hlen n m : m < B32 -> be_val (skipn 4 (be_bytes 4 n ++ be_bytes 4 m)) = m.
Proof. intros H. rewrite skipn_be. apply be_val_bytes, H. Qed.

Lemma decode_frame hb p hs rest :
  all_bytes hb = true -> all_bytes p = true -> len hb <= 131072 -> len p <= 16777216 ->
  decode_headers hb = Ok hs ->
  exists ev, decode_event (frame_of hb p ++ rest) = Ok (Some ev, rest) /\ e_message ev = mkMessage hs p /\
    e_prelude ev = mkPrelude (len hb + len p + 16) (len hb) (p_crc (e_prelude ev)).
Proof.
  intros Hhb Hp L1 L2 Hd. unfold frame_of.
  set (pre := be_bytes 4 (len hb + len p + 16) ++ be_bytes 4 (len hb)).
  set (pc := crc32 pre 0).
  assert (Hpc : pc < B32) by (apply crc32_lt; [apply pre_all|reflexivity]).
  set (fc := crc32 (be_bytes 4 pc ++ hb ++ p) pc).
  assert (Hfc : fc < B32).
  { apply crc32_lt; [|exact Hpc]. rewrite !all_bytes_app, be_bytes_all, Hhb, Hp; reflexivity. }
  rewrite <- !(app_assoc _ _ rest). rewrite <- (app_assoc hb p).
  assert (Hl8 : List.length pre = 8%nat) by (unfold pre; rewrite app_length, !be_bytes_length; reflexivity).
  assert (Hb32a : len hb + len p + 16 < B32) by (unfold B32; lia).
  assert (Hb32b : len hb < B32) by (unfold B32; lia).
  replace (pre ++ be_bytes 4 pc ++ hb ++ p ++ be_bytes 4 fc ++ rest)
    with (pre ++ be_bytes 4 pc ++ (hb ++ p) ++ be_bytes 4 fc ++ rest) by (rewrite <- !app_assoc; reflexivity).
  rewrite decode_event_parts; try apply be_bytes_length; auto.
  2: { unfold pre. rewrite pre_total by exact Hb32a. rewrite len_app. reflexivity. }
  rewrite !be_val_bytes by assumption.
  unfold validate_checksum at 1. fold pc. rewrite N.eqb_refl. cbn [bind].
  unfold pre at 1 2. rewrite pre_total, pre_hlen by assumption.
  unfold mk_prelude. change MAX_HEADERS_LENGTH with 131072. change MAX_PAYLOAD_LENGTH with 16777216.
  rewrite (proj2 (N.ltb_ge _ _)) by exact L1.
  destruct (Z.ltb_spec (Z.of_N 16777216) (Z.of_N (len hb + len p + 16) - Z.of_N (len hb) - 16)) as [L|L]; [lia|].
  cbn [bind]. unfold validate_checksum. fold fc. rewrite N.eqb_refl. cbn [bind].
  unfold pre. rewrite !pre_hlen by assumption.
  replace (N.to_nat (len hb)) with (List.length hb) by (unfold len; lia).
  rewrite firstn_app_exact, skipn_app_exact by reflexivity.
  rewrite Hd. cbn [bind]. unfold mk_event_message. change MAX_PAYLOAD_LENGTH with 16777216.
  rewrite (proj2 (N.ltb_ge _ _)) by exact L2. cbn [bind].
  eexists; split; [reflexivity|]. cbn [e_message e_prelude p_crc]. split; reflexivity.
Qed.

Lemma roundtrip m f :
  message_typed m -> encode_message m = Ok f ->
  forall rest, exists ev, decode_event (f ++ rest) = Ok (Some ev, rest) /\ e_message ev = m.
Proof.
  intros Ht Hf rest. pose proof Ht as [Hp Hv]. apply is_bytes_all in Hp.
  apply encode_message_ok in Hf as (hb & Hh & L1 & L2 & ->); [|exact Ht].
  pose proof (encode_headers_props _ _ _ Hh) as (_ & _ & Hall).
  assert (Hd : decode_headers hb = Ok (m_headers m)).
  { unfold decode_headers. change MAX_HEADERS_LENGTH with 131072.
    rewrite (proj2 (N.ltb_ge _ _)) by exact L1.
    rewrite (decode_headers_encoded [] (m_headers m) hb _ []); auto. }
  destruct (decode_frame hb (m_payload m) (m_headers m) rest) as (ev & E & Em & _); auto.
  exists ev. split; [exact E|]. rewrite Em. destruct m; reflexivity.
Qed.

(** ** Streams *)
Lemma decode_event_nil : decode_event [] = Ok (None, []).
Proof. reflexivity. Qed.

Lemma ok_snd {A B} (a a' : A) (b b' : B) : Ok (a, b) = Ok (a', b') -> b = b'.
Proof. congruence. Qed.

Lemma decode_event_shorter src ev rest :
  decode_event src = Ok (Some ev, rest) -> (List.length rest < List.length src)%nat.
Proof.
  unfold decode_event, decode_event_from, src_read. cbn [bind].
  change (Z.ltb 8 0) with false. change (Z.ltb 4 0) with false. cbn [bind].
  destruct (firstn (Z.to_nat 8) src) as [|b0 pr] eqn:Hf; [discriminate|].
  change (Z.to_nat 8) with 8%nat in *. change (Z.to_nat 4) with 4%nat.
  destruct (wrap_struct _) as [[[pcrc total] hl]|e]; cbn [bind]; [|discriminate].
  destruct (validate_checksum _ _ _); cbn [bind]; [|discriminate].
  destruct (mk_prelude _ _ _); cbn [bind]; [|discriminate].
  assert (Hne : src <> []) by (intros ->; discriminate).
  assert (0 < List.length src)%nat by (destruct src; [congruence|cbn; lia]).
  destruct (Z.ltb (Z.of_N total - Z.of_N MESSAGE_METADATA_SIZE) 0); cbn [bind];
  destruct (wrap_struct _) as [crc|e]; cbn [bind]; try discriminate;
  destruct (validate_checksum _ _ _); cbn [bind]; try discriminate;
  destruct (decode_headers _); cbn [bind]; try discriminate;
  destruct (mk_event_message _ _); cbn [bind]; try discriminate;
  intros E; apply ok_snd in E; rewrite <- E; rewrite ?skipn_length; cbn [List.length]; lia.
Qed.

Lemma decode_all_fuel n1 n2 src :
  (List.length src <= n1)%nat -> (List.length src <= n2)%nat ->
  decode_all_loop n1 src = decode_all_loop n2 src.
Proof.
  revert n2 src; induction n1 as [|n1 IH]; intros n2 src H1 H2.
  - destruct src; [|cbn in H1; lia]. destruct n2; reflexivity.
  - destruct n2 as [|n2].
    { destruct src; [reflexivity|cbn in H2; lia]. }
    cbn [decode_all_loop]. destruct (decode_event src) as [[[ev|] rest]|e] eqn:Hd; try reflexivity.
    pose proof (decode_event_shorter _ _ _ Hd). rewrite (IH n2 rest) by lia. reflexivity.
Qed.

Lemma decode_all_cons src ev rest :
  decode_event src = Ok (Some ev, rest) ->
  decode_all src = (e_message ev :: fst (decode_all rest), snd (decode_all rest)).
Proof.
  intros Hd. pose proof (decode_event_shorter _ _ _ Hd) as Hl. unfold decode_all.
  destruct (List.length src) as [|n] eqn:El; [lia|].
  cbn [decode_all_loop]. rewrite Hd. rewrite (decode_all_fuel n (List.length rest) rest) by lia.
  destruct (decode_all_loop (List.length rest) rest); reflexivity.
Qed.

Lemma decode_all_frames ms fs tail :
  Forall message_typed ms -> Forall2 (fun m f => encode_message m = Ok f) ms fs ->
  decode_all (List.concat fs ++ tail) = (ms ++ fst (decode_all tail), snd (decode_all tail)).
Proof.
  intros Ht H; induction H as [|m f ms fs Hm _ IH].
  - cbn [List.concat app]. destruct (decode_all tail); reflexivity.
  - inversion Ht as [|? ? Ht1 Ht2]; subst. cbn [List.concat]. rewrite <- app_assoc.
    destruct (roundtrip m f Ht1 Hm (List.concat fs ++ tail)) as (ev & E & Em).
    rewrite (decode_all_cons _ _ _ E), Em. rewrite (IH Ht2). reflexivity.
Qed.

(** ** Truncation *)
Lemma firstn_app_split {A} k (a b : list A) :
  (List.length a <= k)%nat -> firstn k (a ++ b) = a ++ firstn (k - List.length a) b.
Proof. intros H. rewrite firstn_app, firstn_all2 by exact H. reflexivity. Qed.

Lemma src_read_short n s : (List.length s <= Z.to_nat n)%nat -> (0 <= n)%Z -> src_read n s = (s, []).
Proof.
  intros H Hn. unfold src_read. rewrite (proj2 (Z.ltb_ge _ _)) by exact Hn.
  rewrite firstn_all2, skipn_all2 by exact H. reflexivity.
Qed.

Lemma decode_short_prelude src :
  src <> [] -> (List.length src < 12)%nat -> decode_event src = Err InvalidEventBytes.
Proof.
  intros Hne Hl. unfold decode_event, decode_event_from.
  destruct (Nat.le_gt_cases (List.length src) 8) as [L|L].
  - rewrite src_read_short by lia. cbn [bind]. destruct src as [|b0 r] eqn:Es; [congruence|]. rewrite <- Es.
    rewrite src_read_short by (cbn; lia). cbn [bind]. reflexivity.
  - assert (Hc : src = firstn 8 src ++ skipn 8 src) by (symmetry; apply firstn_skipn).
    assert (Hf : List.length (firstn 8 src) = 8%nat) by (rewrite firstn_length; lia).
    assert (Hs : List.length (skipn 8 src) = (List.length src - 8)%nat) by apply skipn_length.
    set (a := firstn 8 src) in *. set (b := skipn 8 src) in *. rewrite Hc.
    rewrite src_read_app by lia. cbn [bind]. destruct a as [|a0 ar] eqn:Ea; [discriminate|]. rewrite <- Ea in *.
    rewrite src_read_short by (change (Z.to_nat 4) with 4%nat; lia). cbn [bind].
    unfold unpack_unsigned. rewrite firstn_all2 by lia.
    rewrite (proj2 (Nat.eqb_neq _ _)) by lia. reflexivity.
Qed.

Lemma decode_truncated m f k :
  message_typed m -> encode_message m = Ok f -> (0 < k < List.length f)%nat ->
  decode_event (firstn k f) = Err InvalidEventBytes.
Proof.
  intros Ht Hf Hk. pose proof Ht as [Hp Hv]. apply is_bytes_all in Hp.
  apply encode_message_ok in Hf as (hb & Hh & L1 & L2 & ->); [|exact Ht].
  pose proof (encode_headers_props _ _ _ Hh) as (_ & _ & Hall). specialize (Hall Hv).
  rewrite frame_len in Hk. set (p := m_payload m) in *.
  destruct (Nat.lt_ge_cases k 12) as [K|K].
  { apply decode_short_prelude.
    - intros E. apply (f_equal (@List.length N)) in E. rewrite firstn_length, frame_len in E. cbn in E. lia.
    - rewrite firstn_length. lia. }
  unfold frame_of.
  set (pre := be_bytes 4 (len hb + len p + 16) ++ be_bytes 4 (len hb)).
  set (pc := crc32 pre 0).
  assert (Hpc : pc < B32) by (apply crc32_lt; [apply pre_all|reflexivity]).
  set (fcb := be_bytes 4 (crc32 (be_bytes 4 pc ++ hb ++ p) pc)).
  assert (Hlf : List.length fcb = 4%nat) by apply be_bytes_length.
  assert (Hl8 : List.length pre = 8%nat) by (unfold pre; rewrite app_length, !be_bytes_length; reflexivity).
  assert (Hl4 : List.length (be_bytes 4 pc) = 4%nat) by apply be_bytes_length.
  rewrite firstn_app_split by lia. rewrite (firstn_app_split _ (be_bytes 4 pc)) by lia.
  rewrite Hl8, Hl4. set (k' := (k - 8 - 4)%nat). set (tail := firstn k' ((hb ++ p) ++ fcb)).
  assert (Htl : (List.length tail = k')%nat).
  { unfold tail. rewrite firstn_length, !app_length. unfold k'. lia. }
  unfold decode_event, decode_event_from.
  rewrite src_read_app by lia. cbn [bind].
  rewrite (match_ne pre) by (intros E0; rewrite E0 in *; discriminate).
  rewrite src_read_app by lia. cbn [bind].
  rewrite <- (app_nil_r (be_bytes 4 pc)) at 1. rewrite be_word_roundtrip by exact Hpc. cbn [bind].
  rewrite Hl8. cbn [Nat.eqb wrap_struct bind].
  unfold validate_checksum at 1. fold pc. rewrite N.eqb_refl. cbn [bind].
  assert (Ht1 : be_val (firstn 4 pre) = len hb + len p + 16)
    by (apply pre_total; unfold B32; lia).
  assert (Ht2 : be_val (skipn 4 pre) = len hb)
    by (apply pre_hlen; unfold B32; lia).
  rewrite Ht1, Ht2. unfold mk_prelude.
  change MAX_HEADERS_LENGTH with 131072. change MAX_PAYLOAD_LENGTH with 16777216.
  rewrite (proj2 (N.ltb_ge _ _)) by exact L1.
  destruct (Z.ltb_spec (Z.of_N 16777216) (Z.of_N (len hb + len p + 16) - Z.of_N (len hb) - 16)) as [L|L]; [lia|].
  cbn [bind]. change MESSAGE_METADATA_SIZE with 16.
  destruct (Nat.le_gt_cases k' (List.length (hb ++ p))) as [Q|Q].
  - rewrite src_read_short by (rewrite app_length in Q; unfold len; lia).
    cbn [bind]. rewrite src_read_short by (cbn; lia). reflexivity.
  - assert (Et : tail = (hb ++ p) ++ firstn (k' - List.length (hb ++ p)) fcb).
    { unfold tail. apply firstn_app_split. lia. }
    rewrite Et. rewrite src_read_app by (rewrite app_length; unfold len; lia). cbn [bind].
    assert (Hc : (List.length (firstn (k' - List.length (hb ++ p)) fcb) < 4)%nat).
    { rewrite firstn_length. rewrite app_length in *. unfold k' in *. lia. }
    rewrite src_read_short by (change (Z.to_nat 4) with 4%nat; lia). cbn [bind].
    unfold unpack_unsigned. rewrite (firstn_all2 (firstn _ fcb)) by lia.
    rewrite (proj2 (Nat.eqb_neq _ 4)) by lia. reflexivity.
Qed.

Lemma decode_all_err src e : decode_event src = Err e -> decode_all src = ([], Some e).
Proof. intros H. unfold decode_all. destruct (List.length src); cbn [decode_all_loop]; rewrite H; reflexivity. Qed.

(** ** Limits on the decoding side *)
Lemma decode_limits src ev rest :
  decode_event src = Ok (Some ev, rest) ->
  p_headers (e_prelude ev) <= 131072 /\ len (m_payload (e_message ev)) <= 16777216 /\
  NoDup (map fst (m_headers (e_message ev))).
Proof.
  unfold decode_event, decode_event_from. cbn [bind].
  destruct (src_read 8 src) as [pb s1]. cbn [bind]. destruct pb as [|b0 pr] eqn:Hf; [discriminate|]. rewrite <- Hf.
  destruct (src_read 4 s1) as [cb s2]. cbn [bind].
  destruct (wrap_struct _) as [[[pcrc total] hl]|e]; cbn [bind]; [|discriminate].
  destruct (validate_checksum _ _ _); cbn [bind]; [|discriminate].
  unfold mk_prelude. change MAX_HEADERS_LENGTH with 131072.
  destruct (N.ltb_spec 131072 hl) as [L|L]; cbn [bind]; [discriminate|].
  destruct (Z.ltb _ _); cbn [bind]; [discriminate|].
  destruct (src_read _ s2) as [mb s3]. cbn [bind]. destruct (src_read 4 s3) as [fb s4]. cbn [bind].
  destruct (wrap_struct _) as [crc|e]; cbn [bind]; [|discriminate].
  destruct (validate_checksum _ _ _); cbn [bind]; [|discriminate].
  destruct (decode_headers _) as [hs|e] eqn:Hd; cbn [bind]; [|discriminate].
  unfold mk_event_message. change MAX_PAYLOAD_LENGTH with 16777216.
  destruct (N.ltb_spec 16777216 (len (skipn (N.to_nat hl) mb))) as [L'|L']; cbn [bind]; [discriminate|].
  intros E; injection E as <- <-. cbn [e_prelude p_headers e_message m_payload m_headers].
  split; [exact L|]. split; [exact L'|].
  unfold decode_headers in Hd. destruct (_ <? _); [discriminate|].
  assert (G : forall fuel acc data out, NoDup (map fst acc) ->
             decode_headers_loop fuel acc data = Ok out -> NoDup (map fst out)).
  { induction fuel as [|fuel IH]; intros acc data out Ha Ho; destruct data as [|d data]; cbn [decode_headers_loop] in Ho;
      try discriminate; try (injection Ho as <-; rewrite map_rev; apply NoDup_rev; exact Ha).
    destruct (decode_header _) as [[[k v] r]|e]; cbn [bind] in Ho; [|discriminate].
    destruct (mem_text k (map fst acc)) eqn:Hm; [discriminate|].
    apply mem_text_notIn in Hm. eapply IH; [|exact Ho]. cbn [map fst]. constructor; assumption. }
  eapply G; [|exact Hd]. constructor.
Qed.

(** ** Corruption *)
Lemma decode_crc_mismatch pre pcb body fcb rest :
  List.length pre = 8%nat -> List.length pcb = 4%nat -> List.length fcb = 4%nat ->
  be_val pcb <> crc32 pre 0 ->
  decode_event (pre ++ pcb ++ body ++ fcb ++ rest) = Err ChecksumMismatch.
Proof.
  intros H1 H2 H3 Hne. unfold decode_event, decode_event_from.
  rewrite src_read_app by lia. cbn [bind].
  rewrite (match_ne pre) by (intros E0; rewrite E0 in *; discriminate).
  rewrite src_read_app by lia. cbn [bind].
  rewrite <- (app_nil_r pcb) at 1. rewrite firstn_app_exact by lia.
  unfold unpack_unsigned at 1. rewrite H2. cbn [Nat.eqb bind]. rewrite H1. cbn [Nat.eqb bind wrap_struct].
  unfold validate_checksum at 1. rewrite (proj2 (N.eqb_neq _ _)) by exact Hne. reflexivity.
Qed.

Lemma cut_at {A} k (l : list A) : (k <= List.length l)%nat ->
  exists a b, l = a ++ b /\ List.length a = k.
Proof.
  intros H. exists (firstn k l), (skipn k l). rewrite firstn_skipn, firstn_length. split; [reflexivity|lia].
Qed.

Lemma all_bytes_mid a w b : all_bytes (a ++ w ++ b) = true -> all_bytes a = true /\ all_bytes w = true /\ all_bytes b = true.
Proof. rewrite !all_bytes_app, !andb_true_iff. tauto. Qed.

Lemma all_bytes_app_inv a b : all_bytes (a ++ b) = true -> all_bytes a = true /\ all_bytes b = true.
Proof. rewrite all_bytes_app, andb_true_iff. tauto. Qed.

Lemma crc_state_eq a b body :
  a < B32 -> b < B32 -> all_bytes body = true -> crc32 body a = crc32 body b -> a = b.
Proof.
  intros Ha Hb Hall E. unfold crc32 in E.
  assert (E2 : fold_left crc_byte body (N.lxor a MASK32) = fold_left crc_byte body (N.lxor b MASK32)).
  { set (x := fold_left crc_byte body _) in *. set (y := fold_left crc_byte body (N.lxor b MASK32)) in *.
    assert (N.lxor (N.lxor x MASK32) MASK32 = N.lxor (N.lxor y MASK32) MASK32) as E3 by congruence.
    rewrite !N.lxor_assoc, N.lxor_nilpotent, !N.lxor_0_r in E3. exact E3. }
  apply crc_fold_inj in E2; auto using lxor_lt32, mask_lt.
  assert (N.lxor (N.lxor a MASK32) MASK32 = N.lxor (N.lxor b MASK32) MASK32) as E3 by congruence.
  rewrite !N.lxor_assoc, N.lxor_nilpotent, !N.lxor_0_r in E3. exact E3.
Qed.

(** If the state and the four bytes fed change together without effect, the
    changes agree as little-endian words. *)
Lemma crc_word_eq w1 w2 c1 c2 :
  c1 < B32 -> c2 < B32 -> all_bytes w1 = true -> all_bytes w2 = true ->
  List.length w1 = 4%nat -> List.length w2 = 4%nat ->
  crc32 w1 c1 = crc32 w2 c2 -> N.lxor c1 c2 = N.lxor (le_word w1) (le_word w2).
Proof.
  intros H1 H2 A1 A2 L1 L2 E. unfold crc32 in E. rewrite !crc_fold_word, L1, L2 in E.
  assert (E2 : crc_bits (8 * 4) (N.lxor (N.lxor c1 MASK32) (le_word w1)) =
               crc_bits (8 * 4) (N.lxor (N.lxor c2 MASK32) (le_word w2))).
  { set (x := crc_bits _ _) in E. set (y := crc_bits (8 * 4) (N.lxor (N.lxor c2 _) _)) in E.
    assert (N.lxor (N.lxor x MASK32) MASK32 = N.lxor (N.lxor y MASK32) MASK32) as E3 by congruence.
    rewrite !N.lxor_assoc, N.lxor_nilpotent, !N.lxor_0_r in E3. exact E3. }
  apply crc_bits_inj in E2.
  - apply N.bits_inj; intros i. apply (f_equal (fun z => N.testbit z i)) in E2.
    rewrite !N.lxor_spec in *.
    destruct (N.testbit c1 i), (N.testbit c2 i), (N.testbit (le_word w1) i), (N.testbit (le_word w2) i),
      (N.testbit MASK32 i); cbn in *; congruence.
  - apply lxor_lt32; [apply lxor_lt32; auto using mask_lt|apply le_word_32; auto; lia].
  - apply lxor_lt32; [apply lxor_lt32; auto using mask_lt|apply le_word_32; auto; lia].
Qed.

Lemma le_word_app_delta u1 u2 v :
  all_bytes u1 = true -> all_bytes u2 = true -> List.length u1 = List.length u2 ->
  N.lxor (le_word (u1 ++ v)) (le_word (u2 ++ v)) = N.lxor (le_word u1) (le_word u2).
Proof.
  revert u2; induction u1 as [|a u1 IH]; intros [|b u2] H1 H2 L; cbn in L; try discriminate.
  - cbn [app le_word]. rewrite !N.lxor_nilpotent. reflexivity.
  - cbn [all_bytes forallb] in H1, H2. apply andb_true_iff in H1 as [Ha H1], H2 as [Hb H2].
    cbn [app le_word]. specialize (IH u2 H1 H2 ltac:(lia)).
    assert (M : forall x y, N.lxor (x * 256) (y * 256) = N.lxor x y * 256).
    { intros x y. change 256 with (2 ^ 8). rewrite <- !N.shiftl_mul_pow2. symmetry. apply N.shiftl_lxor. }
    apply (f_equal (fun z => z * 256)) in IH. rewrite <- !M in IH.
    apply N.bits_inj; intros i. apply (f_equal (fun z => N.testbit z i)) in IH. rewrite !N.lxor_spec in *.
    destruct (N.testbit a i), (N.testbit b i), (N.testbit (le_word (u1 ++ v) * 256) i),
      (N.testbit (le_word (u2 ++ v) * 256) i), (N.testbit (le_word u1 * 256) i),
      (N.testbit (le_word u2 * 256) i); cbn in *; congruence.
Qed.

Lemma multiple_small x a b : x < 2 ^ a -> a <= b -> x mod 2 ^ b = 0 -> x = 0.
Proof.
  intros H L E. rewrite N.mod_small in E; [exact E|].
  eapply N.lt_le_trans; [exact H|]. apply N.pow_le_mono_r; lia.
Qed.

(** Tail of the window inside the checksum: both checksums share their low bytes. *)
Lemma win0_parts n u u' : win 0 n u u' -> List.length u = 4%nat -> (n <= 4)%nat ->
  exists x y v, u = x ++ v /\ u' = y ++ v /\ List.length x = n /\ List.length y = n /\ (List.length x + List.length v = 4)%nat.
Proof.
  intros (H1 & _ & H3) Hl Hn. cbn [Nat.add] in H3.
  exists (firstn n u), (firstn n u'), (skipn n u).
  rewrite !firstn_length, skipn_length, <- H1. split; [symmetry; apply firstn_skipn|].
  split; [rewrite H3; symmetry; apply firstn_skipn|]. lia.
Qed.

Lemma win_tail_parts i n l l' : win i n l l' -> (i <= List.length l)%nat -> (List.length l <= i + n)%nat ->
  exists a w w', l = a ++ w /\ l' = a ++ w' /\ List.length w = List.length w' /\ List.length w = (List.length l - i)%nat.
Proof.
  intros (H1 & H2 & H3) Hi Hn. exists (firstn i l), (skipn i l), (skipn i l').
  rewrite !skipn_length, <- H1. split; [symmetry; apply firstn_skipn|].
  split; [rewrite H2; symmetry; apply firstn_skipn|]. lia.
Qed.

Definition rejected (r : result (option event * bytes)) : Prop := exists e, r = Err e.

Lemma corruption_detected m f f' rest :
  message_typed m -> encode_message m = Ok f -> corrupted f f' ->
  rejected (decode_event (f' ++ rest)).
Proof.
  intros Ht Hf (a & w & w' & b & Ef & Ef' & Hlw & H4 & Hne & Hw' & Hexc).
  pose proof Ht as [Hp Hv]. apply is_bytes_all in Hp. apply is_bytes_all in Hw'.
  apply encode_message_ok in Hf as (hb & Hh & L1 & L2 & Hfr); [|exact Ht].
  pose proof (encode_headers_props _ _ _ Hh) as (_ & _ & Hall). specialize (Hall Hv).
  set (p := m_payload m) in *.
  assert (Hn : List.length f = (16 + List.length hb + List.length p)%nat) by (rewrite Hfr; apply frame_len).
  assert (Hlf' : List.length f' = List.length f) by (rewrite Ef, Ef', !app_length; lia).
  assert (Hff : f <> f').
  { rewrite Ef, Ef'. intros E. apply app_inv_head, app_inv_tail in E. contradiction. }
  assert (Hwin : win (List.length a) (List.length w) f f') by (rewrite Ef, Ef'; apply win_of_parts; exact Hlw).
  assert (Hexc' : ~ (List.length w = 4 /\ List.length a + 6 = List.length f)%nat).
  { rewrite Ef, !app_length. lia. }
  set (i := List.length a) in *. set (n := List.length w) in *.
  assert (Hin : (i + n <= List.length f)%nat) by (rewrite Ef, !app_length; unfold i, n; lia).
  unfold frame_of in Hfr.
  set (pre := be_bytes 4 (len hb + len p + 16) ++ be_bytes 4 (len hb)) in *.
  set (pc := crc32 pre 0) in *.
  assert (Hpreall : all_bytes pre = true) by apply pre_all.
  assert (Hpc : pc < B32) by (apply crc32_lt; [apply pre_all|reflexivity]).
  set (pcb := be_bytes 4 pc) in *.
  assert (Hpcball : all_bytes pcb = true) by apply be_bytes_all.
  set (body := hb ++ p) in *.
  assert (Hbodyall : all_bytes body = true) by (unfold body; rewrite all_bytes_app, Hall, Hp; reflexivity).
  set (fc := crc32 (pcb ++ body) pc) in *.
  assert (Hfc : fc < B32).
  { apply crc32_lt; [|exact Hpc]. rewrite all_bytes_app, Hpcball, Hbodyall; reflexivity. }
  set (fcb := be_bytes 4 fc) in *.
  assert (Hfcball : all_bytes fcb = true) by apply be_bytes_all.
  assert (Hvp : be_val pcb = pc) by (apply be_val_bytes; exact Hpc).
  assert (Hvf : be_val fcb = fc) by (apply be_val_bytes; exact Hfc).
  assert (Hl8 : List.length pre = 8%nat) by (unfold pre; rewrite app_length, !be_bytes_length; reflexivity).
  assert (Hl4 : List.length pcb = 4%nat) by apply be_bytes_length.
  assert (Hl4' : List.length fcb = 4%nat) by apply be_bytes_length.
  assert (Hlb : List.length body = (List.length hb + List.length p)%nat) by (unfold body; apply app_length).
  assert (Ht1 : be_val (firstn 4 pre) = len body + 16)
    by (unfold body; rewrite len_app; apply pre_total; unfold B32; lia).
  assert (Hall' : all_bytes f' = true).
  { assert (Hfa : all_bytes f = true) by (rewrite Hfr, !all_bytes_app, Hpreall, Hpcball, Hbodyall, Hfcball; reflexivity).
    rewrite Ef in Hfa. apply all_bytes_mid in Hfa as (Q1 & _ & Q3).
    rewrite Ef', !all_bytes_app, Q1, Hw', Q3. reflexivity. }
  assert (Epc0 : pc = crc32 pre 0) by reflexivity.
  assert (Efc0 : fc = crc32 (pcb ++ body) pc) by reflexivity.
  clearbody fcb fc body pcb pc i n. clear Ef Ef' a w w' b Hlw Hne Hw' Hexc.
  (* cut f' into the same parts *)
  destruct (cut_at 8 f') as (pre' & r1 & E1 & K1); [lia|].
  destruct (cut_at 4 r1) as (pcb' & r2 & E2 & K2).
  { apply (f_equal (@List.length N)) in E1. rewrite app_length in E1. lia. }
  destruct (cut_at (List.length body) r2) as (body' & fcb' & E3 & K3).
  { apply (f_equal (@List.length N)) in E1, E2. rewrite app_length in E1, E2. lia. }
  subst r2 r1. subst f'.
  assert (K4 : List.length fcb' = 4%nat) by (rewrite !app_length in Hlf'; lia).
  rewrite !all_bytes_app, !andb_true_iff in Hall'. destruct Hall' as (B1 & B2 & B3 & B4).
  rewrite Hfr in Hwin, Hff.
  apply win_split in Hwin as [W1 Hwin]; [|lia].
  apply win_split in Hwin as [W2 Hwin]; [|lia].
  apply win_split in Hwin as [W3 W4]; [|lia].
  rewrite Hl8, Hl4 in *.
  replace ((pre' ++ pcb' ++ body' ++ fcb') ++ rest) with (pre' ++ pcb' ++ body' ++ fcb' ++ rest)
    by (rewrite <- !app_assoc; reflexivity).
  destruct (N.eq_dec (be_val pcb') (crc32 pre' 0)) as [Epc|Epc].
  2: { exists ChecksumMismatch. apply decode_crc_mismatch; assumption. }
  (* the prelude checksum is right *)
  destruct (Nat.le_gt_cases 8 i) as [Li|Li].
  - (* the window begins after the prelude *)
    assert (pre = pre') as <- by (eapply win_eq_before; [exact W1|lia]).
    rewrite <- Epc0 in Epc.
    assert (pcb' = pcb) as ->.
    { apply be_val_inj; auto; [lia|]. rewrite Epc, Hvp. reflexivity. }
    rewrite decode_event_parts; auto.
    2: { rewrite Ht1. unfold len. lia. }
    destruct (validate_checksum pre _ 0) as [[]|e]; cbn [bind]; [|eexists; reflexivity].
    destruct (mk_prelude _ _ _) as [pr|e]; cbn [bind]; [|eexists; reflexivity].
    unfold validate_checksum.
    destruct (N.eqb_spec (be_val fcb') (crc32 (pcb ++ body') (be_val pcb))) as [Efc|Efc];
      [|eexists; reflexivity].
    exfalso. rewrite Hvp in Efc.
    assert (Hbb : body = body').
    { destruct (Nat.le_gt_cases (8 + 4 + List.length body) i) as [Lb|Lb].
      { eapply win_eq_before; [exact W3|lia]. }
      set (i3 := (i - 8 - 4)%nat) in *. set (n3 := (n - (8 - i) - (4 - (i - 8)))%nat) in *.
      destruct (Nat.le_gt_cases (i3 + n3) (List.length body)) as [Lw|Lw].
      - (* the window ends in the body: fcb' = fcb *)
        assert (fcb = fcb') as <-.
        { replace (n3 - (List.length body - i3))%nat with 0%nat in W4 by lia.
          eapply win_zero; exact W4. }
        destruct (win_parts _ _ _ _ W3) as (a & w & w' & b & Eb & Eb' & Lww & Lw4 & _ & _).
        rewrite Eb, Eb'. f_equal. f_equal. rewrite Eb in Hbodyall. rewrite Eb' in B3.
        apply all_bytes_mid in Hbodyall as (Q1 & Q2 & Q3). apply all_bytes_mid in B3 as (Q4 & Q5 & Q6).
        apply (crc32_burst (pcb ++ a) w w' b pc); auto.
        + rewrite all_bytes_app, Hpcball, Q1; reflexivity.
        + lia.
        + rewrite <- !app_assoc, <- Eb, <- Eb'. rewrite <- Efc0, <- Hvf, Efc. reflexivity.
      - (* straddling the final checksum *)
        destruct (win_tail_parts _ _ _ _ W3) as (a & w & w' & Eb & Eb' & Lww & Lwl); [lia|lia|].
        replace (i3 - List.length body)%nat with 0%nat in W4 by lia.
        destruct (win0_parts _ _ _ W4 Hl4') as (x & y & v & Ex & Ey & Lx & Ly & Lxv); [lia|].
        rewrite Eb, Eb'. f_equal. rewrite Eb in Hbodyall. rewrite Eb' in B3.
        apply all_bytes_app_inv in Hbodyall as (Q1 & Q2). apply all_bytes_app_inv in B3 as (Q3 & Q4).
        rewrite Ex in Hfcball. rewrite Ey in B4.
        apply all_bytes_app_inv in Hfcball as (Q5 & Q6). apply all_bytes_app_inv in B4 as (Q7 & Q8).
        destruct (Nat.eq_dec (List.length w) 0) as [Z|Z].
        { destruct w; [|discriminate]. destruct w'; [reflexivity|discriminate]. }
        apply (crc_straddle (pcb ++ a) w w' pc x y v); auto; try lia.
        + rewrite all_bytes_app, Hpcball, Q1; reflexivity.
        + rewrite <- app_assoc, <- Eb, <- Ex, <- Efc0. exact Hvf.
        + rewrite <- app_assoc, <- Eb', <- Ey. exact Efc. }
    rewrite <- Hbb in *. rewrite <- Efc0, <- Hvf in Efc.
    assert (fcb' = fcb) as -> by (apply be_val_inj; auto; lia).
    apply Hff. reflexivity.
  - (* the window begins in the prelude *)
    assert (Hbody' : body = body').
    { replace (n - (8 - i) - (4 - (i - 8)))%nat with 0%nat in W3 by lia.
      eapply win_zero; exact W3. }
    assert (Hfcb' : fcb = fcb').
    { replace (n - (8 - i) - (4 - (i - 8)) - (List.length body - (i - 8 - 4)))%nat with 0%nat in W4 by lia.
      eapply win_zero; exact W4. }
    subst body' fcb'.
    destruct (Nat.le_gt_cases (i + n) 8) as [Ln|Ln].
    + (* inside the prelude *)
      assert (pcb = pcb') as <-.
      { replace (n - (8 - i))%nat with 0%nat in W2 by lia. eapply win_zero; exact W2. }
      exfalso. destruct (win_parts _ _ _ _ W1) as (a & w & w' & b & Eb & Eb' & Lww & Lw4 & _ & _).
      apply Hff. f_equal. rewrite Eb, Eb'. f_equal. f_equal.
      rewrite Eb in Hpreall. rewrite Eb' in B1.
      apply all_bytes_mid in Hpreall as (Q1 & Q2 & Q3). apply all_bytes_mid in B1 as (Q4 & Q5 & Q6).
      apply (crc32_burst a w w' b 0); auto; [reflexivity|lia|].
      rewrite <- Eb, <- Eb', <- Epc, Hvp, Epc0. reflexivity.
    + (* straddling the prelude checksum *)
      destruct (win_tail_parts _ _ _ _ W1) as (a & w & w' & Eb & Eb' & Lww & Lwl); [lia|lia|].
      replace (i - 8)%nat with 0%nat in W2 by lia.
      destruct (win0_parts _ _ _ W2 Hl4) as (x & y & v & Ex & Ey & Lx & Ly & Lxv); [lia|].
      rewrite Hl8 in Lwl.
      assert (Hf4 : firstn 4 pre' = firstn 4 pre).
      { rewrite Eb, Eb'. assert (4 <= List.length a)%nat.
        { apply (f_equal (@List.length N)) in Eb. rewrite app_length in Eb. lia. }
        rewrite !firstn_app. replace (4 - List.length a)%nat with 0%nat by lia. reflexivity. }
      rewrite decode_event_parts; auto.
      2: { rewrite Hf4. exact Ht1. }
      destruct (validate_checksum pre' _ 0) as [[]|e]; cbn [bind]; [|eexists; reflexivity].
      destruct (mk_prelude _ _ _) as [pr|e]; cbn [bind]; [|eexists; reflexivity].
      unfold validate_checksum.
      destruct (N.eqb_spec (be_val fcb) (crc32 (pcb' ++ body) (be_val pcb'))) as [Efc|Efc];
        [|eexists; reflexivity].
      exfalso.
      pose proof (be_val_lt pcb' B2) as Hpc'. change (len pcb') with (N.of_nat (List.length pcb')) in Hpc'.
      rewrite K2 in Hpc'. change (256 ^ N.of_nat 4) with B32 in Hpc'.
      assert (Hpp : pcb = pcb' /\ pre = pre').
      { assert (Hpw : pcb = pcb' -> pre = pre').
        { intros <-. rewrite Eb, Eb'. f_equal. rewrite Eb in Hpreall. rewrite Eb' in B1.
          apply all_bytes_app_inv in Hpreall as (Q1 & Q2). apply all_bytes_app_inv in B1 as (Q3 & Q4).
          apply (crc32_burst a w w' [] 0); auto; [reflexivity|lia|].
          rewrite !app_nil_r, <- Eb, <- Eb', <- Epc, Hvp, Epc0. reflexivity. }
        assert (Q : pcb = pcb'); [|auto].
        rewrite Hvf in Efc. rewrite Efc0 in Efc.
        rewrite !crc32_app in Efc.
        apply crc_state_eq in Efc; auto using crc32_lt.
        apply crc_word_eq in Efc; auto.
        rewrite Ex in Hpcball. rewrite Ey in B2.
        apply all_bytes_app_inv in Hpcball as (Q5 & Q6). apply all_bytes_app_inv in B2 as (Q7 & Q8).
        destruct (Nat.le_gt_cases (List.length x) 2) as [Lx2|Lx2].
        - assert (Z : N.lxor pc (be_val pcb') = 0).
          { apply (multiple_small _ (8 * N.of_nat (List.length x)) (8 * len v)).
            - rewrite Efc, Ex, Ey, le_word_app_delta by (auto; lia).
              pose proof (le_word_lt x Q5) as A1. pose proof (le_word_lt y Q7) as A2.
              unfold len in A1, A2. rewrite Ly, <- Lx in A2.
              change 256 with (2 ^ 8) in A1, A2. rewrite <- !N.pow_mul_r in A1, A2. apply lxor_lt; assumption.
            - unfold len. lia.
            - rewrite <- Hvp, Ex, Ey. apply be_val_low. reflexivity. }
          apply N.lxor_eq in Z. rewrite <- Hvp in Z. apply be_val_inj; auto.
          + rewrite Ex, all_bytes_app, Q5, Q6. reflexivity.
          + rewrite Ey, all_bytes_app, Q7, Q8. reflexivity.
          + lia.
        - rewrite Eb in Hpreall. rewrite Eb' in B1.
          apply all_bytes_app_inv in Hpreall as (Q1 & Q2). apply all_bytes_app_inv in B1 as (Q3 & Q4).
          assert (w = w') as Eww.
          { apply (crc_straddle a w w' 0 x y v); auto; try lia; try reflexivity.
            - rewrite <- Ex, <- Eb, <- Epc0. exact Hvp.
            - rewrite <- Ey, <- Eb'. exact Epc. }
          apply be_val_inj.
          + rewrite Ex, all_bytes_app, Q5, Q6. reflexivity.
          + rewrite Ey, all_bytes_app, Q7, Q8. reflexivity.
          + lia.
          + rewrite Hvp, Epc, Eb', <- Eww, <- Eb. exact Epc0. }
      destruct Hpp as [-> ->]. apply Hff. reflexivity.
Qed.

(** ** What the declared sizes may be *)
Lemma src_read_fst n src : (0 <= n)%Z -> fst (src_read n src) = firstn (Z.to_nat n) src.
Proof. intros H. unfold src_read. rewrite (proj2 (Z.ltb_ge _ _)) by exact H. reflexivity. Qed.

Lemma decode_declared src ev rest :
  decode_event src = Ok (Some ev, rest) ->
  (12 <= List.length src)%nat /\
  p_total (e_prelude ev) = be_val (firstn 4 src) /\
  p_headers (e_prelude ev) = be_val (firstn 4 (skipn 4 src)) /\
  be_val (firstn 4 (skipn 4 src)) <= 131072 /\
  (Z.of_N (be_val (firstn 4 src)) - Z.of_N (be_val (firstn 4 (skipn 4 src))) - 16 <= 16777216)%Z.
Proof.
  intros H. destruct (Nat.lt_ge_cases (List.length src) 12) as [L|L].
  { destruct src as [|b src]; [discriminate H|].
    rewrite decode_short_prelude in H; [discriminate|discriminate|exact L]. }
  split; [exact L|].
  assert (Hc : src = firstn 8 src ++ skipn 8 src) by (symmetry; apply firstn_skipn).
  assert (Hl8 : List.length (firstn 8 src) = 8%nat) by (rewrite firstn_length; lia).
  assert (E4 : firstn 4 src = firstn 4 (firstn 8 src)) by (rewrite firstn_firstn; reflexivity).
  assert (E5 : firstn 4 (skipn 4 src) = skipn 4 (firstn 8 src)).
  { rewrite <- (firstn_skipn 4 (firstn 8 src)) in Hl8. rewrite skipn_firstn_comm. reflexivity. }
  rewrite E4, E5. revert H. unfold decode_event, decode_event_from.
  rewrite Hc at 1. rewrite src_read_app by lia. cbn [bind].
  rewrite (match_ne (firstn 8 src)) by (intros E0; rewrite E0 in Hl8; discriminate).
  destruct (src_read 4 (skipn 8 src)) as [cb s2]. cbn [bind].
  destruct (unpack_unsigned 4 (firstn 4 cb)) as [pcrc|e]; cbn [bind wrap_struct].
  2: { destruct e; discriminate. }
  rewrite Hl8. cbn [Nat.eqb wrap_struct bind].
  destruct (validate_checksum _ _ _); cbn [bind]; [|discriminate].
  unfold mk_prelude. change MAX_HEADERS_LENGTH with 131072. change MAX_PAYLOAD_LENGTH with 16777216.
  destruct (N.ltb_spec 131072 (be_val (skipn 4 (firstn 8 src)))) as [L1|L1]; cbn [bind]; [discriminate|].
  match goal with |- context [Z.ltb ?a ?b] => destruct (Z.ltb_spec a b) as [L2|L2] end; cbn [bind]; [discriminate|].
  destruct (src_read _ s2) as [mb s3]. cbn [bind]. destruct (src_read 4 s3) as [fb s4]. cbn [bind].
  destruct (wrap_struct _) as [crc|e]; cbn [bind]; [|discriminate].
  destruct (validate_checksum _ _ _); cbn [bind]; [|discriminate].
  destruct (decode_headers _) as [hs|e] eqn:Hd; cbn [bind]; [|discriminate].
  destruct (mk_event_message _ _); cbn [bind]; [|discriminate].
  intros E; injection E as <- _. cbn [e_prelude p_total p_headers].
  split; [reflexivity|]. split; [reflexivity|]. split; [exact L1|].
  change (Z.of_N 16777216) with 16777216%Z in L2. exact L2.
Qed.

Lemma encode_length m f :
  message_typed m -> encode_message m = Ok f ->
  len f = headers_size (m_headers m) + len (m_payload m) + 16.
Proof.
  intros Ht Hf. apply encode_message_ok in Hf as (hb & Hh & _ & _ & ->); [|exact Ht].
  pose proof (encode_headers_props _ _ _ Hh) as (_ & Hlen & _).
  rewrite <- Hlen. unfold len. rewrite frame_len. lia.
Qed.
