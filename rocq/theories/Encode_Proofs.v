(** The model's encoders against the standards. *)
From Verif Require Import Base Utf8_Model Utf8_Proofs PyText_Model PyText_Proofs EventIO_Model Encode_Spec.
From Coq Require Import Lia.
Local Open Scope N_scope.

Lemma dm64 c : c = 64 * (c / 64) + c mod 64. Proof. apply N.div_mod. discriminate. Qed.
Lemma lt64 c : c mod 64 < 64. Proof. apply N.mod_lt. discriminate. Qed.
Lemma join2 a b : b < 64 -> (64 * a + b) / 64 = a /\ (64 * a + b) mod 64 = b.
Proof.
  intros H. split; [symmetry; apply (N.div_unique _ _ a b); [exact H | reflexivity] | symmetry; apply (N.mod_unique _ _ a b); [exact H | reflexivity]].
Qed.
Lemma div4096 c : c / 4096 = c / 64 / 64. Proof. change 4096 with (64 * 64). rewrite N.div_div; [reflexivity | discriminate | discriminate]. Qed.
Lemma div262144 c : c / 262144 = c / 64 / 64 / 64.
Proof. change 262144 with (64 * 64 * 64). rewrite !N.div_div; [now rewrite N.mul_assoc | discriminate ..]. Qed.
Lemma join3 a b d : b < 64 -> d < 64 ->
  (4096 * a + 64 * b + d) / 4096 = a /\ (4096 * a + 64 * b + d) / 64 mod 64 = b /\ (4096 * a + 64 * b + d) mod 64 = d.
Proof.
  intros B D. replace (4096 * a + 64 * b + d) with (64 * (64 * a + b) + d) by lia. rewrite div4096.
  destruct (join2 (64 * a + b) d D) as [-> ->]. destruct (join2 a b B) as [-> ->]. auto.
Qed.
Lemma join4 a b d e : b < 64 -> d < 64 -> e < 64 ->
  let c := 262144 * a + 4096 * b + 64 * d + e in
  c / 262144 = a /\ c / 4096 mod 64 = b /\ c / 64 mod 64 = d /\ c mod 64 = e.
Proof.
  intros B D E c. replace c with (64 * (64 * (64 * a + b) + d) + e) by (unfold c; lia). rewrite div262144, div4096.
  destruct (join2 (64 * (64 * a + b) + d) e E) as [-> ->]. destruct (join2 (64 * a + b) d D) as [-> ->].
  destruct (join2 a b B) as [-> ->]. auto.
Qed.

Lemma cp_iff c o : utf8_encode_cp c = Ok o <-> Utf8_char c o.
Proof.
  split.
  - unfold utf8_encode_cp. destruct (c <? 0x80) eqn:E1; [apply N.ltb_lt in E1; intros [= <-]; now constructor|]. apply N.ltb_ge in E1.
    destruct (c <? 0x800) eqn:E2; [apply N.ltb_lt in E2|apply N.ltb_ge in E2].
    + intros [= <-]. apply U_two; [lia | | apply lt64 | apply dm64]. apply N.div_lt_upper_bound; [discriminate | lia].
    + destruct ((0xD800 <=? c) && (c <? 0xE000)) eqn:E3; [discriminate|].
      assert (S : ~ 0xD800 <= c <= 0xDFFF).
      { intros [A B]. apply N.leb_le in A. rewrite A in E3. cbn [andb] in E3. apply N.ltb_ge in E3. lia. }
      destruct (c <? 0x10000) eqn:E4; [apply N.ltb_lt in E4|apply N.ltb_ge in E4].
      * intros [= <-]. apply U_three; [lia | exact S | | apply lt64 | apply lt64 |].
        -- apply N.div_lt_upper_bound; [discriminate | lia].
        -- rewrite div4096. pose proof (dm64 c). pose proof (dm64 (c / 64)). lia.
      * destruct (c <? 0x110000) eqn:E5; [apply N.ltb_lt in E5 | discriminate].
        intros [= <-]. apply U_four; [lia | | apply lt64 | apply lt64 | apply lt64 |].
        -- apply N.div_lt_upper_bound; [discriminate | lia].
        -- rewrite div262144, div4096. pose proof (dm64 c). pose proof (dm64 (c / 64)). pose proof (dm64 (c / 64 / 64)). lia.
  - intros [c' H | c' a b H A B E | c' a b d H S A B D E | c' a b d e H A B D F E]; unfold utf8_encode_cp.
    + now rewrite (ltb_t _ _ H).
    + rewrite (ltb_f c' 0x80), (ltb_t c' 0x800) by lia. subst c'. now destruct (join2 a b B) as [-> ->].
    + rewrite (ltb_f c' 0x80), (ltb_f c' 0x800), (ltb_t c' 0x10000) by lia.
      replace ((0xD800 <=? c') && (c' <? 0xE000)) with false.
      * subst c'. now destruct (join3 a b d B D) as [-> [-> ->]].
      * symmetry. apply Bool.andb_false_iff. destruct (N.le_gt_cases 0xD800 c'); [right; apply N.ltb_ge; lia | left; now apply N.leb_gt].
    + rewrite (ltb_f c' 0x80), (ltb_f c' 0x800), (ltb_f c' 0x10000), (ltb_t c' 0x110000) by lia.
      replace ((0xD800 <=? c') && (c' <? 0xE000)) with false.
      * subst c'. now destruct (join4 a b d e B D F) as [-> [-> [-> ->]]].
      * symmetry. apply Bool.andb_false_iff. right. apply N.ltb_ge. lia.
Qed.

Lemma encode_iff s bs : utf8_encode s = Ok bs <-> Utf8 s bs.
Proof.
  split.
  - revert bs. induction s as [|c s IH]; intros bs; cbn [utf8_encode]; [intros [= <-]; constructor|].
    destruct (utf8_encode_cp c) as [o|] eqn:E; [|discriminate]. cbn [bind]. destruct (utf8_encode s) as [r|]; [|discriminate].
    intros [= <-]. constructor; [now apply cp_iff | now apply IH].
  - induction 1 as [|c o s bs H U IH]; [reflexivity|]. cbn [utf8_encode]. apply cp_iff in H. rewrite H. cbn [bind]. now rewrite IH.
Qed.

Lemma cont b : is_cont b = true -> exists x, x < 64 /\ b = 0x80 + x.
Proof.
  unfold is_cont. intros H. apply andb_prop in H. destruct H as [A B]. apply N.leb_le in A. apply N.ltb_lt in B.
  exists (b - 0x80). split; lia.
Qed.

Lemma decode_sound n : forall bs s, (List.length bs <= n)%nat -> utf8_decode bs = Ok s -> Utf8 s bs.
Proof.
  induction n as [|n IH]; intros bs s L.
  - destruct bs; [|cbn in L; lia]. intros [= <-]. constructor.
  - destruct bs as [|b0 r0]; [intros [= <-]; constructor|]. cbn [utf8_decode]. cbn [List.length] in L.
    destruct (b0 <? 0x80) eqn:E1; [apply N.ltb_lt in E1|apply N.ltb_ge in E1].
    { destruct (utf8_decode r0) as [t|] eqn:D; [|discriminate]. intros [= <-]. apply (U_char b0 [b0]); [now constructor | apply IH; [lia | exact D]]. }
    destruct (b0 <? 0xC2) eqn:E2; [discriminate|apply N.ltb_ge in E2].
    destruct (b0 <? 0xE0) eqn:E3; [apply N.ltb_lt in E3|apply N.ltb_ge in E3].
    { destruct r0 as [|b1 r1]; [discriminate|]. destruct (is_cont b1) eqn:K1; [|discriminate].
      destruct (cont _ K1) as [x [X ->]]. destruct (utf8_decode r1) as [t|] eqn:D; [|discriminate]. intros [= <-].
      apply (U_char _ [b0; 0x80 + x]); [|apply IH; [cbn in L; lia | exact D]].
      replace b0 with (0xC0 + (b0 - 0xC0)) at 2 by lia. replace (128 + x - 128) with x by lia.
      apply U_two; lia. }
    destruct (b0 <? 0xF0) eqn:E4; [apply N.ltb_lt in E4|apply N.ltb_ge in E4].
    { destruct r0 as [|b1 [|b2 r2]]; [discriminate|discriminate|]. destruct (is_cont b1) eqn:K1; [|discriminate].
      destruct (is_cont b2) eqn:K2; [|discriminate]. cbn [andb]. cbv zeta.
      destruct (cont _ K1) as [x [X ->]]. destruct (cont _ K2) as [y [Y ->]].
      replace (128 + x - 128) with x by lia. replace (128 + y - 128) with y by lia.
      set (c := (b0 - 0xE0) * 4096 + x * 64 + y).
      destruct ((c <? 0x800) || ((0xD800 <=? c) && (c <? 0xE000))) eqn:G; [discriminate|].
      apply Bool.orb_false_iff in G. destruct G as [G1 G2]. apply N.ltb_ge in G1.
      assert (S : ~ 0xD800 <= c <= 0xDFFF).
      { intros [A B]. apply N.leb_le in A. rewrite A in G2. cbn [andb] in G2. apply N.ltb_ge in G2. lia. }
      destruct (utf8_decode r2) as [t|] eqn:D; [|discriminate]. intros [= <-].
      apply (U_char _ [b0; 0x80 + x; 0x80 + y]); [|apply IH; [cbn in L; lia | exact D]].
      replace b0 with (0xE0 + (b0 - 0xE0)) by lia.
      apply U_three; [unfold c in *; lia | exact S | lia | exact X | exact Y | unfold c; lia]. }
    destruct (b0 <? 0xF5) eqn:E5; [apply N.ltb_lt in E5|discriminate].
    destruct r0 as [|b1 [|b2 [|b3 r3]]]; [discriminate|discriminate|discriminate|].
    destruct (is_cont b1) eqn:K1; [|discriminate]. destruct (is_cont b2) eqn:K2; [|discriminate].
    destruct (is_cont b3) eqn:K3; [|discriminate]. cbn [andb]. cbv zeta.
    destruct (cont _ K1) as [x [X ->]]. destruct (cont _ K2) as [y [Y ->]]. destruct (cont _ K3) as [z [Z ->]].
    replace (128 + x - 128) with x by lia. replace (128 + y - 128) with y by lia. replace (128 + z - 128) with z by lia.
    set (c := (b0 - 0xF0) * 262144 + x * 4096 + y * 64 + z).
    destruct ((c <? 0x10000) || (0x110000 <=? c)) eqn:G; [discriminate|].
    apply Bool.orb_false_iff in G. destruct G as [G1 G2]. apply N.ltb_ge in G1. apply N.leb_gt in G2.
    destruct (utf8_decode r3) as [t|] eqn:D; [|discriminate]. intros [= <-].
    apply (U_char _ [b0; 0x80 + x; 0x80 + y; 0x80 + z]); [|apply IH; [cbn in L; lia | exact D]].
    replace b0 with (0xF0 + (b0 - 0xF0)) by lia.
    apply U_four; [lia | lia | exact X | exact Y | exact Z | unfold c; lia].
Qed.
Lemma decode_iff bs s : utf8_decode bs = Ok s <-> Utf8 s bs.
Proof.
  split; [now apply (decode_sound (List.length bs))|]. intros U. apply utf8_roundtrip. now apply encode_iff.
Qed.
Lemma utf8_texts s : (exists bs, Utf8 s bs) <-> Forall scalar s.
Proof.
  split.
  - intros [bs U]. induction U as [|c o s bs H U IH]; constructor; [|exact IH]. unfold scalar. destruct H; split; lia.
  - intros F. assert (V : valid_text s = true).
    { unfold valid_text. apply forallb_forall. intros c I. rewrite Forall_forall in F. destruct (F c I). apply is_scalar_spec. lia. }
    destruct (utf8_encode_valid s V) as [b E]. exists b. now apply encode_iff.
Qed.
Lemma utf8_error s e : utf8_encode s = Err e -> e = UnicodeError.
Proof.
  induction s as [|c s IH]; cbn [utf8_encode]; [discriminate|]. unfold utf8_encode_cp.
  destruct (utf8_encode s) as [r|e'].
  - destruct (c <? 0x80); [discriminate|]. destruct (c <? 0x800); [discriminate|].
    destruct ((0xD800 <=? c) && (c <? 0xE000)); [now intros [= <-]|]. destruct (c <? 0x10000); [discriminate|].
    destruct (c <? 0x110000); [discriminate | now intros [= <-]].
  - destruct (c <? 0x80); [exact IH|]. destruct (c <? 0x800); [exact IH|].
    destruct ((0xD800 <=? c) && (c <? 0xE000)); [now intros [= <-]|]. destruct (c <? 0x10000); [exact IH|].
    destruct (c <? 0x110000); [exact IH | now intros [= <-]].
Qed.
Lemma decode_error bs e : utf8_decode bs = Err e -> e = UnicodeError.
Proof.
  assert (G : forall n bs, (List.length bs <= n)%nat -> utf8_decode bs = Err e -> e = UnicodeError);
    [|now apply (G (List.length bs))]. clear bs.
  induction n as [|n IH]; intros bs L; [destruct bs; [discriminate | cbn in L; lia]|].
  assert (T : forall r (f : text -> text), (List.length r <= n)%nat -> (do s <- utf8_decode r; Ok (f s)) = Err e -> e = UnicodeError).
  { intros r f LR. specialize (IH r LR). destruct (utf8_decode r); [discriminate|]. cbn [bind]. intros [= ->]. now apply IH. }
  destruct bs as [|b0 r0]; [discriminate|]. cbn [utf8_decode]. cbn [List.length] in L.
  destruct (b0 <? 0x80); [apply (T r0 (cons b0)); lia|]. destruct (b0 <? 0xC2); [now intros [= <-]|].
  destruct (b0 <? 0xE0).
  { destruct r0 as [|b1 r1]; [now intros [= <-]|]. destruct (is_cont b1); [|now intros [= <-]]. apply T. cbn in L. lia. }
  destruct (b0 <? 0xF0).
  { destruct r0 as [|b1 [|b2 r2]]; [now intros [= <-] ..|]. destruct (is_cont b1 && is_cont b2); [|now intros [= <-]]. cbv zeta.
    match goal with |- (if ?b then _ else _) = _ -> _ => destruct b end; [now intros [= <-]|]. apply T. cbn in L. lia. }
  destruct (b0 <? 0xF5); [|now intros [= <-]].
  destruct r0 as [|b1 [|b2 [|b3 r3]]]; [now intros [= <-] ..|].
  destruct (is_cont b1 && is_cont b2 && is_cont b3); [|now intros [= <-]]. cbv zeta.
  match goal with |- (if ?b then _ else _) = _ -> _ => destruct b end; [now intros [= <-]|]. apply T. cbn in L. lia.
Qed.

(** ** Digits *)
Lemma under16 v : v < 16 -> In v [0;1;2;3;4;5;6;7;8;9;10;11;12;13;14;15].
Proof. intros H. cbn [In]. lia. Qed.
Lemma upper_iff v c : digit_upper v c <-> v < 16 /\ c = PyText_Model.hex_digit v.
Proof.
  unfold digit_upper. split.
  - intros H. assert (L : (N.to_nat v < 16)%nat) by (change 16%nat with (List.length (lit "0123456789ABCDEF")); apply nth_error_Some; congruence).
    assert (V : v < 16) by lia. split; [exact V|]. apply under16 in V. revert H. cbn [In] in V.
    repeat (destruct V as [<- | V]; [now intros [= <-]|]). destruct V.
  - intros [V ->]. apply under16 in V. cbn [In] in V. repeat (destruct V as [<- | V]; [reflexivity|]). destruct V.
Qed.
Lemma lower_iff v c : digit_lower v c <-> v < 16 /\ c = EventIO_Model.hex_digit v.
Proof.
  unfold digit_lower. split.
  - intros H. assert (L : (N.to_nat v < 16)%nat) by (change 16%nat with (List.length (lit "0123456789abcdef")); apply nth_error_Some; congruence).
    assert (V : v < 16) by lia. split; [exact V|]. apply under16 in V. revert H. cbn [In] in V.
    repeat (destruct V as [<- | V]; [now intros [= <-]|]). destruct V.
  - intros [V ->]. apply under16 in V. cbn [In] in V. repeat (destruct V as [<- | V]; [reflexivity|]). destruct V.
Qed.
Lemma split16 b : b < 256 -> b / 16 < 16 /\ b mod 16 < 16 /\ b = 16 * (b / 16) + b mod 16.
Proof.
  intros H. split; [apply N.div_lt_upper_bound; [discriminate | lia]|]. split; [now apply N.mod_lt | now apply N.div_mod].
Qed.
Lemma join16 h l : l < 16 -> (16 * h + l) / 16 = h /\ (16 * h + l) mod 16 = l.
Proof. intros L. split; symmetry; [now apply (N.div_unique _ _ h l) | now apply (N.mod_unique _ _ h l)]. Qed.

Lemma unreserved_iff b : is_unreserved b = true <-> unreserved b.
Proof.
  unfold is_unreserved, unreserved. rewrite !Bool.orb_true_iff, !Bool.andb_true_iff, !N.leb_le, !N.eqb_eq.
  change (In b (lit "-._~")) with (45 = b \/ 46 = b \/ 95 = b \/ 126 = b \/ False). split; lia.
Qed.
Lemma percent_iff kept bs t : Forall (fun b => b < 256) bs -> (quote_bytes kept bs = t <-> Percent kept bs t).
Proof.
  intros F. split.
  - intros <-. induction F as [|b bs B F IH]; [constructor|]. unfold quote_bytes in *. cbn [flat_map]. unfold quote_byte.
    destruct (is_unreserved b || has b kept) eqn:E; cbn [app].
    + apply P_plain; [|exact IH]. apply Bool.orb_true_iff in E. destruct E as [E | E]; [left; now apply unreserved_iff | right; now apply has_In].
    + apply Bool.orb_false_iff in E. destruct E as [E1 E2]. destruct (split16 b B) as [H [L S]].
      rewrite S at 1. apply P_escape; [| |now apply upper_iff|now apply upper_iff|exact IH]; rewrite <- S.
      * intros U. apply unreserved_iff in U. congruence.
      * intros I. apply has_In in I. congruence.
  - induction 1 as [|b bs t U P IH | h l a c bs t NU NK A C P IH]; [reflexivity| |]; inversion F as [|b' bs' B FB]; subst b' bs';
      unfold quote_bytes in *; cbn [flat_map]; rewrite (IH FB); unfold quote_byte.
    + replace (is_unreserved b || has b kept) with true; [reflexivity|]. symmetry. apply Bool.orb_true_iff.
      destruct U as [U | U]; [left; now apply unreserved_iff | right; now apply has_In].
    + apply upper_iff in A. apply upper_iff in C. destruct A as [LH ->]. destruct C as [LL ->].
      replace (is_unreserved (16 * h + l) || has (16 * h + l) kept) with false.
      * destruct (join16 h l LL) as [-> ->]. reflexivity.
      * symmetry. apply Bool.orb_false_iff. split; apply Bool.not_true_is_false; [intros X; now apply NU, unreserved_iff | intros X; now apply NK, has_In].
Qed.
Lemma urlquote_iff kept s t : urlquote kept s = Ok t <-> Escaped kept s t.
Proof.
  assert (A : forall b, utf8_encode s = Ok b -> Forall (fun x => x < 256) b).
  { intros b E. apply utf8_encode_bytes in E. unfold all_bytes in E. rewrite forallb_forall in E. apply Forall_forall.
    intros x I. specialize (E x I). now apply N.ltb_lt in E. }
  unfold urlquote, Escaped. split.
  - destruct (utf8_encode s) as [b|] eqn:E; [|discriminate]. cbn [bind]. intros [= Q]. exists b.
    split; [now apply encode_iff | apply percent_iff; [now apply A | exact Q]].
  - intros [b [U P]]. apply encode_iff in U. specialize (A b U). rewrite U. cbn [bind]. f_equal. now apply percent_iff.
Qed.
Lemma hex_iff bs t : Forall (fun b => b < 256) bs -> (hexlify bs = t <-> Hex bs t).
Proof.
  intros F. split.
  - intros <-. induction F as [|b bs B F IH]; [constructor|]. unfold hexlify in *. cbn [flat_map app]. destruct (split16 b B) as [H [L S]].
    rewrite S at 1. constructor; [now apply lower_iff | now apply lower_iff | exact IH].
  - induction 1 as [|h l a c bs t A C P IH]; [reflexivity|]. inversion F as [|b' bs' B FB]; subst b' bs'. unfold hexlify in *. cbn [flat_map app].
    apply lower_iff in A. apply lower_iff in C. destruct A as [LH ->]. destruct C as [LL ->]. destruct (join16 h l LL) as [-> ->].
    now rewrite (IH FB).
Qed.

(** ** Decimal numbers *)
From Verif Require Import PySort_Model PySort_Proofs.
From Coq Require DecimalN.
Fixpoint usnoc (d e : Decimal.uint) : Decimal.uint :=
  match d with
  | Decimal.Nil => e
  | Decimal.D0 r => Decimal.D0 (usnoc r e) | Decimal.D1 r => Decimal.D1 (usnoc r e) | Decimal.D2 r => Decimal.D2 (usnoc r e)
  | Decimal.D3 r => Decimal.D3 (usnoc r e) | Decimal.D4 r => Decimal.D4 (usnoc r e) | Decimal.D5 r => Decimal.D5 (usnoc r e)
  | Decimal.D6 r => Decimal.D6 (usnoc r e) | Decimal.D7 r => Decimal.D7 (usnoc r e) | Decimal.D8 r => Decimal.D8 (usnoc r e)
  | Decimal.D9 r => Decimal.D9 (usnoc r e)
  end.
Lemma usnoc_text d e : uint_text (usnoc d e) = uint_text d ++ uint_text e.
Proof. induction d as [|r IH|r IH|r IH|r IH|r IH|r IH|r IH|r IH|r IH|r IH]; cbn [usnoc uint_text app]; [reflexivity | now rewrite IH ..]. Qed.
Lemma to_uint_norm n : Decimal.unorm (N.to_uint n) = N.to_uint n.
Proof. rewrite <- DecimalN.Unsigned.to_of. now rewrite DecimalN.Unsigned.of_to. Qed.
Lemma nzhead_nonzero d r : Decimal.nzhead d <> Decimal.D0 r.
Proof. induction d as [|d IH|d _|d _|d _|d _|d _|d _|d _|d _|d _]; [discriminate | exact IH | discriminate ..]. Qed.
Lemma to_uint_head n r : N.to_uint n = Decimal.D0 r -> n = 0.
Proof.
  intros E. assert (U := to_uint_norm n). rewrite E in U. unfold Decimal.unorm in U.
  destruct (Decimal.nzhead (Decimal.D0 r)) as [|x|x|x|x|x|x|x|x|x|x] eqn:Z; try discriminate U.
  - rewrite <- (DecimalN.Unsigned.of_to n), E. now rewrite <- U.
  - exfalso. exact (nzhead_nonzero _ _ Z).
Qed.
Lemma to_uint_nonempty n : N.to_uint n <> Decimal.Nil.
Proof. intros E. assert (U := to_uint_norm n). rewrite E in U. discriminate U. Qed.
Lemma digit_uint d : d < 10 -> exists e, uint_text e = [48 + d] /\ forall r, Decimal.unorm (Decimal.D1 (usnoc r e)) = Decimal.D1 (usnoc r e).
Proof.
  intros H. assert (I : In d [0;1;2;3;4;5;6;7;8;9]) by (cbn [In]; lia). cbn [In] in I.
  destruct I as [<- | [<- | [<- | [<- | [<- | [<- | [<- | [<- | [<- | [<- | []]]]]]]]]]].
  - now exists (Decimal.D0 Decimal.Nil).
  - now exists (Decimal.D1 Decimal.Nil).
  - now exists (Decimal.D2 Decimal.Nil).
  - now exists (Decimal.D3 Decimal.Nil).
  - now exists (Decimal.D4 Decimal.Nil).
  - now exists (Decimal.D5 Decimal.Nil).
  - now exists (Decimal.D6 Decimal.Nil).
  - now exists (Decimal.D7 Decimal.Nil).
  - now exists (Decimal.D8 Decimal.Nil).
  - now exists (Decimal.D9 Decimal.Nil).
Qed.
Lemma dec_more n d : 0 < n -> d < 10 -> dec (10 * n + d) = dec n ++ [48 + d].
Proof.
  intros P D. destruct (digit_uint d D) as [e [E _]]. unfold dec. rewrite <- E, <- usnoc_text. f_equal.
  assert (V : N.of_uint (usnoc (N.to_uint n) e) = 10 * n + d).
  { assert (X := uint_val (usnoc (N.to_uint n) e)). rewrite usnoc_text, digits_val_app, uint_val, DecimalN.Unsigned.of_to, E in X.
    cbn [digits_val] in X. rewrite (proj2 (N.leb_le 48 (48 + d))), (proj2 (N.leb_le (48 + d) 57)) in X by lia. cbn [andb] in X.
    injection X as X. lia. }
  rewrite <- V, DecimalN.Unsigned.to_of.
  destruct (N.to_uint n) as [|r|r|r|r|r|r|r|r|r|r] eqn:U; try reflexivity.
  - now elim (to_uint_nonempty n).
  - apply to_uint_head in U. lia.
Qed.
Lemma decimal_dec n : Decimal n (dec n).
Proof.
  induction n as [n IH] using (well_founded_induction N.lt_wf_0). destruct (N.lt_ge_cases n 10) as [L | G].
  - replace (dec n) with [48 + n]; [now constructor|]. assert (I : In n [0;1;2;3;4;5;6;7;8;9]) by (cbn [In]; lia). cbn [In] in I.
    destruct I as [<- | [<- | [<- | [<- | [<- | [<- | [<- | [<- | [<- | [<- | []]]]]]]]]]]; reflexivity.
  - assert (M : n = 10 * (n / 10) + n mod 10) by (apply N.div_mod; discriminate).
    assert (R : n mod 10 < 10) by (apply N.mod_lt; discriminate).
    assert (Q : 0 < n / 10) by (apply N.div_str_pos; lia).
    assert (X : Decimal (n / 10) (dec (n / 10))) by (apply IH, N.div_lt; lia).
    assert (Y := D_more _ _ _ Q R X). rewrite <- (dec_more _ _ Q R), <- M in Y. exact Y.
Qed.
Lemma decimal_fun n t : Decimal n t -> t = dec n.
Proof.
  induction 1 as [d D | n d t P D H IH].
  - assert (I : In d [0;1;2;3;4;5;6;7;8;9]) by (cbn [In]; lia). cbn [In] in I.
    destruct I as [<- | [<- | [<- | [<- | [<- | [<- | [<- | [<- | [<- | [<- | []]]]]]]]]]]; reflexivity.
  - now rewrite (dec_more n d P D), IH.
Qed.
