(** The texts of numbers and strings, read by the grammar of RFC 8259. *)
From Verif Require Import Base Base_Proofs Utf8_Model Utf8_Proofs PySort_Model PySort_Proofs PyDecimal_Model PyDecimal_Proofs Base64_Model Base64_Proofs Json_Model Json_Spec.
Local Open Scope N_scope.
Ltac Zify.zify_post_hook ::= Z.div_mod_to_equations.

(** ** What may follow a number *)
Definition stop (s : text) : Prop :=
  match s with [] => True | c :: _ => is_digit c = false /\ c <> 46 /\ c <> 101 /\ c <> 69 end.

Lemma digit_true c : 48 <= c <= 57 -> is_digit c = true.
Proof. unfold is_digit. lia. Qed.
Lemma span_digits_app ds : forall rest, all_digits ds ->
  match rest with [] => True | c :: _ => is_digit c = false end -> span_digits (ds ++ rest) = (ds, rest).
Proof.
  induction ds as [|c ds IH]; intros rest A S.
  - destruct rest as [|c r]; cbn [app span_digits]; [reflexivity|]. now rewrite S.
  - cbn [app span_digits]. rewrite digit_true by (apply A; left; reflexivity).
    rewrite IH; [reflexivity | intros d Hd; apply A; now right | exact S].
Qed.
(** The digits before the point. *)
Definition int_ok (i : text) : Prop :=
  i = [48] \/ exists h t, i = h :: t /\ 49 <= h <= 57 /\ all_digits t.
Lemma read_int_app i rest : int_ok i -> match rest with [] => True | c :: _ => is_digit c = false end ->
  read_int (i ++ rest) = Some (i, rest).
Proof.
  intros [->|(h & t & -> & Hh & At)] S; [reflexivity|].
  cbn [app read_int]. replace (h =? 48) with false by lia. rewrite digit_true by lia.
  change (h :: t ++ rest) with ((h :: t) ++ rest). rewrite span_digits_app; [reflexivity | | exact S].
  intros c [<-|H]; [lia | now apply At].
Qed.
Definition frac_text (f : text) : text := match f with [] => [] | _ => 46 :: f end.
Definition exp_text (c : N) (e : option Z) : text :=
  match e with
  | None => []
  | Some z => c :: (if Z.ltb z 0 then [45] else [43]) ++ dec (Z.abs_N z)
  end.
Lemma read_frac_app f rest : all_digits f -> (match rest with [] => True | c :: _ => is_digit c = false /\ c <> 46 end) ->
  read_frac (frac_text f ++ rest) = Some (f, rest).
Proof.
  intros A S. destruct f as [|d f].
  - cbn [frac_text app]. destruct rest as [|c r]; [reflexivity|]. cbn [read_frac].
    replace (c =? 46) with false by (destruct S; lia). reflexivity.
  - cbn [frac_text app read_frac]. change (46 =? 46) with true. cbn match.
    change (d :: f ++ rest) with ((d :: f) ++ rest). rewrite span_digits_app; [reflexivity | exact A |].
    destruct rest; [exact I | apply S].
Qed.
(** An exponent may have leading zeros. *)
Definition exp_form (c : N) (z : Z) (ds : text) : text := c :: (if Z.ltb z 0 then [45] else [43]) ++ ds.
Lemma read_exp_form c z ds rest : c = 101 \/ c = 69 -> all_digits ds -> ds <> [] -> digits_val 0 ds = Some (Z.abs_N z) ->
  match rest with [] => True | c :: _ => is_digit c = false end ->
  read_exp (exp_form c z ds ++ rest) = Some (Some z, rest).
Proof.
  intros C A N V S. unfold exp_form. cbn [app read_exp].
  replace ((c =? 101) || (c =? 69)) with true by lia.
  assert (E : exp_digits (Z.ltb z 0) (ds ++ rest) = Some (Some z, rest)).
  { unfold exp_digits. rewrite (span_digits_app _ _ A S). destruct ds as [|d ds]; [now elim N|]. rewrite V.
    destruct (Z.ltb_spec z 0); do 3 f_equal; lia. }
  destruct (Z.ltb_spec z 0); cbn [app]; exact E.
Qed.
Lemma read_exp_none rest : stop rest -> read_exp rest = Some (None, rest).
Proof.
  intros S. destruct rest as [|c r]; [reflexivity|]. cbn [read_exp]. destruct S as (_ & _ & A & B).
  replace ((c =? 101) || (c =? 69)) with false by lia. reflexivity.
Qed.
(** The exponent of a number, with the character for it and the digits. *)
Definition exp_part (e : option (N * Z * text)) : text := match e with None => [] | Some (c, z, ds) => exp_form c z ds end.
Definition exp_ok (e : option (N * Z * text)) : Prop :=
  match e with
  | None => True
  | Some (c, z, ds) => (c = 101 \/ c = 69) /\ all_digits ds /\ ds <> [] /\ digits_val 0 ds = Some (Z.abs_N z)
  end.
Definition exp_val (e : option (N * Z * text)) : option Z := match e with None => None | Some (_, z, _) => Some z end.
Definition num_text (neg : bool) (i f : text) (e : option (N * Z * text)) : text :=
  (if neg then [45] else []) ++ i ++ frac_text f ++ exp_part e.

Lemma read_number_text neg i f e rest : int_ok i -> all_digits f -> exp_ok e -> stop rest ->
  read_number (num_text neg i f e ++ rest) = Some (mkNum neg i f (exp_val e), rest).
Proof.
  intros I F E S. unfold num_text. rewrite <- !app_assoc.
  assert (U : read_unsigned neg (i ++ frac_text f ++ exp_part e ++ rest) = Some (mkNum neg i f (exp_val e), rest)).
  { unfold read_unsigned. rewrite read_int_app; [| exact I |].
    - rewrite read_frac_app; [| exact F |].
      + destruct e as [[[c z] ds]|].
        * cbn [exp_part exp_val]. destruct E as (C & A & N & V). rewrite read_exp_form; auto.
          destruct rest; [exact Logic.I | apply S].
        * cbn [exp_part exp_val app]. now rewrite read_exp_none.
      + destruct e as [[[c z] ds]|]; cbn [exp_part exp_form app].
        * destruct E as (C & _). unfold is_digit. split; lia.
        * destruct rest; [exact Logic.I | destruct S as (? & ? & _); auto].
    - destruct f; cbn [frac_text app]; [|reflexivity]. destruct e as [[[c z] ds]|]; cbn [exp_part exp_form app].
      + destruct E as (C & _). unfold is_digit. lia.
      + destruct rest; [exact Logic.I | apply S]. }
  destruct neg; cbn [app].
  - cbn [read_number]. exact U.
  - assert (H : exists h t, i = h :: t /\ 48 <= h <= 57).
    { destruct I as [->|(h & t & -> & Hh & _)]; eexists; eexists; (split; [reflexivity | lia]). }
    destruct H as (h & t & -> & Hh). cbn [app read_number] in *. replace (h =? 45) with false by lia. exact U.
Qed.
(** A number text starts with none of the characters that start another value. *)
Lemma num_text_head neg i f e : int_ok i -> exists h t, num_text neg i f e = h :: t /\ (h = 45 \/ 48 <= h <= 57).
Proof.
  intros I. unfold num_text. destruct neg; cbn [app]; [eexists; eexists; split; [reflexivity | now left]|].
  destruct I as [->|(h & t & -> & Hh & _)]; eexists; eexists; (split; [reflexivity | lia]).
Qed.

(** ** Integers *)
Lemma dec_int n : int_ok (dec n).
Proof.
  destruct (N.eq_dec n 0) as [->|H]; [left; reflexivity|].
  destruct (dec_head n H) as (h & t & E & Hh). right. exists h, t. rewrite E. split; [reflexivity|]. split; [exact Hh|].
  intros c Hc. apply (dec_all n). rewrite E. now right.
Qed.
Definition Z_num (z : Z) : number := mkNum (Z.ltb z 0) (dec (Z.abs_N z)) [] None.
Lemma dec_Z_text z : dec_Z z = num_text (Z.ltb z 0) (dec (Z.abs_N z)) [] None.
Proof. unfold num_text. destruct z; cbn; rewrite ?app_nil_r; reflexivity. Qed.
Lemma Z_num_value z : num_value (Z_num z) = (z, 0%Z).
Proof.
  unfold num_value, Z_num. cbn [n_neg n_int n_frac n_exp]. rewrite app_nil_r, dec_val.
  f_equal. destruct (Z.ltb_spec z 0); lia.
Qed.

(** ** Decimals *)
Lemma same_value_k a b k : (k <= snd a)%Z -> (k <= snd b)%Z ->
  (same_value a b <-> fst a * 10 ^ (snd a - k) = fst b * 10 ^ (snd b - k))%Z.
Proof.
  intros A B. unfold same_value. set (m := Z.min (snd a) (snd b)).
  assert (Ea : (10 ^ (snd a - k) = 10 ^ (snd a - m) * 10 ^ (m - k))%Z) by (rewrite <- Z.pow_add_r by lia; f_equal; lia).
  assert (Eb : (10 ^ (snd b - k) = 10 ^ (snd b - m) * 10 ^ (m - k))%Z) by (rewrite <- Z.pow_add_r by lia; f_equal; lia).
  rewrite Ea, Eb, !Z.mul_assoc.
  assert (P : (0 < 10 ^ (m - k))%Z) by (apply Z.pow_pos_nonneg; lia).
  split; [intros ->; reflexivity | intros H; apply Z.mul_reg_r in H; [exact H | lia]].
Qed.
Lemma same_value_refl a : same_value a a.
Proof. unfold same_value. reflexivity. Qed.
Lemma same_value_sym a b : same_value a b -> same_value b a.
Proof. unfold same_value. rewrite (Z.min_comm (snd b)). intros H. now symmetry. Qed.
Lemma same_value_trans a b c : same_value a b -> same_value b c -> same_value a c.
Proof.
  set (k := Z.min (snd a) (Z.min (snd b) (snd c))).
  rewrite (same_value_k a b k), (same_value_k b c k), (same_value_k a c k) by lia. congruence.
Qed.

Lemma head_val i f : forall v w, digits_val 0 i = Some v -> digits_val 0 f = Some w ->
  digits_val 0 (i ++ f) = Some (v * 10 ^ N.of_nat (List.length f) + w).
Proof. intros v w A B. rewrite digits_val_app, A. now apply digits_val_acc. Qed.

Definition sgn (neg : bool) (c : N) : Z := if neg then (- Z.of_N c)%Z else Z.of_N c.
(** A number with these digits in all, that many of them after the point. *)
Lemma num_value_of neg i f e c : digits_val 0 (i ++ f) = Some c ->
  num_value (mkNum neg i f e) = (sgn neg c, (match e with Some z => z | None => 0 end - Z.of_nat (List.length f))%Z).
Proof. intros H. unfold num_value. cbn [n_neg n_int n_frac n_exp]. now rewrite H. Qed.

Lemma firstn_int n k : (0 < k)%nat -> int_ok (firstn k (dec n)).
Proof.
  intros K. destruct k as [|k]; [lia|]. destruct (dec_int n) as [E|(h & t & E & Hh & A)]; rewrite E; cbn [firstn].
  - left. now rewrite firstn_nil.
  - right. exists h, (firstn k t). split; [reflexivity|]. split; [exact Hh | now apply all_digits_firstn].
Qed.
Lemma dec_len n : (0 < List.length (dec n))%nat.
Proof. assert (H := dec_nonempty n). destruct (dec n); [now elim H | cbn; lia]. Qed.

(** Every text of a Decimal is a number of that value, to the digit. *)
Lemma decimal_text_form d : exists i f e,
  decimal_text d = num_text (d_neg d) i f e /\ int_ok i /\ all_digits f /\ exp_ok e
  /\ num_value (mkNum (d_neg d) i f (exp_val e)) = dec_value d.
Proof.
  unfold decimal_text. set (ds := dec (d_coeff d)). set (n := Z.of_nat (List.length ds)).
  assert (L := dec_len (d_coeff d)). fold ds in L.
  set (left := (d_exp d + n)%Z).
  set (dot := if Z.leb (d_exp d) 0 && Z.ltb (-6) left then left else 1%Z).
  assert (Dot : dot = left /\ (d_exp d <= 0)%Z \/ dot = 1%Z /\ left <> dot \/ dot = 1%Z /\ left = 1%Z /\ n = 1%Z /\ d_exp d = 0%Z).
  { unfold dot. destruct (Z.leb_spec (d_exp d) 0); destruct (Z.ltb_spec (-6) left); cbn [andb]; unfold left, n in *; lia. }
  set (sign := if d_neg d then lit "-" else []).
  set (e := if Z.eqb left dot then None else Some (69, (left - dot)%Z, dec (Z.abs_N (left - dot)))).
  assert (Ee : (if Z.eqb left dot then [] else lit "E" ++ signed (left - dot)) = exp_part e).
  { unfold e. destruct (Z.eqb left dot); [reflexivity|]. unfold signed. cbn [exp_part exp_form]. unfold exp_form.
    destruct (Z.ltb (left - dot) 0); reflexivity. }
  assert (Eo : exp_ok e).
  { unfold e. destruct (Z.eqb left dot); [exact I|]. cbn [exp_ok]. split; [now right|]. split; [apply dec_all|].
    split; [apply dec_nonempty | apply dec_val]. }
  assert (Ev : match exp_val e with Some z => z | None => 0%Z end = (left - dot)%Z).
  { unfold e. destruct (Z.eqb_spec left dot); cbn [exp_val]; lia. }
  rewrite Ee. fold sign.
  assert (V : digits_val 0 ds = Some (d_coeff d)) by apply dec_val.
  assert (Gd : forall i f, digits_val 0 (i ++ f) = Some (d_coeff d) -> (left - dot - Z.of_nat (List.length f))%Z = d_exp d ->
     num_value (mkNum (d_neg d) i f (exp_val e)) = dec_value d).
  { intros i f Hv Hl. rewrite (num_value_of _ _ _ _ _ Hv), Ev, Hl. reflexivity. }
  destruct (Z.leb_spec dot 0) as [D0|D0].
  - exists [48], (repeat 48 (Z.to_nat (- dot)) ++ ds), e. split.
    { unfold num_text. destruct (repeat 48 (Z.to_nat (- dot)) ++ ds) eqn:Z.
      - exfalso. apply app_eq_nil in Z as [_ Z]. rewrite Z in L. cbn in L. lia.
      - cbn [frac_text]. reflexivity. }
    split; [left; reflexivity|]. split; [apply all_digits_app; [apply zeros_digits | apply dec_all]|]. split; [exact Eo|].
    apply Gd.
    + cbn [app digits_val]. change ((48 <=? 48) && (48 <=? 57)) with true. cbn match. change (10 * 0 + (48 - 48)) with 0.
      rewrite digits_val_app, zeros_val. rewrite N.mul_0_l. exact V.
    + rewrite app_length, repeat_length. unfold left, n in *. lia.
  - destruct (Z.leb_spec n dot) as [D1|D1].
    + exists ds, [], e. split.
      { unfold num_text. cbn [frac_text app]. replace (Z.to_nat (dot - n)) with O by (unfold left, n in *; lia).
        cbn [repeat]. now rewrite app_nil_r. }
      split; [apply dec_int|]. split; [intros c []|]. split; [exact Eo|].
      apply Gd; [now rewrite app_nil_r|]. cbn [List.length]. unfold left, n in *. lia.
    + exists (firstn (Z.to_nat dot) ds), (skipn (Z.to_nat dot) ds), e. split.
      { unfold num_text. destruct (skipn (Z.to_nat dot) ds) eqn:Z.
        - exfalso. apply (f_equal (@List.length N)) in Z. rewrite skipn_length in Z. cbn in Z. lia.
        - cbn [frac_text]. unfold sign. rewrite <- !app_assoc. reflexivity. }
      split; [apply firstn_int; lia|]. split; [apply all_digits_skipn, dec_all|]. split; [exact Eo|].
      apply Gd; [rewrite firstn_skipn; exact V|]. rewrite skipn_length. unfold left, n in *. lia.
Qed.
Lemma normalize_value prec d : (digits_of (d_coeff d) <= prec)%nat -> same_value (dec_value (normalize prec d)) (dec_value d).
Proof.
  intros H. unfold normalize, fix_precision. rewrite (proj2 (Nat.leb_le _ _) H).
  destruct (N.eqb_spec (d_coeff d) 0) as [Z|Z].
  - unfold same_value, dec_value. cbn [d_neg d_coeff d_exp fst snd]. rewrite Z. destruct (d_neg d); cbn; lia.
  - destruct (strip_zeros _ _ _) as [c e] eqn:S.
    destruct (strip_zeros_value _ _ _ _ _ (d_exp d) S ltac:(lia)) as (A & B & _ & _).
    apply (same_value_k _ _ (d_exp d)); unfold dec_value; cbn [d_neg d_coeff d_exp fst snd]; [lia | lia |].
    unfold value_at in B. destruct (d_neg d); lia.
Qed.

(** ** Floats *)
Lemma exp2_form z : exists ds, exp2 z = (if Z.ltb z 0 then [45] else [43]) ++ ds /\ all_digits ds /\ ds <> [] /\ digits_val 0 ds = Some (Z.abs_N z).
Proof.
  unfold exp2. eexists. split; [reflexivity|].
  destruct (Nat.ltb (List.length (dec (Z.abs_N z))) 2).
  - split; [intros c [<-|H]; [lia | eapply dec_all, H]|]. split; [discriminate|].
    cbn [digits_val]. change ((48 <=? 48) && (48 <=? 57)) with true. cbn match. apply dec_val.
  - split; [apply dec_all|]. split; [apply dec_nonempty | apply dec_val].
Qed.
Lemma float_text_form d : (d_coeff d = 0 -> d_exp d = 0%Z) -> exists i f e,
  float_text d = num_text (d_neg d) i f e /\ int_ok i /\ all_digits f /\ exp_ok e
  /\ same_value (num_value (mkNum (d_neg d) i f (exp_val e))) (dec_value d)
  /\ (f <> [] \/ exp_val e <> None).
Proof.
  intros Wf. unfold float_text. set (ds := dec (d_coeff d)). set (n := Z.of_nat (List.length ds)).
  assert (L := dec_len (d_coeff d)). fold ds in L. set (decpt := (d_exp d + n)%Z).
  assert (V : digits_val 0 ds = Some (d_coeff d)) by apply dec_val.
  destruct (Z.leb decpt (-4) || Z.ltb 16 decpt) eqn:X.
  - destruct (exp2_form (decpt - 1)) as (es & Ee & Ea & En & Ev).
    exists (firstn 1 ds), (skipn 1 ds), (Some (101, (decpt - 1)%Z, es)). split.
    { unfold num_text. f_equal. f_equal. cbn [exp_part]. unfold exp_form. rewrite <- Ee.
      destruct ds as [|a [|b r]]; reflexivity. }
    split; [apply firstn_int; lia|]. split; [apply all_digits_skipn, dec_all|]. split; [cbn; auto|].
    split; [|right; discriminate].
    rewrite (num_value_of _ _ _ _ (d_coeff d)) by (rewrite firstn_skipn; exact V). cbn [exp_val].
    rewrite skipn_length. replace (decpt - 1 - Z.of_nat (List.length ds - 1))%Z with (d_exp d) by (unfold decpt, n; lia).
    apply same_value_refl.
  - destruct (Z.leb_spec decpt 0) as [D0|D0].
    + exists [48], (repeat 48 (Z.to_nat (- decpt)) ++ ds), None.
      assert (Ne : repeat 48 (Z.to_nat (- decpt)) ++ ds <> []).
      { intros Z. apply app_eq_nil in Z as [_ Z]. rewrite Z in L. cbn in L. lia. }
      split.
      { unfold num_text. destruct (repeat 48 (Z.to_nat (- decpt)) ++ ds); [now elim Ne|]. cbn [frac_text exp_part].
        rewrite app_nil_r. reflexivity. }
      split; [left; reflexivity|]. split; [apply all_digits_app; [apply zeros_digits | apply dec_all]|]. split; [exact I|].
      split; [|now left].
      rewrite (num_value_of _ _ _ _ (d_coeff d)).
      * cbn [exp_val]. rewrite app_length, repeat_length.
        replace (0 - Z.of_nat (Z.to_nat (- decpt) + List.length ds))%Z with (d_exp d) by (unfold decpt, n in *; lia).
        apply same_value_refl.
      * cbn [app digits_val]. change ((48 <=? 48) && (48 <=? 57)) with true. cbn match. change (10 * 0 + (48 - 48)) with 0.
        rewrite digits_val_app, zeros_val. rewrite N.mul_0_l. exact V.
    + destruct (Z.leb_spec n decpt) as [D1|D1].
      * exists (ds ++ repeat 48 (Z.to_nat (decpt - n))), [48], None. split.
        { unfold num_text. cbn [frac_text exp_part]. rewrite <- !app_assoc. reflexivity. }
        split.
        { destruct (N.eq_dec (d_coeff d) 0) as [C|C].
          - left. replace (Z.to_nat (decpt - n)) with O by (unfold decpt; specialize (Wf C); lia).
            unfold ds. rewrite C. reflexivity.
          - right. destruct (dec_head _ C) as (h & t & E & Hh). exists h, (t ++ repeat 48 (Z.to_nat (decpt - n))).
            unfold ds. rewrite E. split; [reflexivity|]. split; [exact Hh|]. apply all_digits_app; [|apply zeros_digits].
            intros c Hc. apply (dec_all (d_coeff d)). rewrite E. now right. }
        split; [intros c [<-|[]]; lia|]. split; [exact I|]. split; [|left; discriminate].
        rewrite (num_value_of _ _ _ _ (d_coeff d * 10 ^ Z.to_N (d_exp d + 1))).
        -- cbn [exp_val List.length]. apply (same_value_k _ _ (-1)); unfold dec_value; cbn [fst snd]; [lia | unfold decpt in *; lia |].
           replace (0 - Z.of_nat 1 - -1)%Z with 0%Z by lia. rewrite Z.pow_0_r.
           unfold sgn. rewrite N2Z.inj_mul, N2Z.inj_pow. rewrite Z2N.id by (unfold decpt in *; lia).
           replace (d_exp d - -1)%Z with (d_exp d + 1)%Z by lia. destruct (d_neg d); lia.
        -- rewrite <- app_assoc. rewrite digits_val_app, V, digits_val_app, zeros_val.
           cbn [digits_val]. change ((48 <=? 48) && (48 <=? 57)) with true. cbn match. f_equal.
           replace (Z.to_N (d_exp d + 1)) with (N.succ (N.of_nat (Z.to_nat (decpt - n)))) by (unfold decpt in *; lia).
           rewrite N.pow_succ_r'. lia.
      * exists (firstn (Z.to_nat decpt) ds), (skipn (Z.to_nat decpt) ds), None.
        assert (Ne : skipn (Z.to_nat decpt) ds <> []).
        { intros Z. apply (f_equal (@List.length N)) in Z. rewrite skipn_length in Z. cbn in Z. lia. }
        split.
        { unfold num_text. destruct (skipn (Z.to_nat decpt) ds) eqn:Z; [now elim Ne|].
          cbn [frac_text exp_part]. rewrite app_nil_r. reflexivity. }
        split; [apply firstn_int; lia|]. split; [apply all_digits_skipn, dec_all|]. split; [exact I|].
        split; [|now left].
        rewrite (num_value_of _ _ _ _ (d_coeff d)) by (rewrite firstn_skipn; exact V). cbn [exp_val].
        rewrite skipn_length. replace (0 - Z.of_nat (List.length ds - Z.to_nat decpt))%Z with (d_exp d) by (unfold decpt, n in *; lia).
        apply same_value_refl.
Qed.

(** ** Strings *)
Lemma hex_val_char d : d < 16 -> hex_val (hex_char d) = Some d.
Proof.
  intros H. unfold hex_char. destruct (N.ltb_spec d 10).
  - unfold hex_val, is_digit. replace ((48 <=? 48 + d) && (48 + d <=? 57)) with true by lia. f_equal. lia.
  - unfold hex_val, is_digit. replace ((48 <=? 87 + d) && (87 + d <=? 57)) with false by lia.
    replace ((97 <=? 87 + d) && (87 + d <=? 102)) with true by lia. f_equal. lia.
Qed.
Lemma read_plain_char c r : must_escape c = false -> read_string (c :: r) = cons_char c (read_string r).
Proof.
  unfold must_escape. intros H. cbn [read_string].
  replace (c =? 34) with false by lia. replace (c <? 32) with false by lia. now replace (c =? 92) with false by lia.
Qed.
Lemma read_simple e x r : (e =? 117) = false -> simple_escape e = Some x -> read_string (92 :: e :: r) = cons_char x (read_string r).
Proof.
  intros U E. cbn [read_string]. change (92 =? 34) with false. change (92 <? 32) with false. change (92 =? 92) with true.
  cbn match. now rewrite U, E.
Qed.
Lemma read_u a b c d u r : hex4 a b c d = Some u -> u < 0xD800 -> read_string (92 :: 117 :: a :: b :: c :: d :: r) = cons_char u (read_string r).
Proof.
  intros E U. cbn [read_string]. change (92 =? 34) with false. change (92 <? 32) with false. change (92 =? 92) with true.
  cbn match. change (117 =? 117) with true. cbn match. rewrite E. now replace ((0xD800 <=? u) && (u <? 0xDC00)) with false by lia.
Qed.
Lemma read_escaped c r : must_escape c = true -> read_string (escape_char c ++ r) = cons_char c (read_string r).
Proof.
  intros H. unfold escape_char.
  destruct (N.eqb_spec c 92); [subst; now apply read_simple|].
  destruct (N.eqb_spec c 34); [subst; now apply read_simple|].
  destruct (N.eqb_spec c 10); [subst; now apply read_simple|].
  destruct (N.eqb_spec c 13); [subst; now apply read_simple|].
  destruct (N.eqb_spec c 9); [subst; now apply read_simple|].
  destruct (N.eqb_spec c 8); [subst; now apply read_simple|].
  destruct (N.eqb_spec c 12); [subst; now apply read_simple|].
  assert (C : c < 32) by (unfold must_escape in H; lia).
  cbn [app]. apply read_u; [|lia]. unfold hex4. rewrite !hex_val_char by (apply N.mod_lt; lia). f_equal. lia.
Qed.
Lemma escape_cons c s : escape_string (c :: s) = (if must_escape c then escape_char c else [c]) ++ escape_string s.
Proof. reflexivity. Qed.
Lemma read_string_escape s rest : read_string (escape_string s ++ 34 :: rest) = Some (s, rest).
Proof.
  induction s as [|c s IH]; [reflexivity|]. rewrite escape_cons, <- app_assoc.
  destruct (must_escape c) eqn:M; [rewrite (read_escaped _ _ M) | cbn [app]; rewrite (read_plain_char _ _ M)]; now rewrite IH.
Qed.
(** What a string is written with. *)
Lemma hex_char_range d : d < 16 -> 48 <= hex_char d <= 102 /\ hex_char d <> 92 /\ hex_char d <> 34.
Proof. intros H. unfold hex_char. destruct (N.ltb_spec d 10); lia. Qed.
Lemma escape_char_range c d : must_escape c = true -> In d (escape_char c) -> 32 <= d < 128.
Proof.
  intros M. unfold escape_char.
  repeat match goal with |- context [c =? ?k] => destruct (N.eqb_spec c k); [intros H; cbn in H; lia|] end.
  intros H. cbn [In] in H.
  assert (G : forall x, x mod 16 < 16) by (intros x; apply N.mod_lt; lia).
  assert (R1 := hex_char_range _ (G (c / 4096))). assert (R2 := hex_char_range _ (G (c / 256))).
  assert (R3 := hex_char_range _ (G (c / 16))). assert (R4 := hex_char_range _ (G c)). lia.
Qed.
Lemma escape_string_range s d : In d (escape_string s) -> 32 <= d.
Proof.
  induction s as [|c s IH]; [intros []|]. rewrite escape_cons. intros H. apply in_app_or in H as [H|H]; [|auto].
  destruct (must_escape c) eqn:M; [apply escape_char_range in H; [lia | exact M]|].
  destruct H as [<-|[]]. unfold must_escape in M. lia.
Qed.
Lemma escape_valid s : forallb is_scalar (escape_string s) = forallb is_scalar s.
Proof.
  induction s as [|c s IH]; [reflexivity|]. rewrite escape_cons, forallb_app, IH. cbn [forallb]. f_equal.
  destruct (must_escape c) eqn:M; [|cbn [forallb]; apply andb_true_r].
  replace (is_scalar c) with true by (unfold is_scalar, must_escape in *; lia).
  apply forallb_forall. intros d Hd. apply (escape_char_range _ _ M) in Hd. unfold is_scalar. lia.
Qed.
