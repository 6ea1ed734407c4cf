(** Values in headers are read back. *)
From Verif Require Import Base Base_Proofs Utf8_Model Utf8_Proofs PyText_Model PyText_Proofs PySort_Model PySort_Proofs PyDecimal_Model PyDecimal_Proofs Base64_Model Base64_Proofs.
From Verif Require Json_Model.
From Verif Require Import Json_Spec JsonNum_Proofs.
From Verif Require Time_Model Time_Spec Time_Proofs Time_Props.
From Verif Require Import HttpVal_Model HttpVal_Spec.
Local Open Scope N_scope.

Lemma digit_in c : 48 <= c <= 57 -> is_digit c = true.
Proof. unfold is_digit. lia. Qed.
Lemma take_digits_app ds : forall rest, all_digits ds ->
  match rest with [] => True | c :: _ => is_digit c = false end -> take_digits (ds ++ rest) = (ds, rest).
Proof.
  induction ds as [|c ds IH]; intros rest A S.
  - destruct rest as [|c r]; cbn [app take_digits]; [reflexivity|]. now rewrite S.
  - cbn [app take_digits]. rewrite digit_in by (apply A; left; reflexivity).
    rewrite IH; [reflexivity | intros d Hd; apply A; now right | exact S].
Qed.
Lemma val_of ds v : digits_val 0 ds = Some v -> val ds = v.
Proof. unfold val. now intros ->. Qed.
Definition exp_Z (e : option (N * Z * text)) : Z := match exp_val e with Some z => z | None => 0 end.
Lemma parse_exp_part e : exp_ok e -> parse_exp (exp_part e) = Some (exp_Z e).
Proof.
  destruct e as [[[c z] ds]|]; [|reflexivity]. intros (C & A & N & V). cbn [exp_part]. unfold exp_form, exp_Z. cbn [parse_exp exp_val].
  replace ((c =? 101) || (c =? 69)) with true by lia.
  assert (T : take_digits ds = (ds, [])).
  { rewrite <- (app_nil_r ds) at 1. now apply take_digits_app. }
  destruct (Z.ltb_spec z 0); cbn [app take_sign].
  - change (45 =? 45) with true. cbn match. rewrite T. destruct ds; [now elim N|]. rewrite (val_of _ _ V). f_equal. lia.
  - change (43 =? 45) with false. change (43 =? 43) with true. cbn match. rewrite T. destruct ds; [now elim N|]. rewrite (val_of _ _ V). f_equal. lia.
Qed.
Definition text_number (neg : bool) (i f : text) (e : option (N * Z * text)) : decimal :=
  mkDec neg (val (i ++ f)) (exp_Z e - Z.of_nat (List.length f)).
Lemma int_ok_digits i : int_ok i -> all_digits i.
Proof.
  intros [->|(h & t & -> & H & A)] c; cbn [In].
  - intros [<-|[]]. lia.
  - intros [<-|X]; [lia | now apply A].
Qed.
Lemma exp_part_head e : exp_ok e -> match exp_part e with [] => True | c :: _ => is_digit c = false end.
Proof. destruct e as [[[c z] ds]|]; [|exact (fun _ => I)]. intros (C & _). cbn. unfold is_digit. lia. Qed.
Lemma parse_number_text strict neg i f e : int_ok i -> all_digits f -> exp_ok e ->
  parse_number strict neg (i ++ frac_text f ++ exp_part e) = Some (text_number neg i f e).
Proof.
  intros I F E. unfold parse_number.
  rewrite take_digits_app; [| now apply int_ok_digits |].
  2: { destruct f; cbn [frac_text app]; [now apply exp_part_head | reflexivity]. }
  assert (OK : match i with [] => false | [_] => true | c :: _ => negb (c =? 48) end = true).
  { destruct I as [->|(h & t & -> & H & A)]; [reflexivity|]. destruct t; [reflexivity|]. replace (h =? 48) with false by lia. reflexivity. }
  assert (OK2 : negb (text_eqb (i ++ f) []) = true).
  { destruct I as [->|(h & t & -> & H & A)]; reflexivity. }
  destruct f as [|d f].
  - cbn [frac_text app]. assert (X : (match exp_part e with
       | [] => ([], exp_part e, false)
       | c :: r => if c =? 46 then let (f, t) := take_digits r in (f, t, true) else ([], exp_part e, false) end) = ([] : text, exp_part e, false)).
    { destruct e as [[[c z] ds]|]; [|reflexivity]. cbn [exp_part]. unfold exp_form. destruct E as (C & _). replace (c =? 46) with false by lia. reflexivity. }
    rewrite X. cbv beta iota zeta. rewrite (parse_exp_part _ E), OK, OK2. cbn [negb orb andb]. destruct strict; reflexivity.
  - cbn [frac_text app]. change (46 =? 46) with true. cbn match. change (d :: f ++ exp_part e) with ((d :: f) ++ exp_part e).
    rewrite take_digits_app; [| exact F | now apply exp_part_head]. cbv beta iota zeta. rewrite (parse_exp_part _ E), OK, OK2.
    change (text_eqb (d :: f) []) with false. cbn [negb orb andb]. destruct strict; reflexivity.
Qed.
Lemma signed_number_text strict neg i f e : int_ok i -> all_digits f -> exp_ok e ->
  signed_number strict (num_text neg i f e) = Some (text_number neg i f e).
Proof.
  intros I F E. unfold num_text. destruct neg; cbn [app signed_number].
  - change (45 =? 45) with true. cbn match. now apply parse_number_text.
  - destruct I as [->|(h & t & -> & H & A)].
    + cbn [app signed_number]. change (48 =? 45) with false. cbn match. apply (parse_number_text strict false [48] f e); [now left | exact F | exact E].
    + cbn [app signed_number]. replace (h =? 45) with false by lia. apply (parse_number_text strict false (h :: t) f e); [right; eauto | exact F | exact E].
Qed.
Lemma text_number_value neg i f e : int_ok i -> all_digits f ->
  dec_value (text_number neg i f e) = num_value (mkNum neg i f (exp_val e)).
Proof.
  intros I F. unfold dec_value, num_value, text_number, exp_Z, val. cbn [d_neg d_coeff d_exp n_neg n_int n_frac n_exp].
  destruct (digits_val 0 (i ++ f)); destruct (exp_val e); destruct neg; reflexivity.
Qed.

(** ** The point that is added *)
Lemma isnumeric_text neg i f e : int_ok i -> all_digits f -> exp_ok e -> isnumeric (num_text neg i f e) = true ->
  neg = false /\ f = [] /\ e = None.
Proof.
  intros I F E H. destruct neg; [discriminate|]. unfold num_text in H. cbn [app] in H.
  assert (X : forall a b, isnumeric (a ++ b) = true -> forallb is_digit b = true).
  { intros a b. unfold isnumeric. destruct (a ++ b) eqn:Z; [discriminate|]. rewrite <- Z, forallb_app. intros Y. now apply andb_prop in Y. }
  apply X in H. split; [reflexivity|]. rewrite forallb_app in H. apply andb_prop in H as [H1 H2].
  destruct f; [|discriminate]. split; [reflexivity|]. destruct e as [[[c z] ds]|]; [|reflexivity]. cbn in H2.
  destruct E as (C & _). unfold is_digit in H2. replace ((48 <=? c) && (c <=? 57)) with false in H2 by lia. discriminate.
Qed.
Lemma digits_val_zero ds v : digits_val 0 ds = Some v -> digits_val 0 (ds ++ [48]) = Some (v * 10).
Proof. intros H. rewrite digits_val_app, H. cbn [digits_val]. change ((48 <=? 48) && (48 <=? 57)) with true. cbn match. f_equal. lia. Qed.
Lemma add_point_text neg i f e : int_ok i -> all_digits f -> exp_ok e -> exists f' e',
  add_point (num_text neg i f e) = num_text neg i f' e' /\ all_digits f' /\ exp_ok e'
  /\ same_value (num_value (mkNum neg i f' (exp_val e'))) (num_value (mkNum neg i f (exp_val e))).
Proof.
  intros I F E. unfold add_point. destruct (isnumeric _) eqn:N.
  - destruct (isnumeric_text _ _ _ _ I F E N) as (-> & -> & ->). exists [48], None.
    split; [unfold num_text; cbn [frac_text exp_part app]; rewrite !app_nil_r; reflexivity|].
    split; [intros c [<-|[]]; lia|]. split; [exact Logic.I|].
    unfold num_value, same_value. cbn [n_neg n_int n_frac n_exp exp_val fst snd List.length]. rewrite app_nil_r.
    assert (exists v, digits_val 0 i = Some v) as [v V].
    { destruct I as [->|(h & t & -> & H & A)]; [eexists; reflexivity|]. apply digits_val_some. intros c [<-|X]; [lia | now apply A]. }
    rewrite V, (digits_val_zero _ _ V). change (10 ^ _)%Z with 1%Z at 1. change (10 ^ _)%Z with 10%Z. lia.
  - exists f, e. split; [reflexivity|]. split; [exact F|]. split; [exact E|]. apply same_value_refl.
Qed.

(** ** Texts without white space *)
Lemma strip_solid s : (forall c, In c s -> is_space c = false) -> strip s = s.
Proof.
  intros H. unfold strip. pose proof (strip_by_mid is_space [] s []) as M. cbn [app] in M. rewrite app_nil_r in M. apply M.
  - intros c [].
  - intros c [].
  - intros c r ->. apply H. now left.
  - intros r c ->. apply H, in_or_app. right. now left.
Qed.
Definition number_char (c : N) : Prop := 48 <= c <= 57 \/ c = 45 \/ c = 43 \/ c = 46 \/ c = 69 \/ c = 101.
Lemma num_text_chars neg i f e c : int_ok i -> all_digits f -> exp_ok e -> In c (num_text neg i f e) -> number_char c.
Proof.
  intros I F E H. unfold num_text in H. unfold number_char. apply in_app_or in H as [H|H].
  - destruct neg; [|destruct H]. destruct H as [<-|[]]. lia.
  - apply in_app_or in H as [H|H]; [apply (int_ok_digits _ I) in H; lia|]. apply in_app_or in H as [H|H].
    + destruct f; [destruct H|]. cbn [frac_text] in H. destruct H as [<-|H]; [lia|]. apply F in H. lia.
    + destruct e as [[[x z] ds]|]; [|destruct H]. cbn [exp_part] in H. unfold exp_form in H. destruct E as (C & A & _).
      destruct H as [<-|H]; [lia|]. apply in_app_or in H as [H|H]; [|apply A in H; lia].
      destruct (Z.ltb z 0); destruct H as [<-|[]]; lia.
Qed.
Lemma number_char_solid c : number_char c -> is_space c = false.
Proof. intros H. unfold number_char, is_space in *. lia. Qed.

(** ** Whole numbers *)
Lemma int_digits_val ds : forall acc us, all_digits ds -> ds <> [] \/ us = false -> int_digits acc us ds = digits_val acc ds.
Proof.
  induction ds as [|c ds IH]; intros acc us A H; cbn [int_digits digits_val].
  - destruct H as [H|H]; [now elim H|]. now rewrite H.
  - assert (D := A c (or_introl eq_refl)). rewrite (digit_in c D). replace ((48 <=? c) && (c <=? 57)) with true by lia.
    rewrite (N.mul_comm acc 10). apply IH; [intros d Hd; apply A; now right | now right].
Qed.
Lemma py_int_dec z : py_int (dec_Z z) = Ok z.
Proof.
  unfold py_int. rewrite strip_solid.
  2: { intros c H. rewrite dec_Z_text in H. apply number_char_solid.
       eapply (num_text_chars _ _ [] None); [apply dec_int | intros d [] | exact I | exact H]. }
  assert (G : forall n, match dec n with [] => Err ValueError
     | _ => match int_digits 0 true (dec n) with Some v => Ok (Z.of_N v) | None => Err ValueError end end = Ok (Z.of_N n)).
  { intros n. rewrite (int_digits_val (dec n) 0 true); [| apply dec_all | left; apply dec_nonempty]. rewrite dec_val.
    destruct (dec n) eqn:D; [|reflexivity]. now elim (dec_nonempty n). }
  assert (Hd : forall n h t, dec n = h :: t -> 48 <= h <= 57).
  { intros n h t E. apply (dec_all n). rewrite E. now left. }
  destruct z as [|p|p].
  - reflexivity.
  - change (dec_Z (Z.pos p)) with (dec (N.pos p)). destruct (dec (N.pos p)) as [|h t] eqn:D; [now elim (dec_nonempty (N.pos p))|].
    specialize (Hd _ _ _ D). cbn [take_sign]. replace (h =? 45) with false by lia. replace (h =? 43) with false by lia.
    specialize (G (N.pos p)). rewrite D in G. exact G.
  - change (dec_Z (Z.neg p)) with (45 :: dec (N.pos p)). cbn [take_sign]. change (45 =? 45) with true. cbn match.
    specialize (G (N.pos p)). rewrite (int_digits_val (dec (N.pos p)) 0 true) in *; try apply dec_all; try (left; apply dec_nonempty).
    rewrite dec_val in *. destruct (dec (N.pos p)); [discriminate|]. reflexivity.
Qed.

(** ** Decimals *)
Lemma lower_number c : number_char c -> lower_ascii c <> 110.
Proof. unfold number_char, lower_ascii. intros H. destruct ((65 <=? c) && (c <=? 90)) eqn:E; lia. Qed.
Lemma decimal_number_text neg i f e : int_ok i -> all_digits f -> exp_ok e ->
  py_decimal (num_text neg i f e) = Ok (BFin (text_number neg i f e)).
Proof.
  intros I F E. assert (C := fun c => num_text_chars neg i f e c I F E). unfold py_decimal.
  rewrite strip_solid by (intros c H; apply number_char_solid, C, H).
  assert (filter (fun c => negb (c =? 95)) (num_text neg i f e) = num_text neg i f e) as ->.
  { assert (G : forall l, (forall c, In c l -> number_char c) -> filter (fun c => negb (c =? 95)) l = l).
    { induction l as [|c l IH]; intros H; [reflexivity|]. cbn [filter].
      assert (X := H c (or_introl eq_refl)). replace (c =? 95) with false by (unfold number_char in X; lia). cbn [negb].
      now rewrite IH by (intros d Hd; apply H; now right). }
    apply G, C. }
  assert (P := parse_number_text false neg i f e I F E).
  assert (Q : forall s', s' = i ++ frac_text f ++ exp_part e -> (forall c, In c s' -> number_char c) ->
     (if text_eqb (map lower_ascii s') (lit "inf") || text_eqb (map lower_ascii s') (lit "infinity") then Ok (if neg then BNegInf else BInf)
      else if text_eqb (map lower_ascii s') (lit "nan") then Ok BNaN
      else match parse_number false neg s' with Some d => Ok (BFin d) | None => Err InvalidOperation end)
     = Ok (BFin (text_number neg i f e))).
  { intros s' -> H. assert (N : ~ In 110 (map lower_ascii (i ++ frac_text f ++ exp_part e))).
    { intros X. apply in_map_iff in X as (c & Ec & Hc). apply (lower_number c); [now apply H | exact Ec]. }
    assert (T : forall x, In 110 x -> text_eqb (map lower_ascii (i ++ frac_text f ++ exp_part e)) x = false).
    { intros x X. apply text_eqb_neq. intros Eq. apply N. now rewrite Eq. }
    rewrite !T by (vm_compute; tauto). cbn [orb]. now rewrite P. }
  unfold num_text. destruct neg; cbn [app].
  - cbn [take_sign]. change (45 =? 45) with true. cbn match. apply Q; [reflexivity|]. intros c H. apply C. unfold num_text. cbn [app]. now right.
  - assert (Hi : exists h t, i = h :: t /\ 48 <= h <= 57).
    { destruct I as [->|(h & t & -> & H & A)]; eexists; eexists; (split; [reflexivity | lia]). }
    destruct Hi as (h & t & Ei & Hh).
    assert (S : take_sign (i ++ frac_text f ++ exp_part e) = (false, i ++ frac_text f ++ exp_part e)).
    { rewrite Ei. cbn [app take_sign]. replace (h =? 45) with false by lia. replace (h =? 43) with false by lia. reflexivity. }
    rewrite S. apply Q; [reflexivity|]. intros c H. apply C. exact H.
Qed.
Lemma precision_bound c : digits_at_most 28 c -> (digits_of c <= Json_Model.precision)%nat.
Proof. intros H. apply dec_length; [unfold Json_Model.precision; lia | exact H]. Qed.
Lemma serialize_decimal_form d : exists i f e, serialize_decimal (BFin d) = num_text (d_neg (normalize Json_Model.precision d)) i f e
  /\ int_ok i /\ all_digits f /\ exp_ok e
  /\ same_value (num_value (mkNum (d_neg (normalize Json_Model.precision d)) i f (exp_val e))) (dec_value (normalize Json_Model.precision d)).
Proof.
  cbn [serialize_decimal]. destruct (decimal_text_form (normalize Json_Model.precision d)) as (i & f & e & T & I & F & E & V).
  destruct (add_point_text (d_neg (normalize Json_Model.precision d)) i f e I F E) as (f' & e' & A & F' & E' & S).
  exists i, f', e'. rewrite T. split; [exact A|]. split; [exact I|]. split; [exact F'|]. split; [exact E'|]. now rewrite <- V.
Qed.
Lemma normalize_neg p d : d_neg (normalize p d) = d_neg d.
Proof.
  unfold normalize, fix_precision. repeat match goal with |- context [if ?b then _ else _] => destruct b end;
    cbn [d_neg]; try reflexivity; destruct (strip_zeros _ _ _); reflexivity.
Qed.
Lemma serialize_float_form d : (d_coeff d = 0 -> d_exp d = 0%Z) -> exists i f e,
  serialize_float (FFin d) = num_text (d_neg d) i f e /\ int_ok i /\ all_digits f /\ exp_ok e
  /\ same_value (num_value (mkNum (d_neg d) i f (exp_val e))) (dec_value d).
Proof.
  intros W. cbn [serialize_float]. destruct (float_text_form d W) as (i & f & e & T & I & F & E & V & _).
  destruct (add_point_text (d_neg d) i f e I F E) as (f' & e' & A & F' & E' & S).
  exists i, f', e'. rewrite T. split; [exact A|]. split; [exact I|]. split; [exact F'|]. split; [exact E'|].
  eapply same_value_trans; [exact S | exact V].
Qed.
Lemma number_not_name neg i f e x : int_ok i -> (exists h t, x = h :: t /\ (h <> 45 \/ exists h' t', t = h' :: t' /\ (h' < 48 \/ 57 < h')) /\ (h < 48 \/ 57 < h)) ->
  text_eqb (num_text neg i f e) x = false.
Proof.
  intros I (h & t & -> & H & Hh). apply text_eqb_neq. intros Eq. unfold num_text in Eq.
  assert (Hi : exists a b, i = a :: b /\ 48 <= a <= 57).
  { destruct I as [->|(a & b & -> & Ha & A)]; eexists; eexists; (split; [reflexivity | lia]). }
  destruct Hi as (a & b & -> & Ha). destruct neg; cbn [app] in Eq; injection Eq as E1 E2; [|lia].
  destruct H as [H|(h' & t' & -> & H')]; [congruence|]. injection E2 as E2 _. lia.
Qed.
