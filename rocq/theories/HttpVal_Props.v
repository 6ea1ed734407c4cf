(** C60: values in headers. *)
From Verif Require Import Base Base_Proofs Utf8_Model Utf8_Proofs PyText_Model PyText_Proofs PySort_Model PySort_Proofs PyDecimal_Model PyDecimal_Proofs Base64_Model Base64_Proofs.
From Verif Require Json_Model Json_Props.
From Verif Require Import Json_Spec JsonNum_Proofs.
From Verif Require Import Time_Model Time_Spec Time_Proofs Time_Props.
From Verif Require Import HttpVal_Model HttpVal_Spec HttpVal_Proofs.
Local Open Scope N_scope.

(** Instants as texts of a format come back. *)
Lemma micro_mod u : real u -> offset u = Some 0%Z -> micro u = (instant_of u mod 1000000)%Z.
Proof.
  intros [_ (_ & _ & _ & T4)] O. unfold instant_of, instant, off_of. rewrite O, Z.sub_0_r, Z.add_comm, Z.mod_add by lia.
  symmetry. apply Z.mod_small. lia.
Qed.
Lemma whole_number_back repr tf nearest s : floats_ok repr tf nearest -> (Z.abs s < 2 ^ 38)%Z ->
  deserialize tf EPOCH_SECONDS (SText (stamp_text repr (SInt s))) = deserialize tf EPOCH_SECONDS (SInt s).
Proof.
  intros H Hs. cbn [stamp_text deserialize].
  destruct (whole_back _ _ _ H s ltac:(lia)) as (x & Ex & Tx & Fx). rewrite Ex. cbn [epoch_seconds_to_datetime].
  unfold from_float. cbv zeta. rewrite Tx. assert (round_even (fmul (frac x) 1000000) = 0%Z) as ->; [|reflexivity].
  unfold fmul. rewrite Fx. destruct (expo (frac x) <? 0)%Z; reflexivity.
Qed.
Lemma time_back pads repr tf nearest f t : floats_ok repr tf nearest -> time_carried pads f t ->
  exists v u, serialize pads f t = Ok v /\ deserialize tf f (SText (stamp_text repr v)) = Ok u
    /\ real u /\ offset u = Some 0%Z /\ instant_of u = instant_of t.
Proof.
  intros H (R & Y & C). destruct f.
  - destruct (C53_date_time pads tf t R Y C) as (v & u & S & D & P). exists v, u. split; [exact S|].
    destruct v; [exact (conj D P) | discriminate D..].
  - destruct C as [M C]. destruct (C73_http_date pads tf t R Y C) as (v & u & S & D & Ru & Ou & I & Mu). exists v, u. split; [exact S|].
    destruct v; [|discriminate D..]. split; [exact D|]. split; [exact Ru|]. split; [exact Ou|].
    assert (instant_of u mod 1000000 = 0)%Z by (rewrite <- (micro_mod u Ru Ou); exact Mu).
    zdiv.
  - destruct (ensure_utc_ok t R Y) as (w & E & Rw & Ow & Iw).
    assert (Sz : serialize pads EPOCH_SECONDS t = Ok (serialize_epoch_seconds w)) by (unfold serialize; rewrite E; reflexivity).
    destruct (C53_epoch pads tf t R Y C) as (v & u & S & D & P). rewrite Sz in S. injection S as <-.
    exists (serialize_epoch_seconds w), u. split; [exact Sz|].
    assert (X : deserialize tf EPOCH_SECONDS (SText (stamp_text repr (serialize_epoch_seconds w))) = deserialize tf EPOCH_SECONDS (serialize_epoch_seconds w)).
    { unfold serialize_epoch_seconds. destruct (Z.eqb_spec (micro w) 0) as [Z0|Z0].
      - destruct (utc_whole w Rw Ow Z0) as [s Es]. unfold timestamp. rewrite (utc_us_is w Rw), Es.
        assert (Hs : (Z.abs s < 2 ^ 38)%Z).
        { pose proof (in_years_small _ Y) as B. rewrite <- Iw, Es in B. lia. }
        rewrite trunc_whole by exact Hs. apply (whole_number_back repr tf nearest); assumption.
      - unfold timestamp. rewrite (utc_us_is w Rw), Iw. cbn [stamp_text deserialize]. rewrite (repr_back _ _ _ H); [reflexivity|].
        destruct C as [C|C]; [|exact C]. exfalso. apply Z0. rewrite (micro_mod w Rw Ow), Iw. exact C. }
    rewrite X. exact (conj D P).
Qed.

(** Booleans, whole numbers, floats, decimals, strings and instants that are written
    to a header are read back as the same value. *)
Theorem C60_header pads repr tf nearest lf v : floats_ok repr tf nearest -> carried pads nearest lf v ->
  exists t v', header_text pads repr lf v = Ok t /\ read_header tf nearest (kind_of v) lf t = Ok v' /\ same v v'.
Proof.
  intros H C. destruct v as [b|z|f|d|s|t|bs]; cbn [kind_of header_text read_header carried] in *.
  - destruct b; eexists _, _; (split; [reflexivity|]; split; [reflexivity | constructor]).
  - eexists _, _. split; [reflexivity|]. rewrite py_int_dec. split; [reflexivity | constructor].
  - eexists _, (HFloat f). split; [reflexivity|]. split; [|constructor].
    destruct f as [| | |d]; try reflexivity. destruct C as [N W].
    destruct (serialize_float_form d W) as (i & fr & e & T & I & F & E & V). rewrite T. unfold strict_parse_float.
    rewrite !number_not_name; try exact I.
    + rewrite signed_number_text by assumption. cbn [bind]. rewrite (by_number _ _ _ H _ d), N; [reflexivity|].
      split; [reflexivity|]. rewrite text_number_value by assumption. exact V.
    + exists 78, (lit "aN"). split; [reflexivity|]. split; [left; discriminate | lia].
    + exists 45, (lit "Infinity"). split; [reflexivity|]. split; [|lia]. right. exists 73, (lit "nfinity"). split; [reflexivity|lia].
    + exists 73, (lit "nfinity"). split; [reflexivity|]. split; [left; discriminate | lia].
  - destruct d as [| | |d].
    + eexists _, _. split; [reflexivity|]. split; [reflexivity | constructor].
    + eexists _, _. split; [reflexivity|]. split; [reflexivity | constructor].
    + eexists _, _. split; [reflexivity|]. split; [reflexivity | constructor].
    + destruct (serialize_decimal_form d) as (i & fr & e & T & I & F & E & V).
      eexists _, _. split; [reflexivity|]. rewrite T.
      rewrite decimal_number_text by assumption. split; [reflexivity|]. constructor. split.
      * cbn [text_number d_neg]. now rewrite normalize_neg.
      * rewrite text_number_value by assumption. apply same_value_sym. eapply same_value_trans; [exact V|].
        apply normalize_value, precision_bound, C.
  - destruct (lf_media lf).
    + destruct (utf8_encode_valid s (C eq_refl)) as [b E]. rewrite E. cbn [bind]. eexists _, _. split; [reflexivity|].
      rewrite b64_roundtrip by exact (utf8_encode_bytes _ _ E). cbn [bind]. rewrite (utf8_roundtrip _ _ E). split; [reflexivity | constructor].
    + eexists _, _. split; [reflexivity|]. split; [reflexivity | constructor].
  - unfold time_text. destruct (time_back pads repr tf nearest _ t H C) as (v & u & S & D & Ru & Ou & I). rewrite S. cbn [bind].
    eexists _, _. split; [reflexivity|]. rewrite D. cbn [bind]. rewrite ensure_utc_id by exact Ou. split; [reflexivity|]. now constructor.
  - destruct C.
Qed.
Print Assumptions C60_header.

(** A set of float functions that meets the hypotheses. *)
Definition ex_repr (x : Time_Model.float) : text := 109 :: dec_Z (mant x) ++ 101 :: dec_Z (expo x).
Definition ex_tf (s : text) : option Time_Model.float :=
  match s with
  | c :: r =>
    if c =? 109 then
      match split_on 101 r with
      | [a; b] => match py_int a, py_int b with Ok m, Ok e => Some (mkFloat m e) | _, _ => None end
      | _ => None
      end
    else match py_int s with Ok z => Some (mkFloat z 0) | Err _ => None end
  | [] => None
  end.
Lemma dec_Z_chars z c : In c (dec_Z z) -> c = 45 \/ 48 <= c <= 57.
Proof. destruct z; [intros [<-|[]]; lia| |intros [<-|H]; [now left|]]; right; now apply (dec_all (N.pos p)). Qed.
Lemma ex_floats_ok : floats_ok ex_repr ex_tf Json_Props.ex_float.
Proof.
  split.
  - intros a b [S V]. now apply Json_Props.ex_by_value.
  - intros p _. unfold ex_tf, ex_repr. change (109 =? 109) with true. cbn match.
    rewrite split_on_app by (intros H; apply dec_Z_chars in H; lia).
    rewrite split_on_none by (intros H; apply dec_Z_chars in H; lia). rewrite !py_int_dec. destruct (ratio p 1000000). reflexivity.
  - intros z _. exists (mkFloat z 0). split.
    + unfold ex_tf. destruct (dec_Z z) as [|c r] eqn:E; [destruct z; try discriminate; now elim (dec_nonempty (N.pos p))|].
      assert (H : In c (dec_Z z)) by (rewrite E; now left). apply dec_Z_chars in H. replace (c =? 109) with false by lia.
      rewrite <- E, py_int_dec. reflexivity.
    + split; [|reflexivity]. unfold trunc. cbn [expo mant]. change (0 <? 0)%Z with false. change (2 ^ 0)%Z with 1%Z. cbv iota. lia.
Qed.
Definition plain_leaf := mkLeaf false None.
Example C60_ex : floats_ok ex_repr ex_tf Json_Props.ex_float
  /\ carried false Json_Props.ex_float plain_leaf (HDecimal (BFin (mkDec true 12300 (-1))))
  /\ header_text false ex_repr plain_leaf (HDecimal (BFin (mkDec true 12300 (-1)))) = Ok (lit "-1.23E+3")
  /\ header_text false ex_repr plain_leaf (HDecimal (BFin (mkDec false 7 0))) = Ok (lit "7.0")
  /\ header_text false ex_repr (mkLeaf true None) (HText (lit "{}")) = Ok (lit "e30=")
  /\ carried false Json_Props.ex_float plain_leaf (HTime (mkDt 2024 3 1 0 30 0 0 (Some 7200000000%Z)))
  /\ header_text false ex_repr plain_leaf (HTime (mkDt 2024 3 1 0 30 0 0 (Some 7200000000%Z))) = Ok (lit "Thu, 29 Feb 2024 22:30:00 GMT")
  /\ header_text false ex_repr (mkLeaf false (Some EPOCH_SECONDS)) (HTime (mkDt 2024 3 1 0 30 0 0 (Some 7200000000%Z))) = Ok (lit "1709245800").
Proof.
  split; [exact ex_floats_ok|]. split; [vm_compute; reflexivity|]. split; [vm_compute; reflexivity|]. split; [vm_compute; reflexivity|].
  split; [vm_compute; reflexivity|]. split; [|split; vm_compute; reflexivity].
  assert (R : real (mkDt 2024 3 1 0 30 0 0 (Some 7200000000%Z))) by (unfold real, real_date, real_time; cbn; lia).
  split; [exact R|]. cbn [plain_leaf lf_ts]. unfold second_from_100.
  rewrite in_years_is, <- utc_us_is by exact R. split; [vm_compute; split; [discriminate|reflexivity]|]. split; [vm_compute; reflexivity|].
  change (instant 100 1 1 0 0 0 0 0) with (instant_of (mkDt 100 1 1 0 0 0 0 (Some 0%Z))).
  rewrite <- (utc_us_is (mkDt 100 1 1 0 0 0 0 (Some 0%Z))) by (unfold real, real_date, real_time; cbn; lia). vm_compute. discriminate.
Qed.

(** Numbers have one text everywhere: in headers, query parameters and path labels.
    It is a number in the sense of JSON with the value written, or one of the three
    names. *)
Theorem C60_numbers pads repr nearest lf greedy v : carried pads nearest lf v ->
  match v with HInt _ | HFloat _ | HDecimal _ => True | _ => False end ->
  exists t, header_text pads repr lf v = Ok t /\ query_text pads repr lf v = Ok t /\ label_text pads repr greedy lf v = Ok t
    /\ match v with
       | HInt z => exists n, read_number t = Some (n, []) /\ num_value n = (z, 0%Z) /\ integral n = true
       | HFloat (Json_Model.FFin d) | HDecimal (Json_Model.BFin d) =>
         exists n, read_number t = Some (n, []) /\ n_neg n = d_neg d /\ same_value (num_value n) (dec_value d)
       | HFloat Json_Model.FNaN | HDecimal Json_Model.BNaN => t = lit "NaN"
       | HFloat Json_Model.FInf | HDecimal Json_Model.BInf => t = lit "Infinity"
       | HFloat Json_Model.FNegInf | HDecimal Json_Model.BNegInf => t = lit "-Infinity"
       | _ => False
       end.
Proof.
  intros C K. assert (Rd : forall neg i f e, int_ok i -> all_digits f -> exp_ok e ->
    read_number (num_text neg i f e) = Some (mkNum neg i f (exp_val e), [])).
  { intros neg i f e I F E. rewrite <- (app_nil_r (num_text _ _ _ _)). now apply read_number_text. }
  destruct v as [b|z|f|d|s|t|bs]; try destruct K; cbn [header_text query_text label_text carried] in *.
  - eexists. split; [reflexivity|]. split; [reflexivity|]. split; [reflexivity|]. rewrite dec_Z_text.
    eexists. split; [apply Rd; [apply dec_int | intros c [] | exact I]|]. split; [apply Z_num_value | reflexivity].
  - eexists. split; [reflexivity|]. split; [reflexivity|]. split; [reflexivity|].
    destruct f as [| | |d]; try reflexivity. destruct C as [_ W].
    destruct (serialize_float_form d W) as (i & fr & e & T & I & F & E & V). rewrite T.
    eexists. split; [now apply Rd|]. split; [reflexivity | exact V].
  - eexists. split; [reflexivity|]. split; [reflexivity|]. split; [reflexivity|].
    destruct d as [| | |d]; try reflexivity.
    destruct (serialize_decimal_form d) as (i & fr & e & T & I & F & E & V). rewrite T.
    eexists. split; [now apply Rd|]. split; [cbn [n_neg]; apply normalize_neg|].
    eapply same_value_trans; [exact V|]. apply normalize_value, precision_bound, C.
Qed.
Print Assumptions C60_numbers.
Example C60_numbers_ex : label_text false ex_repr false plain_leaf (HDecimal (BFin (mkDec false 1 20))) = Ok (lit "1E+20")
  /\ query_text false ex_repr plain_leaf (HInt (-5)) = Ok (lit "-5").
Proof. split; vm_compute; reflexivity. Qed.

(** In query parameters strings and booleans are plain, times are in the format of the
    member, or else RFC 3339, and name the instant; blobs are refused, not dropped. *)
Theorem C60_query pads repr tf nearest lf v : floats_ok repr tf nearest ->
  match v with
  | HBool b => query_text pads repr lf v = Ok (lit (if b then "true" else "false"))
  | HText s => query_text pads repr lf v = Ok s
  | HBlob _ => exists e, query_text pads repr lf v = Err e
  | HTime t =>
    forall f, f = match lf_ts lf with Some f => f | None => Time_Model.DATE_TIME end -> time_carried pads f t ->
      exists s u, query_text pads repr lf v = Ok s /\ deserialize tf f (SText s) = Ok u
        /\ offset u = Some 0%Z /\ instant_of u = instant_of t
  | _ => True
  end.
Proof.
  intros H. destruct v as [b|z|f|d|s|t|bs]; try exact I; cbn [query_text].
  - destruct b; reflexivity.
  - reflexivity.
  - intros f Ef C. unfold time_text. rewrite <- Ef. destruct (time_back pads repr tf nearest _ t H C) as (v & u & S & D & Ru & Ou & It).
    rewrite S. cbn [bind]. eexists _, _. split; [reflexivity|]. split; [exact D|]. exact (conj Ou It).
  - eexists. reflexivity.
Qed.
Print Assumptions C60_query.
Example C60_query_ex : query_text false ex_repr plain_leaf (HTime (mkDt 2024 3 1 0 30 0 500000 (Some 0%Z))) = Ok (lit "2024-03-01T00:30:00.500000Z")
  /\ query_text false ex_repr plain_leaf (HBool true) = Ok (lit "true").
Proof. split; vm_compute; reflexivity. Qed.

(** A decimal of 29 digits is rounded to 28. *)
Theorem C60_decimal_refuted : exists d t d', header_text false ex_repr plain_leaf (HDecimal (BFin d)) = Ok t
  /\ read_header ex_tf Json_Props.ex_float KDecimal plain_leaf t = Ok (HDecimal (BFin d')) /\ ~ same_number d d'.
Proof.
  exists (mkDec false 10000000000000000000000000001 0), (lit "1E+28"), (mkDec false 1 28).
  split; [vm_compute; reflexivity|]. split; [vm_compute; reflexivity|]. intros [_ V]. vm_compute in V. discriminate.
Qed.
Print Assumptions C60_decimal_refuted.
(** There is no way to write or read a blob. *)
Theorem C60_blob_refuted pads repr tf nearest lf bs t :
  header_text pads repr lf (HBlob bs) = Err SmithyErr /\ read_header tf nearest KBlob lf t = Err SmithyErr.
Proof. split; reflexivity. Qed.
Print Assumptions C60_blob_refuted.
(** The fraction of a second is lost where no format is given. *)
Theorem C60_fraction_refuted : exists t s u,
  header_text false ex_repr plain_leaf (HTime t) = Ok s /\ read_header ex_tf Json_Props.ex_float KTime plain_leaf s = Ok (HTime u)
  /\ real t /\ instant_of u <> instant_of t.
Proof.
  exists (mkDt 2024 3 1 0 30 0 500000 (Some 0%Z)), (lit "Fri, 01 Mar 2024 00:30:00 GMT"), (mkDt 2024 3 1 0 30 0 0 (Some 0%Z)).
  split; [vm_compute; reflexivity|]. split; [vm_compute; reflexivity|]. split; [unfold real, real_date, real_time; cbn; lia|].
  rewrite <- !utc_us_is by (unfold real, real_date, real_time; cbn; lia). vm_compute. discriminate.
Qed.
Print Assumptions C60_fraction_refuted.
