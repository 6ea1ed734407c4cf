(** Values as texts in headers, query parameters and path labels:
    packages/smithy-http/src/smithy_http/serializers.py and deserializers.py,
    packages/smithy-core/src/smithy_core/utils.py. *)
From Verif Require Import Base Utf8_Model PyText_Model PySort_Model PyDecimal_Model Base64_Model.
From Verif Require Json_Model Time_Model.
Local Open Scope N_scope.

Notation float := Json_Model.float.
Notation bigdec := Json_Model.bigdec.
Notation FNaN := Json_Model.FNaN.
Notation FInf := Json_Model.FInf.
Notation FNegInf := Json_Model.FNegInf.
Notation FFin := Json_Model.FFin.
Notation BNaN := Json_Model.BNaN.
Notation BInf := Json_Model.BInf.
Notation BNegInf := Json_Model.BNegInf.
Notation BFin := Json_Model.BFin.
Notation datetime := Time_Model.datetime.
Notation format := Time_Model.format.

(** A value a [write_...] method is called with. *)
Inductive scalar :=
| HBool (b : bool) | HInt (z : Z) | HFloat (f : float) | HDecimal (d : bigdec)
| HText (s : text) | HTime (t : datetime) | HBlob (bs : bytes).
(** Which [read_...] method is called. *)
Inductive kind := KBool | KInt | KFloat | KDecimal | KText | KTime | KBlob.
(** What the methods look at in the schema: is there a mediaType, and which
    timestampFormat. *)
Record leaf := mkLeaf { lf_media : bool; lf_ts : option format }.

(** ** utils.py *)

(** lines 163-183, [serialize_float], for a float: [isnumeric] is never true of
    the text of a float *)
Definition is_digit (c : N) : bool := (48 <=? c) && (c <=? 57).
Definition isnumeric (s : text) : bool := match s with [] => false | _ => forallb is_digit s end.
Definition add_point (s : text) : text := if isnumeric s then s ++ lit ".0" else s.
Definition serialize_float (f : float) : text :=
  match f with
  | FNaN => lit "NaN"
  | FInf => lit "Infinity"
  | FNegInf => lit "-Infinity"
  | FFin d => add_point (Json_Model.float_text d)
  end.
(** the same lines, for a [Decimal] *)
Definition serialize_decimal (d : bigdec) : text :=
  match d with
  | BNaN => lit "NaN"
  | BInf => lit "Infinity"
  | BNegInf => lit "-Infinity"
  | BFin d => add_point (decimal_text (normalize Json_Model.precision d))
  end.

(** lines 111-124 *)
Definition strict_parse_bool (s : text) : result bool :=
  if text_eqb s (lit "true") then Ok true
  else if text_eqb s (lit "false") then Ok false
  else Err ExpectationNotMet.

(** Digits at the front, and the rest. *)
Fixpoint take_digits (s : text) : text * text :=
  match s with
  | c :: r => if is_digit c then let (d, t) := take_digits r in (c :: d, t) else ([], s)
  | [] => ([], [])
  end.
Definition val (ds : text) : N := match digits_val 0 ds with Some v => v | None => 0 end.
(** A sign at the front. *)
Definition take_sign (s : text) : bool * text :=
  match s with
  | c :: r => if c =? 45 then (true, r) else if c =? 43 then (false, r) else (false, s)
  | [] => (false, s)
  end.

(** An exponent that takes up the text: [(?:[eE][+-]?\d+)?]. *)
Definition parse_exp (s : text) : option Z :=
  match s with
  | [] => Some 0%Z
  | c :: r =>
    if (c =? 101) || (c =? 69) then
      let '(neg, r) := take_sign r in
      match take_digits r with
      | ((_ :: _) as ds, []) => Some (if (neg : bool) then (- Z.of_N (val ds))%Z else Z.of_N (val ds))
      | _ => None
      end
    else None
  end.
(** The sign, digits and exponent of a number; [strict] asks for the form of
    [_FLOAT_REGEX] (lines 128-145): no leading zero, digits on both sides of a point.
    [\d] also matches the decimal digits of other scripts, which are not modelled. *)
Definition parse_number (strict : bool) (neg : bool) (s : text) : option decimal :=
  let '(i, s1) := take_digits s in
  let '(f, s2, point) := match s1 with
                  | c :: r => if c =? 46 then let (f, t) := take_digits r in (f, t, true) else ([], s1, false)
                  | [] => ([], s1, false)
                  end in
  match parse_exp s2 with
  | None => None
  | Some e =>
    let ok := if strict then
                match i with
                | [] => false
                | [_] => true
                | c :: _ => negb (c =? 48)
                end && (negb point || negb (text_eqb f []))
              else negb (text_eqb (i ++ f) []) in
    if ok then Some (mkDec neg (val (i ++ f)) (e - Z.of_nat (List.length f))) else None
  end.
Definition signed_number (strict : bool) (s : text) : option decimal :=
  match s with
  | c :: r => if c =? 45 then parse_number strict true r else parse_number strict false s
  | [] => parse_number strict false s
  end.

(** [int(text)]: white space around it is dropped, single underscores may stand
    between digits.  Digits of other scripts are not modelled. *)
Fixpoint int_digits (acc : N) (us : bool) (s : text) : option N :=
  match s with
  | [] => if us then None else Some acc
  | c :: r =>
    if is_digit c then int_digits (acc * 10 + (c - 48)) false r
    else if (c =? 95) && negb us then int_digits acc true r
    else None
  end.
Definition py_int (s : text) : result Z :=
  let s := strip s in
  let '(neg, s) := take_sign s in
  match s with
  | [] => Err ValueError
  | _ => match int_digits 0 true s with
         | Some v => Ok (if (neg : bool) then (- Z.of_N v)%Z else Z.of_N v)
         | None => Err ValueError
         end
  end.

(** [Decimal(text)]: white space around it and all underscores are dropped; the names
    of the special numbers are read in any case.  Payloads of NaNs and signalling
    NaNs are not modelled; building one from text is exact, and the limits of the
    exponent are not modelled.  The exception is decimal.InvalidOperation. *)
Definition lower_ascii (c : N) : N := if (65 <=? c) && (c <=? 90) then c + 32 else c.
Definition InvalidOperation : exn := OtherErr 60.
Definition py_decimal (s : text) : result bigdec :=
  let s := filter (fun c => negb (c =? 95)) (strip s) in
  let '(neg, s) := take_sign s in
  let l := map lower_ascii s in
  if text_eqb l (lit "inf") || text_eqb l (lit "infinity") then Ok (if (neg : bool) then BNegInf else BInf)
  else if text_eqb l (lit "nan") then Ok BNaN
  else match parse_number false neg s with Some d => Ok (BFin d) | None => Err InvalidOperation end.

Section Values.
  (** Does the platform pad years to four digits; the text [repr] makes of a float
      given by mantissa and exponent; [float(text)] as such a float; the float nearest
      to a decimal. *)
  Variable pads_year : bool.
  Variable repr : Time_Model.float -> text.
  Variable time_float : text -> option Time_Model.float.
  Variable nearest : decimal -> float.

  (** utils.py lines 148-160 *)
  Definition strict_parse_float (s : text) : result float :=
    if text_eqb s (lit "Infinity") then Ok FInf
    else if text_eqb s (lit "-Infinity") then Ok FNegInf
    else if text_eqb s (lit "NaN") then Ok FNaN
    else match signed_number true s with
         | Some d => Ok (nearest d)
         | None => Err ExpectationNotMet
         end.

  (** [str(format.serialize(value))] *)
  Definition stamp_text (v : Time_Model.stamp) : text :=
    match v with
    | Time_Model.SText t => t
    | Time_Model.SInt z => dec_Z z
    | Time_Model.SFloat x => repr x
    end.
  Definition time_text (default : format) (lf : leaf) (t : datetime) : result text :=
    do v <- Time_Model.serialize pads_year (match lf_ts lf with Some f => f | None => default end) t;
    Ok (stamp_text v).

  (** HTTPHeaderSerializer, serializers.py lines 479-526; it has no [write_blob], so
      that the method of SpecificShapeSerializer raises *)
  Definition header_text (lf : leaf) (v : scalar) : result text :=
    match v with
    | HBool b => Ok (if b then lit "true" else lit "false")
    | HInt z => Ok (dec_Z z)
    | HFloat f => Ok (serialize_float f)
    | HDecimal d => Ok (serialize_decimal d)
    | HText s =>
      if lf_media lf then do bs <- utf8_encode s; Ok (b64encode bs) else Ok s
    | HTime t => time_text Time_Model.HTTP_DATE lf t
    | HBlob _ => Err SmithyErr
    end.
  (** HTTPQuerySerializer, lines 590-630: no base64, another default format *)
  Definition query_text (lf : leaf) (v : scalar) : result text :=
    match v with
    | HBool b => Ok (if b then lit "true" else lit "false")
    | HInt z => Ok (dec_Z z)
    | HFloat f => Ok (serialize_float f)
    | HDecimal d => Ok (serialize_decimal d)
    | HText s => Ok s
    | HTime t => time_text Time_Model.DATE_TIME lf t
    | HBlob _ => Err SmithyErr
    end.
  (** HTTPPathSerializer, lines 654-695: strings and timestamps are quoted *)
  Definition label_text (greedy : bool) (lf : leaf) (v : scalar) : result text :=
    match v with
    | HBool b => Ok (if b then lit "true" else lit "false")
    | HInt z => Ok (dec_Z z)
    | HFloat f => Ok (serialize_float f)
    | HDecimal d => Ok (serialize_decimal d)
    | HText s => if greedy then urlquote [47] s else urlquote [] s
    | HTime t => do s <- time_text Time_Model.DATE_TIME lf t; urlquote [47] s
    | HBlob _ => Err SmithyErr
    end.

  (** HTTPHeaderDeserializer, deserializers.py lines 172-208; there is no
      [read_blob] *)
  Definition read_header (k : kind) (lf : leaf) (s : text) : result scalar :=
    match k with
    | KBool => do b <- strict_parse_bool s; Ok (HBool b)
    | KInt => do z <- py_int s; Ok (HInt z)
    | KFloat => do f <- strict_parse_float s; Ok (HFloat f)
    | KDecimal => do d <- py_decimal s; Ok (HDecimal d)
    | KText =>
      if lf_media lf then do bs <- b64decode s; do t <- utf8_decode bs; Ok (HText t) else Ok (HText s)
    | KTime =>
      do t <- Time_Model.deserialize time_float (match lf_ts lf with Some f => f | None => Time_Model.HTTP_DATE end)
                (Time_Model.SText s);
      do t <- Time_Model.ensure_utc t; Ok (HTime t)
    | KBlob => Err SmithyErr
    end.
End Values.
