(** Values in headers: when two are the same, and which can be carried. *)
From Verif Require Import Base Utf8_Model PySort_Model PyDecimal_Model.
From Verif Require Import HttpVal_Model.
From Verif Require Json_Spec Time_Model Time_Spec Utf8_Proofs.
Local Open Scope N_scope.

(** The same number, signs of zeros included. *)
Definition same_number (a b : decimal) : Prop :=
  d_neg a = d_neg b /\ Json_Spec.same_value (Json_Spec.dec_value a) (Json_Spec.dec_value b).
(** The same value; decimals by value, times by the instant. *)
Inductive same : scalar -> scalar -> Prop :=
| Same_bool b : same (HBool b) (HBool b)
| Same_int z : same (HInt z) (HInt z)
| Same_float f : same (HFloat f) (HFloat f)
| Same_nan : same (HDecimal BNaN) (HDecimal BNaN)
| Same_inf : same (HDecimal BInf) (HDecimal BInf)
| Same_neg_inf : same (HDecimal BNegInf) (HDecimal BNegInf)
| Same_decimal a b : same_number a b -> same (HDecimal (BFin a)) (HDecimal (BFin b))
| Same_text s : same (HText s) (HText s)
| Same_time t u : Time_Model.offset u = Some 0%Z -> Time_Spec.instant_of u = Time_Spec.instant_of t -> same (HTime t) (HTime u).

(** The method that reads a value. *)
Definition kind_of (v : scalar) : kind :=
  match v with
  | HBool _ => KBool | HInt _ => KInt | HFloat _ => KFloat | HDecimal _ => KDecimal
  | HText _ => KText | HTime _ => KTime | HBlob _ => KBlob
  end.

(** A finite float is the float of its own decimal, which is written without
    needless zeros when it is zero. *)
Definition is_float (nearest : decimal -> float) (d : decimal) : Prop :=
  nearest d = FFin d /\ (d_coeff d = 0 -> d_exp d = 0%Z).
(** The digits of a number. *)
Definition digits_at_most (n : nat) (c : N) : Prop := c < 10 ^ N.of_nat n.
(** The instants a format carries: HTTP dates have whole seconds and, being read with
    two-digit years, start in the year 100. *)
Definition second_from_100 (t : datetime) : Prop :=
  (Time_Spec.instant_of t mod 1000000 = 0 /\ Time_Spec.instant 100 1 1 0 0 0 0 0 <= Time_Spec.instant_of t)%Z.
Definition time_carried (pads_year : bool) (f : format) (t : datetime) : Prop :=
  Time_Spec.real t /\ Time_Spec.in_years (Time_Spec.instant_of t) /\
  match f with
  | Time_Model.HTTP_DATE => second_from_100 t
  | Time_Model.DATE_TIME => pads_year = true \/ (Time_Spec.instant 1000 1 1 0 0 0 0 0 <= Time_Spec.instant_of t)%Z
  | Time_Model.EPOCH_SECONDS =>
    (Time_Spec.instant_of t mod 1000000 = 0 \/ Z.abs (Time_Spec.instant_of t) < 2 ^ 33 * 1000000)%Z
  end.
(** The values a header carries: finite floats, decimals of at most 28 digits, texts that
    have an encoding where they are sent in base64, instants the format can carry. *)
Definition carried (pads_year : bool) (nearest : decimal -> float) (lf : leaf) (v : scalar) : Prop :=
  match v with
  | HBool _ | HInt _ => True
  | HFloat (Json_Model.FFin d) => is_float nearest d
  | HFloat _ => True
  | HDecimal (Json_Model.BFin d) => digits_at_most 28 (d_coeff d)
  | HDecimal _ => True
  | HText s => lf_media lf = true -> Utf8_Proofs.valid_text s = true
  | HTime t => time_carried pads_year (match lf_ts lf with Some f => f | None => Time_Model.HTTP_DATE end) t
  | HBlob _ => False
  end.

(** What is assumed of the float functions of Python: [float] of a text depends on the
    number only; [float(repr(x))] is [x] (asked for fractions of microseconds within 2^33
    seconds, which are different floats); [float] of the digits of a whole number below
    2^53 is that number. *)
Record floats_ok (repr : Time_Model.float -> text) (time_float : text -> option Time_Model.float)
    (nearest : decimal -> float) : Prop := mkFloatsOk {
  by_number : forall a b, same_number a b -> nearest a = nearest b;
  repr_back : forall p, (Z.abs p < 2 ^ 33 * 1000000)%Z ->
    time_float (repr (Time_Model.ratio p 1000000)) = Some (Time_Model.ratio p 1000000);
  whole_back : forall z, (Z.abs z < 2 ^ 53)%Z ->
    exists x, time_float (dec_Z z) = Some x /\ Time_Model.trunc x = z /\ Time_Model.mant (Time_Model.frac x) = 0%Z
}.
