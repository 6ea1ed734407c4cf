(** Timestamps and splitting: packages/smithy-core/src/smithy_core/utils.py lines
    12-67, 99-108, 202-227 and types.py lines 127-182 (TimestampFormat), with the
    parts of CPython 3.12's [datetime] and [email.utils] that they call. *)
From Verif Require Import Base PyText_Model PySort_Model.
Local Open Scope Z_scope.

(** ** datetime *)

(** A [datetime]: the fields of the local reading and, if it is aware, the offset
    of its zone from UTC in microseconds. *)
Record datetime := mkDt {
  year : Z; month : Z; day : Z; hour : Z; minute : Z; second : Z; micro : Z; offset : option Z }.

(** Lib/_pydatetime.py [_is_leap], [_days_in_month], [_days_before_month]. *)
Definition is_leap (y : Z) : bool := (y mod 4 =? 0) && (negb (y mod 100 =? 0) || (y mod 400 =? 0)).
Definition days_in_month (y m : Z) : Z :=
  if m =? 2 then (if is_leap y then 29 else 28)
  else if (m =? 4) || (m =? 6) || (m =? 9) || (m =? 11) then 30 else 31.
Definition days_before (m : Z) : Z :=
  nth (Z.to_nat m) [0; 0; 31; 59; 90; 120; 151; 181; 212; 243; 273; 304; 334] 0.
Definition days_before_month (y m : Z) : Z := days_before m + (if (2 <? m) && is_leap y then 1 else 0).
(** [_days_before_year], [_ymd2ord] *)
Definition days_before_year (y : Z) : Z := let k := y - 1 in k * 365 + k / 4 - k / 100 + k / 400.
Definition ymd2ord (y m d : Z) : Z := days_before_year y + days_before_month y m + d.
(** [_ord2ymd] *)
Definition ord2ymd (ord : Z) : Z * Z * Z :=
  let n := ord - 1 in
  let n400 := n / 146097 in
  let n := n mod 146097 in
  let n100 := n / 36524 in
  let n := n mod 36524 in
  let n4 := n / 1461 in
  let n := n mod 1461 in
  let n1 := n / 365 in
  let n := n mod 365 in
  let y := n400 * 400 + 1 + n100 * 100 + n4 * 4 + n1 in
  if (n1 =? 4) || (n100 =? 4) then (y - 1, 12, 31)
  else
    let leap := (n1 =? 3) && (negb (n4 =? 24) || (n100 =? 3)) in
    let m := (n + 50) / 32 in
    let preceding := days_before m + (if (2 <? m) && leap then 1 else 0) in
    if n <? preceding
    then
      let m := m - 1 in
      let preceding := preceding - (if (m =? 2) && leap then 29 else nth (Z.to_nat m) [0; 31; 28; 31; 30; 31; 30; 31; 31; 30; 31; 30; 31] 0) in
      (y, m, n - preceding + 1)
    else (y, m, n - preceding + 1).

(** [_check_date_fields], [_check_time_fields] *)
Definition valid_fields (y mo d h mi s us : Z) : bool :=
  (1 <=? y) && (y <=? 9999) && (1 <=? mo) && (mo <=? 12) && (1 <=? d) && (d <=? days_in_month y mo)
  && (0 <=? h) && (h <=? 23) && (0 <=? mi) && (mi <=? 59) && (0 <=? s) && (s <=? 59)
  && (0 <=? us) && (us <=? 999999).
(** the constructor [datetime(...)]; an offset has to be less than a day *)
Definition DAY : Z := 86400000000.
Definition make (y mo d h mi s us : Z) (off : option Z) : result datetime :=
  if valid_fields y mo d h mi s us && match off with Some o => (- DAY <? o) && (o <? DAY) | None => true end
  then Ok (mkDt y mo d h mi s us off) else Err ValueError.

(** Microseconds from 0001-01-01T00:00:00 minus one day, as [__sub__] and
    [__add__] count them, and back; out of range is an OverflowError. *)
Definition local_us (d : datetime) : Z :=
  ((ymd2ord (year d) (month d) (day d) * 86400 + hour d * 3600 + minute d * 60 + second d) * 1000000) + micro d.
Definition MAXORD : Z := 3652059.
Definition of_us (off : option Z) (n : Z) : result datetime :=
  let us := n mod 1000000 in
  let s := n / 1000000 in
  let ord := s / 86400 in
  let r := s mod 86400 in
  if (0 <? ord) && (ord <=? MAXORD) then
    let '(y, m, d) := ord2ymd ord in
    Ok (mkDt y m d (r / 3600) (r mod 3600 / 60) (r mod 60) us off)
  else Err OverflowError.

(** utils.py lines 17-29; [astimezone(UTC)] gives an aware UTC value itself and
    otherwise subtracts the offset *)
Definition ensure_utc (d : datetime) : result datetime :=
  match offset d with
  | None => Ok (mkDt (year d) (month d) (day d) (hour d) (minute d) (second d) (micro d) (Some 0))
  | Some o => if o =? 0 then Ok d else of_us (Some 0) (local_us d - o)
  end.

(** ** Writing *)
Definition digit (z : Z) : N := (48 + Z.to_N z)%N.
Definition pad2 (z : Z) : text := [digit (z / 10); digit (z mod 10)].
Definition pad4 (z : Z) : text := pad2 (z / 100) ++ pad2 (z mod 100).
Definition pad6 (z : Z) : text := pad2 (z / 10000) ++ pad4 (z mod 10000).

Section Platform.
  (** Whether the platform's [strftime] pads the year to four digits: the C library
      of Linux does not. *)
  Variable pads_year : bool.
  Definition year_text (y : Z) : text := if pads_year then pad4 y else dec_Z y.

  (** lines 202-213 and the formats of lines 12-14 *)
  Definition serialize_rfc3339 (d : datetime) : text :=
    year_text (year d) ++ 45%N :: pad2 (month d) ++ 45%N :: pad2 (day d) ++ 84%N :: pad2 (hour d)
    ++ 58%N :: pad2 (minute d) ++ 58%N :: pad2 (second d)
    ++ (if micro d =? 0 then [] else 46%N :: pad6 (micro d)) ++ [90%N].
End Platform.

(** A finite [float]: [m * 2^e]. *)
Record float := mkFloat { mant : Z; expo : Z }.
(** Integer division rounding to nearest, ties to even; the divisor is positive. *)
Definition div_even (p q : Z) : Z :=
  let k := p / q in
  let r := p mod q in
  if 2 * r <? q then k
  else if q <? 2 * r then k + 1
  else if Z.even k then k else k + 1.
(** The ratio [p / q] as the nearest [float], ties to even; [q] is positive.
    Subnormal numbers and overflow do not occur here. *)
Definition scaled (p q e : Z) : Z * Z := if e <? 0 then (p * 2 ^ (- e), q) else (p, q * 2 ^ e).
Definition ratio (p q : Z) : float :=
  if p =? 0 then mkFloat 0 0
  else
    let e := Z.log2 (Z.abs p) - Z.log2 q - 53 in
    (* the quotient at this scale is between 2^52 and 2^54 *)
    let '(a, b) := scaled p q e in
    let e := if 2 ^ 53 * b <=? Z.abs a then e + 1 else e in
    let '(a, b) := scaled p q e in
    mkFloat (div_even a b) e.
(** [int(x)]: towards zero; also the whole part given by [modf]. *)
Definition trunc (x : float) : Z := if expo x <? 0 then Z.quot (mant x) (2 ^ (- expo x)) else mant x * 2 ^ expo x.
(** the fraction given by [modf]: exact *)
Definition frac (x : float) : float := if expo x <? 0 then mkFloat (Z.rem (mant x) (2 ^ (- expo x))) (expo x) else mkFloat 0 0.
(** [x * k] rounded, for a whole [k]. *)
Definition fmul (x : float) (k : Z) : float :=
  if expo x <? 0 then ratio (mant x * k) (2 ^ (- expo x)) else ratio (mant x * k * 2 ^ expo x) 1.
(** [_PyTime_RoundHalfEven] *)
Definition round_even (x : float) : Z := if expo x <? 0 then div_even (mant x) (2 ^ (- expo x)) else mant x * 2 ^ expo x.

(** What a format writes and reads. *)
Inductive stamp := SText (t : text) | SInt (z : Z) | SFloat (x : float).

(** [datetime.timestamp()] of an aware value: the difference from the epoch in
    microseconds divided by a million *)
Definition EPOCH : Z := 62135683200000000.
Definition utc_us (d : datetime) : Z := local_us d - match offset d with Some o => o | None => 0 end.
Definition timestamp (d : datetime) : float := ratio (utc_us d - EPOCH) 1000000.
(** lines 216-227 *)
Definition serialize_epoch_seconds (d : datetime) : stamp :=
  let result := timestamp d in
  if micro d =? 0 then SInt (trunc result) else SFloat result.

(** [datetime.fromtimestamp(value, tz=UTC)]: [_PyTime_ObjectToTimeval] rounding half
    to even, then the calendar; a year out of range is a ValueError *)
Definition from_parts (s us : Z) : result datetime :=
  match of_us (Some 0) (s * 1000000 + us + EPOCH) with
  | Ok d => Ok d
  | Err _ => Err ValueError
  end.
Definition from_float (x : float) : result datetime :=
  let whole := trunc x in
  let f := round_even (fmul (frac x) 1000000) in
  if 1000000 <=? f then from_parts (whole + 1) (f - 1000000)
  else if f <? 0 then from_parts (whole - 1) (f + 1000000)
  else from_parts whole f.
(** lines 54-67; the OverflowError, for values beyond [time_t], leads to another
    OverflowError and is not told apart from the ValueError here *)
Definition epoch_seconds_to_datetime (v : stamp) : result datetime :=
  match v with
  | SInt z => from_parts z 0
  | SFloat x => from_float x
  | SText _ => Err TypeError
  end.

(** ** fromisoformat *)
Definition is_digit (c : N) : bool := ((48 <=? c) && (c <=? 57))%N.
(** [parse_digits]: the value of exactly [n] digits and what follows *)
Fixpoint parse_digits (n : nat) (acc : Z) (s : text) : option (Z * text) :=
  match n with
  | O => Some (acc, s)
  | S m => match s with
           | c :: r => if is_digit c then parse_digits m (acc * 10 + Z.of_N (c - 48)) r else None
           | [] => None
           end
  end.
(** Modules/_datetimemodule.c [parse_hh_mm_ss_ff]: the fields, and whether
    something is left after them; [more] says that something follows [s]. *)
Definition fraction (s : text) (more : bool) : option (Z * bool) :=
  let to_parse := Nat.min (List.length s) 6 in
  match parse_digits to_parse 0 s with
  | None => None
  | Some (v, r) =>
    let v := v * 10 ^ (6 - Z.of_nat to_parse) in
    Some (v, match drop_while is_digit r with [] => more | _ => true end)
  end.
Fixpoint hms (n : nat) (has_sep : option bool) (s : text) (more : bool) : option (list Z * Z * bool) :=
  match n with
  | O => match fraction s more with Some (f, l) => Some ([], f, l) | None => None end
  | S m =>
    match parse_digits 2 0 s with
    | None => None
    | Some (v, []) => Some ([v], 0, more)
    | Some (v, [c]) => Some ([v], 0, true)
    | Some (v, c :: r) =>
      let sep := match has_sep with Some b => b | None => (c =? 58)%N end in
      if sep && (c =? 58)%N then
        match hms m (Some sep) r more with Some (l, f, extra) => Some (v :: l, f, extra) | None => None end
      else if (c =? 46)%N || (c =? 44)%N then
        match fraction r more with Some (f, extra) => Some ([v], f, extra) | None => None end
      else if negb sep then
        match hms m (Some sep) (c :: r) more with Some (l, f, extra) => Some (v :: l, f, extra) | None => None end
      else None
    end
  end.
Definition third (l : list Z) : Z * Z * Z := (nth 0 l 0, nth 1 l 0, nth 2 l 0).
(** the text up to the first of + - Z and the rest *)
Fixpoint cut_zone (s : text) : text * text :=
  match s with
  | [] => ([], [])
  | c :: r => if (c =? 43)%N || (c =? 45)%N || (c =? 90)%N then ([], s) else let (a, b) := cut_zone r in (c :: a, b)
  end.
(** [parse_isoformat_time]: hour, minute, second, microsecond, offset *)
Definition iso_time (s : text) : option (Z * Z * Z * Z * option Z) :=
  let (clock, zone) := cut_zone s in
  match hms 3 None clock (match zone with [] => false | _ => true end) with
  | None => None
  | Some (l, f, extra) =>
    let '(h, mi, sec) := third l in
    match zone with
    | [] => if extra then None else Some (h, mi, sec, f, None)
    | c :: r =>
      if (c =? 90)%N then match r with [] => Some (h, mi, sec, f, Some 0) | _ => None end
      else
        match hms 3 None r false with
        | Some (l2, f2, false) =>
          let '(zh, zm, zs) := third l2 in
          let o := (zh * 3600 + zm * 60 + zs) * 1000000 + f2 in
          Some (h, mi, sec, f, Some (if (c =? 45)%N then - o else o))
        | _ => None
        end
    end
  end.
(** [datetime.fromisoformat].  The basic and the week forms, which it also takes,
    are not modelled: NotImplementedErr. *)
Definition fromisoformat (s : text) : result datetime :=
  match parse_digits 4 0 s with
  | None => Err ValueError
  | Some (y, r) =>
    match r with
    | 45%N :: r =>
      if match r with 87%N :: _ => true | _ => false end then Err NotImplementedErr
      else
        match parse_digits 2 0 r with
        | Some (m, 45%N :: r) =>
          match parse_digits 2 0 r with
          | Some (d, []) => make y m d 0 0 0 0 None
          | Some (d, _ :: []) => make y m d 0 0 0 0 None
          | Some (d, _ :: t) =>
            match iso_time t with
            | Some (h, mi, sec, f, off) => make y m d h mi sec f off
            | None => Err ValueError
            end
          | None => Err ValueError
          end
        | _ => Err ValueError
        end
    | _ => Err NotImplementedErr
    end
  end.

(** ** HTTP dates *)
Definition DAYS : list text := map lit ["Mon"; "Tue"; "Wed"; "Thu"; "Fri"; "Sat"; "Sun"]%string.
Definition MONTHS : list text :=
  map lit ["Jan"; "Feb"; "Mar"; "Apr"; "May"; "Jun"; "Jul"; "Aug"; "Sep"; "Oct"; "Nov"; "Dec"]%string.
Definition weekday (d : datetime) : Z := (ymd2ord (year d) (month d) (day d) + 6) mod 7.
(** email.utils [format_datetime(dt, usegmt=True)] of a UTC value *)
Definition format_datetime (d : datetime) : text :=
  nth (Z.to_nat (weekday d)) DAYS [] ++ [44%N; 32%N] ++ pad2 (day d) ++ 32%N :: nth (Z.to_nat (month d - 1)) MONTHS []
  ++ 32%N :: pad4 (year d) ++ 32%N :: pad2 (hour d) ++ 58%N :: pad2 (minute d) ++ 58%N :: pad2 (second d)
  ++ 32%N :: lit "GMT".
Definition lower_ascii (c : N) : N := if ((65 <=? c) && (c <=? 90))%N then (c + 32)%N else c.
Fixpoint index_of (i : Z) (x : text) (l : list text) : option Z :=
  match l with
  | [] => None
  | y :: r => if text_eqb (map lower_ascii y) (map lower_ascii x) then Some i else index_of (i + 1) x r
  end.
Definition int_text (s : text) : option Z := option_map Z.of_N (parse_dec s).
(** [parsedate_to_datetime], email/_parseaddr.py [_parsedate_tz]: only the branch
    taken for a day name, five more words separated by spaces and the zone GMT; for
    other texts NotImplementedErr. *)
Definition parsedate_to_datetime (s : text) : result datetime :=
  match split_on 32 s with
  | [dn; dd; mm; yy; tm; tz] =>
    if negb (ends_with [44%N] dn) || negb (text_eqb tz (lit "GMT")) then Err NotImplementedErr
    else
      match index_of 1 mm MONTHS, split_on 58 tm with
      | Some m, [th; tmi; ts] =>
        match int_text dd, int_text yy, int_text th, int_text tmi, int_text ts with
        | Some d, Some y, Some h, Some mi, Some sec =>
          let y := if y <? 100 then (if 68 <? y then y + 1900 else y + 2000) else y in
          make y m d h mi sec 0 (Some 0)
        | _, _, _, _, _ => Err NotImplementedErr
        end
      | _, _ => Err NotImplementedErr
      end
  | _ => Err NotImplementedErr
  end.

(** ** TimestampFormat *)
Inductive format := DATE_TIME | HTTP_DATE | EPOCH_SECONDS.
Section Format.
  Variable pads_year : bool.
  (** [float(text)], [None] for a ValueError; infinities and NaN, which make
      [fromtimestamp] raise, are not told apart from it. *)
  Variable float_of : text -> option float.

  (** types.py lines 147-161 *)
  Definition serialize (f : format) (value : datetime) : result stamp :=
    do value <- ensure_utc value;
    Ok match f with
       | EPOCH_SECONDS => serialize_epoch_seconds value
       | HTTP_DATE => SText (format_datetime value)
       | DATE_TIME => SText (serialize_rfc3339 pads_year value)
       end.
  (** types.py lines 163-182 *)
  Definition deserialize (f : format) (value : stamp) : result datetime :=
    match f with
    | EPOCH_SECONDS =>
      match value with
      | SText t => match float_of t with Some x => epoch_seconds_to_datetime (SFloat x) | None => Err ExpectationNotMet end
      | v => epoch_seconds_to_datetime v
      end
    | HTTP_DATE =>
      match value with
      | SText t => do d <- parsedate_to_datetime t; ensure_utc d
      | _ => Err ExpectationNotMet
      end
    | DATE_TIME =>
      match value with
      | SText t => do d <- fromisoformat t; ensure_utc d
      | _ => Err ExpectationNotMet
      end
    end.
End Format.

(** ** Splitting *)
(** [l[i : i + n] for i in range(0, len(l), n)], with [fuel] at least the length *)
Fixpoint chunks {A} (fuel n : nat) (l : list A) : list (list A) :=
  match fuel, l with
  | O, _ | _, [] => []
  | S k, _ => firstn n l :: chunks k n (skipn n l)
  end.
(** utils.py lines 99-108, for a delimiter of one character: [range] refuses a step
    of zero, and has nothing for a negative one *)
Definition split_every (given : text) (c : N) (n : Z) : result (list text) :=
  let parts := split_on c given in
  if n =? 0 then Err ValueError
  else if n <? 0 then Ok []
  else Ok (map (join [c]) (chunks (List.length parts) (Z.to_nat n) parts)).
