(** The Gregorian calendar, and the instants of RFC 3339 and of epoch seconds, said
    without the code's arithmetic: days are counted one year and one month after the
    other. *)
From Verif Require Import Base Time_Model.
Local Open Scope Z_scope.

Definition leap (y : Z) : Prop := (4 | y) /\ (~ (100 | y) \/ (400 | y)).
Definition dividesb (k y : Z) : bool := y mod k =? 0.
Definition leapb (y : Z) : bool := dividesb 4 y && (negb (dividesb 100 y) || dividesb 400 y).
Definition year_len (y : Z) : Z := if leapb y then 366 else 365.
Definition month_len (y m : Z) : Z :=
  match m with
  | 1 | 3 | 5 | 7 | 8 | 10 | 12 => 31
  | 4 | 6 | 9 | 11 => 30
  | 2 => if leapb y then 29 else 28
  | _ => 0
  end.
(** The days of the first [n] years, of the first [n] months of a year. *)
Fixpoint years (n : nat) : Z := match n with O => 0 | S k => years k + year_len (Z.of_nat n) end.
Fixpoint months (y : Z) (n : nat) : Z := match n with O => 0 | S k => months y k + month_len y (Z.of_nat n) end.
(** 1 January of the year 1 is day 1. *)
Definition day_number (y m d : Z) : Z := years (Z.to_nat (y - 1)) + months y (Z.to_nat (m - 1)) + d.
Definition real_date (y m d : Z) : Prop := 1 <= y <= 9999 /\ 1 <= m <= 12 /\ 1 <= d <= month_len y m.
Definition real_time (h mi s us : Z) : Prop := 0 <= h <= 23 /\ 0 <= mi <= 59 /\ 0 <= s <= 59 /\ 0 <= us <= 999999.

(** Microseconds since 1970-01-01T00:00:00Z of a reading of a clock that is [off]
    microseconds ahead of UTC. *)
Definition instant (y mo d h mi s us off : Z) : Z :=
  ((((day_number y mo d - day_number 1970 1 1) * 24 + h) * 60 + mi) * 60 + s) * 1000000 + us - off.

(** A [datetime] with real fields, its offset (naive ones are in UTC), its instant. *)
Definition real (d : datetime) : Prop :=
  real_date (year d) (month d) (day d) /\ real_time (hour d) (minute d) (second d) (micro d).
Definition off_of (d : datetime) : Z := match offset d with Some o => o | None => 0 end.
Definition instant_of (d : datetime) : Z :=
  instant (year d) (month d) (day d) (hour d) (minute d) (second d) (micro d) (off_of d).
(** The instants of the years 1 to 9999 in UTC. *)
Definition in_years (n : Z) : Prop := instant 1 1 1 0 0 0 0 0 <= n <= instant 9999 12 31 23 59 59 999999 0.

(** [digits n v t]: [t] is the [n] decimal digits of [v]. *)
Inductive digits : nat -> Z -> text -> Prop :=
| digits_nil : digits 0 0 []
| digits_snoc n v t k : digits n v t -> 0 <= k <= 9 -> digits (S n) (v * 10 + k) (t ++ [(48 + Z.to_N k)%N]).

(** A date-time of RFC 3339 in UTC, with no fraction or six digits of it. *)
Definition rfc3339_text (t : text) (y mo d h mi s us : Z) : Prop :=
  exists ty tmo td th tmi ts tf,
    digits 4 y ty /\ digits 2 mo tmo /\ digits 2 d td /\ digits 2 h th /\ digits 2 mi tmi /\ digits 2 s ts /\
    (us = 0 /\ tf = [] \/ exists tu, digits 6 us tu /\ tf = lit "." ++ tu) /\
    t = ty ++ lit "-" ++ tmo ++ lit "-" ++ td ++ lit "T" ++ th ++ lit ":" ++ tmi ++ lit ":" ++ ts ++ tf ++ lit "Z".

(** An IMF-fixdate of RFC 9110 5.6.7.  1 January of the year 1 was a Monday. *)
Definition day_name (n : Z) : text :=
  nth (Z.to_nat ((n - 1) mod 7)) (map lit ["Mon"; "Tue"; "Wed"; "Thu"; "Fri"; "Sat"; "Sun"]%string) [].
Definition month_name (m : Z) : text :=
  nth (Z.to_nat (m - 1)) (map lit ["Jan"; "Feb"; "Mar"; "Apr"; "May"; "Jun"; "Jul"; "Aug"; "Sep"; "Oct"; "Nov"; "Dec"]%string) [].
Definition imf_fixdate (t : text) (y mo d h mi s : Z) : Prop :=
  exists ty td th tmi ts,
    digits 4 y ty /\ digits 2 d td /\ digits 2 h th /\ digits 2 mi tmi /\ digits 2 s ts /\
    t = day_name (day_number y mo d) ++ lit ", " ++ td ++ lit " " ++ month_name mo ++ lit " " ++ ty ++ lit " "
        ++ th ++ lit ":" ++ tmi ++ lit ":" ++ ts ++ lit " GMT".

(** Fields of a text: how many delimiters it has, and one more. *)
Definition fields (c : N) (s : text) : nat := S (count_occ N.eq_dec s c).
(** Pieces with a delimiter between each two. *)
Fixpoint glue (c : N) (l : list text) : text :=
  match l with
  | [] => []
  | [p] => p
  | p :: r => p ++ c :: glue c r
  end.
