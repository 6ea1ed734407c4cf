(** Encodings of text on the wire, from the standards: UTF-8 (RFC 3629),
    percent encoding (RFC 3986) and hexadecimal digits (RFC 4648, section 8).
    Nothing here refers to the code. *)
From Verif Require Import Base.
Local Open Scope N_scope.

(** ** UTF-8, RFC 3629 section 3 *)

(** The octets of one character: the free bits of the table hold its number, the
    shortest form is used, and surrogates have none. *)
Inductive Utf8_char : N -> bytes -> Prop :=
| U_one c : c < 0x80 -> Utf8_char c [c]
| U_two c a b : 0x80 <= c < 0x800 -> a < 32 -> b < 64 -> c = 64 * a + b -> Utf8_char c [0xC0 + a; 0x80 + b]
| U_three c a b d : 0x800 <= c < 0x10000 -> ~ 0xD800 <= c <= 0xDFFF ->
    a < 16 -> b < 64 -> d < 64 -> c = 4096 * a + 64 * b + d -> Utf8_char c [0xE0 + a; 0x80 + b; 0x80 + d]
| U_four c a b d e : 0x10000 <= c <= 0x10FFFF ->
    a < 8 -> b < 64 -> d < 64 -> e < 64 -> c = 262144 * a + 4096 * b + 64 * d + e ->
    Utf8_char c [0xF0 + a; 0x80 + b; 0x80 + d; 0x80 + e].
Inductive Utf8 : text -> bytes -> Prop :=
| U_end : Utf8 [] []
| U_char c o s bs : Utf8_char c o -> Utf8 s bs -> Utf8 (c :: s) (o ++ bs).

(** The characters that have octets. *)
Definition scalar (c : N) : Prop := c <= 0x10FFFF /\ ~ 0xD800 <= c <= 0xDFFF.

(** ** Percent encoding, RFC 3986 sections 2.1 and 2.3 *)

Definition unreserved (c : N) : Prop :=
  65 <= c <= 90 \/ 97 <= c <= 122 \/ 48 <= c <= 57 \/ In c (lit "-._~").
(** The digit with a value, in upper and in lower case. *)
Definition digit_upper (v c : N) : Prop := nth_error (lit "0123456789ABCDEF") (N.to_nat v) = Some c.
Definition digit_lower (v c : N) : Prop := nth_error (lit "0123456789abcdef") (N.to_nat v) = Some c.
(** Octets that are unreserved or kept stand for themselves, the others are a
    percent sign and two digits in upper case. *)
Inductive Percent (kept : list N) : bytes -> text -> Prop :=
| P_end : Percent kept [] []
| P_plain b bs t : unreserved b \/ In b kept -> Percent kept bs t -> Percent kept (b :: bs) (b :: t)
| P_escape h l a b bs t : ~ unreserved (16 * h + l) -> ~ In (16 * h + l) kept -> digit_upper h a -> digit_upper l b ->
    Percent kept bs t -> Percent kept (16 * h + l :: bs) (37 :: a :: b :: t).
Definition Escaped (kept : list N) (s t : text) : Prop := exists bs, Utf8 s bs /\ Percent kept bs t.

(** ** Hexadecimal, in lower case *)
Inductive Hex : bytes -> text -> Prop :=
| H_end : Hex [] []
| H_octet h l a b bs t : digit_lower h a -> digit_lower l b -> Hex bs t -> Hex (16 * h + l :: bs) (a :: b :: t).

(** ** Query strings *)

(** One parameter: its key, or its key and its value around an equals sign. *)
Definition Param (p : text * option text) (t : text) : Prop :=
  match snd p with
  | None => Escaped [] (fst p) t
  | Some v => exists k w, Escaped [] (fst p) k /\ Escaped [] v w /\ t = k ++ lit "=" ++ w
  end.
(** Parameters after what is there already: an ampersand between two, and none
    where nothing is before it. *)
Inductive Joined : text -> list text -> text -> Prop :=
| J_end q : Joined q [] q
| J_first p ps q : Joined p ps q -> Joined [] (p :: ps) q
| J_next b p ps q : b <> [] -> Joined (b ++ lit "&" ++ p) ps q -> Joined b (p :: ps) q.

(** ** Numbers *)

(** The decimal digits of a number, without leading zeros. *)
Inductive Decimal : N -> text -> Prop :=
| D_digit d : d < 10 -> Decimal d [48 + d]
| D_more n d t : 0 < n -> d < 10 -> Decimal n t -> Decimal (10 * n + d) (t ++ [48 + d]).
