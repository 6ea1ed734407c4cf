(** What base64 is (RFC 4648, section 4), and which texts Python takes for it. *)
From Verif Require Import Base.
Local Open Scope N_scope.

(** The last [w] binary digits of a number, the first one being the most significant. *)
Fixpoint bits (w : nat) (x : N) : list bool :=
  match w with O => [] | S w => bits w (x / 2) ++ [N.odd x] end.
(** The digits of some numbers of [w] digits each, one after the other. *)
Definition digits (w : nat) (l : list N) : list bool := List.concat (map (bits w) l).

(** The characters of 0 to 63. *)
Definition alphabet : text := lit "ABCDEFGHIJKLMNOPQRSTUVWXYZabcdefghijklmnopqrstuvwxyz0123456789+/".
Definition letter (c v : N) : Prop := nth_error alphabet (N.to_nat v) = Some c.

(** The digits of the bytes, filled up with zeros to numbers of six digits; the
    characters of these numbers; and equals signs until the length is a multiple of
    four. *)
Definition base64 (bs : bytes) (t : text) : Prop :=
  all_bytes bs = true /\ exists vs cs zeros pads,
    digits 6 vs = digits 8 bs ++ repeat false zeros /\ (zeros < 6)%nat /\
    Forall2 letter cs vs /\
    t = cs ++ repeat 61 pads /\ (pads < 4)%nat /\ exists q, List.length t = (4 * q)%nat.

(** ** What is read *)

(** The numbers whose characters are in a text, in order; everything else is left out. *)
Inductive values : text -> list N -> Prop :=
| V_nil : values [] []
| V_letter c v s vs : letter c v -> values s vs -> values (c :: s) (v :: vs)
| V_other c s vs : ~ In c alphabet -> values s vs -> values (c :: s) vs.
(** An equals sign that follows [u] ends the data: three characters of the last
    group of four are there, or two and another equals sign after them. *)
Definition ends (u : text) : Prop :=
  exists vs, values u vs /\
    ((exists q, List.length vs = (4 * q + 3)%nat) \/
     (exists q, List.length vs = (4 * q + 2)%nat) /\ exists u1 u2, u = u1 ++ 61 :: u2 /\ values u2 []).
Definition no_end (u : text) : Prop := forall u1 u2, u = u1 ++ 61 :: u2 -> ~ ends u1.
(** The bytes of numbers of six digits; fewer than six digits are left over. *)
Definition bytes_of (vs : list N) (bs : bytes) : Prop :=
  all_bytes bs = true /\ exists rest, digits 6 vs = digits 8 bs ++ rest /\ (List.length rest < 6)%nat.
(** The characters are ASCII, and either an equals sign ends the data, or the whole
    text has a multiple of four characters of the alphabet. *)
Definition base64_read (s : text) (bs : bytes) : Prop :=
  (forall c, In c s -> c < 128) /\
  exists vs, bytes_of vs bs /\
    ((exists u v, s = u ++ 61 :: v /\ ends u /\ no_end u /\ values u vs) \/
     (no_end s /\ values s vs /\ exists q, List.length vs = (4 * q)%nat)).
