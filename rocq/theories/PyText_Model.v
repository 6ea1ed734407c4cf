(** Model of the Python [str] operations that the HTTP, signing and
    configuration code is written with.  A text is a list of code points. *)
From Verif Require Import Base Utf8_Model.
Local Open Scope N_scope.

(** [str.isspace] on one character, equivalently the set stripped by
    [str.strip()] (CPython's [Py_UNICODE_ISSPACE]). *)
Definition is_space (c : N) : bool :=
  ((9 <=? c) && (c <=? 13)) || ((28 <=? c) && (c <=? 32)) || (c =? 133) || (c =? 160)
  || (c =? 5760) || ((8192 <=? c) && (c <=? 8202)) || (c =? 8232) || (c =? 8233)
  || (c =? 8239) || (c =? 8287) || (c =? 12288).

Fixpoint drop_while (p : N -> bool) (s : text) : text :=
  match s with
  | [] => []
  | c :: r => if p c then drop_while p r else s
  end.

(** [s.lstrip()], [s.rstrip()], [s.strip()]; with a predicate for
    [s.lstrip("/")] and the like. *)
Definition lstrip_by (p : N -> bool) (s : text) : text := drop_while p s.
Definition rstrip_by (p : N -> bool) (s : text) : text := rev (drop_while p (rev s)).
Definition strip_by (p : N -> bool) (s : text) : text := rstrip_by p (lstrip_by p s).
Definition strip (s : text) : text := strip_by is_space s.

(** [c in s]. *)
Definition has (c : N) (s : text) : bool := existsb (N.eqb c) s.

(** [s.startswith(p)], [s.endswith(p)]. *)
Fixpoint starts_with (p s : text) : bool :=
  match p, s with
  | [], _ => true
  | x :: p', y :: s' => (x =? y) && starts_with p' s'
  | _ :: _, [] => false
  end.
Definition ends_with (p s : text) : bool := starts_with (rev p) (rev s).

(** [p in s] for texts. *)
Fixpoint has_sub (p s : text) : bool :=
  starts_with p s || match s with [] => false | _ :: r => has_sub p r end.

(** [s.split(c)] for one character [c]: always at least one piece. *)
Fixpoint split_on (c : N) (s : text) : list text :=
  match s with
  | [] => [[]]
  | x :: r =>
    if x =? c then [] :: split_on c r
    else match split_on c r with
         | p :: ps => (x :: p) :: ps
         | [] => [[x]]
         end
  end.

(** [s.partition(c)] / [s.split(c, 1)]: the text before the first [c] and what
    follows it, [None] when [c] does not occur. *)
Fixpoint cut_at (c : N) (s : text) : text * option text :=
  match s with
  | [] => ([], None)
  | x :: r => if x =? c then ([], Some r) else let (a, b) := cut_at c r in (x :: a, b)
  end.

(** [sep.join(parts)]. *)
Fixpoint join (sep : text) (parts : list text) : text :=
  match parts with
  | [] => []
  | [p] => p
  | p :: ps => p ++ sep ++ join sep ps
  end.

(** [s.replace(c, w)] for one character [c]. *)
Definition replace_char (c : N) (w : text) (s : text) : text :=
  flat_map (fun x => if x =? c then w else [x]) s.

(** Truth of a [str | None]: set and not empty. *)
Definition truthy (s : option text) : bool :=
  match s with Some (_ :: _) => true | _ => false end.
(** [a or b] on [str | None]. *)
Definition or_text (a b : option text) : option text := if truthy a then a else b.

(** Percent encoding: [urllib.parse.quote(s, safe)].  The text is encoded as
    UTF-8; bytes of letters, digits, [_.-~] and of the safe characters stay,
    every other byte becomes [%XX] with upper case hex digits. *)
Definition is_unreserved (b : N) : bool :=
  ((65 <=? b) && (b <=? 90)) || ((97 <=? b) && (b <=? 122)) || ((48 <=? b) && (b <=? 57))
  || (b =? 95) || (b =? 46) || (b =? 45) || (b =? 126).
Definition hex_digit (d : N) : N := if d <? 10 then 48 + d else 55 + d.
Definition quote_byte (safe : list N) (b : N) : text :=
  if is_unreserved b || has b safe then [b] else [37; hex_digit (b / 16); hex_digit (b mod 16)].
Definition quote_bytes (safe : list N) (bs : bytes) : text := flat_map (quote_byte safe) bs.
Definition urlquote (safe : list N) (s : text) : result text :=
  do bs <- utf8_encode s; Ok (quote_bytes safe bs).
