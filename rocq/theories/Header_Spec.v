(** What a header list means, independently of the code: the list syntax of
    RFC 9110 sections 5.6.1 and 5.6.4 as the documentation of [split_header]
    describes it. *)
From Verif Require Import Base PyText_Model.
Local Open Scope N_scope.

(** Optional white space. *)
Definition blank (s : text) : Prop := forall c, In c s -> is_space c = true.

(** A text without white space at its ends. *)
Definition trimmed (s : text) : Prop :=
  (forall c r, s = c :: r -> is_space c = false) /\
  (forall r c, s = r ++ [c] -> is_space c = false).

(** The inside of a quoted string and the text it stands for: a backslash
    takes the next character as it is, a bare double quote cannot occur. *)
Inductive QuotedBody : text -> text -> Prop :=
| QB_end : QuotedBody [] []
| QB_char c raw v : c <> 34 -> c <> 92 -> QuotedBody raw v -> QuotedBody (c :: raw) (c :: v)
| QB_escape c raw v : QuotedBody raw v -> QuotedBody (92 :: c :: raw) (c :: v).

(** One element between commas, and the value it contributes (none if it is
    blank). *)
Inductive Element : text -> list text -> Prop :=
| El_blank s : blank s -> Element s []
| El_quoted w raw v w' : blank w -> blank w' -> QuotedBody raw v ->
    Element (w ++ [34] ++ raw ++ [34] ++ w') [v]
| El_plain w v w' : blank w -> blank w' -> trimmed v -> v <> [] ->
    ~ In 44 v -> (forall r, v <> 34 :: r) ->
    Element (w ++ v ++ w') [v].

(** A header list: elements separated by commas. *)
Inductive HeaderList : text -> list text -> Prop :=
| HL_one e vs : Element e vs -> HeaderList e vs
| HL_more e vs rest ws : Element e vs -> HeaderList rest ws ->
    HeaderList (e ++ [44] ++ rest) (vs ++ ws).

(** The values a list survives with: those that hold a comma or a double quote
    (they are written quoted), and the non-empty ones without outer white
    space. *)
Definition needs_quotes (v : text) : Prop := In 44 v \/ In 34 v.
Definition survives (v : text) : Prop := needs_quotes v \/ (v <> [] /\ trimmed v).

(** The shape of an HTTP date as far as lists are concerned: one comma, not at
    the front, and no outer white space. *)
Definition date_like (v : text) : Prop :=
  exists a b, v = a ++ [44] ++ b /\ a <> [] /\ ~ In 44 a /\ ~ In 44 b /\
              (forall r, a <> 34 :: r) /\ trimmed v.
