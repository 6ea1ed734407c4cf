(** Model of Python's [sorted] and of the order of [str] and of tuples of [str],
    and of decimal numbers as written by [str(int)]. *)
From Verif Require Import Base.
From Coq Require Import DecimalN.
Local Open Scope N_scope.

(** [a <= b] for [str]: code point by code point, a prefix first. *)
Fixpoint text_leb (a b : text) : bool :=
  match a, b with
  | [], _ => true
  | _ :: _, [] => false
  | x :: a', y :: b' => if x =? y then text_leb a' b' else x <? y
  end.
(** [p <= q] for pairs of [str]. *)
Definition pair_leb (p q : text * text) : bool :=
  if text_eqb (fst p) (fst q) then text_leb (snd p) (snd q) else text_leb (fst p) (fst q).

(** [sorted(l)], a stable sort. *)
Section Sort.
  Context {A : Type}.
  Variable leb : A -> A -> bool.
  Fixpoint insert (x : A) (l : list A) : list A :=
    match l with
    | [] => [x]
    | y :: r => if leb x y then x :: l else y :: insert x r
    end.
  Fixpoint sorted (l : list A) : list A :=
    match l with
    | [] => []
    | x :: r => insert x (sorted r)
    end.
End Sort.

(** [str(n)] for a natural number and for an integer. *)
Fixpoint uint_text (d : Decimal.uint) : text :=
  match d with
  | Decimal.Nil => []
  | Decimal.D0 d => 48 :: uint_text d
  | Decimal.D1 d => 49 :: uint_text d
  | Decimal.D2 d => 50 :: uint_text d
  | Decimal.D3 d => 51 :: uint_text d
  | Decimal.D4 d => 52 :: uint_text d
  | Decimal.D5 d => 53 :: uint_text d
  | Decimal.D6 d => 54 :: uint_text d
  | Decimal.D7 d => 55 :: uint_text d
  | Decimal.D8 d => 56 :: uint_text d
  | Decimal.D9 d => 57 :: uint_text d
  end.
Definition dec (n : N) : text := uint_text (N.to_uint n).
Definition dec_Z (z : Z) : text :=
  match z with
  | Z0 => [48]
  | Zpos p => dec (Npos p)
  | Zneg p => 45 :: dec (Npos p)
  end.

(** [int(s)] for a text of ASCII digits (most significant first); [None] if
    there is another character or nothing. *)
Fixpoint digits_val (acc : N) (s : text) : option N :=
  match s with
  | [] => Some acc
  | c :: r => if (48 <=? c) && (c <=? 57) then digits_val (10 * acc + (c - 48)) r else None
  end.
Definition parse_dec (s : text) : option N :=
  match s with [] => None | _ => digits_val 0 s end.
