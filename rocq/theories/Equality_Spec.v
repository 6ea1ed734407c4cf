(** When two plain values are the same value: scalars by [same], lists
    element by element in their order, maps key by key in any order. *)
From Verif Require Import Base PyDict_Model Doc_Model.

Section Scalars.
  (** Numbers are the same by their numeric value, whole numbers and truth values
      (one and zero) among them; [same_number] says it for the others. *)
  Variable same_number : scalar -> scalar -> Prop.
  Definition whole_number (s : scalar) (z : Z) : Prop :=
    s = SInt z \/ (s = SBool true /\ z = 1%Z) \/ (s = SBool false /\ z = 0%Z).
  Definition fraction (s : scalar) : Prop := (exists f, s = SFloat f) \/ (exists d, s = SDec d).
  Definition some_number (s : scalar) : Prop := fraction s \/ exists z, whole_number s z.
  Inductive equal_scalar : scalar -> scalar -> Prop :=
  | same_whole x y z : whole_number x z -> whole_number y z -> equal_scalar x y
  | same_fraction x y : some_number x -> some_number y -> fraction x \/ fraction y -> same_number x y -> equal_scalar x y
  | same_text t : equal_scalar (SStr t) (SStr t)
  | same_bytes b : equal_scalar (SBytes b) (SBytes b)
  | same_time t : equal_scalar (STime t) (STime t).
End Scalars.

Section Same.
  Variable same : scalar -> scalar -> Prop.
  Inductive alike : plain -> plain -> Prop :=
  | alike_null : alike PNull PNull
  | alike_scalar x y : same x y -> alike (PScalar x) (PScalar y)
  | alike_list l m : Forall2 alike l m -> alike (PList l) (PList m)
  | alike_map l m :
      (forall k, In k (map fst l) <-> In k (map fst m)) ->
      (forall k v w, In (k, v) l -> In (k, w) m -> alike v w) ->
      alike (PMap l) (PMap m).
End Same.

(** Maps have every key once, on every level. *)
Fixpoint proper (p : plain) : Prop :=
  match p with
  | PNull | PScalar _ => True
  | PList l => (fix all (l : list plain) : Prop := match l with [] => True | x :: r => proper x /\ all r end) l
  | PMap l =>
    NoDup (map fst l) /\
    (fix all (l : list (text * plain)) : Prop := match l with [] => True | (_, x) :: r => proper x /\ all r end) l
  end.
