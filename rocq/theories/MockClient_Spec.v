(** What a client for tests should do, from the history of the program alone. *)
From Verif Require Import Base PyDict_Model Fields_Model MockClient_Model.
From Coq Require Import ZArith.

Section Spec.
  Context {D B : Type}.

  (** The responses queued, in order: status, headers and body. *)
  Fixpoint added (ops : list (op D B)) : list (Z * option nat * bytes) :=
    match ops with
    | [] => []
    | AddResponse s h b :: rest => (s, h, b) :: added rest
    | _ :: rest => added rest
    end.
  (** The requests sent, in order, with their attributes at that time. *)
  Fixpoint sent (requests : nat -> request D B) (ops : list (op D B)) : list (request D B) :=
    match ops with
    | [] => []
    | Send r :: rest => requests r :: sent requests rest
    | ChangeRequest r q :: rest => sent (fun j => if Nat.eqb j r then q else requests j) rest
    | _ :: rest => sent requests rest
    end.
  (** What is in a list of pairs after a program. *)
  Fixpoint contents (lists : nat -> list (text * text)) (ops : list (op D B)) (l : nat) : list (text * text) :=
    match ops with
    | [] => lists l
    | ChangeList l' t :: rest => contents (fun j => if Nat.eqb j l' then t else lists j) rest l
    | _ :: rest => contents lists rest l
    end.
  Fixpoint given {A} (xs : list (result A)) : list A :=
    match xs with [] => [] | Ok x :: rest => x :: given rest | Err _ :: rest => given rest end.

  (** A collection of headers says what the pairs say: every name, in any case, has
      the values of its pairs in their order; a name without pairs is not there. *)
  Definition headers_say (lower : text -> text) (tuples : list (text * text)) (d : list (text * field)) : Prop :=
    NoDup (map fst d) /\
    forall name,
      let values := map snd (filter (fun nv => text_eqb (lower name) (lower (fst nv))) tuples) in
      match dict_get (lower name) d with
      | Some f => f_values f = values /\ f_kind f = Header /\ lower (f_name f) = lower name
      | None => values = []
      end.
End Spec.
