(** Python dictionaries with text keys: insertion ordered association lists. *)
From Verif Require Import Base.

Section Dict.
  Context {A : Type}.

  (** [d.get(k)]. *)
  Fixpoint dict_get (k : text) (d : list (text * A)) : option A :=
    match d with
    | [] => None
    | (k', v) :: r => if text_eqb k k' then Some v else dict_get k r
    end.

  (** [d[k] = v]: in place when the key exists, otherwise at the end. *)
  Fixpoint dict_set (k : text) (v : A) (d : list (text * A)) : list (text * A) :=
    match d with
    | [] => [(k, v)]
    | (k', v') :: r => if text_eqb k k' then (k', v) :: r else (k', v') :: dict_set k v r
    end.

  (** [del d[k]] when the key exists. *)
  Fixpoint dict_del (k : text) (d : list (text * A)) : list (text * A) :=
    match d with
    | [] => []
    | (k', v') :: r => if text_eqb k k' then r else (k', v') :: dict_del k r
    end.

  Definition dict_has (k : text) (d : list (text * A)) : bool :=
    match dict_get k d with Some _ => true | None => false end.
  Definition dict_keys (d : list (text * A)) : list text := map fst d.
  Definition dict_values (d : list (text * A)) : list A := map snd d.
End Dict.
