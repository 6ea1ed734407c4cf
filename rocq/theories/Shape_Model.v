(** Shape identifiers and typed property maps of smithy_core: shapes.py lines 9-98
    and types.py lines 223-340. *)
From Verif Require Import Base PyText_Model PyDict_Model.
Local Open Scope N_scope.

(** ** ShapeID *)

(** [not s] for a text. *)
Definition blank (s : text) : bool := match s with [] => true | _ => false end.
Record shape_id := mkShapeId { s_id : text; s_namespace : text; s_name : text; s_member : option text }.

(** lines 17-32; [split(c, 1)] is [cut_at] *)
Definition new_id (id : text) : result shape_id :=
  match cut_at 35 id with
  | (_, None) => Err SmithyErr
  | (ns, Some name) =>
    if blank ns || blank name then Err SmithyErr
    else
      match cut_at 36 name with
      | (_, None) => Ok (mkShapeId id ns name None)
      | (n, Some m) =>
        if blank n || blank m then Err SmithyErr
        else Ok (mkShapeId id ns n (Some m))
      end
  end.
(** lines 86-98 *)
Definition from_parts (ns name : text) (member : option text) : result shape_id :=
  match member with
  | Some m => new_id (ns ++ 35 :: name ++ 36 :: m)
  | None => new_id (ns ++ 35 :: name)
  end.
(** lines 63-72 *)
Definition with_member (x : shape_id) (m : text) : result shape_id := from_parts (s_namespace x) (s_name x) (Some m).
(** lines 53-61 *)
Definition expect_member (x : shape_id) : result text :=
  match s_member x with Some m => Ok m | None => Err ExpectationNotMet end.
(** lines 80-81; [str(other)] is the text of an identifier or a text itself *)
Definition id_eqb (x : shape_id) (other : text) : bool := text_eqb (s_id x) other.

(** ** TypedProperties *)

(** types.py lines 223-244: a key is a text or a typed key with its text. *)
Inductive key := KText (k : text) | KTyped (k : text) (value_type : N).
Definition key_text (k : key) : text := match k with KText t => t | KTyped t _ => t end.

Section Properties.
  Context {V : Type}.
  Notation bag := (list (text * V)).
  (** What an operation gives back. *)
  Inductive answer := ANone | AVal (v : V) | ABool (b : bool) | AKeys (l : list text) | AItem (k : text) (v : V) | ARaise (e : exn).

  (** Lines 290-340 and what UserDict and MutableMapping (CPython 3.12) give. *)
  Inductive op :=
  | Get (k : key)                          (* self[key] *)
  | Set_ (k : key) (v : V)                 (* self[key] = value *)
  | Del (k : key)                          (* del self[key] *)
  | Has (k : key)                          (* key in self *)
  | GetOr (k : key) (d : option V)         (* self.get(key, default) *)
  | Pop (k : key) (d : option V)           (* self.pop(key, default) *)
  | PopItem                                (* self.popitem() *)
  | SetDefault (k : key) (v : V)           (* self.setdefault(key, value) *)
  | Update (l : list (key * V))            (* self.update(pairs) *)
  | Clear                                  (* self.clear() *)
  | Keys.                                  (* list(self) *)

  Definition or_none (d : option V) : answer := match d with Some v => AVal v | None => ANone end.
  Definition getitem (k : text) (d : bag) : answer :=
    match dict_get k d with Some v => AVal v | None => ARaise KeyError end.

  Definition step (o : op) (d : bag) : bag * answer :=
    match o with
    | Get k => (d, getitem (key_text k) d)
    | Set_ k v => (dict_set (key_text k) v d, ANone)
    | Del k => if dict_has (key_text k) d then (dict_del (key_text k) d, ANone) else (d, ARaise KeyError)
    | Has k => (d, ABool (dict_has (key_text k) d))
    | GetOr k df => (d, match dict_get (key_text k) d with Some v => AVal v | None => or_none df end)
    | Pop k df =>
      match dict_get (key_text k) d with
      | Some v => (dict_del (key_text k) d, AVal v)
      | None => (d, or_none df)
      end
    (* MutableMapping.popitem takes the first key *)
    | PopItem =>
      match d with
      | [] => ([], ARaise KeyError)
      | (k, v) :: r => (r, AItem k v)
      end
    | SetDefault k v =>
      match dict_get (key_text k) d with
      | Some x => (d, AVal x)
      | None => (dict_set (key_text k) v d, AVal v)
      end
    | Update l => (fold_left (fun d (kv : key * V) => dict_set (key_text (fst kv)) (snd kv) d) l d, ANone)
    | Clear => ([], ANone)
    | Keys => (d, AKeys (dict_keys d))
    end.
  Fixpoint run (ops : list op) (d : bag) : bag * list answer :=
    match ops with
    | [] => (d, [])
    | o :: r => let (d1, a) := step o d in let (d2, l) := run r d1 in (d2, a :: l)
    end.
End Properties.
Arguments answer : clear implicits.
Arguments op : clear implicits.
