(** Model of header collections
    (packages/smithy-http/src/smithy_http/__init__.py).  [Field] objects are
    mutable and shared by reference, so they live on a heap. *)
From Verif Require Import Base PyDict_Model.

(** __init__.py 25-36, [Field.__init__].  The kind is [header] or [trailer]. *)
Inductive position := Header | Trailer.
Definition position_eqb (a b : position) : bool :=
  match a, b with Header, Header | Trailer, Trailer => true | _, _ => false end.
Record field := mkField { f_name : text; f_values : list text; f_kind : position }.

(** __init__.py 38-40, [Field.add]; 42-44, [Field.set]. *)
Definition field_add (v : text) (f : field) : field :=
  mkField (f_name f) (f_values f ++ [v]) (f_kind f).
Definition field_set (vs : list text) (f : field) : field := mkField (f_name f) vs (f_kind f).

(** [list.remove]: drops the first match, [None] for ValueError. *)
Fixpoint remove_first (v : text) (l : list text) : option (list text) :=
  match l with
  | [] => None
  | x :: r => if text_eqb x v then Some r
              else match remove_first v r with Some r' => Some (x :: r') | None => None end
  end.
(** __init__.py 46-52, [Field.remove]: until ValueError.  Every removal shortens
    the list, so its length bounds the number of iterations. *)
Fixpoint remove_loop (n : nat) (v : text) (l : list text) : list text :=
  match n with
  | O => l
  | S n' => match remove_first v l with Some l' => remove_loop n' v l' | None => l end
  end.
Definition field_remove (v : text) (f : field) : field :=
  field_set (remove_loop (S (List.length (f_values f))) v (f_values f)) f.

(** __init__.py 73-76, [Field.as_tuples]. *)
Definition as_tuples (f : field) : list (text * text) := map (fun v => (f_name f, v)) (f_values f).

Section Fields.
  (** __init__.py 178-183, [_normalize_field_name] is [str.lower]; the theorems
      hold for every normalisation function. *)
  Variable lower : text -> text.

  (** References to [Field] and [Fields] objects. *)
  Definition ref := nat.
  Definition entries := list (text * ref).
  Record state := mkState { heap : list field; cols : list entries }.
  Definition empty_state : state := mkState [] [].

  Fixpoint update {A} (i : nat) (x : A) (l : list A) : list A :=
    match l, i with
    | [], _ => []
    | _ :: r, O => x :: r
    | y :: r, S i' => y :: update i' x r
    end.
  Definition deref (st : state) (r : ref) : option field := nth_error (heap st) r.
  Definition entries_of (st : state) (c : ref) : entries := nth c (cols st) [].
  Definition set_heap (st : state) (r : ref) (f : field) : state :=
    mkState (update r f (heap st)) (cols st).
  Definition set_entries (st : state) (c : ref) (e : entries) : state :=
    mkState (heap st) (update c e (cols st)).

  (** The name of the field behind a reference. *)
  Definition name_of (st : state) (r : ref) : text :=
    match deref st r with Some f => f_name f | None => [] end.

  (** __init__.py 96-124, [Fields.__init__]: duplicate normalised names raise. *)
  Fixpoint has_dup (l : list text) : bool :=
    match l with [] => false | x :: r => mem_text x r || has_dup r end.
  Definition new_fields (refs : list ref) (st : state) : result state :=
    let names := map (fun r => lower (name_of st r)) refs in
    if has_dup names then Err ValueError
    else Ok (mkState (heap st) (cols st ++ [combine names refs])).

  (** __init__.py 130-139, [Fields.__setitem__]. *)
  Definition set_item (c : ref) (name : text) (r : ref) (st : state) : result state :=
    let normalized_name := lower name in
    let normalized_field_name := lower (name_of st r) in
    if text_eqb normalized_name normalized_field_name then
      Ok (set_entries st c (dict_set normalized_name r (entries_of st c)))
    else Err ValueError.

  (** __init__.py 126-128, [Fields.set_field]. *)
  Definition set_field (c : ref) (r : ref) (st : state) : result state :=
    set_item c (name_of st r) r st.

  (** __init__.py 146-149 and 141-144, [__getitem__] (KeyError = [None]) and
      [get]. *)
  Definition get_item (c : ref) (name : text) (st : state) : option ref :=
    dict_get (lower name) (entries_of st c).
  (** __init__.py 203-204, [__contains__]. *)
  Definition contains (c : ref) (name : text) (st : state) : bool :=
    dict_has (lower name) (entries_of st c).
  (** __init__.py 194-198, [__iter__] and [__len__]. *)
  Definition iterate (c : ref) (st : state) : list ref := dict_values (entries_of st c).

  (** __init__.py 151-154, [__delitem__]. *)
  Definition del_item (c : ref) (name : text) (st : state) : result state :=
    if dict_has (lower name) (entries_of st c) then
      Ok (set_entries st c (dict_del (lower name) (entries_of st c)))
    else Err KeyError.

  (** __init__.py 156-161, [get_by_type]. *)
  Definition get_by_type (c : ref) (k : position) (st : state) : list ref :=
    filter (fun r => match deref st r with Some f => position_eqb (f_kind f) k | None => false end)
           (iterate c st).

  (** __init__.py 173-174: [for other_value in other_field.values:
      cur_field.add(other_value)].  A Python list iterator holds an index and
      looks at the list again on every step, so adding to the list that is being
      iterated keeps the loop going.  [None] means that [fuel] steps were not
      enough. *)
  Fixpoint add_values (fuel : nat) (st : state) (cur other : ref) (k : nat) : option state :=
    match deref st cur, deref st other with
    | Some fc, Some fo =>
      match nth_error (f_values fo) k with
      | None => Some st
      | Some v =>
        match fuel with
        | O => None
        | S fuel' => add_values fuel' (set_heap st cur (field_add v fc)) cur other (S k)
        end
      end
    | _, _ => Some st
    end.

  (** __init__.py 163-176, [Fields.extend], over the fields of [other] that are
      left.  (The iterator over the other dictionary is not disturbed: the only
      dictionary that changes is [c]'s own, and when both are the same dictionary
      every name is already present.) *)
  Fixpoint extend_loop (fuel : nat) (c : ref) (others : list ref) (st : state) : option state :=
    match others with
    | [] => Some st
    | o :: rest =>
      match get_item c (name_of st o) st with
      | Some cur =>
        match add_values fuel st cur o 0 with
        | Some st' => extend_loop fuel c rest st'
        | None => None
        end
      | None =>
        match set_item c (name_of st o) o st with
        | Ok st' => extend_loop fuel c rest st'
        | Err _ => Some st
        end
      end
    end.
  Definition extend (fuel : nat) (c d : ref) (st : state) : option state :=
    extend_loop fuel c (iterate d st) st.

  (** What a program does with fields and collections. *)
  Inductive op :=
  | ONewField (name : text) (values : list text) (kind : position)
  | ONewFields (refs : list ref)
  | OSetItem (c : ref) (name : text) (r : ref)
  | OSetField (c : ref) (r : ref)
  | ODelItem (c : ref) (name : text)
  | OExtend (c d : ref)
  | OAdd (r : ref) (v : text)
  | OSetValues (r : ref) (vs : list text)
  | ORemove (r : ref) (v : text).

  (** A program can only use objects it has. *)
  Definition valid_op (st : state) (o : op) : bool :=
    let field_ok r := Nat.ltb r (List.length (heap st)) in
    let col_ok c := Nat.ltb c (List.length (cols st)) in
    match o with
    | ONewField _ _ _ => true
    | ONewFields rs => forallb field_ok rs
    | OSetItem c _ r => col_ok c && field_ok r
    | OSetField c r => col_ok c && field_ok r
    | ODelItem c _ => col_ok c
    | OExtend c d => col_ok c && col_ok d
    | OAdd r _ | OSetValues r _ | ORemove r _ => field_ok r
    end.

  Definition on_field (r : ref) (f : field -> field) (st : state) : state :=
    match deref st r with Some x => set_heap st r (f x) | None => st end.

  (** One operation: the new state ([None] if it does not finish in [fuel]
      steps) and the exception, if any; an operation that raises changes
      nothing. *)
  Definition step (fuel : nat) (o : op) (st : state) : option (state * option exn) :=
    let raising r := match r with Ok st' => Some (st', None) | Err e => Some (st, Some e) end in
    match o with
    | ONewField n vs k => Some (mkState (heap st ++ [mkField n vs k]) (cols st), None)
    | ONewFields rs => raising (new_fields rs st)
    | OSetItem c n r => raising (set_item c n r st)
    | OSetField c r => raising (set_field c r st)
    | ODelItem c n => raising (del_item c n st)
    | OExtend c d => match extend fuel c d st with Some st' => Some (st', None) | None => None end
    | OAdd r v => Some (on_field r (field_add v) st, None)
    | OSetValues r vs => Some (on_field r (field_set vs) st, None)
    | ORemove r v => Some (on_field r (field_remove v) st, None)
    end.

  Fixpoint run (fuel : nat) (ops : list op) (st : state) : option state :=
    match ops with
    | [] => Some st
    | o :: rest =>
      if valid_op st o then
        match step fuel o st with Some (st', _) => run fuel rest st' | None => None end
      else None
    end.

  (** __init__.py 220-236, [tuples_to_fields]: the fields are freshly made, so
      the dictionary can hold them by value. *)
  Fixpoint tuples_loop (kind : position) (tuples : list (text * text)) (d : list (text * field))
      : list (text * field) :=
    match tuples with
    | [] => d
    | (name, value) :: rest =>
      let d' := match dict_get (lower name) d with
                | Some f => dict_set (lower name) (field_add value f) d
                | None => dict_set (lower name) (mkField name [value] kind) d
                end in
      tuples_loop kind rest d'
    end.
  Definition tuples_to_fields (kind : position) (tuples : list (text * text)) : list field :=
    dict_values (tuples_loop kind tuples []).
End Fields.
