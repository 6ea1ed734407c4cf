(** Documents: what they hold, the same operations on plain values, values that
    fit a schema. *)
From Verif Require Import Base PyDict_Model Doc_Model.
Local Open Scope Z_scope.

(** What a document holds: what one finds by going down through its maps and
    lists to the scalars. *)
Fixpoint content (d : doc) : plain :=
  match d with
  | Doc _ (IScalar v) _ => PScalar v
  | Doc _ (IList l) _ => PList (map content l)
  | Doc _ (IDict m) _ => PMap (map (fun kv => (fst kv, content (snd kv))) m)
  | Doc _ INone (Some p) => p
  | Doc _ INone None => PNull
  end.
Definition arg_content (a : arg) : plain := match a with APlain p => p | ADoc d => content d end.

(** ** Operations on plain values; [None] when Python raises *)

(** The position a list index stands for. *)
Definition position {A} (i : Z) (l : list A) : option nat :=
  if (0 <=? i) && (i <? Z.of_nat (List.length l)) then Some (Z.to_nat i)
  else if (- Z.of_nat (List.length l) <=? i) && (i <? 0) then Some (Z.to_nat (Z.of_nat (List.length l) + i))
  else None.
Fixpoint replace_nth {A} (n : nat) (x : A) (l : list A) : list A :=
  match l, n with
  | [], _ => []
  | _ :: r, O => x :: r
  | y :: r, S n => y :: replace_nth n x r
  end.
Fixpoint remove_nth {A} (n : nat) (l : list A) : list A :=
  match l, n with
  | [], _ => []
  | _ :: r, O => r
  | y :: r, S n => y :: remove_nth n r
  end.

Definition plain_get (k : key) (p : plain) : option plain :=
  match k, p with
  | KStr k, PMap m => dict_get k m
  | KIdx i, PList l => match position i l with Some n => nth_error l n | None => None end
  | _, _ => None
  end.
Definition plain_set (k : key) (v : plain) (p : plain) : option plain :=
  match k, p with
  | KStr k, PMap m => Some (PMap (dict_set k v m))
  | KIdx i, PList l => match position i l with Some n => Some (PList (replace_nth n v l)) | None => None end
  | _, _ => None
  end.
Definition plain_del (k : key) (p : plain) : option plain :=
  match k, p with
  | KStr k, PMap m => if dict_has k m then Some (PMap (dict_del k m)) else None
  | KIdx i, PList l => match position i l with Some n => Some (PList (remove_nth n l)) | None => None end
  | _, _ => None
  end.
Fixpoint plain_at (path : list key) (f : plain -> option plain) (p : plain) : option plain :=
  match path with
  | [] => f p
  | k :: r =>
    match plain_get k p with
    | Some c => match plain_at r f c with Some c' => plain_set k c' p | None => None end
    | None => None
    end
  end.
(** Reading changes nothing. *)
Definition plain_op (o : op) (p : plain) : option plain :=
  match o with
  | OSet path k a => plain_at path (plain_set k (arg_content a)) p
  | ODel path k => plain_at path (plain_del k) p
  | OValue _ | OContents _ => Some p
  end.
(** A program on a plain value; an operation that raises changes nothing. *)
Fixpoint plain_run (os : list op) (p : plain) : plain :=
  match os with
  | [] => p
  | o :: r => plain_run r (match plain_op o p with Some q => q | None => p end)
  end.

Section Schemas.
  Variable kind_of : N -> kind.
  Variable member_name : N -> option text.

  (** Only collections are kept as plain values. *)
  Definition collection (raw : option plain) : Prop :=
    match raw with None | Some (PList _) | Some (PMap _) => True | _ => False end.
  (** A document without a schema: plain content, as [Document(value)] gives. *)
  Fixpoint untyped (d : doc) : Prop :=
    match d with
    | Doc s v raw =>
      kind_of s = KDocument /\ collection raw /\
      match v with
      | IDict m => (fix all (m : list (text * doc)) : Prop := match m with [] => True | (_, c) :: r => untyped c /\ all r end) m
      | IList l => (fix all (l : list doc) : Prop := match l with [] => True | c :: r => untyped c /\ all r end) l
      | _ => True
      end
    end.
  (** Every plain value that is kept is what the document holds now. *)
  Fixpoint up_to_date (d : doc) : Prop :=
    match d with
    | Doc s v raw =>
      match raw with Some p => p = content d | None => True end /\
      match v with
      | IDict m => (fix all (m : list (text * doc)) : Prop := match m with [] => True | (_, c) :: r => up_to_date c /\ all r end) m
      | IList l => (fix all (l : list doc) : Prop := match l with [] => True | c :: r => up_to_date c /\ all r end) l
      | _ => True
      end
    end.

  Definition arg_of (o : op) : option arg := match o with OSet _ _ a => Some a | _ => None end.
  Definition plain_arg (a : arg) : Prop := match a with APlain _ => True | ADoc d => untyped d end.
  Definition fresh_arg (a : arg) : Prop := match a with APlain _ => True | ADoc d => untyped d /\ up_to_date d end.
  Definition plain_args (o : op) : Prop := match arg_of o with Some a => plain_arg a | None => True end.
  Definition fresh_args (o : op) : Prop := match arg_of o with Some a => fresh_arg a | None => True end.
  (** A document with the schema of a scalar does not hold a collection. *)
  Definition sensible_doc (d : doc) : Prop :=
    match d_raw d with
    | None => True
    | Some (PList _) | Some (PMap _) => forall t, kind_of (d_schema d) <> KScalar t
    | _ => False
    end.
  Definition sensible_arg (o : op) : Prop :=
    match arg_of o with Some (ADoc d) => sensible_doc d | _ => True end.
  (** The operations of a program that did not raise. *)
  Fixpoint outcomes (os : list op) (d : doc) : list bool :=
    match os with
    | [] => []
    | o :: r =>
      let (d', e) := run_op kind_of false o d in
      match e with None => true | Some _ => false end :: outcomes r d'
    end.
  Fixpoint plain_replay (os : list op) (done : list bool) (p : plain) : option plain :=
    match os, done with
    | o :: r, true :: r' => match plain_op o p with Some q => plain_replay r r' q | None => None end
    | _ :: r, false :: r' => plain_replay r r' p
    | _, _ => Some p
    end.

  (** ** Shapes *)

  (** [a] with some of its elements left out. *)
  Inductive subsequence {A} : list A -> list A -> Prop :=
  | sub_nil : subsequence [] []
  | sub_take x l m : subsequence l m -> subsequence (x :: l) (x :: m)
  | sub_skip x l m : subsequence l m -> subsequence l (x :: m).

  (** Members have different names, and their schemas know them. *)
  Definition good_members (ms : list (text * N)) : Prop :=
    NoDup (map fst ms) /\ forall k m, In (k, m) ms -> member_name m = Some k.
  Definition is_container (k : kind) : bool :=
    match k with KStruct _ | KUnion _ | KMap _ _ | KList _ _ => true | _ => false end.

  (** [fits s v]: a value of the shape with schema [s].  Nulls are in sparse
      collections only and, in maps, only in place of scalars and documents;
      documents in collections are not null. *)
  Fixpoint fits (s : N) (v : value) : Prop :=
    let item := fun (m : N) (x : value) =>
      match x with VNull => False | VDoc d => fits m x /\ content d <> PNull | _ => fits m x end in
    match v with
    | VNull => False
    | VScalar x => kind_of s = KScalar (scalar_type x)
    | VDoc d => kind_of s = KDocument /\ kind_of (d_schema d) = KDocument /\ collection (d_raw d)
    | VList l =>
      exists sparse m, kind_of s = KList sparse m /\
        (fix all (l : list value) : Prop :=
           match l with [] => True | x :: r => ((x = VNull /\ sparse = true) \/ item m x) /\ all r end) l
    | VMap l =>
      exists sparse m, kind_of s = KMap sparse m /\ NoDup (map fst l) /\
        (fix all (l : list (text * value)) : Prop :=
           match l with
           | [] => True
           | (_, x) :: r => ((x = VNull /\ sparse = true /\ is_container (kind_of m) = false) \/ item m x) /\ all r
           end) l
    | VStruct l =>
      exists ms, (kind_of s = KStruct ms \/ (kind_of s = KUnion ms /\ exists kv, l = [kv])) /\ good_members ms /\
        subsequence (map fst l) (map fst ms) /\
        (fix all (l : list (text * value)) : Prop :=
           match l with [] => True | (k, x) :: r => (exists m, dict_get k ms = Some m /\ fits m x) /\ all r end) l
    end.

  (** No unions, and the documents in [v] have no schemas. *)
  Fixpoint serializable (s : N) (v : value) : Prop :=
    match v with
    | VNull | VScalar _ => True
    | VDoc d => untyped d
    | VList l =>
      match kind_of s with
      | KList _ m => (fix all (l : list value) : Prop := match l with [] => True | x :: r => serializable m x /\ all r end) l
      | _ => False
      end
    | VMap l =>
      match kind_of s with
      | KMap _ m => (fix all (l : list (text * value)) : Prop := match l with [] => True | (_, x) :: r => serializable m x /\ all r end) l
      | _ => False
      end
    | VStruct l =>
      match kind_of s with
      | KStruct ms =>
        (fix all (l : list (text * value)) : Prop :=
           match l with [] => True | (k, x) :: r => (forall m, dict_get k ms = Some m -> serializable m x) /\ all r end) l
      | _ => False
      end
    end.

  (** A shape as a plain value: members and entries by name, documents as they are. *)
  Fixpoint plain_of (v : value) : plain :=
    match v with
    | VNull => PNull
    | VScalar x => PScalar x
    | VList l => PList (map plain_of l)
    | VMap l | VStruct l => PMap (map (fun kv => (fst kv, plain_of (snd kv))) l)
    | VDoc d => content d
    end.

  (** The same value; documents are compared by what they hold. *)
  Inductive same : value -> value -> Prop :=
  | same_null : same VNull VNull
  | same_scalar x : same (VScalar x) (VScalar x)
  | same_doc d e : content d = content e -> same (VDoc d) (VDoc e)
  | same_list l m : Forall2 same l m -> same (VList l) (VList m)
  | same_map l m : Forall2 (fun a b => fst a = fst b /\ same (snd a) (snd b)) l m -> same (VMap l) (VMap m)
  | same_struct l m : Forall2 (fun a b => fst a = fst b /\ same (snd a) (snd b)) l m -> same (VStruct l) (VStruct m).
End Schemas.
