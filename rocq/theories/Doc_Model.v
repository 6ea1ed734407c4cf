(** Documents: packages/smithy-core/src/smithy_core/documents.py.

    A document is modelled as a tree that owns its children: reaching a child
    with [d[k]] and changing it changes the tree in place.  That two names can
    stand for one child (a document assigned under two keys, or kept by the
    caller after assigning it) is not modelled, nor is what happens when the
    caller changes a list or dict it has passed in or been given.  Slices,
    tuples as list values and values that mix documents with plain values are
    left out. *)
From Verif Require Import Base PyDict_Model.
Local Open Scope Z_scope.

(** Python's scalar types of [DocumentValue], lines 24-35; floats, decimals and
    instants are only compared, so any numbering of them will do. *)
Inductive scalar := SBool (b : bool) | SStr (s : text) | SInt (z : Z) | SFloat (f : N) | SDec (d : N) | SBytes (b : bytes) | STime (t : Z).
(** [DocumentValue]: dicts keep their order *)
Inductive plain := PNull | PScalar (s : scalar) | PList (l : list plain) | PMap (l : list (text * plain)).

(** [shape_type] of a schema with its members: the types whose value is read with
    the same method are not told apart ([as_string] serves STRING and ENUM,
    [as_integer] BYTE to BIG_INTEGER, [as_float] FLOAT and DOUBLE). *)
Inductive stype := TyBool | TyStr | TyInt | TyFloat | TyDec | TyBlob | TyTime.
Inductive kind :=
| KDocument | KScalar (t : stype) | KList (sparse : bool) (member : N) | KMap (sparse : bool) (value : N)
| KStruct (members : list (text * N)) | KUnion (members : list (text * N)).

(** Lines 66-69: [_schema], [_value] and [_raw_value]; [_type] is recomputed by
    [shape_type] below, as the kind of value a document holds never changes. *)
Inductive doc := Doc (schema : N) (value : inner) (raw : option plain)
with inner := INone | IScalar (s : scalar) | IDict (m : list (text * doc)) | IList (l : list doc).
Definition d_schema (d : doc) : N := let (s, _, _) := d in s.
Definition d_value (d : doc) : inner := let (_, v, _) := d in v.
Definition d_raw (d : doc) : option plain := let (_, _, r) := d in r.

Inductive key := KStr (k : text) | KIdx (i : Z).
(** What is assigned: a plain value or a document. *)
Inductive arg := APlain (p : plain) | ADoc (d : doc).

Section Documents.
  (** The schemas, by number; [member_name] is the name of a member schema. *)
  Variable kind_of : N -> kind.
  Variable member_name : N -> option text.

  (** [Document(value, schema=schema)], lines 71-97: an empty collection is taken
      as the inner value, any other plain collection as the raw value *)
  Definition new (s : N) (p : plain) : doc :=
    match p with
    | PMap [] => Doc s (IDict []) None
    | PMap _ => Doc s INone (Some p)
    | PList [] => Doc s (IList []) None
    | PList _ => Doc s INone (Some p)
    | PScalar v => Doc s (IScalar v) None
    | PNull => Doc s INone None
    end.

  (** lines 99-127; [None] stands for DOCUMENT *)
  Inductive dtype := DScalar (t : stype) | DList | DMap | DStruct | DUnion | DDocument.
  Definition scalar_type (v : scalar) : stype :=
    match v with
    | SBool _ => TyBool | SStr _ => TyStr | SInt _ => TyInt | SFloat _ => TyFloat | SDec _ => TyDec | SBytes _ => TyBlob | STime _ => TyTime
    end.
  Definition shape_type (d : doc) : dtype :=
    match kind_of (d_schema d) with
    | KScalar t => DScalar t
    | KList _ _ => DList
    | KMap _ _ => DMap
    | KStruct _ => DStruct
    | KUnion _ => DUnion
    | KDocument =>
      match d_value d with
      | IScalar v => DScalar (scalar_type v)
      | IDict _ => DMap
      | IList _ => DList
      | INone =>
        match d_raw d with
        | Some (PMap _) => DMap
        | Some (PList _) => DList
        | _ => DDocument
        end
      end
    end.

  (** lines 155-157 *)
  Definition is_none (d : doc) : bool :=
    match d_value d, d_raw d with INone, None => true | _, _ => false end.

  (** lines 159-198, with [expect_type] of utils.py lines 82-96; [as_integer]
      refuses booleans, and no other type is a subclass of another *)
  Definition as_scalar (t : stype) (d : doc) : result scalar :=
    match d_value d with
    | IScalar v =>
      match t, v with
      | TyBool, SBool _ | TyStr, SStr _ | TyInt, SInt _ | TyFloat, SFloat _ | TyDec, SDec _ | TyBlob, SBytes _ | TyTime, STime _ => Ok v
      | _, _ => Err ExpectationNotMet
      end
    | _ => Err ExpectationNotMet
    end.

  Definition mem (ms : list (text * N)) (k : text) : result N :=
    match dict_get k ms with Some n => Ok n | None => Err KeyError end.

  (** lines 215-219 *)
  Definition wrap_list (s : N) (l : list plain) : list doc :=
    let s' := match kind_of s with KList _ m => m | _ => s end in map (new s') l.
  (** lines 239-249 *)
  Fixpoint wrap_members (ms : list (text * N)) (l : list (text * plain)) : result (list (text * doc)) :=
    match l with
    | [] => Ok []
    | (k, v) :: r => do s <- mem ms k; do r' <- wrap_members ms r; Ok ((k, new s v) :: r')
    end.
  Definition wrap_map (s : N) (l : list (text * plain)) : result (list (text * doc)) :=
    match kind_of s with
    | KStruct ms | KUnion ms => wrap_members ms l
    | k =>
      let s' := match k with KMap _ v => v | _ => s end in
      Ok (map (fun kv => (fst kv, new s' (snd kv))) l)
    end.

  (** lines 200-213, 228-237: what is left of the document, and the result *)
  Definition as_list (d : doc) : doc * result (list doc) :=
    match d with
    | Doc s (IList l) r => (d, Ok l)
    | Doc s INone (Some (PList p)) => let l := wrap_list s p in (Doc s (IList l) (Some (PList p)), Ok l)
    | _ => (d, Err ExpectationNotMet)
    end.
  Definition as_map (d : doc) : doc * result (list (text * doc)) :=
    match d with
    | Doc s (IDict m) r => (d, Ok m)
    | Doc s INone (Some (PMap p)) =>
      match wrap_map s p with
      | Ok m => (Doc s (IDict m) (Some (PMap p)), Ok m)
      | Err e => (d, Err e)
      end
    | _ => (d, Err ExpectationNotMet)
    end.

  (** lines 251-262: the plain value is kept, in the children too *)
  Fixpoint as_value (d : doc) : doc * plain :=
    match d with
    | Doc _ _ (Some r) => (d, r)
    | Doc s (IDict m) None =>
      let each := map (fun kv => (fst kv, as_value (snd kv))) m in
      let r := PMap (map (fun kv => (fst kv, snd (snd kv))) each) in
      (Doc s (IDict (map (fun kv => (fst kv, fst (snd kv))) each)) (Some r), r)
    | Doc s (IList l) None =>
      let each := map as_value l in
      let r := PList (map snd each) in
      (Doc s (IList (map fst each)) (Some r), r)
    | Doc s (IScalar v) None => (d, PScalar v)
    | Doc s INone None => (d, PNull)
    end.

  (** lines 392-398 *)
  Definition with_schema (s : N) (d : doc) : result doc :=
    match shape_type d with
    | DStruct | DMap | DUnion => do m <- snd (as_map d); Ok (Doc s (IDict m) None)
    | DList => do l <- snd (as_list d); Ok (Doc s (IList l) None)
    | _ => Ok (Doc s (d_value d) None)
    end.

  (** Python's list index: negative ones count from the end *)
  Definition py_index {A} (i : Z) (l : list A) : option nat :=
    let n := Z.of_nat (List.length l) in
    let j := if i <? 0 then i + n else i in
    if (0 <=? j) && (j <? n) then Some (Z.to_nat j) else None.
  Definition put_at {A} (n : nat) (x : A) (l : list A) : list A := firstn n l ++ x :: skipn (S n) l.
  Definition drop_at {A} (n : nat) (l : list A) : list A := firstn n l ++ skipn (S n) l.

  (** The member that [d[k] = v] gives its schema to [v], lines 367-371 and
      380-382; a union has no case of its own *)
  Definition slot_schema (s : N) (k : key) : result N :=
    match k, kind_of s with
    | KStr k, KStruct ms => mem ms k
    | KStr _, KMap _ v => Ok v
    | KIdx _, KList _ m => Ok m
    | _, _ => Ok s
    end.
  Definition to_doc (s : N) (a : arg) : result doc :=
    match a with APlain p => Ok (new s p) | ADoc d => with_schema s d end.

  (** [d[key] = value], lines 361-390; what is left of the document and how it ended *)
  Definition setitem (k : key) (a : arg) (d : doc) : doc * option exn :=
    match slot_schema (d_schema d) k with
    | Err e => (d, Some e)
    | Ok s =>
      match to_doc s a with
      | Err e => (d, Some e)
      | Ok x =>
        match k with
        | KStr t =>
          match as_map d with
          | (d1, Ok m) => (Doc (d_schema d) (IDict (dict_set t x m)) None, None)
          | (d1, Err e) => (d1, Some e)
          end
        | KIdx i =>
          match as_list d with
          | (d1, Ok l) =>
            match py_index i l with
            | Some n => (Doc (d_schema d) (IList (put_at n x l)) None, None)
            | None => (d1, Some IndexError)
            end
          | (d1, Err e) => (d1, Some e)
          end
        end
      end
    end.

  (** [del d[key]], lines 400-405 *)
  Definition delitem (k : key) (d : doc) : doc * option exn :=
    match k with
    | KStr t =>
      match as_map d with
      | (d1, Ok m) => if dict_has t m then (Doc (d_schema d) (IDict (dict_del t m)) None, None) else (d1, Some KeyError)
      | (d1, Err e) => (d1, Some e)
      end
    | KIdx i =>
      match as_list d with
      | (d1, Ok l) =>
        match py_index i l with
        | Some n => (Doc (d_schema d) (IList (drop_at n l)) None, None)
        | None => (d1, Some IndexError)
        end
      | (d1, Err e) => (d1, Some e)
      end
    end.

  (** [d[key]], lines 352-357 *)
  Definition getitem (k : key) (d : doc) : doc * result doc :=
    match k with
    | KStr t =>
      match as_map d with
      | (d1, Ok m) => (d1, match dict_get t m with Some c => Ok c | None => Err KeyError end)
      | (d1, Err e) => (d1, Err e)
      end
    | KIdx i =>
      match as_list d with
      | (d1, Ok l) => (d1, match py_index i l with
                           | Some n => match nth_error l n with Some c => Ok c | None => Err IndexError end
                           | None => Err IndexError end)
      | (d1, Err e) => (d1, Err e)
      end
    end.

  (** The child that [d[key]] has given, after it has been changed. *)
  Definition child_changed (k : key) (c : doc) (d : doc) : doc :=
    match k, d with
    | KStr t, Doc s (IDict m) r => Doc s (IDict (dict_set t c m)) r
    | KIdx i, Doc s (IList l) r =>
      match py_index i l with Some n => Doc s (IList (put_at n c l)) r | None => d end
    | _, _ => d
    end.

  (** [f] done to [d[k1][k2]...]. *)
  Fixpoint at_path (path : list key) (f : doc -> doc * option exn) (d : doc) : doc * option exn :=
    match path with
    | [] => f d
    | k :: path' =>
      match getitem k d with
      | (d1, Ok c) => let (c', r) := at_path path' f c in (child_changed k c' d1, r)
      | (d1, Err e) => (d1, Some e)
      end
    end.
  (** The same with the changed child assigned again on the way back:
      [c = d[k1]; ...; d[k1] = c]. *)
  Fixpoint at_path_assigning (path : list key) (f : doc -> doc * option exn) (d : doc) : doc * option exn :=
    match path with
    | [] => f d
    | k :: path' =>
      match getitem k d with
      | (d1, Ok c) =>
        let (c', r) := at_path_assigning path' f c in
        match r with
        | None => setitem k (ADoc c') (child_changed k c' d1)
        | Some e => (child_changed k c' d1, Some e)
        end
      | (d1, Err e) => (d1, Some e)
      end
    end.

  (** What a program does to a document. *)
  Inductive op :=
  | OSet (path : list key) (k : key) (a : arg)
  | ODel (path : list key) (k : key)
  | OValue (path : list key)
  | OContents (path : list key).
  Definition op_at (o : op) : list key * (doc -> doc * option exn) :=
    match o with
    | OSet p k a => (p, setitem k a)
    | ODel p k => (p, delitem k)
    | OValue p => (p, fun d => (fst (as_value d), None))
    | OContents p => (p, fun d => match shape_type d with
                                  | DList => let (d1, r) := as_list d in (d1, match r with Ok _ => None | Err e => Some e end)
                                  | _ => let (d1, r) := as_map d in (d1, match r with Ok _ => None | Err e => Some e end)
                                  end)
    end.
  Definition run_op (assigning : bool) (o : op) (d : doc) : doc * option exn :=
    let (p, f) := op_at o in
    match o with
    | OSet _ _ _ | ODel _ _ => (if assigning then at_path_assigning else at_path) p f d
    | _ => at_path p f d
    end.
  (** An exception of one operation does not stop the program. *)
  Fixpoint run (assigning : bool) (os : list op) (d : doc) : doc :=
    match os with [] => d | o :: r => run assigning r (fst (run_op assigning o d)) end.

  (** ** Serialization, lines 271-334: what the serializer is told, as a plain value *)
  Section Visit.
    (** [as_map] and [as_list] of a document that has not been taken apart wrap the
        raw value, so its children are seen by [visit_new] with their schemas. *)
    Fixpoint visit_new (s : N) (p : plain) : result plain :=
      match p with
      | PNull => Ok PNull
      | PScalar v =>
        match kind_of s with
        | KDocument => Ok p
        | KScalar t => do w <- as_scalar t (Doc s (IScalar v) None); Ok (PScalar w)
        | _ => Err ExpectationNotMet
        end
      | PList l =>
        let go := (fix go (s' : N) (l : list plain) : result (list plain) :=
                     match l with [] => Ok [] | x :: r => do y <- visit_new s' x; do ys <- go s' r; Ok (y :: ys) end) in
        match kind_of s with
        | KDocument => do ys <- go s l; Ok (PList ys)
        | KList _ m => do ys <- go m l; Ok (PList ys)
        | _ => Err ExpectationNotMet
        end
      | PMap l =>
        let go := (fix go (s' : N) (l : list (text * plain)) : result (list (text * plain)) :=
                     match l with [] => Ok [] | (k, x) :: r => do y <- visit_new s' x; do ys <- go s' r; Ok ((k, y) :: ys) end) in
        let members := (fix members (ms : list (text * N)) (l : list (text * plain)) : result (list (text * plain)) :=
                     match l with
                     | [] => Ok []
                     | (k, x) :: r =>
                       do s' <- mem ms k;
                       do name <- match member_name s' with Some n => Ok n | None => Err ExpectationNotMet end;
                       do y <- visit_new s' x; do ys <- members ms r; Ok ((name, y) :: ys)
                     end) in
        match kind_of s with
        | KDocument => do ys <- go s l; Ok (PMap ys)
        | KMap _ v => do ys <- go v l; Ok (PMap ys)
        | KStruct ms | KUnion ms => do ys <- members ms l; Ok (PMap ys)
        | _ => Err ExpectationNotMet
        end
      end.

    (** lines 274-334: by [_type]; a member of a structure goes under the member
        name of its own schema *)
    Fixpoint visit (d : doc) : result plain :=
      match d with
      | Doc s INone None => Ok PNull
      | Doc s INone (Some p) => visit_new s p
      | Doc s (IScalar v) _ =>
        match shape_type d with
        | DScalar t => do w <- as_scalar t d; Ok (PScalar w)
        | _ => Err ExpectationNotMet
        end
      | Doc s (IList l) _ =>
        match shape_type d with
        | DList =>
          do ys <- (fix go (l : list doc) : result (list plain) :=
                      match l with [] => Ok [] | x :: r => do y <- visit x; do ys <- go r; Ok (y :: ys) end) l;
          Ok (PList ys)
        | _ => Err ExpectationNotMet
        end
      | Doc s (IDict m) _ =>
        match shape_type d with
        | DMap =>
          do ys <- (fix go (l : list (text * doc)) : result (list (text * plain)) :=
                      match l with [] => Ok [] | (k, x) :: r => do y <- visit x; do ys <- go r; Ok ((k, y) :: ys) end) m;
          Ok (PMap ys)
        | DStruct | DUnion =>
          do ys <- (fix go (l : list (text * doc)) : result (list (text * plain)) :=
                      match l with
                      | [] => Ok []
                      | (_, x) :: r =>
                        do name <- match member_name (d_schema x) with Some n => Ok n | None => Err ExpectationNotMet end;
                        do y <- visit x; do ys <- go r; Ok ((name, y) :: ys)
                      end) m;
          Ok (PMap ys)
        | _ => Err ExpectationNotMet
        end
      end.
  End Visit.

  (** ** Shapes to documents, lines 336-346 and 427-564 *)

  (** A generated shape: what it writes.  Structures and unions write the members
      that are set; streams are left out. *)
  Inductive value :=
  | VNull | VScalar (s : scalar) | VList (l : list value) | VMap (l : list (text * value))
  | VStruct (l : list (text * value)) | VDoc (d : doc).

  (** [_delegate] is one object for all struct serializers (line 511), one for all
      list serializers (530) and one for all map serializers (551); [RRoot] is the
      serializer of [from_shape]. *)
  Inductive reg := RRoot | RStruct | RList | RMap.
  Definition regs : Type := reg -> option doc.
  Definition reg_eqb (a b : reg) : bool :=
    match a, b with RRoot, RRoot | RStruct, RStruct | RList, RList | RMap, RMap => true | _, _ => false end.
  Definition put (r : reg) (v : option doc) (g : regs) : regs := fun r' => if reg_eqb r r' then v else g r'.

  (** [write r s v g]: the calls that write [v] with schema [s] to the serializer
      [r]; lines 441-507.  [InterceptingSerializer] (serializers.py lines 243-350)
      calls [after] when the call to the delegate has returned. *)
  Fixpoint write (r : reg) (s : N) (v : value) (g : regs) : regs * option exn :=
    match v with
    | VNull => (put r (Some (Doc s INone None)) g, None)
    | VScalar x => (put r (Some (Doc s (IScalar x) None)) g, None)
    | VDoc d => (put r (Some d) g, None)
    | VList l =>
      match kind_of s with
      | KList _ m =>
        (* lines 529-547 *)
        let go := (fix go (l : list value) (acc : list doc) (g : regs) : regs * result (list doc) :=
          match l with
          | [] => (g, Ok acc)
          | x :: rest =>
            match write RList m x g with
            | (g1, Some e) => (g1, Err e)
            | (g1, None) =>
              match g1 RList with
              | Some d => go rest (acc ++ [d]) (put RList None g1)
              | None => (g1, Err ExpectationNotMet)
              end
            end
          end) in
        match go l [] g with
        | (g1, Ok ds) => (put r (Some (Doc s (IList ds) None)) g1, None)
        | (g1, Err e) => (g1, Some e)
        end
      | _ => (g, Some KeyError)
      end
    | VMap l =>
      match kind_of s with
      | KMap _ m =>
        (* lines 550-564 *)
        let go := (fix go (l : list (text * value)) (acc : doc) (g : regs) : regs * result doc :=
          match l with
          | [] => (g, Ok acc)
          | (k, x) :: rest =>
            match write RMap m x g with
            | (g1, Some e) => (g1, Err e)
            | (g1, None) =>
              match g1 RMap with
              | Some d =>
                match setitem (KStr k) (ADoc d) acc with
                | (acc', None) => go rest acc' (put RMap None g1)
                | (_, Some e) => (g1, Err e)
                end
              | None => (g1, Err ExpectationNotMet)
              end
            end
          end) in
        match go l (Doc s (IDict []) None) g with
        | (g1, Ok d) => (put r (Some d) g1, None)
        | (g1, Err e) => (g1, Some e)
        end
      | _ => (g, Some KeyError)
      end
    | VStruct l =>
      match kind_of s with
      | KStruct ms | KUnion ms =>
        (* lines 510-526; the schema of the member is [SCHEMA.members[k]] *)
        let go := (fix go (l : list (text * value)) (acc : doc) (g : regs) : regs * result doc :=
          match l with
          | [] => (g, Ok acc)
          | (k, x) :: rest =>
            match mem ms k with
            | Err e => (g, Err e)
            | Ok m =>
              match write RStruct m x g with
              | (g1, Some e) => (g1, Err e)
              | (g1, None) =>
                match member_name m, g1 RStruct with
                | Some name, Some d =>
                  match setitem (KStr name) (ADoc d) acc with
                  | (acc', None) => go rest acc' (put RStruct None g1)
                  | (_, Some e) => (g1, Err e)
                  end
                | _, _ => (g1, Err ExpectationNotMet)
                end
              end
            end
          end) in
        match go l (Doc s (IDict []) None) g with
        | (g1, Ok d) => (put r (Some d) g1, None)
        | (g1, Err e) => (g1, Some e)
        end
      | _ => (g, Some KeyError)
      end
    end.
  (** lines 336-346, 432-438: [g] is what earlier conversions have left behind *)
  Definition from_shape (s : N) (v : value) (g : regs) : regs * result doc :=
    match write RRoot s v (put RRoot None g) with
    | (g1, Some e) => (g1, Err e)
    | (g1, None) => (g1, match g1 RRoot with Some d => Ok d | None => Err ExpectationNotMet end)
    end.

  (** ** Documents to shapes, lines 264-269 and 567-644 *)

  Definition opt_cons {A} (x : option A) (l : list A) : list A := match x with Some a => a :: l | None => l end.

  (** Generated readers: codegen's ListGenerator.java and MapGenerator.java (a null
      is kept by sparse collections, dropped by others), StructureGenerator.java
      and UnionGenerator.java; unions are read like structures, the check for
      exactly one member is in [read_doc].  [read_new t s p] is [read t] of
      the document [new s p]. *)
  Definition one_member (k : kind) (l : list (text * value)) : result value :=
    match k, l with
    | KUnion _, [_] => Ok (VStruct l)
    | KUnion _, _ => Err SerializationErr
    | _, _ => Ok (VStruct l)
    end.
  Fixpoint read_new (t s : N) (p : plain) : result value :=
    let elements := (fix elements (sparse : bool) (t s : N) (l : list plain) : result (list value) :=
      match l with
      | [] => Ok []
      | x :: r =>
        do y <- match x with
                | PNull => Ok (if sparse then Some VNull else None)
                | _ => do v <- read_new t s x; Ok (Some v)
                end;
        do ys <- elements sparse t s r; Ok (opt_cons y ys)
      end) in
    let entries := (fix entries (sparse : bool) (t : N) (slot : text -> result N) (l : list (text * plain)) : result (list (text * value)) :=
      match l with
      | [] => Ok []
      | (k, x) :: r =>
        do s <- slot k;
        do y <- match x with
                | PNull => Ok (if sparse then Some (k, VNull) else None)
                | _ => do v <- read_new t s x; Ok (Some (k, v))
                end;
        do ys <- entries sparse t slot r; Ok (opt_cons y ys)
      end) in
    let find := (fix find (t : N) (slot : text -> result N) (k : text) (l : list (text * plain)) : result (option value) :=
      match l with
      | [] => Ok None
      | (k', x) :: r =>
        if text_eqb k' k then do s <- slot k'; do v <- read_new t s x; Ok (Some v) else find t slot k r
      end) in
    let slot := fun k => match kind_of s with KStruct ms | KUnion ms => mem ms k | KMap _ v => Ok v | _ => Ok s end in
    match kind_of t with
    | KDocument => Ok (VDoc (new s p))
    | KScalar ty => do x <- as_scalar ty (new s p); Ok (VScalar x)
    | KList sparse m =>
      match p with
      | PList l => do ys <- elements sparse m (match kind_of s with KList _ e => e | _ => s end) l; Ok (VList ys)
      | _ => Err ExpectationNotMet
      end
    | KMap sparse m =>
      match p with
      | PMap l =>
        do _ <- snd (as_map (new s p));
        do ys <- entries sparse m slot l; Ok (VMap ys)
      | _ => Err ExpectationNotMet
      end
    | KStruct ms | KUnion ms =>
      match p with
      | PMap l =>
        do _ <- snd (as_map (new s p));
        do ys <- (fix members (ms : list (text * N)) : result (list (text * value)) :=
                    match ms with
                    | [] => Ok []
                    | (k, m) :: r =>
                      do y <- find m slot k l;
                      do ys <- members r; Ok (opt_cons (option_map (pair k) y) ys)
                    end) ms;
        one_member (kind_of t) ys
      | PNull | PScalar _ | PList _ =>
        match ms with [] => one_member (kind_of t) [] | _ => Err ExpectationNotMet end
      end
    end.
  Fixpoint read_doc (t : N) (d : doc) : result value :=
    let elements := (fix elements (sparse : bool) (t : N) (l : list doc) : result (list value) :=
      match l with
      | [] => Ok []
      | x :: r =>
        do y <- (if is_none x then Ok (if sparse then Some VNull else None) else do v <- read_doc t x; Ok (Some v));
        do ys <- elements sparse t r; Ok (opt_cons y ys)
      end) in
    let entries := (fix entries (sparse : bool) (t : N) (l : list (text * doc)) : result (list (text * value)) :=
      match l with
      | [] => Ok []
      | (k, x) :: r =>
        do y <- (if is_none x then Ok (if sparse then Some (k, VNull) else None) else do v <- read_doc t x; Ok (Some (k, v)));
        do ys <- entries sparse t r; Ok (opt_cons y ys)
      end) in
    let find := (fix find (t : N) (k : text) (l : list (text * doc)) : result (option value) :=
      match l with
      | [] => Ok None
      | (k', x) :: r => if text_eqb k' k then do v <- read_doc t x; Ok (Some v) else find t k r
      end) in
    match d with
    | Doc s INone (Some p) => read_new t s p
    | Doc _ v _ =>
      match kind_of t with
      | KDocument => Ok (VDoc d)
      | KScalar ty => do x <- as_scalar ty d; Ok (VScalar x)
      | KList sparse m =>
        match v with
        | IList l => do ys <- elements sparse m l; Ok (VList ys)
        | _ => Err ExpectationNotMet
        end
      | KMap sparse m =>
        match v with
        | IDict l => do ys <- entries sparse m l; Ok (VMap ys)
        | _ => Err ExpectationNotMet
        end
      | KStruct ms | KUnion ms =>
        match v with
        | IDict l =>
          do ys <- (fix members (ms : list (text * N)) : result (list (text * value)) :=
                      match ms with
                      | [] => Ok []
                      | (k, m) :: r =>
                        do y <- find m k l;
                        do ys <- members r; Ok (opt_cons (option_map (pair k) y) ys)
                      end) ms;
          one_member (kind_of t) ys
        | _ => match ms with [] => one_member (kind_of t) [] | _ => Err ExpectationNotMet end
        end
      end
    end.

  (** ** Two threads that convert structures of scalars at the same time

      [_delegate] of line 511 is shared by all threads.  A member is written in
      three steps: the value is put there (serializers.py line 333), [after] takes
      it out into the result (line 525) and clears it (line 526). *)
  Inductive phase := Put | Take | Clear.
  Record thread := mkThread { t_todo : list (text * scalar); t_phase : phase; t_result : list (text * scalar); t_raised : bool }.
  Definition thread_step (delegate : option scalar) (t : thread) : option scalar * thread :=
    match t_todo t with
    | (k, v) :: rest =>
      if t_raised t then (delegate, t)
      else match t_phase t with
           | Put => (Some v, mkThread (t_todo t) Take (t_result t) false)
           | Take =>
             match delegate with
             | Some w => (delegate, mkThread (t_todo t) Clear (dict_set k w (t_result t)) false)
             | None => (delegate, mkThread (t_todo t) Take (t_result t) true)
             end
           | Clear => (None, mkThread rest Put (t_result t) false)
           end
    | [] => (delegate, t)
    end.
  Definition thread_start (l : list (text * scalar)) : thread := mkThread l Put [] false.
  (** The schedule says whose turn it is. *)
  Fixpoint threads (schedule : list bool) (delegate : option scalar) (a b : thread) : thread * thread :=
    match schedule with
    | [] => (a, b)
    | true :: r => let (d, a') := thread_step delegate a in threads r d a' b
    | false :: r => let (d, b') := thread_step delegate b in threads r d a b'
    end.
End Documents.
