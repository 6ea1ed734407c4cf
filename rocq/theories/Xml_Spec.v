(** What an XML document holds for a schema: over trees of elements, not over events. *)
From Verif Require Import Base PyDict_Model HttpVal_Model Xml_Model.
From Verif Require Time_Model.
Local Open Scope N_scope.

Inductive xml := Elem (n : node) (children : list xml).
Definition root_node (x : xml) : node := let (n, _) := x in n.
(** The events of a document: the start of each element, its children, its end. *)
Fixpoint events (x : xml) : list event :=
  let (n, ch) := x in Start n :: flat_map events ch ++ [End n].

(** The name of an element without its namespace. *)
Inductive tag_name : text -> text -> Prop :=
| T_plain t : hd 0 t <> 123 -> tag_name t t
| T_qualified ns t : ~ In 125 ns -> tag_name (123 :: ns ++ 125 :: t) t.
Definition named (name : text) (x : xml) : Prop := tag_name (n_tag (root_node x)) name.
(** Tags and attributes as a parser gives them. *)
Inductive proper : xml -> Prop :=
| Proper n ch : (exists t, tag_name (n_tag n) t) -> (forall k v, In (k, v) (n_attrs n) -> exists t, tag_name k t) ->
    (forall c, In c ch -> proper c) -> proper (Elem n ch).

(** The name a member has in XML, and the one a structure has as a root. *)
Definition wire_name (m : schema) : text := match m_xml m with Some n => n | None => m_name m end.
Definition shape_name (d : shape) : text := match d_xml d with Some n => n | None => d_name d end.
Definition full_text (x : xml) : text := match n_text (root_node x) with Some t => t | None => [] end.

(** The children of a name, in order. *)
Inductive occurrences (name : text) : list xml -> list xml -> Prop :=
| O_nil : occurrences name [] []
| O_take c r l : named name c -> occurrences name r l -> occurrences name (c :: r) (c :: l)
| O_skip c r l : ~ named name c -> occurrences name r l -> occurrences name (c :: r) l.

(** The last value of each member. *)
Definition gather (calls : list (text * value)) : list (text * value) := fold_left (fun d kv => dict_set (fst kv) (snd kv) d) calls [].

(** ** Attributes *)
Inductive attribute (name : text) : list (text * text) -> text -> Prop :=
| A_here k v r : tag_name k name -> attribute name ((k, v) :: r) v
| A_later k v r t : ~ tag_name k name -> attribute name r t -> attribute name ((k, v) :: r) t.

Section Spec.
  (** The value of a text, and the structures. *)
  Variable leaf : schema -> kind -> text -> scalar -> Prop.
  Variable shapes : nat -> shape.

  (** The members that are attributes, in the order of the schema. *)
  Inductive from_attributes (n : node) : list schema -> list (text * value) -> Prop :=
  | FA_nil : from_attributes n [] []
  | FA_some m r l k t v : m_attr m = true -> attribute (wire_name m) (n_attrs n) t -> m_kind m = TLeaf k -> k <> KBlob -> leaf m k t v ->
      from_attributes n r l -> from_attributes n (m :: r) ((m_name m, VScalar v) :: l)
  | FA_none m r l : (m_attr m = true -> forall t, ~ attribute (wire_name m) (n_attrs n) t) ->
      from_attributes n r l -> from_attributes n (m :: r) l.

  Definition element (m : schema) (ms : list schema) : Prop := In m ms /\ m_attr m = false.

  Inductive reads : schema -> xml -> value -> Prop :=
  | R_leaf s x k v : m_kind s = TLeaf k -> leaf s k (full_text x) v -> reads s x (VScalar v)
  | R_list s n ch m vs : m_kind s = TList m -> m_flat s = false -> each m ch vs -> reads s (Elem n ch) (VList vs)
  | R_map s n ch k m ps : m_kind s = TMap k m -> m_flat s = false -> entries k m ch ps -> reads s (Elem n ch) (VMap (gather ps))
  | R_struct s n ch id calls : m_kind s = TStruct id -> delivers n (shapes id) ch calls -> reads s (Elem n ch) (VStruct (gather calls))
  | R_union s n ch id m v : m_kind s = TUnion id -> delivers n (shapes id) ch [(m, v)] -> reads s (Elem n ch) (VUnion m v)
  (** All of them, one value each. *)
  with each : schema -> list xml -> list value -> Prop :=
  | E_nil m : each m [] []
  | E_cons m x r v l : reads m x v -> each m r l -> each m (x :: r) (v :: l)
  (** Entries of a map. *)
  with entries : schema -> schema -> list xml -> list (text * value) -> Prop :=
  | N_nil k m : entries k m [] []
  | N_cons k m n ch r ps l : pairs k m None ch ps -> entries k m r l -> entries k m (Elem n ch :: r) (ps ++ l)
  (** The pairs in an entry: a value goes with the last key before it. *)
  with pairs : schema -> schema -> option text -> list xml -> list (text * value) -> Prop :=
  | P_nil k m key : pairs k m key [] []
  | P_key k m key c r l : named (wire_name k) c -> pairs k m (Some (full_text c)) r l -> pairs k m key (c :: r) l
  | P_value k m key c r v l : ~ named (wire_name k) c -> named (wire_name m) c -> reads m c v ->
      pairs k m (Some key) r l -> pairs k m (Some key) (c :: r) ((key, v) :: l)
  | P_other k m key c r l : ~ named (wire_name k) c -> ~ named (wire_name m) c -> pairs k m key r l -> pairs k m key (c :: r) l
  (** What the members of a structure get: from the attributes, from the elements in
      order, then the flattened members. *)
  with delivers : node -> shape -> list xml -> list (text * value) -> Prop :=
  | D_all n d ch l1 l2 l3 : from_attributes n (d_members d) l1 -> single (d_members d) ch l2 -> regrouped (d_members d) ch [] ch l3 ->
      delivers n d ch (l1 ++ l2 ++ l3)
  (** The members that are not flattened; other elements are passed over, whatever they
      hold. *)
  with single : list schema -> list xml -> list (text * value) -> Prop :=
  | S_nil ms : single ms [] []
  | S_member ms c r m v l : element m ms -> m_flat m = false -> named (wire_name m) c -> reads m c v ->
      single ms r l -> single ms (c :: r) ((m_name m, v) :: l)
  | S_other ms c r l : (forall m, element m ms -> m_flat m = false -> ~ named (wire_name m) c) ->
      single ms r l -> single ms (c :: r) l
  (** The flattened members, each one once, in the order in which they first appear:
      it gets all elements of its name, in order. *)
  with regrouped : list schema -> list xml -> list text -> list xml -> list (text * value) -> Prop :=
  | G_nil ms all done : regrouped ms all done [] []
  | G_first ms all done c r m items v l : element m ms -> m_flat m = true -> named (wire_name m) c -> ~ In (wire_name m) done ->
      occurrences (wire_name m) all items -> together m items v -> regrouped ms all (wire_name m :: done) r l ->
      regrouped ms all done (c :: r) ((m_name m, v) :: l)
  | G_other ms all done c r l : (forall m, element m ms -> m_flat m = true -> named (wire_name m) c -> In (wire_name m) done) ->
      regrouped ms all done r l -> regrouped ms all done (c :: r) l
  (** A flattened list or map. *)
  with together : schema -> list xml -> value -> Prop :=
  | F_list s m items vs : m_kind s = TList m -> each m items vs -> together s items (VList vs)
  | F_map s k m items ps : m_kind s = TMap k m -> entries k m items ps -> together s items (VMap (gather ps)).

  (** ** Schemas that are read in full *)

  (** No structure in it. *)
  Fixpoint simple (s : schema) : Prop :=
    let (_, _, _, _, _, k) := s in
    match k with
    | TLeaf _ | TDocument => True
    | TStruct _ | TUnion _ => False
    | TList m => simple m
    | TMap _ m => simple m
    end.
  Fixpoint unflattened (s : schema) : Prop :=
    let (_, _, _, _, _, k) := s in
    match k with
    | TList m => m_flat m = false /\ unflattened m
    | TMap _ m => m_flat m = false /\ unflattened m
    | _ => True
    end.
  (** A structure that has that name as a root. *)
  Definition has_name (s : schema) (name : text) : Prop :=
    exists id, (m_kind s = TStruct id \/ m_kind s = TUnion id) /\ shape_name (shapes id) = name.
  (** The items of a flattened member can be read: there are no structures in them, or
      they are structures and their element has the name of the structure. *)
  Definition replayable (m : schema) : Prop :=
    match m_kind m with
    | TList i => simple i \/ has_name i (wire_name m)
    | TMap _ v => simple v \/ has_name v (wire_name v)
    | _ => False
    end.
  Record readable (d : shape) : Prop := {
    r_names : NoDup (map wire_name (filter (fun m => negb (m_attr m)) (d_members d)));
    r_members : forall m, In m (d_members d) -> unflattened m;
    r_flat : forall m, In m (d_members d) -> m_flat m = true -> replayable m }.
End Spec.
