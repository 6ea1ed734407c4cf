(** Schemas: packages/smithy-core/src/smithy_core/schemas.py lines 23-271 and the
    traits of traits.py lines 22-92.  A schema is an object with an identity; its
    dictionary of members is an object too, which a member shares with its target. *)
From Verif Require Import Base PyText_Model PyDict_Model PySort_Model Shape_Model.

(** A trait of no known class, or one of the class registered for its identifier,
    with its value.  Two classes of the same identifier are not told apart. *)
Inductive trait := Dynamic (id : text) (v : N) | Known (id : text) (v : N).
Definition trait_id (t : trait) : text := match t with Dynamic i _ | Known i _ => i end.
Definition trait_value (t : trait) : N := match t with Dynamic _ v | Known _ v => v end.

Record schema := mkSchema {
  sc_id : shape_id; sc_type : N; sc_traits : list (text * trait); sc_members : nat; sc_target : option nat; sc_index : option Z }.
(** The schemas, the dictionaries of members. *)
Record heap := mkHeap { objs : list schema; dicts : list (list (text * option nat)) }.
Definition empty_heap : heap := mkHeap [] [].

Definition alloc (s : schema) (h : heap) : heap * result nat := (mkHeap (objs h ++ [s]) (dicts h), Ok (List.length (objs h))).
Definition alloc_dict (d : list (text * option nat)) (h : heap) : heap * nat :=
  (mkHeap (objs h) (dicts h ++ [d]), List.length (dicts h)).
Definition get_obj (h : heap) (n : nat) : option schema := nth_error (objs h) n.
Definition get_dict (h : heap) (n : nat) : list (text * option nat) := nth n (dicts h) [].
Fixpoint set_nth {A} (n : nat) (x : A) (l : list A) : list A :=
  match l, n with
  | [], _ => []
  | _ :: r, O => x :: r
  | y :: r, S m => y :: set_nth m x r
  end.

(** [{t.id: t for t in traits}]. *)
Definition trait_dict (l : list trait) : list (text * trait) := fold_left (fun d t => dict_set (trait_id t) t d) l [].
(** [d.update(e)]. *)
Definition dict_update {A} (d e : list (text * A)) : list (text * A) := fold_left (fun d kv => dict_set (fst kv) (snd kv) d) e d.

Definition is_some {A} (o : option A) : bool := match o with Some _ => true | None => false end.
(** What is given for the members: nothing, a list of schemas or a dictionary. *)
Inductive members_arg := MNone | MList (l : list nat) | MDict (d : nat).

(** lines 103-109 and 126-136: the name and the index of a member *)
Definition expect_index (h : heap) (n : nat) : result Z :=
  match get_obj h n with
  | Some s => match sc_index s with Some i => Ok i | None => Err ExpectationNotMet end
  | None => Err AttributeError
  end.
Definition expect_name (h : heap) (n : nat) : result text :=
  match get_obj h n with
  | Some s => expect_member (sc_id s)
  | None => Err AttributeError
  end.
Fixpoint map_result {A B} (f : A -> result B) (l : list A) : result (list B) :=
  match l with
  | [] => Ok []
  | x :: r => do y <- f x; do ys <- map_result f r; Ok (y :: ys)
  end.
(** lines 83-90 *)
Definition keyed (h : heap) (n : nat) : result (Z * nat) := do i <- expect_index h n; Ok (i, n).
Definition by_index (a b : Z * nat) : bool := Z.leb (fst a) (fst b).
Definition named (h : heap) (k : Z * nat) : result (text * nat) := do w <- expect_name h (snd k); Ok (w, snd k).
Definition member_dict (h : heap) (l : list nat) : result (list (text * option nat)) :=
  do ks <- map_result (keyed h) l;
  do ns <- map_result (named h) (sorted by_index ks);
  Ok (fold_left (fun d (kv : text * nat) => dict_set (fst kv) (Some (snd kv)) d) ns []).

(** lines 36-96: the constructor; a dictionary of traits is taken to be the
    caller's no longer. *)
Definition new_schema (id : shape_id) (ty : N) (traits : list (text * trait)) (members : members_arg)
    (target : option nat) (index : option Z) (h : heap) : heap * result nat :=
  let props := [is_some (s_member id); is_some target; is_some index] in
  if existsb (fun b => b) props && negb (forallb (fun b => b) props) then (h, Err SmithyErr)
  else
    match members with
    | MDict d => alloc (mkSchema id ty traits d target index) h
    | MNone => let (h1, d) := alloc_dict [] h in alloc (mkSchema id ty traits d target index) h1
    | MList l =>
      match member_dict h l with
      | Err e => (h, Err e)
      | Ok m => let (h1, d) := alloc_dict m h in alloc (mkSchema id ty traits d target index) h1
      end
    end.

(** lines 240-271 *)
Definition member (id : shape_id) (target : nat) (index : Z) (own : list trait) (h : heap) : heap * result nat :=
  match expect_member id with
  | Err e => (h, Err e)
  | Ok _ =>
    match get_obj h target with
    | None => (h, Err AttributeError)
    | Some t =>
      if is_some (sc_target t) then (h, Err ExpectationNotMet)
      else new_schema id (sc_type t) (dict_update (sc_traits t) (trait_dict own)) (MDict (sc_members t)) (Some target) (Some index) h
    end
  end.

(** lines 218-230: one member after the other; a member may be left to be set later *)
Definition member_spec : Type := option (nat * list trait).
Fixpoint make_members (id : shape_id) (i : Z) (l : list (text * member_spec)) (d : list (text * option nat)) (h : heap)
    : heap * result (list (text * option nat)) :=
  match l with
  | [] => (h, Ok d)
  | (k, None) :: r => make_members id (i + 1) r (dict_set k None d) h
  | (k, Some (target, own)) :: r =>
    match with_member id k with
    | Err e => (h, Err e)
    | Ok mid =>
      match member mid target i own h with
      | (h1, Err e) => (h1, Err e)
      | (h1, Ok n) => make_members id (i + 1) r (dict_set k (Some n) d) h1
      end
    end
  end.
(** lines 195-238 *)
Definition collection (id : shape_id) (ty : N) (traits : list trait) (members : list (text * member_spec)) (h : heap) : heap * result nat :=
  match make_members id 0 members [] h with
  | (h1, Err e) => (h1, Err e)
  | (h1, Ok d) => let (h2, r) := alloc_dict d h1 in new_schema id ty (trait_dict traits) (MDict r) None None h2
  end.

Section Traits.
  (** Whether the class of a trait takes that value, traits.py lines 62-78 and the
      constructors of its subclasses. *)
  Variable accepts : text -> N -> bool.

  (** lines 144-161 with an identifier *)
  Definition get_trait_by_id (n : nat) (id : text) (h : heap) : option trait :=
    match get_obj h n with Some s => dict_get id (sc_traits s) | None => None end.
  (** lines 144-161 with a class: a trait of no known class becomes one of this class *)
  Definition get_trait (n : nat) (id : text) (h : heap) : heap * result (option trait) :=
    match get_obj h n with
    | None => (h, Err AttributeError)
    | Some s =>
      match dict_get id (sc_traits s) with
      | Some (Dynamic i v) =>
        if negb (text_eqb i id) then (h, Err ValueError)
        else if accepts i v then
          (mkHeap (set_nth n (mkSchema (sc_id s) (sc_type s) (dict_set id (Known i v) (sc_traits s)) (sc_members s) (sc_target s) (sc_index s)) (objs h))
                  (dicts h), Ok (Some (Known i v)))
        else (h, Err AssertionError)
      | other => (h, Ok other)
      end
    end.
  (** lines 169-175 *)
  Definition expect_trait (n : nat) (id : text) (h : heap) : result trait :=
    match get_trait_by_id n id h with Some t => Ok t | None => Err KeyError end.

  (** lines 177-193 *)
  Inductive item := ITrait (id : text) | IShape (id : shape_id) | IName (k : text).
  Definition contains (n : nat) (it : item) (h : heap) : bool :=
    match get_obj h n with
    | None => false
    | Some s =>
      match it with
      | ITrait id => dict_has id (sc_traits s)
      | IShape x =>
        match s_member x with
        | Some m =>
          match with_member (sc_id s) m with
          | Ok y => if id_eqb y (s_id x) then dict_has m (get_dict h (sc_members s)) else false
          | Err _ => false
          end
        | None => dict_has (s_id x) (sc_traits s)
        end
      | IName k => dict_has k (get_dict h (sc_members s))
      end
    end.

  (** ** Histories *)
  Inductive op :=
  | New (id : shape_id) (ty : N) (traits : list trait) (members : members_arg) (target : option nat) (index : option Z)
  | Collection (id : shape_id) (ty : N) (traits : list trait) (members : list (text * member_spec))
  | Member (id : shape_id) (target : nat) (index : Z) (own : list trait)
  | GetTrait (n : nat) (id : text)
  | Populate (n : nat) (k : text) (m : nat).   (* schema.members[k] = member *)
  Inductive answer := ARef (r : result nat) | ATrait (r : result (option trait)) | ADone.
  Definition step (o : op) (h : heap) : heap * answer :=
    match o with
    | New id ty traits ms target index => let (h1, r) := new_schema id ty (trait_dict traits) ms target index h in (h1, ARef r)
    | Collection id ty traits ms => let (h1, r) := collection id ty traits ms h in (h1, ARef r)
    | Member id target index own => let (h1, r) := member id target index own h in (h1, ARef r)
    | GetTrait n id => let (h1, r) := get_trait n id h in (h1, ATrait r)
    | Populate n k m =>
      match get_obj h n with
      | Some s => (mkHeap (objs h) (set_nth (sc_members s) (dict_set k (Some m) (get_dict h (sc_members s))) (dicts h)), ADone)
      | None => (h, ADone)
      end
    end.
  Fixpoint run (ops : list op) (h : heap) : heap :=
    match ops with
    | [] => h
    | o :: r => run r (fst (step o h))
    end.
End Traits.
