(** Enumerations that take unknown values: packages/smithy-core/src/smithy_core/types.py
    lines 69-124, [UnknownEnumMixin], mixed into the StrEnum and IntEnum classes that
    EnumGenerator.java and IntEnumGenerator.java write, and how Python's [enum] module
    (3.12) calls it. *)
From Verif Require Import Base.

(** A text or a number.  Numbers other than integers are left out. *)
Inductive native := NStr (t : text) | NInt (z : Z).
Definition native_eqb (a b : native) : bool :=
  match a, b with NStr x, NStr y => text_eqb x y | NInt x, NInt y => Z.eqb x y | _, _ => false end.

(** Exactly [str] or [int]; a member or pseudo-member of the n-th class with the mixin;
    or an instance of another subclass of [str] or [int] that compares natively, such as
    a [bool], a [JsonString] or an [http.HTTPStatus]. *)
Inductive kind := Plain | Enum (c : nat) | Subclass.
Record obj := mkObj { o_kind : kind; o_native : native; o_unknown : bool; o_corrected : bool }.
(** A class: whether it is a StrEnum, the values it is declared with and its members. *)
Record cls := mkCls { c_str : bool; c_values : list native; c_members : list nat }.
(** Objects are known by their place in the list: their identity. *)
Record world := mkWorld { objs : list obj; classes : list cls }.
Definition empty_world : world := mkWorld [] [].
Definition get_obj (w : world) (r : nat) : option obj := nth_error (objs w) r.
Definition get_cls (w : world) (c : nat) : option cls := nth_error (classes w) c.
Definition alloc (o : obj) (w : world) : world * nat := (mkWorld (objs w ++ [o]) (classes w), List.length (objs w)).

Definition has_type (str : bool) (v : native) : bool := match v with NStr _ => str | NInt _ => negb str end.

(** lines 109-112, [__eq__] of a member; [r] and [s] are the identities *)
Definition mixin_eq (r s : nat) (a b : obj) : bool :=
  if o_corrected a || o_corrected b then Nat.eqb r s else native_eqb (o_native a) (o_native b).
(** [a == b]: where the right operand is of a subclass of the type of the left one that
    has its own comparison, it is asked first. *)
Definition py_eq (r s : nat) (a b : obj) : bool :=
  match o_kind a, o_kind b with
  | Enum _, _ => mixin_eq r s a b
  | Plain, Enum _ => mixin_eq s r b a
  | _, _ => native_eqb (o_native a) (o_native b)
  end.
(** lines 114-116, [a != b] *)
Definition py_ne (r s : nat) (a b : obj) : bool := negb (py_eq r s a b).

(** EnumType: the members of a class, one for every new value; a value that was there
    before makes an alias. *)
Fixpoint make_members (c : nat) (values : list native) (done : list (native * nat)) (w : world) : world * list (native * nat) :=
  match values with
  | [] => (w, done)
  | v :: l =>
    if existsb (fun p => native_eqb (fst p) v) done then make_members c l done w
    else let (w1, r) := alloc (mkObj (Enum c) v false false) w in make_members c l (done ++ [(v, r)]) w1
  end.
Definition define (str : bool) (values : list native) (w : world) : world * result nat :=
  if forallb (has_type str) values then
    let c := List.length (classes w) in
    let (w1, ms) := make_members c values [] w in
    (mkWorld (objs w1) (classes w1 ++ [mkCls str values (map snd ms)]), Ok c)
  else (w, Err TypeError).

(** lines 88-95, [_unknown], and 97-101, [_corrected].  The generated code gives
    [_corrected] a value of the type of the class (the empty text or -1); what other
    values would be converted to is left out: here they are a TypeError. *)
Definition unknown (c : nat) (v : native) (w : world) : world * nat := alloc (mkObj (Enum c) v true false) w.
Definition corrected (c : nat) (v : native) (w : world) : world * result nat :=
  match get_cls w c with
  | None => (w, Err AttributeError)
  | Some k => if has_type (c_str k) v then let (w1, r) := alloc (mkObj (Enum c) v true true) w in (w1, Ok r) else (w, Err TypeError)
  end.

(** [_value2member_map_[value]]: the values of the members are plain; a value of another
    hash is not compared, which would be unequal anyway *)
Fixpoint find_member (w : world) (b : obj) (members : list nat) : option nat :=
  match members with
  | [] => None
  | m :: l =>
    match get_obj w m with
    | Some o =>
      (* the key is no object of its own: its identity is that of no placeholder *)
      if match o_kind b with
         | Enum _ => if o_corrected b then false else native_eqb (o_native b) (o_native o)
         | _ => native_eqb (o_native o) (o_native b)
         end
      then Some m else find_member w b l
    | None => find_member w b l
    end
  end.

(** [C(value)]: enum.py 753-763 and 1129-1183, types.py 103-107, [_missing_] *)
Definition kind_is (k : kind) (c : nat) : bool := match k with Enum d => Nat.eqb d c | _ => false end.
Definition call (c : nat) (s : nat) (w : world) : world * result nat :=
  match get_cls w c, get_obj w s with
  | Some k, Some b =>
    match c_members k with
    | [] => (w, Err TypeError)
    | _ =>
      if kind_is (o_kind b) c then (w, Ok s)
      else
        match find_member w b (c_members k) with
        | Some m => (w, Ok m)
        | None =>
          if has_type (c_str k) (o_native b) then let (w1, r) := unknown c (o_native b) w in (w1, Ok r)
          else (w, Err ValueError)
        end
    end
  | _, _ => (w, Err AttributeError)
  end.

(** lines 118-119, [__hash__]: that of the text or number, [h] *)
Definition py_hash {H : Type} (h : native -> H) (o : obj) : H := h (o_native o).
(** lines 121-124, [is_unknown] *)
Definition is_unknown (o : obj) : bool := o_unknown o.

(** [copy.copy] and [copy.deepcopy] give the object itself; unpickling calls the class
    with the value (enum.py, [Enum.__reduce_ex__]). *)
Definition unpickled (c : nat) (s : nat) (w : world) : world * result nat :=
  match get_obj w s with
  | Some b => let (w1, r) := alloc (mkObj Plain (o_native b) false false) w in call c r w1
  | None => (w, Err AttributeError)
  end.

(** ** Histories *)
Inductive op :=
| Literal (k : kind) (v : native)        (* a text or number of the program, not of a class with the mixin *)
| Define (str : bool) (values : list native)
| Call (c s : nat)
| Corrected (c : nat) (v : native)
| Unpickled (c s : nat).
Definition step (o : op) (w : world) : world * result nat :=
  match o with
  | Literal (Enum _) _ => (w, Err TypeError)
  | Literal k v => let (w1, r) := alloc (mkObj k v false false) w in (w1, Ok r)
  | Define str values => define str values w
  | Call c s => call c s w
  | Corrected c v => corrected c v w
  | Unpickled c s => unpickled c s w
  end.
Fixpoint run (l : list op) (w : world) : world :=
  match l with [] => w | o :: r => run r (fst (step o w)) end.
