(** Comparing objects with [==]: headers and header collections, URIs, shape
    identifiers, event messages and documents.  Everything else about these
    objects is in the models of their files. *)
From Verif Require Import Base PyDict_Model.
From Verif Require Fields_Model Http_Model Shape_Model EventStream_Model Doc_Model.
Local Open Scope Z_scope.

(** [a == b] of lists, and of values that may be [None]. *)
Fixpoint list_eqb {A} (eqb : A -> A -> bool) (a b : list A) : bool :=
  match a, b with
  | [], [] => true
  | x :: a', y :: b' => eqb x y && list_eqb eqb a' b'
  | _, _ => false
  end.
Definition opt_eqb {A} (eqb : A -> A -> bool) (a b : option A) : bool :=
  match a, b with None, None => true | Some x, Some y => eqb x y | _, _ => false end.

(** [a == b] of dicts ([dict_equal] of CPython's dictobject.c): as many entries,
    and every entry of the first has its equal under the same key in the second. *)
Definition dict_eqb {A} (eqb : A -> A -> bool) (a b : list (text * A)) : bool :=
  Nat.eqb (List.length a) (List.length b)
  && forallb (fun kv => match dict_get (fst kv) b with Some w => eqb (snd kv) w | None => false end) a.
(** [OrderedDict.__eq__] of two ordered dicts: equal as dicts, and the keys are
    in the same order. *)
Definition odict_eqb {A} (eqb : A -> A -> bool) (a b : list (text * A)) : bool :=
  dict_eqb eqb a b && list_eqb text_eqb (dict_keys a) (dict_keys b).

(** ** Headers
    smithy_http/__init__.py 78-89 and aws_sdk_signers/_http.py 90-101,
    [Field.__eq__] of two fields (anything else is not equal to a field). *)
Definition field_eqb (a b : Fields_Model.field) : bool :=
  text_eqb (Fields_Model.f_name a) (Fields_Model.f_name b)
  && Fields_Model.position_eqb (Fields_Model.f_kind a) (Fields_Model.f_kind b)
  && list_eqb text_eqb (Fields_Model.f_values a) (Fields_Model.f_values b).
(** smithy_http/__init__.py 123-124: the attributes of a [Fields] object, the
    fields by value. *)
Record collection := mkCollection { c_entries : list (text * Fields_Model.field); c_encoding : text }.
(** smithy_http/__init__.py 185-192 and aws_sdk_signers/_http.py 199-206,
    [Fields.__eq__] of two collections; [entries] is an OrderedDict. *)
Definition collection_eqb (a b : collection) : bool :=
  text_eqb (c_encoding a) (c_encoding b) && odict_eqb field_eqb (c_entries a) (c_entries b).

(** ** URIs
    smithy_core/__init__.py 128-140 and aws_sdk_signers/_http.py 305-317,
    [URI.__eq__] of two URIs.  The class is a frozen dataclass (line 30), so
    [hash(uri)] is the hash of the tuple of its attributes, in the order of lines
    34-55; the hash of a tuple is any function of its parts. *)
Definition uri_eqb (a b : Http_Model.uri) : bool :=
  text_eqb (Http_Model.u_scheme a) (Http_Model.u_scheme b)
  && text_eqb (Http_Model.u_host a) (Http_Model.u_host b)
  && opt_eqb N.eqb (Http_Model.u_port a) (Http_Model.u_port b)
  && opt_eqb text_eqb (Http_Model.u_path a) (Http_Model.u_path b)
  && opt_eqb text_eqb (Http_Model.u_query a) (Http_Model.u_query b)
  && opt_eqb text_eqb (Http_Model.u_username a) (Http_Model.u_username b)
  && opt_eqb text_eqb (Http_Model.u_password a) (Http_Model.u_password b)
  && opt_eqb text_eqb (Http_Model.u_fragment a) (Http_Model.u_fragment b).
Definition uri_hash {H} (hash : text * option text * option text * text * option N * option text * option text * option text -> H)
    (u : Http_Model.uri) : H :=
  hash (Http_Model.u_scheme u, Http_Model.u_username u, Http_Model.u_password u, Http_Model.u_host u,
        Http_Model.u_port u, Http_Model.u_path u, Http_Model.u_query u, Http_Model.u_fragment u).

(** ** Shape identifiers
    A shape identifier may be compared with anything.  [AnObject i shown] is an
    object with Python's own comparison and hash, by identity [i], whose [str] is
    [shown]. *)
Inductive object := AnId (x : Shape_Model.shape_id) | AText (t : text) | AnObject (i : nat) (shown : text).
(** [str(x)]; shapes.py 74-75 for an identifier. *)
Definition shown (o : object) : text :=
  match o with AnId x => Shape_Model.s_id x | AText t => t | AnObject _ t => t end.
(** [a == b].  shapes.py 80-81 for an identifier; [str.__eq__] and
    [object.__eq__] give NotImplemented for an identifier on the other side, and
    Python then asks the identifier. *)
Definition object_eqb (a b : object) : bool :=
  match a, b with
  | AnId x, _ => text_eqb (Shape_Model.s_id x) (shown b)
  | _, AnId y => text_eqb (Shape_Model.s_id y) (shown a)
  | AText s, AText t => text_eqb s t
  | AnObject i _, AnObject j _ => Nat.eqb i j
  | _, _ => false
  end.
(** [hash(x)]; shapes.py 83-84 for an identifier. *)
Definition object_hash {H} (of_text : text -> H) (of_object : nat -> H) (o : object) : H :=
  match o with AnId x => of_text (Shape_Model.s_id x) | AText t => of_text t | AnObject i _ => of_object i end.

(** ** Event messages
    [a == b] of header values: Python's numbers are compared as numbers, whatever
    their type ([Byte], [Short] and [Long] only subclass [int], events.py 45-78, and
    [bool] does too).  What a value that no header can hold is equal to plays no
    part: encoding it raises. *)
Definition number_of (v : EventStream_Model.hvalue) : option Z :=
  match v with
  | EventStream_Model.HBool b => Some (if b then 1 else 0)
  | EventStream_Model.HByte z | EventStream_Model.HShort z | EventStream_Model.HInt z | EventStream_Model.HLong z => Some z
  | _ => None
  end.
Definition hvalue_eqb (a b : EventStream_Model.hvalue) : bool :=
  match number_of a, number_of b with
  | Some x, Some y => x =? y
  | _, _ =>
    match a, b with
    | EventStream_Model.HBlob x, EventStream_Model.HBlob y => text_eqb x y
    | EventStream_Model.HString x, EventStream_Model.HString y => text_eqb x y
    | EventStream_Model.HTimestamp x, EventStream_Model.HTimestamp y => x =? y
    | EventStream_Model.HUuid x, EventStream_Model.HUuid y => text_eqb x y
    | _, _ => false
    end
  end.
(** events.py 217-226, [EventMessage.__eq__] of two messages: the three
    comparisons are all made before any of them is looked at. *)
Definition message_eq (a b : EventStream_Model.message) : result bool :=
  let payloads := text_eqb (EventStream_Model.m_payload a) (EventStream_Model.m_payload b) in
  let headers := dict_eqb hvalue_eqb (EventStream_Model.m_headers a) (EventStream_Model.m_headers b) in
  do x <- EventStream_Model.get_headers_bytes (EventStream_Model.m_headers a);
  do y <- EventStream_Model.get_headers_bytes (EventStream_Model.m_headers b);
  Ok (payloads && headers && text_eqb x y).

(** ** Documents *)
Section Documents.
  (** Python's [==] of two numbers of which at least one is a float or a Decimal.
      NaNs, which are not equal to themselves, are left out. *)
  Variable number_eqb : Doc_Model.scalar -> Doc_Model.scalar -> bool.

  Definition is_number (s : Doc_Model.scalar) : bool :=
    match s with
    | Doc_Model.SBool _ | Doc_Model.SInt _ | Doc_Model.SFloat _ | Doc_Model.SDec _ => true
    | _ => false
    end.
  Definition whole (s : Doc_Model.scalar) : option Z :=
    match s with
    | Doc_Model.SBool b => Some (if b then 1 else 0)
    | Doc_Model.SInt z => Some z
    | _ => None
    end.
  (** [a == b] of the scalars of documents.py 24-35. *)
  Definition scalar_eqb (a b : Doc_Model.scalar) : bool :=
    match whole a, whole b with
    | Some x, Some y => x =? y
    | _, _ =>
      if is_number a && is_number b then number_eqb a b
      else match a, b with
           | Doc_Model.SStr x, Doc_Model.SStr y => text_eqb x y
           | Doc_Model.SBytes x, Doc_Model.SBytes y => text_eqb x y
           | Doc_Model.STime x, Doc_Model.STime y => x =? y
           | _, _ => false
           end
    end.
  (** [a == b] of plain values. *)
  Fixpoint plain_eqb (a b : Doc_Model.plain) : bool :=
    match a, b with
    | Doc_Model.PNull, Doc_Model.PNull => true
    | Doc_Model.PScalar x, Doc_Model.PScalar y => scalar_eqb x y
    | Doc_Model.PList l, Doc_Model.PList m =>
      (fix go (l m : list Doc_Model.plain) : bool :=
         match l, m with [], [] => true | x :: l', y :: m' => plain_eqb x y && go l' m' | _, _ => false end) l m
    | Doc_Model.PMap l, Doc_Model.PMap m =>
      Nat.eqb (List.length l) (List.length m)
      && (fix go (l : list (text * Doc_Model.plain)) : bool :=
            match l with
            | [] => true
            | (k, v) :: l' => match dict_get k m with Some w => plain_eqb v w | None => false end && go l'
            end) l
    | _, _ => false
    end.
  (** documents.py 418-424, [Document.__eq__] of two documents: both keep their
      plain values from then on. *)
  Definition document_eq (a b : Doc_Model.doc) : Doc_Model.doc * Doc_Model.doc * bool :=
    let (a', x) := Doc_Model.as_value a in
    let (b', y) := Doc_Model.as_value b in
    (a', b', plain_eqb x y).
End Documents.
