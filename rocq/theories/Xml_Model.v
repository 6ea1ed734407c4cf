(** Reading XML: packages/smithy-xml/src/smithy_xml/_private/readers.py and
    deserializers.py, with the readers that codegen makes for structures, unions, lists
    and maps (StructureGenerator.java, UnionGenerator.java, ListGenerator.java,
    MapGenerator.java). *)
From Verif Require Import Base PyText_Model PyDict_Model PyDecimal_Model Base64_Model HttpVal_Model.
From Verif Require Json_Model Time_Model.
Local Open Scope N_scope.

Definition XMLParseError : exn := OtherErr 70.
Definition StopIteration : exn := OtherErr 71.
(** Not an exception of the code: the bound on the number of steps was too small. *)
Definition OutOfFuel : exn := OtherErr 72.

(** An element of the parser: its tag, its attributes, and the text before its first
    child.  The text is complete when the end event is given, and is looked at only
    then. *)
Record node := mkNode { n_tag : text; n_attrs : list (text * text); n_text : option text }.
(** readers.py lines 9-11; iterparse is asked for these two kinds *)
Inductive event := Start (n : node) | End (n : node).

(** ** Schemas *)

(** A member: its name, xmlName, xmlAttribute, xmlFlattened, timestampFormat, and what
    it targets; structures and unions are known by number, so that they can be
    recursive. *)
Inductive schema := mkSchema (name : text) (xml : option text) (attr flat : bool) (ts : option format) (k : target)
with target :=
| TLeaf (k : kind)
| TStruct (id : nat)
| TUnion (id : nat)
| TList (member : schema)
| TMap (key value : schema)
| TDocument.
Definition m_name (m : schema) : text := let (n, _, _, _, _, _) := m in n.
Definition m_xml (m : schema) : option text := let (_, x, _, _, _, _) := m in x.
Definition m_attr (m : schema) : bool := let (_, _, a, _, _, _) := m in a.
Definition m_flat (m : schema) : bool := let (_, _, _, f, _, _) := m in f.
Definition m_ts (m : schema) : option format := let (_, _, _, _, t, _) := m in t.
Definition m_kind (m : schema) : target := let (_, _, _, _, _, k) := m in k.
(** A structure or a union: the name in its identifier, xmlName, members. *)
Record shape := mkShape { d_name : text; d_xml : option text; d_members : list schema }.

Inductive value :=
| VScalar (v : scalar)
| VStruct (kwargs : list (text * value))
| VUnion (member : text) (v : value)
| VList (l : list value)
| VMap (m : list (text * value)).

(** lines 26-30 *)
Definition local_name (tag : text) : result text :=
  match tag with
  | c :: _ =>
    if c =? 123 then match cut_at 125 tag with (_, Some r) => Ok r | (_, None) => Err IndexError end
    else Ok tag
  | [] => Ok tag
  end.
(** lines 33-39 *)
Definition expected_root_name (d : shape) : text := match d_xml d with Some n => n | None => d_name d end.
(** lines 42-46 *)
Definition validate_element_name (expected : text) (n : node) : result unit :=
  do found <- local_name (n_tag n);
  if text_eqb found expected then Ok tt else Err XMLParseError.
(** lines 49-53 *)
Definition xml_member_name (m : schema) : text := match m_xml m with Some n => n | None => m_name m end.

(** The deserializer, lines 82-97, with its reader.  Looking ahead does not change what
    the reader gives next; a StopIteration is raised where the list is empty.  The cache
    of names, line 86, is left out. *)
Record de := mkDe { rest : list event; is_root : bool; preconsumed : option node }.

Definition pull (d : de) : result (event * de) :=
  match rest d with
  | [] => Err StopIteration
  | e :: r => Ok (e, mkDe r (is_root d) (preconsumed d))
  end.
Definition peek (d : de) : result event := match rest d with [] => Err StopIteration | e :: _ => Ok e end.

(** lines 92-97 *)
Fixpoint wrappers (names : list text) (d : de) : result de :=
  match names with
  | [] => Ok d
  | w :: r =>
    do ed <- pull d;
    match fst ed with
    | End _ => Err XMLParseError
    | Start n => do _ <- validate_element_name w n; wrappers r (mkDe (rest (snd ed)) (is_root (snd ed)) (Some n))
    end
  end.
(** lines 77-97 *)
Definition new_de (events : list event) (names : list text) : result de :=
  wrappers names (mkDe events (match names with [] => true | _ => false end) None).

(** lines 250-263 *)
Definition consume_start (d : de) : result (node * de) :=
  match preconsumed d with
  | Some n => Ok (n, mkDe (rest d) (is_root d) None)
  | None =>
    do ed <- pull d;
    match fst ed with Start n => Ok (n, snd ed) | End _ => Err XMLParseError end
  end.
(** lines 265-273 *)
Fixpoint skip (depth : nat) (l : list event) : result (list event) :=
  match depth with
  | O => Ok l
  | S k =>
    match l with
    | [] => Err StopIteration
    | Start _ :: r => skip (S depth) r
    | End _ :: r => skip k r
    end
  end.
Definition skip_to_end (d : de) : result de :=
  do r <- skip 1 (rest d); Ok (mkDe r (is_root d) (preconsumed d)).
(** lines 275-288, the loop: what it takes and what is left *)
Fixpoint buffer (depth : nat) (l : list event) : result (list event * list event) :=
  match depth with
  | O => Ok ([], l)
  | S k =>
    match l with
    | [] => Err StopIteration
    | Start n :: r => do br <- buffer (S depth) r; Ok (Start n :: fst br, snd br)
    | End n :: r => do br <- buffer k r; Ok (End n :: fst br, snd br)
    end
  end.
(** lines 275-288 *)
Definition buffer_element (d : de) : result (list event * de) :=
  do ed <- pull d;
  do br <- buffer 1 (rest (snd ed));
  Ok (fst ed :: fst br, mkDe (snd br) (is_root d) (preconsumed d)).
(** lines 243-248 *)
Definition read_text (d : de) : result (text * de) :=
  do nd <- consume_start d;
  do d' <- skip_to_end (snd nd);
  Ok (match n_text (fst nd) with Some t => t | None => [] end, d').

Section Read.
  (** [float(text)]; [float(text)] for timestamps; settings.py: the format of timestamps
      and whether the trait counts. *)
  Variable py_float : text -> result float.
  Variable time_float : text -> option Time_Model.float.
  Variable default_format : format.
  Variable use_format : bool.
  Variable shapes : nat -> shape.

  (** lines 56-66, 105-140 *)
  Definition leaf_value (s : schema) (k : kind) (t : text) : result scalar :=
    match k with
    | KBool => if text_eqb t (lit "true") then Ok (HBool true) else if text_eqb t (lit "false") then Ok (HBool false) else Err XMLParseError
    | KBlob => do b <- b64decode t; Ok (HBlob b)
    | KInt => do z <- py_int t; Ok (HInt z)
    | KFloat =>
      if text_eqb t (lit "NaN") then Ok (HFloat FNaN)
      else if text_eqb t (lit "Infinity") then Ok (HFloat FInf)
      else if text_eqb t (lit "-Infinity") then Ok (HFloat FNegInf)
      else do f <- py_float t; Ok (HFloat f)
    | KDecimal => do d <- py_decimal t; Ok (HDecimal d)
    | KText => Ok (HText t)
    | KTime =>
      let format := if use_format then match m_ts s with Some f => f | None => default_format end else default_format in
      do t <- Time_Model.deserialize time_float format (Time_Model.SText t); Ok (HTime t)
    end.
  (** lines 331-380, with the class it is derived from: there is no [read_blob], and
      structures and collections are refused *)
  Definition attribute_value (s : schema) (t : text) : result value :=
    match m_kind s with
    | TLeaf KBlob => Err SmithyErr
    | TLeaf k => do v <- leaf_value s k t; Ok (VScalar v)
    | _ => Err SmithyErr
    end.
  (** The attribute with a local name, lines 163-170. *)
  Fixpoint find_attr (name : text) (l : list (text * text)) : result (option text) :=
    match l with
    | [] => Ok None
    | (k, v) :: r => do n <- local_name k; if text_eqb n name then Ok (Some v) else find_attr name r
    end.

  (** lines 290-301 *)
  Definition xml_names (d : shape) : list (text * schema) :=
    fold_left (fun acc m => if m_attr m then acc else dict_set (xml_member_name m) m acc) (d_members d) [].

  (** The consumer: a structure keeps the last value of each member, a union raises at
      the second. *)
  Definition accept (union : bool) (kwargs : list (text * value)) (m : schema) (v : value) : result (list (text * value)) :=
    if union then match kwargs with [] => Ok [(m_name m, v)] | _ => Err SerializationErr end
    else Ok (dict_set (m_name m) v kwargs).
  Definition finish (union : bool) (kwargs : list (text * value)) : result value :=
    if union then match kwargs with (n, v) :: _ => Ok (VUnion n v) | [] => Err SerializationErr end
    else Ok (VStruct kwargs).
  (** lines 159-170 *)
  Fixpoint attributes (union : bool) (n : node) (ms : list schema) (kwargs : list (text * value)) : result (list (text * value)) :=
    match ms with
    | [] => Ok kwargs
    | m :: r =>
      if m_attr m then
        do a <- find_attr (xml_member_name m) (n_attrs n);
        match a with
        | Some t => do v <- attribute_value m t; do kwargs <- accept union kwargs m v; attributes union n r kwargs
        | None => attributes union n r kwargs
        end
      else attributes union n r kwargs
    end.
  (** [setdefault(tag, []).extend(events)], line 186 *)
  Definition extend (tag : text) (es : list event) (buffers : list (text * list event)) : list (text * list event) :=
    dict_set tag (match dict_get tag buffers with Some l => l ++ es | None => es end) buffers.

  (** [read] is the call the consumer makes for a member; the other functions are the
      loops.  [fuel] bounds the number of steps. *)
  Fixpoint read (fuel : nat) (s : schema) (d : de) {struct fuel} : result (value * de) :=
    match fuel with
    | O => Err OutOfFuel
    | S fuel =>
      match m_kind s with
      | TLeaf k => do td <- read_text d; do v <- leaf_value s k (fst td); Ok (VScalar v, snd td)
      | TDocument => Err NotImplementedErr
      | TStruct id => read_struct fuel false (shapes id) d
      | TUnion id => read_struct fuel true (shapes id) d
      | TList m =>
        (* lines 204-219 *)
        if m_flat s then
          do ld <- read_items fuel true m d; Ok (VList (fst ld), snd ld)
        else
          do nd <- consume_start d;
          do ld <- read_items fuel false m (snd nd);
          do ed <- pull (snd ld);
          Ok (VList (fst ld), snd ed)
      | TMap k m =>
        (* lines 221-241 *)
        let kt := xml_member_name k in
        let vt := xml_member_name m in
        if m_flat s then
          do ld <- read_entries fuel true kt vt m [] d; Ok (VMap (fst ld), snd ld)
        else
          do nd <- consume_start d;
          do ld <- read_entries fuel false kt vt m [] (snd nd);
          do ed <- pull (snd ld);
          Ok (VMap (fst ld), snd ed)
      end
    end
  (** lines 142-202 *)
  with read_struct (fuel : nat) (union : bool) (def : shape) (d : de) {struct fuel} : result (value * de) :=
    match fuel with
    | O => Err OutOfFuel
    | S fuel =>
      let from_wrapper := match preconsumed d with Some _ => true | None => false end in
      do nd <- consume_start d;
      let (n, d) := nd in
      do _ <- (if is_root d then validate_element_name (expected_root_name def) n else Ok tt);
      let d := mkDe (rest d) false (preconsumed d) in
      do kwargs <- (if from_wrapper then Ok [] else attributes union n (d_members def) []);
      do r <- read_members fuel union (xml_names def) kwargs [] d;
      let '(kwargs, buffers, d) := r in
      do ed <- pull d;
      do kwargs <-
        (fix replay (bs : list (text * list event)) (kwargs : list (text * value)) : result (list (text * value)) :=
           match bs with
           | [] => Ok kwargs
           | (tag, es) :: r =>
             match dict_get tag (xml_names def) with
             | None => Err KeyError
             | Some m =>
               do vd <- read fuel m (mkDe es true None);
               do kwargs <- accept union kwargs m (fst vd);
               replay r kwargs
             end
           end) buffers kwargs;
      do v <- finish union kwargs;
      Ok (v, snd ed)
    end
  (** lines 182-192 *)
  with read_members (fuel : nat) (union : bool) (names : list (text * schema)) (kwargs : list (text * value)) (buffers : list (text * list event)) (d : de) {struct fuel}
      : result (list (text * value) * list (text * list event) * de) :=
    match fuel with
    | O => Err OutOfFuel
    | S fuel =>
      do e <- peek d;
      match e with
      | End _ => Ok (kwargs, buffers, d)
      | Start n =>
        do tag <- local_name (n_tag n);
        match dict_get tag names with
        | Some m =>
          if m_flat m then
            do bd <- buffer_element d;
            read_members fuel union names kwargs (extend tag (fst bd) buffers) (snd bd)
          else
            do vd <- read fuel m d;
            do kwargs <- accept union kwargs m (fst vd);
            read_members fuel union names kwargs buffers (snd vd)
        | None =>
          do nd <- consume_start d;
          do d <- skip_to_end (snd nd);
          read_members fuel union names kwargs buffers d
        end
      end
    end
  (** lines 210-216 *)
  with read_items (fuel : nat) (flat : bool) (m : schema) (d : de) {struct fuel} : result (list value * de) :=
    match fuel with
    | O => Err OutOfFuel
    | S fuel =>
      do stop <- (if flat then Ok (match rest d with [] => true | _ => false end)
                  else do e <- peek d; Ok (match e with End _ => true | Start _ => false end));
      if stop : bool then Ok ([], d)
      else
        do vd <- read fuel m d;
        do ld <- read_items fuel flat m (snd vd);
        Ok (fst vd :: fst ld, snd ld)
    end
  (** lines 232-238 *)
  with read_entries (fuel : nat) (flat : bool) (kt vt : text) (m : schema) (acc : list (text * value)) (d : de) {struct fuel} : result (list (text * value) * de) :=
    match fuel with
    | O => Err OutOfFuel
    | S fuel =>
      do stop <- (if flat then Ok (match rest d with [] => true | _ => false end)
                  else do e <- peek d; Ok (match e with End _ => true | Start _ => false end));
      if stop : bool then Ok (acc, d)
      else
        do nd <- consume_start d;
        do ad <- read_entry fuel kt vt m None acc (snd nd);
        do ed <- pull (snd ad);
        read_entries fuel flat kt vt m (fst ad) (snd ed)
    end
  (** lines 312-326 *)
  with read_entry (fuel : nat) (kt vt : text) (m : schema) (key : option text) (acc : list (text * value)) (d : de) {struct fuel} : result (list (text * value) * de) :=
    match fuel with
    | O => Err OutOfFuel
    | S fuel =>
      do e <- peek d;
      match e with
      | End _ => Ok (acc, d)
      | Start n =>
        do tag <- local_name (n_tag n);
        if text_eqb tag kt then
          do td <- read_text d;
          read_entry fuel kt vt m (Some (fst td)) acc (snd td)
        else if text_eqb tag vt then
          match key with
          | None => Err XMLParseError
          | Some k =>
            do vd <- read fuel m d;
            read_entry fuel kt vt m key (dict_set k (fst vd) acc) (snd vd)
          end
        else
          do nd <- consume_start d;
          do d <- skip_to_end (snd nd);
          read_entry fuel kt vt m key acc d
      end
    end.

  (** XMLCodec.create_deserializer, smithy_xml/__init__.py lines 52-65, and reading a
      structure. *)
  Definition deserialize (events : list event) (names : list text) (def : shape) : result value :=
    do d <- new_de events names;
    do vd <- read_struct (4 * List.length events + 4) false def d;
    Ok (fst vd).
End Read.
