(** JSON documents converted to shapes: smithy_json/_private/documents.py lines
    19-117 and smithy_core/documents.py lines 58-262, 348-350 and 567-644.
    Modelled: a document as [read_document] makes it, of schema DOCUMENT.  The
    documents in it have that schema too (core lines 215-249), hence all that is
    read of it depends on its JSON value.  Left out: documents with the schema of
    a shape, and assignment. *)
From Verif Require Import Base PyDict_Model PyDecimal_Model Base64_Model Json_Model.
Local Open Scope N_scope.

Section Documents.
  Variable env : N -> node.
  (** [JSONSettings.default_timestamp_format]; the trait of the schema is looked
      up on the document's schema (lines 50-53), which has none. *)
  Variable default : tformat.
  Variable ts_de : tformat -> tstext -> result Z.
  Variable float_of : decimal -> float.

  (** lines 55-65: a bool is an int *)
  Definition as_timestamp (trait : option tformat) (p : plain) : result value :=
    let de x := match ts_de default x with Ok t => Ok (VTime trait t) | Err e => Err e end in
    match p with
    | PBool b => de (TNum (FFin (decimal_of_Z (if b then 1 else 0))))
    | PInt z => de (TNum (FFin (decimal_of_Z z)))
    | PStr s => de (TText s)
    | PDec d => de (TNum (float_of d))
    | _ => Err (OtherErr 0)
    end.
  (** core lines 155-157 *)
  Definition is_none (p : plain) : bool := match p with PNull => true | _ => false end.

  (** core lines 583-585: [as_map().get(member_name)] for each member of the
      schema; what is found is read by its target into the keyword arguments. *)
  Fixpoint read_members (kids : list (text * (N -> result value))) (ms : list member) (acc : list (text * value))
    : result (list (text * value)) :=
    match ms with
    | [] => Ok acc
    | m :: r =>
      match dict_get (m_name m) kids with
      | None => read_members kids r acc
      | Some f => do v <- f (m_target m); read_members kids r (dict_set (m_name m) v acc)
      end
    end.
  (** core lines 591-592 with what generated code does to each element, as in
      [Json_Model.read_shape]; an element comes with whether it is null. *)
  Fixpoint read_items (sparse : bool) (l : list (bool * result value)) : result (list value) :=
    match l with
    | [] => Ok []
    | (null, v) :: r =>
      if null : bool then do vs <- read_items sparse r; Ok (if sparse then VNull :: vs else vs)
      else do x <- v; do vs <- read_items sparse r; Ok (x :: vs)
    end.
  (** core lines 600-601 *)
  Fixpoint read_entries (sparse : bool) (l : list (text * (bool * result value))) (acc : list (text * value))
    : result (list (text * value)) :=
    match l with
    | [] => Ok acc
    | (k, (null, v)) :: r =>
      if null : bool then read_entries sparse r (if sparse then dict_set k VNull acc else acc)
      else do x <- v; read_entries sparse r (dict_set k x acc)
    end.

  (** lines 41-65; core lines 155-249 and 567-644: [Document.as_shape].  A
      structure without members asks nothing of its document. *)
  Fixpoint as_shape (p : plain) (n : N) {struct p} : result value :=
    match env n with
    | NBool => match p with PBool b => Ok (VBool b) | _ => Err ExpectationNotMet end
    | NInt => match p with PInt z => Ok (VInt z) | _ => Err ExpectationNotMet end
    | NFloat => match p with PDec d => Ok (VFloat (float_of d)) | _ => Err ExpectationNotMet end
    | NDecimal => match p with PDec d => Ok (VDecimal (BFin d)) | _ => Err ExpectationNotMet end
    | NStr => match p with PStr s => Ok (VStr s) | _ => Err ExpectationNotMet end
    | NBlob => match p with
               | PStr s => match b64decode s with Ok bs => Ok (VBlob bs) | Err e => Err e end
               | _ => Err ExpectationNotMet
               end
    | NTime trait => as_timestamp trait p
    | NDoc => Ok (VDoc p)
    | NStruct ms =>
      match p with
      | PDict l =>
        do kw <- read_members (map (fun kv : text * plain => let (k, x) := kv in (k, as_shape x)) l) ms [];
        Ok (VStruct n kw)
      | _ => match ms with [] => Ok (VStruct n []) | _ => Err ExpectationNotMet end
      end
    | NList sparse t =>
      match p with
      | PList l => do vs <- read_items sparse (map (fun x => (is_none x, as_shape x t)) l); Ok (VList vs)
      | _ => Err ExpectationNotMet
      end
    | NMap sparse t =>
      match p with
      | PDict l =>
        do kvs <- read_entries sparse (map (fun kv : text * plain => let (k, x) := kv in (k, (is_none x, as_shape x t))) l) [];
        Ok (VMap kvs)
      | _ => Err ExpectationNotMet
      end
    end.

  (** lines 67-98: the type of the document is that of its value, core lines
      107-127. *)
  Fixpoint as_value (p : plain) : plain :=
    match p with
    | PList l => PList (map as_value l)
    | PDict l => PDict (map (fun kv : text * plain => let (k, x) := kv in (k, as_value x)) l)
    | _ => p
    end.
End Documents.
