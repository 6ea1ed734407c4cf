(** What the error information of a response is. *)
From Verif Require Import Base RestJsonInfo_Model.
Open Scope N_scope.

Section Spec.
  Variable lower : text -> text.
  Variable loads : bytes -> parsed.

  (** The first field of that name, whatever its case, has that first value. *)
  Definition header_says (fields : list field) (c : text) : Prop :=
    exists before f after v, fields = before ++ f :: after /\ lower (f_name f) = lit "x-amzn-errortype" /\ f_values f = c :: v /\
      Forall (fun g => lower (f_name g) <> lit "x-amzn-errortype") before.
  Definition header_silent (fields : list field) : Prop :=
    header_says fields [] \/ Forall (fun g => lower (f_name g) <> lit "x-amzn-errortype") fields.

  Definition code_name (k : text) : Prop := In (lower k) [lit "__type"; lit "code"].
  Definition message_name (k : text) : Prop := In (lower k) [lit "message"; lit "errormessage"; lit "error_message"].

  (** The first text that is not empty among the entries whose names are meant, nothing
      but empty texts before it; or that there is none. *)
  Definition blank (named : text -> Prop) (l : list (text * jval)) : Prop :=
    forall k v, In (k, v) l -> named k -> v = JStr [].
  Inductive picks (named : text -> Prop) : list (text * jval) -> option text -> Prop :=
  | picks_one before k t after : t <> [] -> named k -> blank named before -> picks named (before ++ (k, JStr t) :: after) (Some t)
  | picks_none l : blank named l -> picks named l None.

  (** The entries of the body that are looked at. *)
  Inductive body_entries : bytes -> bool -> list (text * jval) -> Prop :=
  | entries_unasked b : body_entries b false []
  | entries_empty : body_entries [] true []
  | entries_object b m : b <> [] -> loads b = Parsed (JObj m) -> body_entries b true m
  | entries_other b v : b <> [] -> loads b = Parsed v -> v = JStr [] \/ v = JOther false -> body_entries b true []
  | entries_not_json b : b <> [] -> loads b = NotJson -> body_entries b true [].

  (** Where the code comes from. *)
  Inductive code_source (fields : list field) (m : list (text * jval)) : option text -> Prop :=
  | from_header c : c <> [] -> header_says fields c -> code_source fields m (Some c)
  | from_body o : header_silent fields -> picks code_name m o -> code_source fields m o.

  (** The name of an error in its code: [namespace#Name:uri], where the namespace and
      the URI may be missing. *)
  Definition plain (s : text) : Prop := ~ In 35 s /\ ~ In 58 s.
  Inductive names_error : text -> text -> Prop :=
  | bare n : plain n -> names_error n n
  | with_uri n u : plain n -> names_error (n ++ 58 :: u) n
  | with_namespace a n : plain a -> plain n -> names_error (a ++ 35 :: n) n
  | with_both a n u : plain a -> plain n -> names_error (a ++ 35 :: n ++ 58 :: u) n.
End Spec.
