(** Errors made from responses: packages/smithy-aws-core/src/smithy_aws_core/utils.py,
    aio/protocols.py, _private/query/errors.py, packages/smithy-http/src/smithy_http/aio/protocols.py
    lines 169-273 and the type registry of smithy_core/documents.py lines 647-696. *)
From Verif Require Import Base PyText_Model PyDict_Model Header_Model Fields_Model HttpVal_Model Shape_Model.
From Verif Require Import Time_Model.
Local Open Scope Z_scope.

(** ** The type registry *)

(** A registered class: its number and whether it is derived from ModeledError. *)
Record shape := mkShape { sh_number : N; sh_modeled : bool }.
(** lines 651-662; identifiers are equal, and hash, by their text (shapes.py lines 77-84) *)
Inductive registry := Registry (types : list (text * shape)) (sub : option registry).
(** lines 664-675 *)
Fixpoint reg_get (id : text) (r : registry) : result shape :=
  match r with
  | Registry types sub =>
    if dict_has id types then match dict_get id types with Some s => Ok s | None => Err KeyError end
    else match sub with Some r' => reg_get id r' | None => Err KeyError end
  end.
(** lines 686-693 *)
Fixpoint reg_has (id : text) (r : registry) : bool :=
  match r with
  | Registry types sub => dict_has id types || match sub with Some r' => reg_has id r' | None => false end
  end.

(** ** Headers *)

(** The fields of a response, by their names in lower case; the names looked up here are
    in lower case already. *)
Definition fields := list (text * field).

(** [int / 1000.0]: the integer is rounded to a float first; a float holds less than
    [2^1024 - 2^970] *)
Definition to_float (n : Z) : result float :=
  if Z.abs n <? 2 ^ 1024 - 2 ^ 970 then Ok (ratio n 1) else Err OverflowError.
Definition fdiv (x : float) (k : Z) : float :=
  if expo x <? 0 then ratio (mant x) (k * 2 ^ (- expo x)) else ratio (mant x * 2 ^ expo x) k.
(** utils.py lines 14-35; int's limit of 4300 digits makes no difference, as such numbers
    are out of the range of floats *)
Definition parse_retry_after (fs : fields) : option float :=
  match dict_get (lit "x-amz-retry-after") fs with
  | None => None
  | Some f =>
    match (do n <- py_int (as_string (f_values f)); do x <- to_float n; Ok (fdiv x 1000)) with
    | Ok x => if mant x <? 0 then None else Some x
    | Err _ => None
    end
  end.

(** utils.py lines 52-63 *)
Definition parse_error_code (code : text) (default_namespace : text) : result (option shape_id) :=
  match code with
  | [] => Ok None
  | _ =>
    let code := fst (cut_at 58 code) in
    if has 35 code then do i <- new_id code; Ok (Some i)
    else if blank code || blank default_namespace then Ok None
    else do i <- Shape_Model.from_parts default_namespace code None; Ok (Some i)
  end.

(** aio/protocols.py lines 101-117 *)
Definition identify (namespace : text) (fs : fields) : result (option shape_id) :=
  match dict_get (lit "x-amzn-errortype") fs with
  | None => Ok None
  | Some f => match f_values f with v :: _ => parse_error_code v namespace | [] => Ok None end
  end.

(** ** Errors *)

Inductive fault := Client | Server.
(** exceptions.py lines 19-55; [ce_shape] is the class of a modeled error *)
Record call_error := mkCall {
  ce_shape : option shape; ce_fault : option fault; ce_safe : option bool;
  ce_after : option float; ce_throttling : bool; ce_timeout : bool }.
Definition with_after (after : option float) (e : call_error) : call_error :=
  match after with
  | Some _ => mkCall (ce_shape e) (ce_fault e) (ce_safe e) after (ce_throttling e) (ce_timeout e)
  | None => e
  end.
(** smithy_http/aio/protocols.py lines 244-255 and errors.py lines 134-145 *)
Definition generic (status : Z) (after : option float) : call_error :=
  let is_timeout := status =? 408 in
  let is_throttle := status =? 429 in
  mkCall None (Some (if status <? 500 then Client else Server))
    (if is_throttle || is_timeout then Some true else None) after is_throttle is_timeout.

(** lines 169-175 *)
Definition is_success (status : Z) : bool := (200 <=? status) && (status <? 300).

Section Errors.
  (** Generated code: reading a modeled error from the response. *)
  Variable read_error : shape -> result call_error.
  Variable reg : registry.

  Definition modeled (id : text) (after : option float) : result call_error :=
    do s <- reg_get id reg;
    if sh_modeled s then do e <- read_error s; Ok (with_after after e)
    else Err ExpectationNotMet.

  (** ** restJson1 *)

  (** What [read_document] gives for a body: maps and strings are told apart from the
      rest. *)
  Inductive jdoc := JMap (m : list (text * jdoc)) | JString (t : text) | JOther.
  (** utils.py lines 38-49 *)
  Definition document_discriminator (d : jdoc) (namespace : text) : result (option shape_id) :=
    match d with
    | JMap m =>
      let code := match dict_get (lit "__type") m with Some c => Some c | None => dict_get (lit "code") m end in
      match code with
      | Some (JString c) => parse_error_code c namespace
      | _ => Ok None
      end
    | _ => Ok None
    end.
  (** aio/protocols.py lines 123-134 *)
  Definition discriminator (d : jdoc) (namespace : text) : result shape_id :=
    do o <- document_discriminator d namespace;
    match o with Some i => Ok i | None => Err (OtherErr 0 (* DiscriminatorError *)) end.
  (** aio/protocols.py lines 175-184 *)
  Fixpoint resolve_error_id (errors : list shape_id) (i : shape_id) : shape_id :=
    match errors with
    | [] => i
    | e :: r => if text_eqb (s_name e) (s_name i) then e else resolve_error_id r i
    end.
  (** lines 270-273 *)
  Definition matches_content_type (fs : fields) : bool :=
    match dict_get (lit "content-type") fs with
    | None => false
    | Some f => text_eqb (as_string (f_values f)) (lit "application/json")
    end.
  (** Lines 177-255: [namespace] is the one of the operation, [service] the one of the
      codec; the body is kept in memory, [document] is what it reads as. *)
  Definition create_error (namespace service : text) (errors : list shape_id) (status : Z) (fs : fields) (document : result jdoc) : result call_error :=
    do id <- identify namespace fs;
    let id := match id with
              | Some i => Some (if reg_has (s_id i) reg then i else resolve_error_id errors i)
              | None => None
              end in
    let after := parse_retry_after fs in
    do id <- match id with
             | None =>
               if matches_content_type fs then
                 do d <- document;
                 do i <- discriminator d service;
                 let i := if reg_has (s_id i) reg then i else resolve_error_id errors i in
                 Ok (if reg_has (s_id i) reg then Some i else None)
               else Ok None
             | Some i => Ok (Some i)
             end;
    match id with
    | Some i => if reg_has (s_id i) reg then modeled (s_id i) after else Ok (generic status after)
    | None => Ok (generic status after)
    end.

  (** lines 131-139: the error raised, [None] if the output is read instead *)
  Definition response_error (namespace service : text) (errors : list shape_id) (status : Z) (fs : fields) (document : result jdoc) : option (result call_error) :=
    if negb (is_success status) then Some (create_error namespace service errors status fs document) else None.

  (** ** awsQuery *)

  (** An element: its tag, its text if any, its children. *)
  Inductive xml := Elem (tag : text) (content : option text) (children : list xml).
  Definition x_tag (x : xml) : text := let (t, _, _) := x in t.
  Definition x_text (x : xml) : option text := let (_, t, _) := x in t.
  Definition x_children (x : xml) : list xml := let (_, _, c) := x in c.
  (** errors.py lines 37-41 *)
  Definition local_name (tag : text) : result text :=
    match tag with
    | c :: _ =>
      if (c =? 123)%N then match cut_at 125 tag with (_, Some r) => Ok r | (_, None) => Err IndexError end
      else Ok tag
    | [] => Ok tag
    end.
  (** lines 44-49 *)
  Fixpoint find_child (name : text) (l : list xml) : result (option xml) :=
    match l with
    | [] => Ok None
    | x :: r => do n <- local_name (x_tag x); if text_eqb n name then Ok (Some x) else find_child name r
    end.
  (** lines 64-71 *)
  Fixpoint descend (wrappers : list text) (x : xml) : result (option text) :=
    match wrappers with
    | [] => do c <- find_child (lit "Code") (x_children x); Ok (match c with Some c => x_text c | None => None end)
    | w :: r => do c <- find_child w (x_children x); match c with Some c => descend r c | None => Ok None end
    end.
  (** lines 52-71; [None] stands for a body that is not XML *)
  Definition parse_code (body : option xml) (wrappers : list text) : result (option text) :=
    match body with
    | None => Ok None
    | Some x =>
      match wrappers with
      | [] => descend [] x
      | w :: r => do n <- local_name (x_tag x); if text_eqb n w then descend r x else Ok None
      end
    end.
  (** lines 74-90; an error of the operation with the code of its awsQueryError trait *)
  Fixpoint by_trait (code : text) (errors : list (shape_id * option text)) : option shape_id :=
    match errors with
    | [] => None
    | (i, Some c) :: r => if text_eqb c code then (if reg_has (s_id i) reg then Some i else None) else by_trait code r
    | (i, None) :: r => by_trait code r
    end.
  Definition resolve_query_id (code : text) (errors : list (shape_id * option text)) (service : text) : result (option shape_id) :=
    match by_trait code errors with
    | Some i => Ok (Some i)
    | None => do i <- Shape_Model.from_parts service code None; Ok (if reg_has (s_id i) reg then Some i else None)
    end.
  (** lines 93-145, aio/protocols.py lines 365-374 and 395-396 *)
  Definition create_query_error (service : text) (errors : list (shape_id * option text)) (status : Z) (fs : fields) (body : option xml) : result call_error :=
    let after := parse_retry_after fs in
    do code <- parse_code body [lit "ErrorResponse"; lit "Error"];
    do id <- match code with Some c => resolve_query_id c errors service | None => Ok None end;
    match id with
    | Some i => modeled (s_id i) after
    | None => Ok (generic status after)
    end.
  (** aio/protocols.py lines 321-331 and 348-354 *)
  Definition query_response_error (service : text) (errors : list (shape_id * option text)) (status : Z) (fs : fields) (body : option xml) : option (result call_error) :=
    if negb (is_success status) then Some (create_query_error service errors status fs body) else None.
End Errors.
