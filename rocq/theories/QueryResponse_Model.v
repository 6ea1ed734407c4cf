(** From a response of the awsQuery protocol to the outcome of the call:
    P = packages/smithy-aws-core/src/smithy_aws_core/aio/protocols.py,
    E = _private/query/errors.py, H = packages/smithy-http/src/smithy_http/aio/__init__.py. *)
From Verif Require Import Base Fields_Model HttpVal_Model.
From Verif Require Transport_Model HttpBind_Model Xml_Model Errors_Model ResponseWire_Model Time_Model Shape_Model PyDecimal_Model.
Local Open Scope N_scope.

(** What is asked of an operation: its name, its output as XML sees it and as the bindings
    of HTTP see it, and its errors with the codes of their awsQueryError traits. *)
Record operation := mkOp {
  op_name : text;
  op_output : Xml_Model.shape;
  op_bound : list HttpBind_Model.member;
  op_errors : list (Shape_Model.shape_id * option text) }.

(** What a call ends with: an output read from XML, one read from a response without a
    body, or an error. *)
Inductive answer :=
| Output (o : result Xml_Model.value)
| Bare (o : result (list (nat * HttpBind_Model.value)))
| Failure (e : result Errors_Model.call_error).

(** P 382-393, [_response_wrapper_elements] *)
Definition response_wrapper_elements (o : operation) : list text :=
  match Xml_Model.d_members (op_output o) with
  | [] => [op_name o ++ lit "Response"]
  | _ => [op_name o ++ lit "Response"; op_name o ++ lit "Result"]
  end.
(** P 395-396 *)
Definition error_wrapper_elements : list text := [lit "ErrorResponse"; lit "Error"].

Section Answer.
  (** ElementTree: the events of [iterparse] up to where it stops or fails, and the element
      of [fromstring], if there is one. *)
  Variable iterparse : bytes -> list Xml_Model.event.
  Variable fromstring : bytes -> option Errors_Model.xml.
  (** As in Xml_Model, HttpBind_Model and Errors_Model. *)
  Variable py_float : text -> result float.
  Variable time_float : text -> option Time_Model.float.
  Variable default_format : format.
  Variable use_format : bool.
  Variable shapes : nat -> Xml_Model.shape.
  Variable nearest : PyDecimal_Model.decimal -> float.
  Variable lower : text -> text.
  Variable decode_value : nat -> bytes -> result HttpBind_Model.value.
  Variable decode_struct : bytes -> result (list (nat * HttpBind_Model.value)).
  Variable reg : Errors_Model.registry.
  (** Generated code: the schema of an error and its constructor. *)
  Variable error_schema : Errors_Model.shape -> Xml_Model.shape.
  Variable construct : Errors_Model.shape -> Xml_Model.value -> result Errors_Model.call_error.

  (** E 122-125 *)
  Definition read_error (body : bytes) (s : Errors_Model.shape) : result Errors_Model.call_error :=
    do v <- Xml_Model.deserialize py_float time_float default_format use_format shapes (iterparse body) error_wrapper_elements (error_schema s);
    construct s v.

  (** P 310-354, [deserialize_response], of the response a client of ResponseWire_Model
      made, with [consume_body_async], H 47-49 *)
  Definition deserialize_response (service : text) (o : operation) (status : Z) (headers : list (text * text)) (t : ResponseWire_Model.transport) : answer :=
    let fields := ResponseWire_Model.marshal_loop lower headers [] in
    match Transport_Model.read_streaming_blob_async (ResponseWire_Model.response_body t) with
    | Err e => Output (Err e)
    | Ok Transport_Model.Coroutine => Output (Err TypeError)
    | Ok (Transport_Model.Got body) =>
      if negb (Errors_Model.is_success status) then
        Failure (Errors_Model.create_query_error (read_error body) reg service (op_errors o) status fields (fromstring body))
      else
        match body with
        | [] => Bare (HttpBind_Model.read_response time_float nearest lower decode_value decode_struct (op_bound o)
                        (HttpBind_Model.mkResponse status fields (HttpBind_Model.BBytes [])))
        | _ => Output (Xml_Model.deserialize py_float time_float default_format use_format shapes (iterparse body)
                         (response_wrapper_elements o) (op_output o))
        end
    end.
End Answer.
