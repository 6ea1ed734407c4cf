(** From the wire to the output of an operation:
    C = packages/smithy-http/src/smithy_http/aio/crt.py, A = aiohttp.py, P = protocols.py. *)
From Verif Require Import Base PyDict_Model Fields_Model HttpVal_Model HttpBind_Model.
From Verif Require Transport_Model.
Local Open Scope N_scope.

(** C 203-212 and A 143-152: the fields made of the header lines of a response.  Every
    field is made here, so that the dictionary can hold them by value. *)
Fixpoint marshal_loop (lower : text -> text) (headers : list (text * text)) (fields : list (text * field)) : list (text * field) :=
  match headers with
  | [] => fields
  | (header_name, header_val) :: rest =>
    marshal_loop lower rest
      match dict_get (lower header_name) fields with
      | Some f => dict_set (lower header_name) (field_add header_val f) fields
      | None => dict_set (lower header_name) (mkField header_name [header_val] Header) fields
      end
  end.

(** What the clients get of a body: the chunks of the CRT, up to the first empty one, or
    all of it from aiohttp. *)
Inductive transport := Crt (chunks : list bytes) | Aiohttp (all : bytes).
(** C 90-92 and 100-106; A 157 *)
Definition response_body (t : transport) : Transport_Model.body :=
  match t with
  | Crt chunks => Transport_Model.BIter (Transport_Model.response_chunks chunks)
  | Aiohttp all => Transport_Model.BIter [all]
  end.

(** P 155-167, [_buffer_async_body] *)
Definition buffer_async_body (stream : Transport_Model.body) : result Transport_Model.body :=
  match stream with
  | Transport_Model.BReader r =>
    if Transport_Model.d_async r then do '(out, _) <- Transport_Model.rd_read (-1) r; Ok (Transport_Model.BBytes out) else Ok stream
  | Transport_Model.BWrapped w => do '(out, _) <- Transport_Model.w_read (-1) w; Ok (Transport_Model.BBytes out)
  | Transport_Model.BIter chunks | Transport_Model.BRestart chunks =>
    Ok (Transport_Model.BBytes (fold_left (fun full chunk => full ++ chunk) chunks []))
  | _ => Ok stream
  end.
(** The body the deserializer is given; [stream] stands for what cannot be measured or has
    not been read. *)
Definition as_read (stream : N) (b : Transport_Model.body) : body :=
  match b with
  | Transport_Model.BBytes b | Transport_Model.BArray b => BBytes b
  | _ => BStream stream
  end.

(** What a call ends with: the output, or an error that is made of the status, the fields
    and the body (Errors_Model). *)
Inductive answer :=
| Output (o : result (list (nat * value)))
| Failure (status : Z) (fields : list (text * field)) (body : Transport_Model.body).

(** schemas.py 332-337, [output_stream_member], as far as it is asked for *)
Definition has_stream (ms : list member) : bool := existsb m_streaming ms.

Section Answer.
  Variable time_float : text -> option Time_Model.float.
  Variable nearest : PyDecimal_Model.decimal -> float.
  Variable lower : text -> text.
  Variable decode_value : nat -> bytes -> result value.
  Variable decode_struct : bytes -> result (list (nat * value)).

  (** P 118-153, [deserialize_response], of the response the client made; P 169-175,
      [_is_success]. *)
  Definition deserialize_response (ms : list member) (status : Z) (headers : list (text * text)) (stream : N) (t : transport) : answer :=
    let fields := marshal_loop lower headers [] in
    if negb ((200 <=? status) && (status <? 300))%Z then
      match buffer_async_body (response_body t) with
      | Ok b => Failure status fields b
      | Err e => Output (Err e)
      end
    else
      Output (do body <- (if has_stream ms then Ok (BStream stream)
                          else do b <- buffer_async_body (response_body t); Ok (as_read stream b));
              read_response time_float nearest lower decode_value decode_struct ms (mkResponse status fields body)).
End Answer.
