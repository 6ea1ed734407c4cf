(** Specification of the event signature chain, the publisher's wire format and
    the receiver. *)
From Verif Require Import Base Utf8_Model EventStream_Model EventIO_Model.
Local Open Scope N_scope.

(** Lines joined with a newline. *)
Fixpoint lines (ls : list text) : text :=
  match ls with
  | [] => []
  | [l] => l
  | l :: r => l ++ [10] ++ lines r
  end.

(** Message [m] carries the event-stream signature [sig] of the job's payload,
    computed from the previous signature [prior] (hexadecimal):
    HMAC chain over date, region, service; string to sign of six lines. *)
Definition signed_as (sha256 : bytes -> bytes) (hmac : bytes -> bytes -> bytes)
    (prior : bytes) (j : job) (m : message) (sig : bytes) : Prop :=
  exists stamp key day region service date_header prior_text sts,
    stamp = match sp_date (j_props j) with Some d => d | None => t_stamp (j_now j) end /\
    utf8_encode (j_secret j) = Ok key /\
    utf8_encode (firstn 8 stamp) = Ok day /\
    utf8_encode (sp_region (j_props j)) = Ok region /\
    utf8_encode (sp_service (j_props j)) = Ok service /\
    get_headers_bytes [(lit ":date", HTimestamp (t_millis (j_now j)))] = Ok date_header /\
    utf8_decode prior = Ok prior_text /\
    utf8_encode (lines [lit "AWS4-HMAC-SHA256-PAYLOAD"; stamp;
        firstn 8 stamp ++ lit "/" ++ sp_region (j_props j) ++ lit "/" ++ sp_service (j_props j) ++ lit "/aws4_request";
        prior_text; hexlify (sha256 date_header); hexlify (sha256 (j_payload j))]) = Ok sts /\
    sig = hmac (hmac (hmac (hmac (hmac (lit "AWS4" ++ key) day) region) service) (lit "aws4_request")) sts /\
    m = mkMessage [(lit ":date", HTimestamp (t_millis (j_now j))); (lit ":chunk-signature", HBlob sig)] (j_payload j).

(** [chain seed log prior ended]: the log is one chain of signatures starting at
    [seed]; the next frame would be signed with [prior]; [ended] tells that the
    last frame of the log is the end frame, after which nothing is signed. *)
Inductive chain (sha256 : bytes -> bytes) (hmac : bytes -> bytes -> bytes) (seed : bytes)
  : list (job * message) -> bytes -> bool -> Prop :=
| chain_nil : chain sha256 hmac seed [] seed false
| chain_snoc log prior j m sig :
    chain sha256 hmac seed log prior false ->
    signed_as sha256 hmac prior j m sig ->
    chain sha256 hmac seed (log ++ [(j, m)]) (hexlify sig) (j_final j).

(** The frames of a log that can be encoded. *)
Definition frames_of (log : list (job * message)) : list bytes :=
  flat_map (fun jm => match encode_message (snd jm) with Ok f => [f] | Err _ => [] end) log.

Definition writes (t : list pact) : list bytes :=
  flat_map (fun a => match a with AWrite f => [f] | AClose => [] end) t.

(** A publisher that does not sign, as its client sees it: what reaches the
    transport for a list of calls, each with the transport's answer. *)
Inductive call := CSend (m : message) (write_fails : bool) | CClose.
Fixpoint expected_trace (calls : list call) : list pact :=
  match calls with
  | [] => []
  | CClose :: _ => [AClose]
  | CSend m fails :: rest =>
    match encode_message m with
    | Err _ => expected_trace rest
    | Ok f => AWrite f :: (if fails then [AClose] else expected_trace rest)
    end
  end.
(** Does each call raise? *)
Fixpoint expected_raises (closed : bool) (calls : list call) : list bool :=
  match calls with
  | [] => []
  | CClose :: rest => false :: expected_raises true rest
  | CSend m fails :: rest =>
    if closed then true :: expected_raises true rest
    else match encode_message m with
         | Err _ => true :: expected_raises false rest
         | Ok _ => fails :: expected_raises fails rest
         end
  end.

(** What a client of a receiver observes: the stream holds messages [ms] and then
    ends ([None]) or is malformed ([Some e]). *)
Fixpoint expected_receives {E} (deser : message -> result (received E)) (ops : list rop)
    (closed : bool) (ms : list message) (final : option exn) : list (result (option E)) :=
  match ops with
  | [] => []
  | RClose :: r => Ok None :: expected_receives deser r true ms final
  | RReceive :: r =>
    if closed then Ok None :: expected_receives deser r true ms final
    else
      match ms, final with
      | m :: ms', _ =>
        match deser m with
        | Ok (RVal v) => Ok (Some v)
        | Ok (RExc x) => Err x
        | Err e => Err e
        end :: expected_receives deser r false ms' final
      | [], None => Ok None :: expected_receives deser r false [] None
      | [], Some e => Err (if is_event_error e then e else OSError) :: expected_receives deser r true [] final
      end
  end.
