(** Model of smithy_core/interceptors.py and of the request pipeline in
    smithy_core/aio/client.py.

    The pipeline is parametrised by everything it calls: the interceptor, the
    protocol, the endpoint, auth and identity resolvers, the signer, the
    transport and the retry strategy are arbitrary functions that may fail and
    may change a world [W].  [except Exception] is modelled; cancellation
    (a BaseException) is not. *)
From Coq Require Import QArith.
From Verif Require Import Base Retry_Model.
Local Open Scope nat_scope.

(** The types of the values that flow through the pipeline. *)
Record sorts := mkSorts {
  Inp : Type;        (* operation inputs *)
  Req : Type;        (* transport requests *)
  Resp : Type;       (* transport responses *)
  Outp : Type;       (* operation outputs *)
  Exc : Type;        (* exceptions *)
  Endp : Type;       (* endpoints *)
  Opt : Type;        (* auth options *)
  Scheme : Type;     (* auth schemes *)
  Ident : Type;      (* identities *)
  Props : Type;      (* identity and signer properties *)
  Tok : Type         (* retry tokens *)
}.

(** The hooks of interceptors.py lines 48-526. *)
Inductive read_hook :=
| RBeforeExecution | RBeforeSerialization | RAfterSerialization
| RBeforeAttempt | RBeforeSigning | RAfterSigning | RBeforeTransmit | RAfterTransmit
| RBeforeDeserialization | RAfterDeserialization | RAfterAttempt | RAfterExecution.
Inductive request_hook := MBeforeRetryLoop | MBeforeSigning | MBeforeTransmit.
Inductive output_hook := MBeforeAttemptCompletion | MBeforeCompletion.

(** lines 38-45: [OutputContext]; its [response] is an output or an exception. *)
Record octx (S : sorts) := mkOut {
  oc_input : Inp S;
  oc_response : Outp S + Exc S;
  oc_request : option (Req S);
  oc_transport : option (Resp S)
}.
Arguments mkOut {S}.
Arguments oc_input {S}. Arguments oc_response {S}. Arguments oc_request {S}. Arguments oc_transport {S}.

(** lines 13-45: the context passed to a reading hook.  The [properties] of all
    contexts of one call are the same mutable object and belong to the world. *)
Inductive context (S : sorts) :=
| CInput (i : Inp S)
| CRequest (i : Inp S) (r : Req S)
| CResponse (i : Inp S) (r : Req S) (p : Resp S)
| COutput (c : octx S).
Arguments CInput {S}. Arguments CRequest {S}. Arguments CResponse {S}. Arguments COutput {S}.

(** An effect on the world that ends with a value or an exception. *)
Definition eff (S : sorts) (W X : Type) := W -> (X + Exc S) * W.

Definition ret {S W X} (x : X) : eff S W X := fun w => (inl x, w).
Definition throw {S W X} (e : Exc S) : eff S W X := fun w => (inr e, w).
Definition andthen {S W X Y} (m : eff S W X) (k : X -> eff S W Y) : eff S W Y :=
  fun w => match m w with (inl x, w') => k x w' | (inr e, w') => (inr e, w') end.

(** An interceptor: lines 48-526. *)
Record interceptor (S : sorts) (W : Type) := mkInterceptor {
  i_read : read_hook -> context S -> eff S W unit;
  i_input : Inp S -> eff S W (Inp S);                         (* modify_before_serialization *)
  i_request : request_hook -> Inp S -> Req S -> eff S W (Req S);
  i_response : Inp S -> Req S -> Resp S -> eff S W (Resp S);  (* modify_before_deserialization *)
  i_output : output_hook -> octx S -> eff S W (Outp S + Exc S)
}.
Arguments mkInterceptor {S W}.
Arguments i_read {S W}. Arguments i_input {S W}. Arguments i_request {S W}.
Arguments i_response {S W}. Arguments i_output {S W}.

Section Chain.
  Context {S : sorts} {W : Type}.

  (** The loop of every reading hook except [read_after_execution], e.g. lines
      549-551. *)
  Fixpoint chain_reads (h : read_hook) (c : context S) (l : list (interceptor S W)) : eff S W unit :=
    match l with
    | [] => ret tt
    | i :: l' => andthen (i_read i h c) (fun _ => chain_reads h c l')
    end.

  (** lines 647-659: [read_after_execution]; [last] is the local [exception]. *)
  Fixpoint chain_after_execution (c : octx S) (last : option (Exc S)) (l : list (interceptor S W))
    : eff S W unit :=
    match l with
    | [] => match last with None => ret tt | Some e => throw e end
    | i :: l' => fun w =>
      match i_read i RAfterExecution (COutput c) w with
      | (inl _, w') => chain_after_execution c last l' w'
      | (inr e, w') =>
        chain_after_execution (mkOut (oc_input c) (inr e) (oc_request c) (oc_transport c)) (Some e) l' w'
      end
    end.

  (** The loop of the modifying hooks, e.g. lines 553-557: every interceptor is
      called with the context the chain was given; the last value is kept. *)
  Fixpoint chain_modify {X} (call : interceptor S W -> eff S W X) (x : X) (l : list (interceptor S W))
    : eff S W X :=
    match l with
    | [] => ret x
    | i :: l' => andthen (call i) (fun x' => chain_modify call x' l')
    end.

  (** lines 533-659: [InterceptorChain]. *)
  Definition chain (l : list (interceptor S W)) : interceptor S W := {|
    i_read := fun h c =>
      match h, c with
      | RAfterExecution, COutput o => chain_after_execution o None l
      | _, _ => chain_reads h c l
      end;
    i_input := fun i => chain_modify (fun x => i_input x i) i l;
    i_request := fun h i r => chain_modify (fun x => i_request x h i r) r l;
    i_response := fun i r p => chain_modify (fun x => i_response x i r p) p l;
    (* lines 625-631 and 639-645: both call modify_before_attempt_completion *)
    i_output := fun h c => chain_modify (fun x => i_output x MBeforeAttemptCompletion c) (oc_response c) l
  |}.
End Chain.

(** What one call and its pipeline are given (client.py lines 52-107). *)
Record env (S : sorts) (W : Type) := mkEnv {
  e_interceptor : interceptor S W;
  e_serialize : Inp S -> eff S W (Req S);                    (* protocol.serialize_request *)
  e_endpoint : Inp S -> eff S W (Endp S);                    (* endpoint_resolver.resolve_endpoint *)
  e_set_endpoint : Req S -> Endp S -> eff S W (Req S);       (* protocol.set_service_endpoint *)
  e_auth_options : eff S W (list (Opt S));                   (* resolve_auth_scheme *)
  e_supported : Opt S -> option (Scheme S);                  (* supported_auth_schemes.get(scheme_id) *)
  e_set_scheme : Scheme S -> W -> W;                         (* properties[AUTH_SCHEME] = scheme *)
  e_identity_props : Scheme S -> eff S W (Props S);          (* scheme.identity_properties *)
  e_signer_props : Scheme S -> eff S W (Props S);            (* scheme.signer_properties *)
  e_opt_identity_props : Opt S -> Props S;                   (* option.identity_properties *)
  e_opt_signer_props : Opt S -> Props S;                     (* option.signer_properties *)
  e_update : Props S -> Props S -> Props S;                  (* dict.update *)
  e_identity : Scheme S -> Props S -> eff S W (Ident S);     (* identity_resolver(...).get_identity *)
  e_sign : Scheme S -> Req S -> Ident S -> Props S -> eff S W (Req S);
  e_future : option (Inp S -> Req S -> eff S W unit);        (* request_future.set_result, if there is one *)
  e_send : Req S -> eff S W (Resp S);                        (* transport.send *)
  e_is_timeout : Exc S -> bool;                              (* isinstance(e, TIMEOUT_EXCEPTIONS) *)
  e_timeout : Exc S -> Exc S;                                (* ClientTimeoutError(...) from e *)
  e_deserialize : Req S -> Resp S -> eff S W (Outp S);       (* protocol.deserialize_response *)
  e_copy : Req S -> W -> Req S * W;                          (* copy(transport_request) *)
  e_rewind : Req S -> eff S W unit;                          (* seek(transport_request.body, 0) *)
  e_acquire : eff S W (Tok S);
  e_delay : Tok S -> Q;
  e_refresh : Tok S -> Exc S -> W -> (Tok S + (option Q + Exc S)) * W;
  e_success : Tok S -> eff S W unit;
  e_retryable : bool;                                        (* lines 86-88: no input stream *)
  e_long_polling : bool;
  e_is_smithy : Exc S -> bool;                               (* isinstance(e, SmithyError) *)
  e_smithy : Exc S -> Exc S                                  (* SmithyError(e) *)
}.
Arguments mkEnv {S W}.
Arguments e_interceptor {S W}. Arguments e_serialize {S W}. Arguments e_endpoint {S W}.
Arguments e_set_endpoint {S W}. Arguments e_auth_options {S W}. Arguments e_supported {S W}.
Arguments e_set_scheme {S W}. Arguments e_identity_props {S W}. Arguments e_signer_props {S W}.
Arguments e_opt_identity_props {S W}. Arguments e_opt_signer_props {S W}. Arguments e_update {S W}.
Arguments e_identity {S W}. Arguments e_sign {S W}. Arguments e_future {S W}. Arguments e_send {S W}.
Arguments e_is_timeout {S W}. Arguments e_timeout {S W}. Arguments e_deserialize {S W}.
Arguments e_copy {S W}. Arguments e_rewind {S W}. Arguments e_acquire {S W}. Arguments e_delay {S W}.
Arguments e_refresh {S W}. Arguments e_success {S W}. Arguments e_retryable {S W}.
Arguments e_long_polling {S W}. Arguments e_is_smithy {S W}. Arguments e_smithy {S W}.

Section Pipeline.
  Context {S : sorts} {W : Type}.
  Variable E : env S W.

  (** lines 536-549: [_resolve_auth], given the options. *)
  Fixpoint resolve_auth (opts : list (Opt S)) : option (Opt S * Scheme S) :=
    match opts with
    | [] => None
    | o :: r => match e_supported E o with Some s => Some (o, s) | None => resolve_auth r end
    end.

  (** The [try] block of an attempt keeps the request context of the moment of
      failure: here, the request beside the exception. *)
  Definition body (X : Type) := W -> (X + Req S * Exc S) * W.
  Definition bret {X} (x : X) : body X := fun w => (inl x, w).
  Definition at_ {X} (r : Req S) (m : eff S W X) : body X :=
    fun w => match m w with (inl x, w') => (inl x, w') | (inr e, w') => (inr (r, e), w') end.
  Definition bthen {X Y} (m : body X) (k : X -> body Y) : body Y :=
    fun w => match m w with (inl x, w') => k x w' | (inr e, w') => (inr e, w') end.
  Notation "x <~ m ;; k" := (bthen m (fun x => k)) (at level 90, m at next level, right associativity).
  Notation "m ~~ k" := (bthen m (fun _ => k)) (at level 90, right associativity).

  (** lines 414-451: auth. *)
  Definition authenticate (opts : list (Opt S)) (r : Req S) : body (Req S) :=
    match resolve_auth opts with
    | None => bret r
    | Some (o, s) =>
      (fun w => (inl tt, e_set_scheme E s w)) ~~
      ip <~ at_ r (e_identity_props E s) ;;
      id <~ at_ r (e_identity E s (e_update E ip (e_opt_identity_props E o))) ;;
      sp <~ at_ r (e_signer_props E s) ;;
      (* line 435 updates with the option's identity properties *)
      at_ r (e_sign E s r id (e_update E sp (e_opt_identity_props E o)))
    end.

  (** lines 462-487: the exchange with the transport. *)
  Definition transmit (i : Inp S) (r : Req S) : eff S W (Resp S) :=
    fun w =>
      match
        andthen (match e_future E with Some f => f i r | None => ret tt end) (fun _ => e_send E r) w
      with
      | (inl p, w') => (inl p, w')
      | (inr e, w') => (inr (if e_is_timeout E e then e_timeout E e else e), w')
      end.

  (** lines 453-524: the [try] block of [_handle_attempt] after signing. *)
  Definition exchange (i : Inp S) (r3 : Req S) : body (octx S) :=
    let H := e_interceptor E in
    at_ r3 (i_read H RAfterSigning (CRequest i r3)) ~~
    r4 <~ at_ r3 (i_request H MBeforeTransmit i r3) ;;
    at_ r4 (i_read H RBeforeTransmit (CRequest i r4)) ~~
    p <~ at_ r4 (transmit i r4) ;;
    at_ r4 (i_read H RAfterTransmit (CResponse i r4 p)) ~~
    p' <~ at_ r4 (i_response H i r4 p) ;;
    at_ r4 (i_read H RBeforeDeserialization (CResponse i r4 p')) ~~
    o <~ at_ r4 (e_deserialize E r4 p') ;;
    let c := mkOut i (inl o) (Some r4) (Some p') in
    at_ r4 (i_read H RAfterDeserialization (COutput c)) ~~
    bret c.

  (** lines 383-524: the [try] block.  [call_input] is [call.input], [i] the
      input in the request context. *)
  Definition attempt_body (call_input i : Inp S) (r0 : Req S) : body (octx S) :=
    let H := e_interceptor E in
    at_ r0 (i_read H RBeforeAttempt (CRequest i r0)) ~~
    ep <~ at_ r0 (e_endpoint E call_input) ;;
    r1 <~ at_ r0 (e_set_endpoint E r0 ep) ;;
    r2 <~ at_ r1 (i_request H MBeforeSigning i r1) ;;
    at_ r2 (i_read H RBeforeSigning (CRequest i r2)) ~~
    opts <~ at_ r2 (e_auth_options E) ;;
    r3 <~ authenticate opts r2 ;;
    exchange i r3.

  (** [replace(output_context, response=x)]. *)
  Definition with_response (c : octx S) (x : Outp S + Exc S) : octx S :=
    mkOut (oc_input c) x (oc_request c) (oc_transport c).

  (** lines 551-570 and 572-594: [_finalize_attempt], [_finalize_execution]. *)
  Definition finalize (m : output_hook) (h : read_hook) (c : octx S) (w : W) : octx S * W :=
    let '(c1, w1) :=
      match i_output (e_interceptor E) m c w with
      | (inl x, w1) => (with_response c x, w1)
      | (inr e, w1) => (with_response c (inr e), w1)
      end in
    match i_read (e_interceptor E) h (COutput c1) w1 with
    | (inl _, w2) => (c1, w2)
    | (inr e, w2) => (with_response c1 (inr e), w2)
    end.

  (** lines 377-534: [_handle_attempt]. *)
  Definition handle_attempt (call_input i : Inp S) (r0 : Req S) (w : W) : octx S * W :=
    match attempt_body call_input i r0 w with
    | (inl c, w1) => finalize MBeforeAttemptCompletion RAfterAttempt c w1
    | (inr (r, e), w1) =>
      finalize MBeforeAttemptCompletion RAfterAttempt (mkOut i (inr e) (Some r) None) w1
    end.

  (** [isinstance(output_context.response, Exception)]. *)
  Definition failure (c : octx S) : option (Exc S) :=
    match oc_response c with inl _ => None | inr e => Some e end.

  Definition unit_effect (m : eff S W unit) (w : W) : option (Exc S) * W :=
    match m w with (inl _, w') => (None, w') | (inr e, w') => (Some e, w') end.

  (** lines 323-375: [_retry].  In the loop each attempt gets a copy of the
      request; a call that is not retryable does not copy it. *)
  Definition run_retry (fuel : nat) (call_input i : Inp S) (r : Req S) (w : W)
    : option (ended (octx S) (Exc S) * list (action (octx S) (Exc S) (Tok S)) * W) :=
    retry (e_delay E) (e_acquire E) (e_refresh E)
      (fun t => unit_effect (e_success E t))
      (fun w => if e_retryable E
                then let (r', w') := e_copy E r w in handle_attempt call_input i r' w'
                else handle_attempt call_input i r w)
      failure
      (unit_effect (e_rewind E r))
      (e_long_polling E) (e_retryable E) fuel w.

  (** lines 263-321: [_handle_execution]. *)
  Definition handle_execution (fuel : nat) (call_input : Inp S) (w : W) : option (octx S * W) :=
    let H := e_interceptor E in
    let first : eff S W (Inp S * Req S) :=
      andthen (i_read H RBeforeExecution (CInput call_input)) (fun _ =>
      andthen (i_input H call_input) (fun i =>
      andthen (i_read H RBeforeSerialization (CInput i)) (fun _ =>
      (* line 284 serializes call.input *)
      andthen (e_serialize E call_input) (fun r => ret (i, r))))) in
    match first w with
    | (inr e, w1) => Some (mkOut call_input (inr e) None None, w1)
    | (inl (i, r), w1) =>
      match i_read H RAfterSerialization (CRequest i r) w1 with
      | (inr e, w2) => Some (mkOut i (inr e) (Some r) None, w2)
      | (inl _, w2) =>
        match i_request H MBeforeRetryLoop i r w2 with
        | (inr e, w3) => Some (mkOut i (inr e) (Some r) None, w3)
        | (inl r', w3) =>
          match run_retry fuel call_input i r' w3 with
          | None => None
          | Some (Returned c, _, w4) => Some (c, w4)
          | Some (Threw e, _, w4) => Some (mkOut i (inr e) (Some r') None, w4)
          end
        end
      end
    end.

  (** lines 242-261: [_execute_request]. *)
  Definition execute (fuel : nat) (call_input : Inp S) (w : W)
    : option ((Outp S * octx S + Exc S) * W) :=
    match handle_execution fuel call_input w with
    | None => None
    | Some (c, w1) =>
      let (c', w2) := finalize MBeforeCompletion RAfterExecution c w1 in
      match oc_response c' with
      | inl o => Some (inl (o, c'), w2)
      | inr e => Some (inr (if e_is_smithy E e then e else e_smithy E e), w2)
      end
    end.
End Pipeline.

(** lines 119-143 and 180-218: [input_stream] and [duplex_stream] wait for a
    future that the attempt sets before sending.  The future is part of the
    world here; setting it twice raises. *)
Section Streaming.
  Context {S : sorts} {W : Type}.
  Definition future := option (Inp S * Req S).
  Definition lifted {X} (m : eff S W X) : eff S (W * future) X :=
    fun w => let (r, w') := m (fst w) in (r, (w', snd w)).
  Variable already_set : Exc S.      (* InvalidStateError *)

  Definition set_future (i : Inp S) (r : Req S) : eff S (W * future) unit :=
    fun w => match snd w with
             | None => (inl tt, (fst w, Some (i, r)))
             | Some _ => (inr already_set, w)
             end.

  Definition lift_interceptor (H : interceptor S W) : interceptor S (W * future) := {|
    i_read := fun h c => lifted (i_read H h c);
    i_input := fun i => lifted (i_input H i);
    i_request := fun h i r => lifted (i_request H h i r);
    i_response := fun i r p => lifted (i_response H i r p);
    i_output := fun h c => lifted (i_output H h c)
  |}.

  (** The same call with a request future. *)
  Definition with_future (E : env S W) : env S (W * future) := {|
    e_interceptor := lift_interceptor (e_interceptor E);
    e_serialize := fun i => lifted (e_serialize E i);
    e_endpoint := fun i => lifted (e_endpoint E i);
    e_set_endpoint := fun r ep => lifted (e_set_endpoint E r ep);
    e_auth_options := lifted (e_auth_options E);
    e_supported := e_supported E;
    e_set_scheme := fun s w => (e_set_scheme E s (fst w), snd w);
    e_identity_props := fun s => lifted (e_identity_props E s);
    e_signer_props := fun s => lifted (e_signer_props E s);
    e_opt_identity_props := e_opt_identity_props E;
    e_opt_signer_props := e_opt_signer_props E;
    e_update := e_update E;
    e_identity := fun s p => lifted (e_identity E s p);
    e_sign := fun s r i p => lifted (e_sign E s r i p);
    e_future := Some set_future;
    e_send := fun r => lifted (e_send E r);
    e_is_timeout := e_is_timeout E;
    e_timeout := e_timeout E;
    e_deserialize := fun r p => lifted (e_deserialize E r p);
    e_copy := fun r w => let (r', w') := e_copy E r (fst w) in (r', (w', snd w));
    e_rewind := fun r => lifted (e_rewind E r);
    e_acquire := lifted (e_acquire E);
    e_delay := e_delay E;
    e_refresh := fun t e w => let (x, w') := e_refresh E t e (fst w) in (x, (w', snd w));
    e_success := fun t => lifted (e_success E t);
    e_retryable := e_retryable E;
    e_long_polling := e_long_polling E;
    e_is_smithy := e_is_smithy E;
    e_smithy := e_smithy E
  |}.

  (** What the caller of a streaming call gets: the request context the stream
      is built from, or nothing ever ([Hangs]): the future is only set by the
      execution, which has ended. *)
  Inductive stream_call := Ready (i : Inp S) (r : Req S) | Hangs.
  Definition open_stream (E : env S W) (fuel : nat) (call_input : Inp S) (w : W) : option stream_call :=
    match execute (with_future E) fuel call_input (w, None) with
    | None => None
    | Some (_, (_, Some (i, r))) => Some (Ready i r)
    | Some (_, (_, None)) => Some Hangs
    end.
End Streaming.

(** ** Rewinding a body: aio/utils.py lines 63-72
    A body is a value (bytes), or a stream with a position; a stream may have a
    [seekable] method (with its answer) and may have a [seek] method. *)
Inductive req_body :=
| BValue (content : bytes)
| BStream (seekable : option bool) (has_seek : bool) (content : bytes) (pos : nat).

Definition seek_start (b : req_body) : req_body :=
  match b with
  | BValue c => b
  | BStream sk hs c pos =>
    match sk with
    | Some false => b
    | _ => if hs then BStream sk hs c 0 else b
    end
  end.

(** Sending a body transmits what is left of it; [n] bytes (or all) were taken
    when the attempt ended. *)
Definition sent_bytes (b : req_body) : bytes :=
  match b with BValue c => c | BStream _ _ c pos => skipn pos c end.
Definition take_bytes (n : nat) (b : req_body) : req_body :=
  match b with BValue c => b | BStream sk hs c pos => BStream sk hs c (pos + n) end.

(** ** Closing a duplex stream: aio/eventstream.py lines 97-116
    What has become of the pending output when the stream is closed: the output
    stream is already known, or the output future ends with it or with an
    exception, or never ends.  The two streams' own close may raise. *)
Inductive pending := Known | Arrives | Fails (e : exn) | Never.
Inductive close_call := CloseInput | CloseOutput.
Inductive closed := ClosedOk | CloseRaised (e : exn) | CloseHangs.

Definition duplex_close (p : pending) (input_raises output_raises : option exn) : list close_call * closed :=
  match p with
  | Never => ([], CloseHangs)
  | Fails e => ([], CloseRaised e)
  | Known | Arrives =>
    match input_raises with
    | Some e => ([CloseInput], CloseRaised e)
    | None =>
      ([CloseInput; CloseOutput], match output_raises with Some e => CloseRaised e | None => ClosedOk end)
    end
  end.
