(** Vocabulary for stating properties of the request pipeline: what an outside
    observer sees of a call.  Nothing here looks inside the pipeline: every
    function it is given is wrapped so that each call of it, with its arguments
    and its outcome, is written to a log. *)
From Coq Require Import QArith.
From Verif Require Import Base Retry_Model Client_Model.
Local Open Scope nat_scope.

Inductive event (S : sorts) :=
| EvRead (h : read_hook) (c : context S) (x : unit + Exc S)
| EvInput (i : Inp S) (x : Inp S + Exc S)
| EvRequest (h : request_hook) (i : Inp S) (r : Req S) (x : Req S + Exc S)
| EvResponse (i : Inp S) (r : Req S) (p : Resp S) (x : Resp S + Exc S)
| EvOutput (h : output_hook) (c : octx S) (x : (Outp S + Exc S) + Exc S)
| EvSerialize (i : Inp S) (x : Req S + Exc S)
| EvEndpoint (i : Inp S) (x : Endp S + Exc S)
| EvSetEndpoint (r : Req S) (ep : Endp S) (x : Req S + Exc S)
| EvAuthOptions (x : list (Opt S) + Exc S)
| EvIdentityProps (s : Scheme S) (x : Props S + Exc S)
| EvIdentity (s : Scheme S) (p : Props S) (x : Ident S + Exc S)
| EvSignerProps (s : Scheme S) (x : Props S + Exc S)
| EvSign (s : Scheme S) (r : Req S) (id : Ident S) (p : Props S) (x : Req S + Exc S)
| EvFuture (i : Inp S) (r : Req S) (x : unit + Exc S)
| EvSend (r : Req S) (x : Resp S + Exc S)
| EvDeserialize (r : Req S) (p : Resp S) (x : Outp S + Exc S)
| EvCopy (r r' : Req S)
| EvRewind (r : Req S) (x : unit + Exc S)
| EvAcquire (x : Tok S + Exc S)
| EvRefresh (t : Tok S) (e : Exc S) (x : Tok S + (option Q + Exc S))
| EvSuccess (t : Tok S) (x : unit + Exc S).
Arguments EvRead {S}. Arguments EvInput {S}. Arguments EvRequest {S}. Arguments EvResponse {S}.
Arguments EvOutput {S}. Arguments EvSerialize {S}. Arguments EvEndpoint {S}. Arguments EvSetEndpoint {S}.
Arguments EvAuthOptions {S}. Arguments EvIdentityProps {S}. Arguments EvIdentity {S}.
Arguments EvSignerProps {S}. Arguments EvSign {S}. Arguments EvFuture {S}. Arguments EvSend {S}.
Arguments EvDeserialize {S}. Arguments EvCopy {S}. Arguments EvRewind {S}. Arguments EvAcquire {S}.
Arguments EvRefresh {S}. Arguments EvSuccess {S}.

Section Spy.
  Context {S : sorts} {W L : Type}.
  Definition spied := (W * list L)%type.

  (** Run an effect and log it. *)
  Definition logged {X} (ev : (X + Exc S) -> L) (m : eff S W X) : eff S spied X :=
    fun w => let (x, w') := m (fst w) in (x, (w', snd w ++ [ev x])).

  Definition spy_interceptor (f : event S -> L) (H : interceptor S W) : interceptor S spied := {|
    i_read := fun h c => logged (fun x => f (EvRead h c x)) (i_read H h c);
    i_input := fun i => logged (fun x => f (EvInput i x)) (i_input H i);
    i_request := fun h i r => logged (fun x => f (EvRequest h i r x)) (i_request H h i r);
    i_response := fun i r p => logged (fun x => f (EvResponse i r p x)) (i_response H i r p);
    i_output := fun h c => logged (fun x => f (EvOutput h c x)) (i_output H h c)
  |}.
End Spy.

(** The interceptors of a list, each logging under its position. *)
Fixpoint spy_list {S W} (k : nat) (l : list (interceptor S W))
  : list (interceptor S (W * list (nat * event S))) :=
  match l with
  | [] => []
  | i :: r => spy_interceptor (pair k) i :: spy_list (k + 1) r
  end.

(** A whole call, observed. *)
Definition spy_env {S W} (E : env S W) : env S (W * list (event S)) := {|
  e_interceptor := spy_interceptor (fun x => x) (e_interceptor E);
  e_serialize := fun i => logged (EvSerialize i) (e_serialize E i);
  e_endpoint := fun i => logged (EvEndpoint i) (e_endpoint E i);
  e_set_endpoint := fun r ep => logged (EvSetEndpoint r ep) (e_set_endpoint E r ep);
  e_auth_options := logged EvAuthOptions (e_auth_options E);
  e_supported := e_supported E;
  e_set_scheme := fun s w => (e_set_scheme E s (fst w), snd w);
  e_identity_props := fun s => logged (EvIdentityProps s) (e_identity_props E s);
  e_signer_props := fun s => logged (EvSignerProps s) (e_signer_props E s);
  e_opt_identity_props := e_opt_identity_props E;
  e_opt_signer_props := e_opt_signer_props E;
  e_update := e_update E;
  e_identity := fun s p => logged (EvIdentity s p) (e_identity E s p);
  e_sign := fun s r i p => logged (EvSign s r i p) (e_sign E s r i p);
  e_future := match e_future E with
              | None => None
              | Some f => Some (fun i r => logged (EvFuture i r) (f i r))
              end;
  e_send := fun r => logged (EvSend r) (e_send E r);
  e_is_timeout := e_is_timeout E;
  e_timeout := e_timeout E;
  e_deserialize := fun r p => logged (EvDeserialize r p) (e_deserialize E r p);
  e_copy := fun r w => let (r', w') := e_copy E r (fst w) in (r', (w', snd w ++ [EvCopy r r']));
  e_rewind := fun r => logged (EvRewind r) (e_rewind E r);
  e_acquire := logged EvAcquire (e_acquire E);
  e_delay := e_delay E;
  e_refresh := fun t e w => let (x, w') := e_refresh E t e (fst w) in (x, (w', snd w ++ [EvRefresh t e x]));
  e_success := fun t => logged (EvSuccess t) (e_success E t);
  e_retryable := e_retryable E;
  e_long_polling := e_long_polling E;
  e_is_smithy := e_is_smithy E;
  e_smithy := e_smithy E
|}.

(** ** The documented order *)
(** What kind of step an event is. *)
Inductive stage :=
| StRead (h : read_hook) | StInput | StRequest (h : request_hook) | StResponse | StOutput (h : output_hook)
| StSerialize | StEndpoint | StSetEndpoint | StAuthOptions | StIdentityProps | StIdentity | StSignerProps
| StSign | StFuture | StSend | StDeserialize | StCopy | StRewind | StAcquire | StRefresh | StSuccess.

Definition kind {S} (e : event S) : stage :=
  match e with
  | EvRead h _ _ => StRead h | EvInput _ _ => StInput | EvRequest h _ _ _ => StRequest h
  | EvResponse _ _ _ _ => StResponse | EvOutput h _ _ => StOutput h
  | EvSerialize _ _ => StSerialize | EvEndpoint _ _ => StEndpoint | EvSetEndpoint _ _ _ => StSetEndpoint
  | EvAuthOptions _ => StAuthOptions | EvIdentityProps _ _ => StIdentityProps | EvIdentity _ _ _ => StIdentity
  | EvSignerProps _ _ => StSignerProps | EvSign _ _ _ _ _ => StSign | EvFuture _ _ _ => StFuture
  | EvSend _ _ => StSend | EvDeserialize _ _ _ => StDeserialize | EvCopy _ _ => StCopy
  | EvRewind _ _ => StRewind | EvAcquire _ => StAcquire | EvRefresh _ _ _ => StRefresh | EvSuccess _ _ => StSuccess
  end.

(** Whether the step raised. *)
Definition raised {S} (e : event S) : bool :=
  let r {X} (x : X + Exc S) := match x with inl _ => false | inr _ => true end in
  match e with
  | EvRead _ _ x => r x | EvInput _ x => r x | EvRequest _ _ _ x => r x
  | EvResponse _ _ _ x => r x | EvOutput _ _ x => r x
  | EvSerialize _ x => r x | EvEndpoint _ x => r x | EvSetEndpoint _ _ x => r x
  | EvAuthOptions x => r x | EvIdentityProps _ x => r x | EvIdentity _ _ x => r x
  | EvSignerProps _ x => r x | EvSign _ _ _ _ x => r x | EvFuture _ _ x => r x
  | EvSend _ x => r x | EvDeserialize _ _ x => r x | EvCopy _ _ => false
  | EvRewind _ x => r x | EvAcquire x => r x
  | EvRefresh _ _ x => match x with inl _ => false | inr _ => true end | EvSuccess _ x => r x
  end.

(** A series of steps follows a documented list of stages, stopping at the first
    step that raises: [complete] tells whether it got through the list. *)
Inductive follows {S} : list stage -> list (event S) -> bool -> Prop :=
| fo_done : follows [] [] true
| fo_step st l e es complete :
    kind e = st -> raised e = false -> follows l es complete -> follows (st :: l) (e :: es) complete
| fo_raise st l e : kind e = st -> raised e = true -> follows (st :: l) [e] false.

(** The stages of one attempt, with or without an auth scheme and a request
    future (interceptors.py lines 168-478). *)
Definition attempt_stages (auth streaming : bool) : list stage :=
  [StRead RBeforeAttempt; StEndpoint; StSetEndpoint; StRequest MBeforeSigning; StRead RBeforeSigning;
   StAuthOptions] ++
  (if auth then [StIdentityProps; StIdentity; StSignerProps; StSign] else []) ++
  [StRead RAfterSigning; StRequest MBeforeTransmit; StRead RBeforeTransmit] ++
  (if streaming then [StFuture] else []) ++
  [StSend; StRead RAfterTransmit; StResponse; StRead RBeforeDeserialization; StDeserialize;
   StRead RAfterDeserialization].

(** Every attempt ends with its two completion hooks, whatever happened. *)
Definition attempt_shape {S} (streaming : bool) (es : list (event S)) : Prop :=
  exists auth main complete c x c' x',
    es = main ++ [EvOutput MBeforeAttemptCompletion c x; EvRead RAfterAttempt (COutput c') x'] /\
    follows (attempt_stages auth streaming) main complete.

(** The stages before the retry loop. *)
Definition execution_stages : list stage :=
  [StRead RBeforeExecution; StInput; StRead RBeforeSerialization; StSerialize; StRead RAfterSerialization;
   StRequest MBeforeRetryLoop].

(** The retry loop on request [r], holding token [t]: attempts on copies of the
    request, each followed by a refresh for its failure and a rewind of the
    request if another attempt follows.  [A r' es c] says what is known of an
    attempt on [r'] that logs [es] and ends with [c]. *)
Section Loop.
  Context {S : sorts}.
  Variable A : Req S -> list (event S) -> octx S -> Prop.
  Variable r : Req S.

  Inductive rounds_shape : Tok S -> list (event S) -> ended (octx S) (Exc S) -> Prop :=
  | rs_more t r' es c e t' rest res :
      A r' es c -> oc_response c = inr e -> rounds_shape t' rest res ->
      rounds_shape t (EvCopy r r' :: es ++ EvRefresh t e (inl t') :: EvRewind r (inl tt) :: rest) res
  | rs_success t r' es c o :
      A r' es c -> oc_response c = inl o ->
      rounds_shape t (EvCopy r r' :: es ++ [EvSuccess t (inl tt)]) (Returned c)
  | rs_refused t r' es c e q :
      A r' es c -> oc_response c = inr e ->
      rounds_shape t (EvCopy r r' :: es ++ [EvRefresh t e (inr (inl q))]) (Threw e)
  | rs_success_raises t r' es c o e :
      A r' es c -> oc_response c = inl o ->
      rounds_shape t (EvCopy r r' :: es ++ [EvSuccess t (inr e)]) (Threw e)
  | rs_refresh_raises t r' es c e e' :
      A r' es c -> oc_response c = inr e ->
      rounds_shape t (EvCopy r r' :: es ++ [EvRefresh t e (inr (inr e'))]) (Threw e')
  | rs_rewind_raises t r' es c e t' e' :
      A r' es c -> oc_response c = inr e ->
      rounds_shape t (EvCopy r r' :: es ++ [EvRefresh t e (inl t'); EvRewind r (inr e')]) (Threw e').

  (** A call that is not retryable makes one attempt on the request itself. *)
  Definition retry_shape (retryable : bool) (es : list (event S)) (res : ended (octx S) (Exc S)) : Prop :=
    if retryable
    then (exists t rest, es = EvAcquire (inl t) :: rest /\ rounds_shape t rest res) \/
         (exists e, es = [EvAcquire (inr e)] /\ res = Threw e)
    else exists c, A r es c /\ res = Returned c.
End Loop.

(** What the loop leaves as response. *)
Definition loop_response {S} (res : ended (octx S) (Exc S)) : Outp S + Exc S :=
  match res with Returned c => oc_response c | Threw e => inr e end.

(** A whole execution with result [final]: the stages before the loop; the loop,
    if they all succeeded; the two completion hooks in every case, the first
    getting the response so far and the second the response the first left.
    [surface] is how exceptions reach the caller. *)
Definition execution_shape {S} (A : Req S -> list (event S) -> octx S -> Prop) (retryable : bool)
    (surface : Exc S -> Exc S) (es : list (event S)) (final : Outp S + Exc S) : Prop :=
  exists before complete loop c x c' x',
    es = before ++ loop ++ [EvOutput MBeforeCompletion c x; EvRead RAfterExecution (COutput c') x'] /\
    follows execution_stages before complete /\
    (if complete
     then exists r res i r0 e, retry_shape A r retryable loop res /\ oc_response c = loop_response res /\
          before = e ++ [EvRequest MBeforeRetryLoop i r0 (inl r)]
     else loop = [] /\ exists e, oc_response c = inr e) /\
    oc_response c' = match x with inl y => y | inr e => inr e end /\
    final = match x' with
            | inr e => inr (surface e)
            | inl _ => match oc_response c' with inl o => inl o | inr e => inr (surface e) end
            end.

(** ** Data flow *)
(** The transport request after some steps of an attempt that began with [r]. *)
Fixpoint current_request {S} (r : Req S) (es : list (event S)) : Req S :=
  match es with
  | [] => r
  | EvRequest _ _ _ (inl r') :: l => current_request r' l
  | EvSetEndpoint _ _ (inl r') :: l => current_request r' l
  | EvSign _ _ _ _ (inl r') :: l => current_request r' l
  | _ :: l => current_request r l
  end.

(** The transport response, once there is one. *)
Fixpoint current_response {S} (p : option (Resp S)) (es : list (event S)) : option (Resp S) :=
  match es with
  | [] => p
  | EvSend _ (inl p') :: l => current_response (Some p') l
  | EvResponse _ _ _ (inl p') :: l => current_response (Some p') l
  | _ :: l => current_response p l
  end.

(** The operation input, as modified. *)
Fixpoint current_input {S} (i : Inp S) (es : list (event S)) : Inp S :=
  match es with
  | [] => i
  | EvInput _ (inl i') :: l => current_input i' l
  | _ :: l => current_input i l
  end.

(** The request, response and input an event was given. *)
Definition request_of {S} (e : event S) : option (Req S) :=
  match e with
  | EvRead _ (CRequest _ r) _ | EvRead _ (CResponse _ r _) _ => Some r
  | EvRead _ (COutput c) _ | EvOutput _ c _ => oc_request c
  | EvRequest _ _ r _ | EvResponse _ r _ _ | EvSetEndpoint r _ _ | EvSign _ r _ _ _
  | EvFuture _ r _ | EvSend r _ | EvDeserialize r _ _ => Some r
  | _ => None
  end.

(** Every step of the attempt received the request left by the steps before it. *)
Definition request_flows {S} (r : Req S) (es : list (event S)) : Prop :=
  forall a e b x, es = a ++ e :: b -> request_of e = Some x -> x = current_request r a.

Definition response_of {S} (e : event S) : option (Resp S) :=
  match e with
  | EvRead _ (CResponse _ _ p) _ | EvResponse _ _ p _ | EvDeserialize _ p _ => Some p
  | EvRead _ (COutput c) _ | EvOutput _ c _ => oc_transport c
  | _ => None
  end.
Definition response_flows {S} (es : list (event S)) : Prop :=
  forall a e b x, es = a ++ e :: b -> response_of e = Some x -> Some x = current_response None a.

(** The input in the contexts of hooks. *)
Definition hook_input_of {S} (e : event S) : option (Inp S) :=
  match e with
  | EvRead _ (CInput i) _ | EvRead _ (CRequest i _) _ | EvRead _ (CResponse i _ _) _ => Some i
  | EvRead _ (COutput c) _ | EvOutput _ c _ => Some (oc_input c)
  | EvInput i _ | EvRequest _ i _ _ | EvResponse i _ _ _ | EvFuture i _ _ => Some i
  | _ => None
  end.
(** The input given to the serializer and to the endpoint resolver. *)
Definition wire_input_of {S} (e : event S) : option (Inp S) :=
  match e with EvSerialize i _ | EvEndpoint i _ => Some i | _ => None end.

(** A step of the execution is given the input left by the steps before it,
    except that after a failure at or before serialization the completion hooks
    are given the caller's input. *)
Definition input_flows {S} (ci : Inp S) (es : list (event S)) : Prop :=
  forall a e b x, es = a ++ e :: b -> hook_input_of e = Some x ->
    x = current_input ci a \/
    (x = ci /\ (kind e = StOutput MBeforeCompletion \/ kind e = StRead RAfterExecution) /\
     forall i r, ~ In (EvSerialize i (inl r)) a).

(** The request that enters the retry loop is the one the serializer made. *)
Definition serialized_flows {S} (es : list (event S)) : Prop :=
  forall a e b, es = a ++ e :: b ->
    match e with
    | EvRequest MBeforeRetryLoop _ r _ | EvRead RAfterSerialization (CRequest _ r) _ =>
      exists i, In (EvSerialize i (inl r)) a
    | _ => True
    end.

(** ** Auth *)
(** [o] is the first of the options that is supported, with scheme [s]. *)
Definition first_supported {S} (supported : Opt S -> option (Scheme S)) (opts : list (Opt S)) (o : Opt S) (s : Scheme S)
  : Prop :=
  exists pre post, opts = pre ++ o :: post /\ supported o = Some s /\ Forall (fun o' => supported o' = None) pre.

(** What the auth steps of an attempt are given, by the steps [a] before them. *)
Definition auth_step {S W} (E : env S W) (a : list (event S)) (e : event S) : Prop :=
  let chosen o s := exists opts, In (EvAuthOptions (inl opts)) a /\ first_supported (e_supported E) opts o s in
  match e with
  | EvAuthOptions x => exists w w', e_auth_options E w = (x, w')     (* what the auth resolver answers *)
  | EvIdentityProps s _ | EvSignerProps s _ => exists o, chosen o s
  | EvIdentity s p _ =>
    exists o ip, chosen o s /\ In (EvIdentityProps s (inl ip)) a /\ p = e_update E ip (e_opt_identity_props E o)
  | EvSign s r id p _ =>
    exists o sp q, chosen o s /\ In (EvIdentity s q (inl id)) a /\ In (EvSignerProps s (inl sp)) a /\
      p = e_update E sp (e_opt_identity_props E o)
  | EvRead RAfterSigning _ _ | EvSend _ _ =>
    exists opts, In (EvAuthOptions (inl opts)) a /\
      ((exists o s r id p r', first_supported (e_supported E) opts o s /\ In (EvSign s r id p (inl r')) a) \/
       (Forall (fun o => e_supported E o = None) opts /\ forall s r id p x, ~ In (EvSign s r id p x) a))
  | _ => True
  end.
Definition auth_flows {S W} (E : env S W) (es : list (event S)) : Prop :=
  forall a e b, es = a ++ e :: b -> auth_step E a e.

(** ** Several interceptors *)
Fixpoint numbered {Y} (k : nat) (l : list Y) : list (nat * Y) :=
  match l with [] => [] | y :: r => (k, y) :: numbered (k + 1) r end.

(** What [n] interceptors asked in turn with the same question [ev] look like:
    all answer, or one raises and the later ones are not asked.  The last answer
    is the result ([x0] if there is nobody to ask). *)
Definition asked_alike {S X} (ev : X + Exc S -> event S) (n : nat) (x0 : X) (res : X + Exc S) (log : list (nat * event S))
  : Prop :=
  match res with
  | inl x => exists outs, List.length outs = n /\ log = numbered 0 (map (fun o => ev (inl o)) outs) /\ x = last outs x0
  | inr e => exists outs, List.length outs < n /\
      log = numbered 0 (map (fun o => ev (inl o)) outs ++ [ev (inr e)])
  end.

(** Everyone is asked; an exception becomes the response the later ones see. *)
Fixpoint everyone_asked {S} (c : octx S) (outs : list (unit + Exc S)) : list (event S) :=
  match outs with
  | [] => []
  | o :: r =>
    EvRead RAfterExecution (COutput c) o ::
    everyone_asked (match o with
                    | inl _ => c
                    | inr e => mkOut (oc_input c) (inr e) (oc_request c) (oc_transport c)
                    end) r
  end.
Definition last_exception {S : sorts} (outs : list (unit + Exc S)) : option (Exc S) :=
  fold_left (fun acc o => match o with inl _ => acc | inr e => Some e end) outs None.

(** ** Streaming calls *)
(** The request context with which an attempt first reached transmission. *)
Fixpoint transmission {S} (es : list (event S)) : option (Inp S * Req S) :=
  match es with
  | [] => None
  | EvFuture i r (inl _) :: _ => Some (i, r)
  | _ :: l => transmission l
  end.

Definition is_send {S} (e : event S) : bool := match e with EvSend _ _ => true | _ => false end.
