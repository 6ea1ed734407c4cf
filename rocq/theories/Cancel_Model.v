(** Cancellation of a call: smithy_core/aio/client.py lines 242-594 (the pipeline of
    Client_Model.v) when what it calls may be interrupted, that is, end with a
    CancelledError or another BaseException that is no Exception.  No [except] clause of
    the pipeline catches these: all name [Exception] or [RetryError].

    Whether the call is interrupted at a place is an arbitrary function of the place and
    the world, which also gives the world that the interrupted callee leaves.  [copy] and
    [get] on the schemes are not interrupted. *)
From Coq Require Import QArith.
From Verif Require Import Base Retry_Model Client_Model.
Local Open Scope nat_scope.

(** What the pipeline calls. *)
Inductive place :=
| PRead (h : read_hook) | PModifyInput | PModifyRequest (h : request_hook) | PModifyResponse | PModifyOutput (h : output_hook)
| PSerialize | PEndpoint | PSetEndpoint | PAuthOptions | PIdentityProps | PIdentity | PSignerProps | PSign
| PFuture | PSend | PDeserialize | PAcquire | PSleep | PRefresh | PRewind | PSuccess.

(** A computation was interrupted or ended by itself. *)
Inductive ends (Y : Type) := Interrupted | Ended (y : Y).
Arguments Interrupted {Y}. Arguments Ended {Y}.

Section Cancel.
  Context {S : sorts} {W : Type}.
  Variable E : env S W.
  Variable stop : place -> W -> option W.

  (** A call that may be interrupted. *)
  Definition c_call {Y} (p : place) (m : W -> Y * W) (w : W) : ends Y * W :=
    match stop p w with
    | Some w' => (Interrupted, w')
    | None => let (y, w') := m w in (Ended y, w')
    end.
  Definition c_ret {Y} (y : Y) (w : W) : ends Y * W := (Ended y, w).
  Definition c_bind {Y Z} (m : W -> ends Y * W) (k : Y -> W -> ends Z * W) (w : W) : ends Z * W :=
    match m w with (Ended y, w') => k y w' | (Interrupted, w') => (Interrupted, w') end.
  (** One statement after another: exceptions end the block. *)
  Definition c_then {X Y Ex} (m : W -> ends (X + Ex) * W) (k : X -> W -> ends (Y + Ex) * W) : W -> ends (Y + Ex) * W :=
    c_bind m (fun y => match y with inl x => k x | inr e => c_ret (inr e) end).
  Definition c_at {X} (r : Req S) (p : place) (m : eff S W X) : W -> ends (X + Req S * Exc S) * W :=
    c_bind (c_call p m) (fun y => match y with inl x => c_ret (inl x) | inr e => c_ret (inr (r, e)) end).
  Notation "x <~ m ;; k" := (c_then m (fun x => k)) (at level 90, m at next level, right associativity).
  Notation "m ~~ k" := (c_then m (fun _ => k)) (at level 90, right associativity).

  (** lines 412-447 *)
  Definition c_authenticate (opts : list (Opt S)) (r : Req S) : W -> ends (Req S + Req S * Exc S) * W :=
    match resolve_auth E opts with
    | None => c_ret (inl r)
    | Some (o, s) =>
      (fun w => (Ended (inl tt), e_set_scheme E s w)) ~~
      ip <~ c_at r PIdentityProps (e_identity_props E s) ;;
      id <~ c_at r PIdentity (e_identity E s (e_update E ip (e_opt_identity_props E o))) ;;
      sp <~ c_at r PSignerProps (e_signer_props E s) ;;
      c_at r PSign (e_sign E s r id (e_update E sp (e_opt_identity_props E o)))
    end.

  (** lines 458-480: the [except Exception] around the exchange sees no interruption. *)
  Definition c_transmit (i : Inp S) (r : Req S) : W -> ends (Resp S + Exc S) * W :=
    c_bind (c_then (match e_future E with Some f => c_call PFuture (f i r) | None => c_ret (inl tt) end)
                   (fun _ => c_call PSend (e_send E r)))
      (fun y => match y with
                | inl p => c_ret (inl p)
                | inr e => c_ret (inr (if e_is_timeout E e then e_timeout E e else e))
                end).

  (** lines 449-524 *)
  Definition c_exchange (i : Inp S) (r3 : Req S) : W -> ends (octx S + Req S * Exc S) * W :=
    let H := e_interceptor E in
    c_at r3 (PRead RAfterSigning) (i_read H RAfterSigning (CRequest i r3)) ~~
    r4 <~ c_at r3 (PModifyRequest MBeforeTransmit) (i_request H MBeforeTransmit i r3) ;;
    c_at r4 (PRead RBeforeTransmit) (i_read H RBeforeTransmit (CRequest i r4)) ~~
    p <~ c_bind (c_transmit i r4) (fun y => match y with inl x => c_ret (inl x) | inr e => c_ret (inr (r4, e)) end) ;;
    c_at r4 (PRead RAfterTransmit) (i_read H RAfterTransmit (CResponse i r4 p)) ~~
    p' <~ c_at r4 PModifyResponse (i_response H i r4 p) ;;
    c_at r4 (PRead RBeforeDeserialization) (i_read H RBeforeDeserialization (CResponse i r4 p')) ~~
    o <~ c_at r4 PDeserialize (e_deserialize E r4 p') ;;
    let c := mkOut i (inl o) (Some r4) (Some p') in
    c_at r4 (PRead RAfterDeserialization) (i_read H RAfterDeserialization (COutput c)) ~~
    c_ret (inl c).

  (** lines 384-524 *)
  Definition c_attempt_body (call_input i : Inp S) (r0 : Req S) : W -> ends (octx S + Req S * Exc S) * W :=
    let H := e_interceptor E in
    c_at r0 (PRead RBeforeAttempt) (i_read H RBeforeAttempt (CRequest i r0)) ~~
    ep <~ c_at r0 PEndpoint (e_endpoint E call_input) ;;
    r1 <~ c_at r0 PSetEndpoint (e_set_endpoint E r0 ep) ;;
    r2 <~ c_at r1 (PModifyRequest MBeforeSigning) (i_request H MBeforeSigning i r1) ;;
    c_at r2 (PRead RBeforeSigning) (i_read H RBeforeSigning (CRequest i r2)) ~~
    opts <~ c_at r2 PAuthOptions (e_auth_options E) ;;
    r3 <~ c_authenticate opts r2 ;;
    c_exchange i r3.

  (** lines 551-594: the [except Exception] clauses here see no interruption either. *)
  Definition c_finalize (m : output_hook) (h : read_hook) (c : octx S) : W -> ends (octx S) * W :=
    c_bind (c_call (PModifyOutput m) (i_output (e_interceptor E) m c)) (fun y =>
      let c1 := match y with inl x => with_response c x | inr e => with_response c (inr e) end in
      c_bind (c_call (PRead h) (i_read (e_interceptor E) h (COutput c1))) (fun z =>
        match z with inl _ => c_ret c1 | inr e => c_ret (with_response c1 (inr e)) end)).

  (** lines 377-534: the [except Exception] of an attempt. *)
  Definition c_handle_attempt (call_input i : Inp S) (r0 : Req S) : W -> ends (octx S) * W :=
    c_bind (c_attempt_body call_input i r0) (fun y =>
      match y with
      | inl c => c_finalize MBeforeAttemptCompletion RAfterAttempt c
      | inr (r, e) => c_finalize MBeforeAttemptCompletion RAfterAttempt (mkOut i (inr e) (Some r) None)
      end).

  (** An attempt of the loop has a copy of the request (lines 341-348). *)
  Definition c_attempt (call_input i : Inp S) (r : Req S) (w : W) : ends (octx S) * W :=
    if e_retryable E then let (r', w') := e_copy E r w in c_handle_attempt call_input i r' w'
    else c_handle_attempt call_input i r w.

  (** [await sleep(...)]: the world is that of before unless it is interrupted. *)
  Definition c_sleep : W -> ends unit * W := c_call PSleep (fun w => (tt, w)).

  (** lines 337-375; [None] when [fuel] rounds do not end it. *)
  Fixpoint c_loop (fuel : nat) (call_input i : Inp S) (r : Req S) (t : Tok S) (w : W)
    : option (ends (octx S + Exc S) * W) :=
    match fuel with
    | O => None
    | Datatypes.S fuel' =>
      match (if nonzero (e_delay E t) then c_sleep w else (Ended tt, w)) with
      | (Interrupted, w') => Some (Interrupted, w')
      | (Ended _, w0) =>
        match c_attempt call_input i r w0 with
        | (Interrupted, w1) => Some (Interrupted, w1)
        | (Ended o, w1) =>
          match failure o with
          | Some e =>
            match c_call PRefresh (e_refresh E t e) w1 with
            | (Interrupted, w2) => Some (Interrupted, w2)
            | (Ended (inl t'), w2) =>
              match c_call PRewind (e_rewind E r) w2 with
              | (Interrupted, w3) => Some (Interrupted, w3)
              | (Ended (inr e'), w3) => Some (Ended (inr e'), w3)
              | (Ended (inl _), w3) => c_loop fuel' call_input i r t' w3
              end
            | (Ended (inr (inl a)), w2) =>
              match (match a with Some _ => if e_long_polling E then c_sleep w2 else (Ended tt, w2) | None => (Ended tt, w2) end) with
              | (Interrupted, w3) => Some (Interrupted, w3)
              | (Ended _, w3) => Some (Ended (inr e), w3)
              end
            | (Ended (inr (inr e')), w2) => Some (Ended (inr e'), w2)
            end
          | None =>
            match c_call PSuccess (e_success E t) w1 with
            | (Interrupted, w2) => Some (Interrupted, w2)
            | (Ended (inl _), w2) => Some (Ended (inl o), w2)
            | (Ended (inr e'), w2) => Some (Ended (inr e'), w2)
            end
          end
        end
      end
    end.

  (** lines 323-336 *)
  Definition c_retry (fuel : nat) (call_input i : Inp S) (r : Req S) (w : W) : option (ends (octx S + Exc S) * W) :=
    if e_retryable E then
      match c_call PAcquire (e_acquire E) w with
      | (Interrupted, w1) => Some (Interrupted, w1)
      | (Ended (inl t), w1) => c_loop fuel call_input i r t w1
      | (Ended (inr e), w1) => Some (Ended (inr e), w1)
      end
    else
      match c_attempt call_input i r w with
      | (Interrupted, w1) => Some (Interrupted, w1)
      | (Ended o, w1) => Some (Ended (inl o), w1)
      end.

  (** lines 268-292, the first [try] block *)
  Definition c_first (call_input : Inp S) : W -> ends ((Inp S * Req S) + Exc S) * W :=
    let H := e_interceptor E in
    c_call (PRead RBeforeExecution) (i_read H RBeforeExecution (CInput call_input)) ~~
    i <~ c_call PModifyInput (i_input H call_input) ;;
    c_call (PRead RBeforeSerialization) (i_read H RBeforeSerialization (CInput i)) ~~
    r <~ c_call PSerialize (e_serialize E call_input) ;;
    c_ret (inl (i, r)).

  (** lines 263-321 *)
  Definition c_handle_execution (fuel : nat) (call_input : Inp S) (w : W) : option (ends (octx S) * W) :=
    let H := e_interceptor E in
    match c_first call_input w with
    | (Interrupted, w1) => Some (Interrupted, w1)
    | (Ended (inr e), w1) => Some (Ended (mkOut call_input (inr e) None None), w1)
    | (Ended (inl (i, r)), w1) =>
      match c_call (PRead RAfterSerialization) (i_read H RAfterSerialization (CRequest i r)) w1 with
      | (Interrupted, w2) => Some (Interrupted, w2)
      | (Ended (inr e), w2) => Some (Ended (mkOut i (inr e) (Some r) None), w2)
      | (Ended (inl _), w2) =>
        match c_call (PModifyRequest MBeforeRetryLoop) (i_request H MBeforeRetryLoop i r) w2 with
        | (Interrupted, w3) => Some (Interrupted, w3)
        | (Ended (inr e), w3) => Some (Ended (mkOut i (inr e) (Some r) None), w3)
        | (Ended (inl r'), w3) =>
          match c_retry fuel call_input i r' w3 with
          | None => None
          | Some (Interrupted, w4) => Some (Interrupted, w4)
          | Some (Ended (inl c), w4) => Some (Ended c, w4)
          | Some (Ended (inr e), w4) => Some (Ended (mkOut i (inr e) (Some r') None), w4)
          end
        end
      end
    end.

  (** lines 242-261: what the caller sees: the interruption, an output or an exception. *)
  Definition c_execute (fuel : nat) (call_input : Inp S) (w : W) : option (ends (Outp S * octx S + Exc S) * W) :=
    match c_handle_execution fuel call_input w with
    | None => None
    | Some (Interrupted, w1) => Some (Interrupted, w1)
    | Some (Ended c, w1) =>
      match c_finalize MBeforeCompletion RAfterExecution c w1 with
      | (Interrupted, w2) => Some (Interrupted, w2)
      | (Ended c', w2) =>
        match oc_response c' with
        | inl o => Some (Ended (inl (o, c')), w2)
        | inr e => Some (Ended (inr (if e_is_smithy E e then e else e_smithy E e)), w2)
        end
      end
    end.
End Cancel.
