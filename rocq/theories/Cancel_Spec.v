(** Watching a call: the places it calls, in order.  [Sleep] does not change the world
    and is not written down. *)
From Coq Require Import QArith.
From Verif Require Import Base Retry_Model Client_Model Cancel_Model.
Local Open Scope nat_scope.

Section Watched.
  Context {S : sorts} {W : Type}.
  Definition log := list place.
  (** The callee at a place, writing down that it was called. *)
  Definition noted {Y} (p : place) (m : W -> Y * W) (w : W * log) : Y * (W * log) :=
    let (y, w') := m (fst w) in (y, (w', snd w ++ [p])).

  Definition watched_interceptor (H : interceptor S W) : interceptor S (W * log) := {|
    i_read := fun h c => noted (PRead h) (i_read H h c);
    i_input := fun i => noted PModifyInput (i_input H i);
    i_request := fun h i r => noted (PModifyRequest h) (i_request H h i r);
    i_response := fun i r p => noted PModifyResponse (i_response H i r p);
    i_output := fun h c => noted (PModifyOutput h) (i_output H h c)
  |}.

  Definition watched (E : env S W) : env S (W * log) := {|
    e_interceptor := watched_interceptor (e_interceptor E);
    e_serialize := fun i => noted PSerialize (e_serialize E i);
    e_endpoint := fun i => noted PEndpoint (e_endpoint E i);
    e_set_endpoint := fun r ep => noted PSetEndpoint (e_set_endpoint E r ep);
    e_auth_options := noted PAuthOptions (e_auth_options E);
    e_supported := e_supported E;
    e_set_scheme := fun s w => (e_set_scheme E s (fst w), snd w);
    e_identity_props := fun s => noted PIdentityProps (e_identity_props E s);
    e_signer_props := fun s => noted PSignerProps (e_signer_props E s);
    e_opt_identity_props := e_opt_identity_props E;
    e_opt_signer_props := e_opt_signer_props E;
    e_update := e_update E;
    e_identity := fun s p => noted PIdentity (e_identity E s p);
    e_sign := fun s r i p => noted PSign (e_sign E s r i p);
    e_future := match e_future E with Some f => Some (fun i r => noted PFuture (f i r)) | None => None end;
    e_send := fun r => noted PSend (e_send E r);
    e_is_timeout := e_is_timeout E;
    e_timeout := e_timeout E;
    e_deserialize := fun r p => noted PDeserialize (e_deserialize E r p);
    e_copy := fun r w => let (r', w') := e_copy E r (fst w) in (r', (w', snd w));
    e_rewind := fun r => noted PRewind (e_rewind E r);
    e_acquire := noted PAcquire (e_acquire E);
    e_delay := e_delay E;
    e_refresh := fun t e => noted PRefresh (e_refresh E t e);
    e_success := fun t => noted PSuccess (e_success E t);
    e_retryable := e_retryable E;
    e_long_polling := e_long_polling E;
    e_is_smithy := e_is_smithy E;
    e_smithy := e_smithy E
  |}.

  (** Interrupting a watched call: when to do so may depend on all that was called. *)
  Definition watched_stop (stop : place -> W * log -> option W) (p : place) (w : W * log) : option (W * log) :=
    match stop p w with
    | Some w' => Some (w', match p with PSleep => snd w | _ => snd w ++ [p] end)
    | None => None
    end.
End Watched.
