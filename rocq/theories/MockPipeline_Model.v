(** A call of a client whose transport is the HTTP client for tests.
    M = packages/smithy-http/src/smithy_http/testing/mockhttp.py
    Simplifications: requests and responses are values here; that a captured request
    shares its fields with the one that was sent is in MockClient_Model. Nobody else
    uses the client during the call. *)
From Verif Require Import Base Client_Model.

Section Mock.
  Context {S : sorts} {W : Type}.
  (** M 35-36: the two attributes. *)
  Record mock := mkMock { m_queue : list (Resp S); m_captured : list (Req S) }.
  Variable exhausted : Exc S.      (* M 73-76: MockHTTPClientError *)

  (** M 58-85, [send]. *)
  Definition mock_send (r : Req S) : eff S (W * mock) (Resp S) :=
    fun w =>
      let captured := m_captured (snd w) ++ [r] in
      match m_queue (snd w) with
      | p :: rest => (inl p, (fst w, mkMock rest captured))
      | [] => (inr exhausted, (fst w, mkMock [] captured))
      end.

  (** What leaves the client for tests alone. *)
  Definition beside {X} (m : eff S W X) : eff S (W * mock) X :=
    fun w => let (x, w') := m (fst w) in (x, (w', snd w)).
  Definition beside_interceptor (H : interceptor S W) : interceptor S (W * mock) := {|
    i_read := fun h c => beside (i_read H h c);
    i_input := fun i => beside (i_input H i);
    i_request := fun h i r => beside (i_request H h i r);
    i_response := fun i r p => beside (i_response H i r p);
    i_output := fun h c => beside (i_output H h c)
  |}.
  (** aio/client.py 52-107: the same call with this transport. *)
  Definition with_mock (E : env S W) : env S (W * mock) := {|
    e_interceptor := beside_interceptor (e_interceptor E);
    e_serialize := fun i => beside (e_serialize E i);
    e_endpoint := fun i => beside (e_endpoint E i);
    e_set_endpoint := fun r ep => beside (e_set_endpoint E r ep);
    e_auth_options := beside (e_auth_options E);
    e_supported := e_supported E;
    e_set_scheme := fun s w => (e_set_scheme E s (fst w), snd w);
    e_identity_props := fun s => beside (e_identity_props E s);
    e_signer_props := fun s => beside (e_signer_props E s);
    e_opt_identity_props := e_opt_identity_props E;
    e_opt_signer_props := e_opt_signer_props E;
    e_update := e_update E;
    e_identity := fun s p => beside (e_identity E s p);
    e_sign := fun s r i p => beside (e_sign E s r i p);
    e_future := match e_future E with None => None | Some f => Some (fun i r => beside (f i r)) end;
    e_send := mock_send;
    e_is_timeout := e_is_timeout E;
    e_timeout := e_timeout E;
    e_deserialize := fun r p => beside (e_deserialize E r p);
    e_copy := fun r w => let (r', w') := e_copy E r (fst w) in (r', (w', snd w));
    e_rewind := fun r => beside (e_rewind E r);
    e_acquire := beside (e_acquire E);
    e_delay := e_delay E;
    e_refresh := fun t e w => let (x, w') := e_refresh E t e (fst w) in (x, (w', snd w));
    e_success := fun t => beside (e_success E t);
    e_retryable := e_retryable E;
    e_long_polling := e_long_polling E;
    e_is_smithy := e_is_smithy E;
    e_smithy := e_smithy E
  |}.
End Mock.
Arguments mock : clear implicits.
