(** C93.  The signatures of an event stream continue the request's signature. *)
From Verif Require Import Base Base_Proofs Utf8_Model PyText_Model PyDict_Model Sign_Model Sign_Spec Sign_Proofs Sign2_Proofs
  SignCover_Proofs EventSeed_Model EventSeed_Spec EventSeed_Proofs Sign_Props.
From Verif Require EventStream_Model EventIO_Model EventIO_Spec EventIO_Proofs EventIO_Props.
Local Open Scope N_scope.

(** Every signed request has one Authorization header, of one value, which carries
    a signature; the signatures of the events start from that signature. *)
Theorem C93_seed lower upper sha256 hmac utf8_replace async now i p r s :
  lowers_ascii lower -> wf_fields lower (r_fields r) -> (forall k m, Forall (fun b => b < 256) (hmac k m)) ->
  snd (sign lower upper sha256 hmac utf8_replace async now i p r) = Ok s ->
  exists v sig,
    (forall vs, header lower (r_fields s) (lit "authorization") vs <-> vs = [v]) /\
    carries v sig /\
    event_signer lower (r_fields s) = Ok sig.
Proof.
  intros L W B E. destruct (sign_cases _ _ _ _ _ _ _ _ _ _ _ E) as (c & fs & b & sts & sig & C & S & G & ->). cbn [r_fields].
  assert (Wf : wf_fields lower fs).
  { assert (W1 : wf_fields lower (apply_required_fields lower (get_or now (sp_date p)) i (r_fields r))) by (apply apply_wf; exact W).
    destruct (canonical_spec lower upper sha256 utf8_replace async L p
      (mkRequest (r_dest r) (r_method r) (r_body r) (apply_required_fields lower (get_or now (sp_date p)) i (r_fields r))) c fs b W1 C) as (pl & P & _).
    eapply (payload_wf lower sha256 async L); [|exact P]. exact W1. }
  assert (H : Forall (fun c => 48 <= c <= 57 \/ 97 <= c <= 102) sig).
  { unfold Sign_Model.signature in G.
    repeat (match type of G with bind ?x _ = _ => destruct x as [|] eqn:?; [cbn [bind] in G|discriminate G] end).
    injection G as <-. apply Forall_forall. intros ch I. eapply hexlify_char; [|exact I].
    match goal with H : hash hmac _ sts = Ok ?a |- Forall _ ?a => revert H end. unfold hash.
    destruct (utf8_encode sts); [|discriminate]. cbn [bind]. intros [= <-]. apply B. }
  set (v := authorization_value _ _ sig). exists v, sig.
  assert (Cr : carries v sig).
  { split; [|exact H]. unfold v, authorization_value. eexists. rewrite !app_assoc. reflexivity. }
  split; [|split; [exact Cr|]].
  - intros vs. rewrite header_set by exact Wf. cbn [f_name f_values]. rewrite (auth_lower lower L). split.
    + intros [[_ X]|[X _]]; [congruence|contradiction].
    + intros ->. left. auto.
  - eapply (seed_of lower _ (mkField (lit "Authorization") [v])); [apply (get_set_same lower (mkField (lit "Authorization") [v]))|reflexivity|exact Cr].
Qed.
Print Assumptions C93_seed.

(** The publisher of a signed request, for all concurrent calls and schedules: the
    frames on the wire are a chain of signatures that starts from the signature in
    the request's Authorization header. *)
Theorem C93_wire lower upper sha256 hmac utf8_replace async now i p r s scheme evs calls sched :
  lowers_ascii lower -> wf_fields lower (r_fields r) -> (forall k m, Forall (fun b => b < 256) (hmac k m)) ->
  snd (sign lower upper sha256 hmac utf8_replace async now i p r) = Ok s ->
  Forall (EventIO_Proofs.client_call evs) calls ->
  exists publisher v sig log prior ended,
    create_event_publisher lower (Some scheme) (r_fields s) = Ok publisher /\
    header lower (r_fields s) (lit "authorization") [v] /\ carries v sig /\
    EventIO_Spec.chain sha256 hmac sig log prior ended /\
    EventIO_Spec.writes (EventIO_Model.p_trace (EventIO_Model.q_pub
      (EventIO_Model.qrun sha256 hmac sched (EventIO_Model.mkPSys publisher calls)))) = EventIO_Spec.frames_of log /\
    (forall j m, In (j, m) log -> EventIO_Model.j_props j = scheme /\
       ((EventIO_Model.j_final j = true /\ EventIO_Model.j_payload j = []) \/
        (EventIO_Model.j_final j = false /\ exists ev, In ev evs /\ EventStream_Model.encode_message ev = Ok (EventIO_Model.j_payload j)))).
Proof.
  intros L W B E Hc. destruct (C93_seed _ _ _ _ _ _ _ _ _ _ _ L W B E) as (v & sig & Hh & Hc' & Hs).
  destruct (EventIO_Props.C10_wire sha256 hmac scheme sig evs calls sched Hc) as (log & prior & ended & C1 & C2 & C3 & _).
  exists (EventIO_Model.pub_init (Some (scheme, sig))), v, sig, log, prior, ended.
  split; [unfold create_event_publisher; rewrite Hs; reflexivity|]. split; [apply Hh; reflexivity|]. auto.
Qed.
Print Assumptions C93_wire.

(** The header of the example ends with "4b68". *)
Example C93_seed_ex : snd (x_sign x_ident x_props x_request) = Ok x_signed /\ event_signer x_lower (r_fields x_signed) = Ok (lit "4b68").
Proof. vm_compute. split; reflexivity. Qed.
(** The name of the signature in the credential does not mislead it. *)
Example C93_seed_ex2 :
  let i := mkIdent (lit "Signature=SignatuSignature=00") (lit "secret") None false in
  match snd (x_sign i x_props x_request) with
  | Ok s => event_signer x_lower (r_fields s)
  | Err e => Err e
  end = Ok (lit "4b96").
Proof. vm_compute. reflexivity. Qed.

(** Without the header there is no event signer, and none is made: no stream is
    signed from a made-up seed. *)
Theorem C93_unsigned lower scheme fs : wf_fields lower fs -> lowers_ascii lower ->
  ~ has_header lower fs (lit "authorization") -> create_event_publisher lower (Some scheme) fs = Err KeyError.
Proof.
  intros W L H. unfold create_event_publisher, event_signer.
  assert (X : in_fields lower (lit "Authorization") fs = false).
  { destruct (in_fields lower (lit "Authorization") fs) eqn:E; [|reflexivity]. apply (in_has lower) in E; [|exact W]. elim H.
    rewrite (auth_lower lower L) in E. exact E. }
  unfold in_fields, dict_has in X. unfold get_field. destruct (dict_get (lower (lit "Authorization")) fs); [discriminate X|reflexivity].
Qed.
Print Assumptions C93_unsigned.
Example C93_unsigned_ex : ~ has_header x_lower (r_fields x_request) (lit "authorization").
Proof.
  intros (vs & k & f & I & N & _). vm_compute in I.
  repeat (destruct I as [I|I]; [injection I as <- <-; vm_compute in N; discriminate N|]). exact I.
Qed.
