(** Properties of interceptors and of the request pipeline. *)
From Coq Require Import QArith.
From Verif Require Import Base Retry_Model Client_Model Client_Spec Client_Proofs ClientSim_Proofs ClientShape_Proofs.
Local Open Scope nat_scope.

(** ** A small call for the examples: every type is nat; the world counts sends;
    the first send fails with 9, later ones answer. *)
Definition D : sorts := mkSorts nat nat nat nat nat nat nat nat nat nat nat.

Definition quiet {W} : interceptor D W := {|
  i_read := fun _ _ => ret tt;
  i_input := fun i => ret i;
  i_request := fun _ _ r => ret r;
  i_response := fun _ _ p => ret p;
  i_output := fun _ c => ret (oc_response c)
|}.

Definition demo (H : interceptor D nat) (retryable : bool) (supported : nat -> option nat) : env D nat := {|
  e_interceptor := H;
  e_serialize := fun i => ret (i + 10);
  e_endpoint := fun _ => ret 1;
  e_set_endpoint := fun r ep => ret (r + 100);
  e_auth_options := ret [3; 4];
  e_supported := supported;
  e_set_scheme := fun _ w => w;
  e_identity_props := fun _ => ret 0;
  e_signer_props := fun _ => ret 0;
  e_opt_identity_props := fun o => o;
  e_opt_signer_props := fun o => o + 50;
  e_update := fun a b => a + b;
  e_identity := fun _ _ => ret 7;
  e_sign := fun _ r _ _ => ret (r + 5);
  e_future := None;
  e_send := fun r w => if Nat.eqb w 0 then (inr 9, 1) else (inl r, w + 1);
  e_is_timeout := fun _ => false;
  e_timeout := fun e => e;
  e_deserialize := fun _ p => ret (p + 1);
  e_copy := fun r w => (r, w);
  e_rewind := fun _ => ret tt;
  e_acquire := ret 0;
  e_delay := fun _ => 0%Q;
  e_refresh := fun t _ w => if Nat.ltb t 2 then (inl (t + 1), w) else (inr (inl None), w);
  e_success := fun _ => ret tt;
  e_retryable := retryable;
  e_long_polling := false;
  e_is_smithy := fun _ => true;
  e_smithy := fun e => e
|}.
Notation dOut := (mkOut (S := D)).
Definition only4 (o : nat) : option nat := if Nat.eqb o 4 then Some 40 else None.

(** An interceptor that adds 1 to the input. *)
Definition plus1 : interceptor D nat :=
  mkInterceptor (S := D) (W := nat) (fun _ _ => ret tt) (fun i => ret (i + 1)) (fun _ _ r => ret r)
    (fun _ _ p => ret p) (fun _ c => ret (oc_response c)).
(** An interceptor whose reading hook [h] raises [e]. *)
Definition raising (same : read_hook -> bool) (e : nat) : interceptor D nat :=
  mkInterceptor (S := D) (W := nat) (fun h _ => if same h then throw (e : Exc D) else ret tt) (fun i => ret i)
    (fun _ _ r => ret r) (fun _ _ p => ret p) (fun _ c => ret (oc_response c)).

(** ** C15: bodies *)
(** A body that is a value, or a stream at its start that can seek, is sent whole
    by every attempt, however much of it the previous attempt took. *)
Theorem C15_body : forall b n,
  match b with
  | BValue _ => True
  | BStream sk hs _ pos => sk <> Some false /\ hs = true /\ pos = 0
  end ->
  sent_bytes (seek_start (take_bytes n b)) = sent_bytes b.
Proof.
  intros [c|sk hs c pos] n H; [reflexivity|]. destruct H as (H1 & -> & ->). cbn.
  destruct sk as [[|]|]; [reflexivity|congruence|reflexivity].
Qed.
Print Assumptions C15_body.

Example C15_body_used : sent_bytes (seek_start (take_bytes 2 (BStream (Some true) true [1; 2; 3]%N 0))) = [1; 2; 3]%N.
Proof. reflexivity. Qed.

(** A body that cannot seek is retried from where the failed attempt left it, and
    one that was not at its start is retried from its start. *)
Theorem C15_body_refuted :
  (exists b n, sent_bytes b = [1; 2; 3]%N /\ sent_bytes (seek_start (take_bytes n b)) = [3]%N) /\
  (exists b n, sent_bytes b = [2; 3]%N /\ sent_bytes (seek_start (take_bytes n b)) = [1; 2; 3]%N).
Proof.
  split.
  - exists (BStream (Some false) true [1; 2; 3]%N 0), 2. split; reflexivity.
  - exists (BStream (Some true) true [1; 2; 3]%N 1), 2. split; reflexivity.
Qed.
Print Assumptions C15_body_refuted.

(** ** C16: order *)
(** Observing a call does not change what it does. *)
Theorem C16_observed : forall S W (E : env S W) fuel ci w,
  execute E fuel ci w =
  match execute (spy_env E) fuel ci (w, []) with
  | Some (x, (w', _)) => Some (x, w')
  | None => None
  end.
Proof. intros. apply erase_execute. Qed.
Print Assumptions C16_observed.

(** Every execution has the documented shape, whatever raises. *)
Theorem C16_order : forall S W (E : env S W) fuel ci w final w' es,
  execute (spy_env E) fuel ci (w, []) = Some (final, (w', es)) ->
  execution_shape (fun _ es _ => attempt_shape (match e_future E with Some _ => true | None => false end) es)
    (e_retryable E) (fun e => if e_is_smithy E e then e else e_smithy E e) es
    (match final with inl (o, _) => inl o | inr e => inr e end).
Proof.
  intros S W E fuel ci w final w' es H. destruct (execute_ok E ci _ _ _ _ _ H) as (es' & i & E1 & Hs & _).
  cbn [snd app] in E1. subst es'. eapply execution_mono; [|exact Hs]. intros r es' c Hf. apply Hf.
Qed.
Print Assumptions C16_order.

(** In an attempt the transport is called at most once, and only after all the
    hooks up to transmission have succeeded. *)
Theorem C16_send : forall S str (es : list (event S)),
  attempt_shape str es ->
  List.length (filter is_send es) <= 1 /\
  forall a r x b, es = a ++ EvSend r x :: b ->
    Forall (fun st => exists e, In e a /\ kind e = st /\ raised e = false)
      [StRead RBeforeAttempt; StEndpoint; StSetEndpoint; StRequest MBeforeSigning; StRead RBeforeSigning; StAuthOptions;
       StRead RAfterSigning; StRequest MBeforeTransmit; StRead RBeforeTransmit].
Proof.
  intros S str es H. split; [exact (sends_once _ _ H)|]. intros a r x b. exact (sent_after _ _ _ _ _ _ H).
Qed.
Print Assumptions C16_send.

(** The first attempt fails in the transport, the second succeeds. *)
Example C16_used : exists final w' es,
  execute (spy_env (demo quiet true only4)) 5 1 (0, []) = Some (final, (w', es)) /\
  map kind es =
  [StRead RBeforeExecution; StInput; StRead RBeforeSerialization; StSerialize; StRead RAfterSerialization;
   StRequest MBeforeRetryLoop; StAcquire; StCopy;
   StRead RBeforeAttempt; StEndpoint; StSetEndpoint; StRequest MBeforeSigning; StRead RBeforeSigning; StAuthOptions;
   StIdentityProps; StIdentity; StSignerProps; StSign; StRead RAfterSigning; StRequest MBeforeTransmit;
   StRead RBeforeTransmit; StSend; StOutput MBeforeAttemptCompletion; StRead RAfterAttempt; StRefresh; StRewind; StCopy;
   StRead RBeforeAttempt; StEndpoint; StSetEndpoint; StRequest MBeforeSigning; StRead RBeforeSigning; StAuthOptions;
   StIdentityProps; StIdentity; StSignerProps; StSign; StRead RAfterSigning; StRequest MBeforeTransmit;
   StRead RBeforeTransmit; StSend; StRead RAfterTransmit; StResponse; StRead RBeforeDeserialization; StDeserialize;
   StRead RAfterDeserialization; StOutput MBeforeAttemptCompletion; StRead RAfterAttempt; StSuccess;
   StOutput MBeforeCompletion; StRead RAfterExecution] /\
  final = inl (117, dOut 1 (inl 117) (Some 116) (Some 116)).
Proof. eexists _, _, _. split; [vm_compute; reflexivity|]. split; reflexivity. Qed.

(** ** C17: modifying hooks *)
(** Full statement: each modifying hook receives what the previous interceptor
    returned.  It is false: the second interceptor is asked about the input the
    chain was given, and the change of the first is lost. *)
Theorem C17_refuted :
  exists (l : list (interceptor D nat)) w x log,
    i_input (chain (spy_list 0 l)) 1 (w, []) = (inl x, (w, log)) /\
    log = [(0, EvInput (S := D) 1 (inl 2)); (1, EvInput (S := D) 1 (inl 1))] /\ x = 1.
Proof. exists [plus1; quiet], 0. eexists _, _. split; [reflexivity|]. split; reflexivity. Qed.
Print Assumptions C17_refuted.

(** What holds: every interceptor, in order, is asked about what the chain was
    given; the value used is the one returned by the last; the first exception
    stops the chain. *)
Theorem C17_last_partial : forall S W (l : list (interceptor S W)) w,
  (forall i, let '(res, (_, log)) := i_input (chain (spy_list 0 l)) i (w, []) in
     asked_alike (EvInput i) (List.length l) i res log) /\
  (forall h i r, let '(res, (_, log)) := i_request (chain (spy_list 0 l)) h i r (w, []) in
     asked_alike (EvRequest h i r) (List.length l) r res log) /\
  (forall i r p, let '(res, (_, log)) := i_response (chain (spy_list 0 l)) i r p (w, []) in
     asked_alike (EvResponse i r p) (List.length l) p res log) /\
  (forall c, let '(res, (_, log)) := i_output (chain (spy_list 0 l)) MBeforeAttemptCompletion c (w, []) in
     asked_alike (EvOutput MBeforeAttemptCompletion c) (List.length l) (oc_response c) res log).
Proof.
  intros S W l w. repeat split; intros; cbn [chain i_input i_request i_response i_output].
  - apply modify_alike0 with (call0 := fun x => i_input x i). reflexivity.
  - apply modify_alike0 with (call0 := fun x => i_request x h i r). reflexivity.
  - apply modify_alike0 with (call0 := fun x => i_response x i r p). reflexivity.
  - apply modify_alike0 with (call0 := fun x => i_output x MBeforeAttemptCompletion c). reflexivity.
Qed.
Print Assumptions C17_last_partial.

(** ** C18: completion hooks *)
(** Every interceptor's read_after_execution is invoked once, in order; each sees
    the exception of the ones before it as the response; the last exception is
    the outcome. *)
Theorem C18_read_after_execution : forall S W (l : list (interceptor S W)) c w,
  exists outs w', List.length outs = List.length l /\
    i_read (chain (spy_list 0 l)) RAfterExecution (COutput c) (w, []) =
    (match last_exception outs with None => inl tt | Some e => inr e end,
     (w', numbered 0 (everyone_asked c outs))).
Proof. intros S W l c w. apply (after_all l c None 0 w []). Qed.
Print Assumptions C18_read_after_execution.

Example C18_used :
  i_read (chain (spy_list 0 [raising (fun _ => true) 5; raising (fun _ => true) 6; quiet])) RAfterExecution
    (COutput (dOut 1 (inl 2) None None)) (0, []) =
  (inr 6, (0, [(0, EvRead RAfterExecution (COutput (dOut 1 (inl 2) None None)) (inr 5));
               (1, EvRead RAfterExecution (COutput (dOut 1 (inr 5) None None)) (inr 6));
               (2, EvRead RAfterExecution (COutput (dOut 1 (inr 6) None None)) (inl tt))])).
Proof. reflexivity. Qed.

(** The pipeline asks its interceptor (the chain) exactly once per execution for
    each of the two completion hooks, whatever failed before. *)
Theorem C18_once : forall S W (E : env S W) fuel ci w final w' es,
  execute (spy_env E) fuel ci (w, []) = Some (final, (w', es)) ->
  List.length (filter (is_completion (StOutput MBeforeCompletion)) es) = 1 /\
  List.length (filter (is_completion (StRead RAfterExecution)) es) = 1.
Proof. intros. eapply completion_once; eassumption. Qed.
Print Assumptions C18_once.

(** The chain never invokes modify_before_completion of its interceptors: it
    invokes their modify_before_attempt_completion instead. *)
Theorem C18_modify_before_completion_refuted :
  (forall S W (l : list (interceptor S W)) h c w,
     let '(_, (_, log)) := i_output (chain (spy_list 0 l)) h c (w, []) in
     forall k e, In (k, e) log -> kind e = StOutput MBeforeAttemptCompletion) /\
  (exists (l : list (interceptor D nat)) c,
     List.length l = 1 /\
     snd (snd (i_output (chain (spy_list 0 l)) MBeforeCompletion c (0, []))) =
     [(0, EvOutput MBeforeAttemptCompletion c (inl (oc_response c)))]).
Proof.
  split.
  - intros S W l h c w. cbn [chain i_output].
    pose proof (modify_alike0 (EvOutput MBeforeAttemptCompletion c)
      (fun x => i_output x MBeforeAttemptCompletion c) (fun x => i_output x MBeforeAttemptCompletion c)
      l (oc_response c) w (fun _ _ => eq_refl)) as H.
    destruct (chain_modify _ _ _ _) as [res [w' log]].
    assert (G : forall evs, (forall e, In e evs -> kind e = StOutput MBeforeAttemptCompletion) ->
                forall k0 k (e : event S), In (k, e) (numbered k0 evs) -> kind e = StOutput MBeforeAttemptCompletion).
    { clear. induction evs as [|e0 evs IH]; intros He k0 k e Hin; [contradiction|].
      destruct Hin as [Hin|Hin]; [injection Hin as _ <-; apply He; left; reflexivity|].
      eapply IH; [|exact Hin]. intros e' He'. apply He. right. exact He'. }
    destruct res as [x|e0]; destruct H as (outs & H); [destruct H as (_ & -> & _)|destruct H as (_ & ->)]; apply G;
      intros e He; rewrite ?in_app_iff, in_map_iff in He.
    + destruct He as (o & <- & _). reflexivity.
    + destruct He as [(o & <- & _)|[<-|[]]]; reflexivity.
  - exists [quiet], (dOut 1 (inl 2) None None). split; reflexivity.
Qed.
Print Assumptions C18_modify_before_completion_refuted.

(** ** C63: reading hooks *)
(** Full statement: an exception of read_before_execution, read_before_attempt
    or read_after_attempt is kept until all interceptors had that hook invoked,
    and the last exception wins.  It is false: the first exception ends the
    hook. *)
Theorem C63_refuted : forall h c,
  In h [RBeforeExecution; RBeforeAttempt; RAfterAttempt] ->
  exists (l : list (interceptor D nat)),
    List.length l = 2 /\
    i_read (chain (spy_list 0 l)) h c (0, []) = (inr 5, (0, [(0, EvRead h c (inr 5))])).
Proof.
  intros h c Hh. exists [raising (fun _ => true) 5; raising (fun _ => true) 6]. split; [reflexivity|].
  destruct Hh as [<-|[<-|[<-|[]]]]; reflexivity.
Qed.
Print Assumptions C63_refuted.

(** What holds for every reading hook but the last: in order, up to and including
    the first that raises; if none raises, all are invoked. *)
Theorem C63_reads_partial : forall S W (l : list (interceptor S W)) h c w,
  h <> RAfterExecution ->
  let '(res, (_, log)) := i_read (chain (spy_list 0 l)) h c (w, []) in
  exists n, log = numbered 0 (repeat (EvRead h c (inl tt)) n ++
                              match res with inl _ => [] | inr e => [EvRead h c (inr e)] end) /\
    match res with inl _ => n = List.length l | inr _ => n < List.length l end.
Proof.
  intros S W l h c w Hh.
  replace (i_read (chain (spy_list 0 l)) h c) with (chain_reads h c (spy_list 0 l)).
  - apply (chain_reads_alike h c l 0 w []).
  - destruct h; try reflexivity. congruence.
Qed.
Print Assumptions C63_reads_partial.

(** ** C19: the input *)
(** Full statement: what is sent is the serialization of the input as modified.
    It is false: with an interceptor that replaces input 1 by 2, input 1 is
    serialized (as 11). *)
Theorem C19_refuted :
  exists (E : env D nat) final w' es,
    execute (spy_env E) 5 1 (1, []) = Some (final, (w', es)) /\
    In (EvInput (S := D) 1 (inl 2)) es /\
    (forall i x, In (EvSerialize (S := D) i x) es -> i = 1) /\
    In (EvSerialize (S := D) 1 (inl 11)) es /\ In (EvSend (S := D) 116 (inl 116)) es.
Proof.
  exists (demo plus1 true only4). eexists _, _, _. split; [vm_compute; reflexivity|].
  split; [cbn; tauto|]. split.
  - intros i x H. cbn in H. repeat (destruct H as [H|H]; [try discriminate H|]).
    + injection H as <- _. reflexivity.
    + contradiction.
  - split; cbn; tauto.
Qed.
Print Assumptions C19_refuted.

(** The serializer and the endpoint resolver are always given the caller's
    input. *)
Theorem C19_unmodified_refuted : forall S W (E : env S W) fuel ci w final w' es e x,
  execute (spy_env E) fuel ci (w, []) = Some (final, (w', es)) ->
  In e es -> wire_input_of e = Some x -> x = ci.
Proof.
  intros S W E fuel ci w final w' es e x H He Hx. destruct (execute_ok E ci _ _ _ _ _ H) as (es' & i & E1 & _ & _ & Hw & _).
  cbn [snd app] in E1. subst es'. unfold wire_sees in Hw. rewrite Forall_forall in Hw. specialize (Hw _ He).
  rewrite Hx in Hw. cbn in Hw. congruence.
Qed.
Print Assumptions C19_unmodified_refuted.

(** What holds: the hooks are given the modified input; the request that enters
    the retry loop is what the serializer made; in each attempt every step is
    given the request (and the response) left by the steps before it, so that
    what is sent is what modify_before_transmit returned. *)
Theorem C19_flows_partial : forall S W (E : env S W) fuel ci w final w' es,
  execute (spy_env E) fuel ci (w, []) = Some (final, (w', es)) ->
  input_flows ci es /\ serialized_flows es /\
  execution_shape (fun r0 es c => request_flows r0 es /\ response_flows es /\ oc_request c = Some (current_request r0 es))
    (e_retryable E) (fun e => if e_is_smithy E e then e else e_smithy E e) es
    (match final with inl (o, _) => inl o | inr e => inr e end).
Proof.
  intros S W E fuel ci w final w' es H. destruct (execute_ok E ci _ _ _ _ _ H) as (es' & i & E1 & Hs & H1 & _ & H2).
  cbn [snd app] in E1. subst es'. split; [exact H1|]. split; [exact H2|].
  eapply execution_mono; [|exact Hs]. intros r es' c (_ & Hf & _ & _ & _ & _ & Hr).
  split; [eapply flows_request, Hf|]. split; [eapply flows_response, Hf|exact Hr].
Qed.
Print Assumptions C19_flows_partial.

(** ** C64: the completion hooks and the transport response *)
(** Full statement: modify_before_attempt_completion and read_after_attempt see
    the transport response if one was received.  It is false when a later step
    of the attempt fails. *)
Theorem C64_refuted :
  exists (E : env D nat) final w' es (c c' : octx D),
    execute (spy_env E) 5 1 (1, []) = Some (final, (w', es)) /\
    In (EvSend (S := D) 116 (inl 116)) es /\
    In (EvOutput MBeforeAttemptCompletion c (inl (inr 5))) es /\ oc_transport c = None /\
    In (EvRead RAfterAttempt (COutput c') (inl tt)) es /\ oc_transport c' = None.
Proof.
  exists (demo (raising (fun h => match h with RAfterTransmit => true | _ => false end) 5) false only4).
  eexists _, _, _, _, _. split; [vm_compute; reflexivity|].
  split; [cbn; tauto|]. split; [cbn; do 21 right; left; reflexivity|]. split; [reflexivity|].
  split; [cbn; do 22 right; left; reflexivity|reflexivity].
Qed.
Print Assumptions C64_refuted.

(** ** C20: streaming calls *)
(** The caller of a streaming call is given its stream exactly when an attempt
    reached transmission; otherwise, the execution having ended, it waits for
    ever. *)
Theorem C20_ready_partial : forall S W (E : env S W) already fuel ci w final w' es,
  execute (spy_env (with_future already E)) fuel ci ((w, None), []) = Some (final, (w', es)) ->
  open_stream already E fuel ci w =
  Some (match transmission es with Some (i, r) => Ready i r | None => Hangs end).
Proof. intros. eapply stream_told; eassumption. Qed.
Print Assumptions C20_ready_partial.

(** Full statement: a streaming call returns or raises once its execution has
    ended.  It is false when a hook fails before transmission: the execution
    ends with the exception 5, but the caller never gets it. *)
Theorem C20_refuted :
  exists (E : env D nat) w',
    execute (with_future (S := D) 99 E) 5 1 (0, None) = Some (inr 5, w') /\
    open_stream (S := D) 99 E 5 1 0 = Some Hangs.
Proof.
  exists (demo (raising (fun h => match h with RBeforeSigning => true | _ => false end) 5) false only4).
  eexists. split; vm_compute; reflexivity.
Qed.
Print Assumptions C20_refuted.

Example C20_used : open_stream (S := D) 99 (demo quiet false only4) 5 1 0 = Some (Ready (S := D) 1 116).
Proof. vm_compute. reflexivity. Qed.

(** ** C56: auth *)
(** The scheme used is that of the first supported option; its identity
    resolver, given the scheme's and the option's identity properties, makes the
    identity it signs with; a request is transmitted signed if there is a
    supported option and unsigned if there is none. *)
Theorem C56_selection : forall S W (E : env S W) fuel ci w final w' es,
  execute (spy_env E) fuel ci (w, []) = Some (final, (w', es)) ->
  execution_shape (fun _ es _ => auth_flows E es)
    (e_retryable E) (fun e => if e_is_smithy E e then e else e_smithy E e) es
    (match final with inl (o, _) => inl o | inr e => inr e end).
Proof.
  intros S W E fuel ci w final w' es H. destruct (execute_ok E ci _ _ _ _ _ H) as (es' & i & E1 & Hs & _).
  cbn [snd app] in E1. subst es'. eapply execution_mono; [|exact Hs]. intros r es' c Hf. apply Hf.
Qed.
Print Assumptions C56_selection.

Example C56_signed : exists final w' es,
  execute (spy_env (demo quiet false only4)) 5 1 (1, []) = Some (final, (w', es)) /\
  In (EvSign (S := D) 40 111 7 4 (inl 116)) es.
Proof. eexists _, _, _. split; [vm_compute; reflexivity|]. cbn. tauto. Qed.
Example C56_unsigned : exists final w' es,
  execute (spy_env (demo quiet false (fun _ => None))) 5 1 (1, []) = Some (final, (w', es)) /\
  In (EvSend (S := D) 111 (inl 111)) es.
Proof. eexists _, _, _. split; [vm_compute; reflexivity|]. cbn. tauto. Qed.

(** Full statement (last part): the option's signer properties are delivered to
    the signer.  It is false: the option's identity properties (4) are delivered
    instead of its signer properties (54). *)
Theorem C56_signer_properties_refuted :
  exists (E : env D nat) final w' es,
    execute (spy_env E) 5 1 (1, []) = Some (final, (w', es)) /\
    e_opt_signer_props E 4 = 54 /\ e_opt_identity_props E 4 = 4 /\
    In (EvSignerProps (S := D) 40 (inl 0)) es /\
    forall s r id p x, In (EvSign s r id p x) es -> p = e_update E 0 4.
Proof.
  exists (demo quiet false only4). eexists _, _, _. split; [vm_compute; reflexivity|].
  split; [reflexivity|]. split; [reflexivity|]. split; [cbn; tauto|].
  intros s r id p x H. cbn in H. repeat (destruct H as [H|H]; [try discriminate H|]).
  - injection H as <- <- <- <- _. reflexivity.
  - contradiction.
Qed.
Print Assumptions C56_signer_properties_refuted.

(** ** C57: closing a duplex stream *)
(** Both streams are closed exactly when the output stream is or becomes known
    and closing the input stream does not raise. *)
Theorem C57_partial : forall p i o,
  fst (duplex_close p i o) = [CloseInput; CloseOutput] <-> (p = Known \/ p = Arrives) /\ i = None.
Proof.
  intros p i o. destruct p, i; cbn; intuition discriminate.
Qed.
Print Assumptions C57_partial.

(** Full statement: closing always closes both.  If the output failed, neither
    is closed; if it never arrives, close never returns; if closing the input
    raises, the output is not closed. *)
Theorem C57_refuted :
  (forall e o i, duplex_close (Fails e) i o = ([], CloseRaised e)) /\
  (forall o i, duplex_close Never i o = ([], CloseHangs)) /\
  (forall e o, duplex_close Known (Some e) o = ([CloseInput], CloseRaised e)).
Proof. repeat split. Qed.
Print Assumptions C57_refuted.
