(** Event publisher, receiver and signer: properties C08, C09, C10. *)
From Verif Require Import Base Base_Proofs Utf8_Model EventStream_Model EventStream_Spec EventStream_Proofs EventStream_Props
  Streams_Model Streams_Proofs EventIO_Model EventIO_Spec EventIO_Proofs.
Local Open Scope N_scope.

(** ** C08. Publisher lifecycle. *)

(** Without signing: for every list of calls and answers of the transport, what
    reaches the transport is exactly the specified list of frames and close, and
    exactly the specified calls raise. *)
Theorem C08_unsigned sha256 hmac (cs : list (call * pinput)) :
  Forall answers cs ->
  exists outcomes s, run_calls sha256 hmac cs (pub_init None) = Some (outcomes, s) /\
    p_trace s = expected_trace (map fst cs) /\
    map raises outcomes = expected_raises false (map fst cs).
Proof.
  intros H. destruct (run_calls_open sha256 hmac cs (pub_init None) H eq_refl eq_refl) as (rs & s & E & Et & Er).
  exists rs, s. auto.
Qed.
Print Assumptions C08_unsigned.

Definition ex_in : pinput := mkIn (Ok (lit "secret")) (mkInstant 0 (lit "20250101T000000Z")) None None.
Definition ex_in_fail : pinput := mkIn (Ok (lit "secret")) (mkInstant 0 (lit "20250101T000000Z")) (Some RuntimeError) None.
Definition m_small : message := mkMessage [] [1;2;3].
Example ex_C08_answers : Forall answers [(CSend m_small false, ex_in); (CSend m_small true, ex_in_fail); (CSend m_small false, ex_in); (CClose, ex_in)].
Proof. repeat constructor. Qed.
Example ex_C08_expected : exists f,
  expected_trace [CSend m_small false; CSend m_small true; CSend m_small false; CClose] = [AWrite f; AWrite f; AClose] /\
  expected_raises false [CSend m_small false; CSend m_small true; CSend m_small false; CClose] = [false; true; true; false].
Proof. eexists. vm_compute. split; reflexivity. Qed.

(** Signing or not, for every history of calls run one after the other, with any
    answers of the environment: frames, then at most one close, which comes last
    and is there as soon as the publisher is closed. *)
Theorem C08_history sha256 hmac signing (h : list (call * option exn)) s :
  history sha256 hmac h (pub_init signing) s ->
  exists frames, p_trace s = map AWrite frames ++ (if p_closed s then [AClose] else []).
Proof. intros H. apply (history_shape sha256 hmac h _ _ H []). reflexivity. Qed.
Print Assumptions C08_history.

(** A send that returns has handed exactly the frame of its event to the
    transport; one that raises either has handed nothing and left the publisher
    open, or its write failed and the transport has been closed. *)
Theorem C08_send sha256 hmac ins m s r s' :
  p_closed s = false ->
  prun_task sha256 hmac ins (PSend (Ok (Some m))) s = Some (r, s') ->
  (r <> None /\ p_closed s' = false /\ p_trace s' = p_trace s) \/
  (exists f, frame_for sha256 hmac s m f /\
     ((r = None /\ p_closed s' = false /\ p_trace s' = p_trace s ++ [AWrite f]) \/
      (r <> None /\ p_closed s' = true /\
       exists ws, p_trace s' = p_trace s ++ [AWrite f] ++ ws ++ [AClose] /\
         (ws = [] \/ exists g, ws = [AWrite g]) /\ (p_signing s = None -> ws = [])))).
Proof. intros Hc H. exact (proj2 (send_run sha256 hmac ins m s r s' H) Hc). Qed.
Print Assumptions C08_send.

(** A send after close raises and writes nothing; a second close does nothing. *)
Theorem C08_after_close sha256 hmac ins m s r s' :
  p_closed s = true ->
  (prun_task sha256 hmac ins (PSend (Ok (Some m))) s = Some (r, s') -> r = Some OSError /\ s' = s) /\
  (prun_task sha256 hmac ins (PClose None) s = Some (r, s') -> r = None /\ s' = s).
Proof.
  intros Hc. split; intros H.
  - exact (proj1 (send_run sha256 hmac ins m s r s' H) Hc).
  - exact (proj1 (close_run sha256 hmac ins None s r s' H) Hc).
Qed.
Print Assumptions C08_after_close.

(** Closing always closes the transport, whatever fails, after at most one end
    frame: a signed message with an empty payload. *)
Theorem C08_close sha256 hmac ins s r s' :
  p_closed s = false ->
  prun_task sha256 hmac ins (PClose None) s = Some (r, s') ->
  p_closed s' = true /\
  exists ws, p_trace s' = p_trace s ++ ws ++ [AClose] /\ end_frame_ok sha256 hmac s ws.
Proof.
  intros Hc H. destruct (proj2 (close_run sha256 hmac ins None s r s' H) Hc) as (H1 & _ & H2). auto.
Qed.
Print Assumptions C08_close.

(** Every call ends, whatever the environment answers. *)
Theorem C08_terminates sha256 hmac ins ser s :
  (7 <= List.length ins)%nat ->
  (exists r s', prun_task sha256 hmac ins (PSend ser) s = Some (r, s')) /\
  (exists r s', prun_task sha256 hmac ins (PClose None) s = Some (r, s')).
Proof. intros H. split; apply run_total; cbn [rank]; lia. Qed.
Print Assumptions C08_terminates.

(** An event that serialises to nothing is not refused, as the check intends: the
    previous event is sent a second time. *)
Theorem C08_empty_event_resends_refuted :
  exists sha256 hmac i s1 s2 f,
    prun_task sha256 hmac (repeat i 7) (PSend (Ok (Some m_small))) (pub_init None) = Some (None, s1) /\
    prun_task sha256 hmac (repeat i 7) (PSend (Ok None)) s1 = Some (None, s2) /\
    p_trace s2 = [AWrite f; AWrite f] /\
    prun_task sha256 hmac (repeat i 7) (PSend (Ok None)) (pub_init None) = Some (Some ExpectationNotMet, pub_init None).
Proof.
  exists (fun b => b), (fun _ b => b), ex_in. eexists _, _, _.
  split; [vm_compute; reflexivity|]. split; [vm_compute; reflexivity|]. split; vm_compute; reflexivity.
Qed.
Print Assumptions C08_empty_event_resends_refuted.

(** ** C10. The signature chain. *)

(** For every set of concurrent calls on one signer and every schedule, with
    cancellations: the messages signed form one chain from the seed; nothing is
    signed after an end frame; every message returned is in the chain. *)
Theorem C10_chain sha256 hmac seed (jobs : list job) (sched : list (nat * bool)) :
  let y := srun sha256 hmac sched (sinit seed jobs) in
  (exists prior ended, chain sha256 hmac seed (y_log y) prior ended) /\
  (forall i m, nth_error (y_jobs y) i = Some (JDone (Ok m)) -> exists j, In (j, m) (y_log y)).
Proof.
  intros y. destruct (srun_inv sha256 hmac seed sched _ (sinit_inv sha256 hmac seed jobs)) as (H & _ & _ & H2).
  split; [eauto|exact H2].
Qed.
Print Assumptions C10_chain.

Definition toy_sha (b : bytes) : bytes := [len b mod 256].
Definition toy_hmac (k b : bytes) : bytes := [(len k + 3 * fold_right N.add 0 b) mod 256].
Definition ex_job (p : bytes) (fin : bool) : job :=
  mkJob (lit "secret") (mkProps (lit "us-east-1") (lit "s3") None) (mkInstant 5 (lit "20250101T000000Z")) p fin.
(** Three jobs started together, one of them the end frame; the one that runs
    after the end frame is refused. *)
Example ex_C10 :
  let y := srun toy_sha toy_hmac [(1, false); (0, false); (1, false); (2, false); (1, false); (2, false); (2, false); (2, false); (0, false); (0, false)]%nat
             (sinit (lit "ab") [ex_job [1] false; ex_job [2] false; ex_job [] true]) in
  map (fun jm => j_payload (fst jm)) (y_log y) = [[2]; []] /\ nth_error (y_jobs y) 0 = Some (JDone (Err RuntimeError)).
Proof. vm_compute. split; reflexivity. Qed.

(** For every set of concurrent sends and closes on a signing publisher and every
    schedule and environment: the frames handed to the transport are, in order,
    those of a chain of signed messages from the seed, each the envelope of a sent
    event or the end frame, all signed for the configured region and service; the
    transport is closed at most once, and has been once a close is through. *)
Theorem C10_wire sha256 hmac p seed evs (calls : list ppc) (sched : list (nat * pinput)) :
  Forall (client_call evs) calls ->
  let q := qrun sha256 hmac sched (mkPSys (pub_init (Some (p, seed))) calls) in
  exists log prior ended,
    chain sha256 hmac seed log prior ended /\
    writes (p_trace (q_pub q)) = frames_of log /\
    (forall j m, In (j, m) log -> j_props j = p /\
       ((j_final j = true /\ j_payload j = []) \/
        (j_final j = false /\ exists ev, In ev evs /\ encode_message ev = Ok (j_payload j)))) /\
    (closes (p_trace (q_pub q)) <= 1)%nat /\
    (p_closed (q_pub q) = true -> (forall pc, In pc (q_tasks q) -> exists r, pc = PDone r) -> closes (p_trace (q_pub q)) = 1%nat).
Proof.
  intros Hc q. destruct (qrun_inv sha256 hmac evs seed sched _ (qinit_inv sha256 hmac evs p seed calls Hc)) as ((p' & st & log & Hs & Hch & Hw & Hl) & Hcl & _).
  fold q in Hs, Hw, Hcl.
  assert (p' = p) as ->.
  { assert (Hp : forall sched q0, (exists st0, p_signing (q_pub q0) = Some (p, st0)) -> exists st1, p_signing (q_pub (qrun sha256 hmac sched q0)) = Some (p, st1)).
    { clear. induction sched as [|[i inp] r IH]; intros q0 H; cbn [qrun]; [exact H|]. apply IH. unfold qstep.
      destruct (nth_error (q_tasks q0) i) as [pc|]; [|exact H]. destruct H as [st0 H].
      destruct pc; cbn [pstep].
      - destruct (p_closed (q_pub q0)); [eauto|]. destruct ser as [[m|]|e]; [| |eauto]; cbn [p_last p_signing].
        + rewrite H. cbn. eauto.
        + destruct (p_last (q_pub q0)) as [[id m]|]; [|eauto]. rewrite H. cbn. eauto.
      - destruct (i_ident inp); [|eauto]. rewrite H. destruct (sign _ _ _ _ _ _ _) as [[sm st']|]; [|cbn; eauto].
        unfold hand_over. destruct (encode_message sm); cbn; eauto.
      - destruct (i_write inp); cbn; eauto.
      - destruct (p_closed (q_pub q0)); [eauto|]. cbn [p_signing]. rewrite H. cbn. eauto.
      - destruct (i_ident inp); [|cbn; eauto]. rewrite H. destruct (sign_empty _ _ _ _ _ _ _) as [[sm st']|]; [|cbn; eauto].
        destruct (encode_message sm); cbn; eauto.
      - cbn. eauto.
      - cbn. eauto.
      - cbn. eauto. }
    destruct (Hp sched (mkPSys (pub_init (Some (p, seed))) calls)) as [st1 H1]; [cbn; eauto|]. fold q in H1. congruence. }
  exists log, (sg_prior st), (sg_final st). split; [exact Hch|]. split; [exact Hw|]. split; [exact Hl|].
  split; [destruct (p_closed (q_pub q)); lia|].
  intros Hclosed Hdone. rewrite Hclosed in Hcl.
  assert (Hz : sum_pending (q_tasks q) = 0%nat).
  { clear - Hdone. induction (q_tasks q) as [|pc r IH]; [reflexivity|]. cbn [sum_pending fold_right].
    destruct (Hdone pc (or_introl eq_refl)) as [x ->]. apply IH. intros pc' H. apply Hdone. right. exact H. }
  lia.
Qed.
Print Assumptions C10_wire.

(** Two sends and a close interleaved: two frames and the end frame, then close. *)
Example ex_C10_wire :
  let q := qrun toy_sha toy_hmac [(0, ex_in); (1, ex_in); (1, ex_in); (2, ex_in); (0, ex_in); (2, ex_in); (1, ex_in); (0, ex_in); (2, ex_in); (2, ex_in)]%nat
             (mkPSys (pub_init (Some (mkProps (lit "us-east-1") (lit "s3") None, lit "ab")))
                     [PSend (Ok (Some m_small)); PSend (Ok (Some (mkMessage [] [9]))); PClose None]) in
  List.length (p_trace (q_pub q)) = 4%nat /\ closes (p_trace (q_pub q)) = 1%nat /\ q_tasks q = [PDone None; PDone None; PDone None].
Proof. vm_compute. repeat split; reflexivity. Qed.
Example ex_C10_wire_calls : Forall (client_call [m_small; mkMessage [] [9]]) [PSend (Ok (Some m_small)); PSend (Ok (Some (mkMessage [] [9]))); PClose None].
Proof.
  apply Forall_cons; [left; eexists; split; [reflexivity|left; reflexivity]|].
  apply Forall_cons; [left; eexists; split; [reflexivity|right; left; reflexivity]|].
  apply Forall_cons; [right; right; reflexivity|apply Forall_nil].
Qed.

(** The frames on the wire need not be the whole chain: an event just below the
    size limit is signed, then its envelope exceeds the limit and is refused; the
    publisher stays open, and the next frame, now the first on the wire, is not
    signed with the seed. *)
Definition bad_sha (_ : bytes) : bytes := [].
Definition bad_hmac (_ b : bytes) : bytes := b.
Definition bad_props : sprops := mkProps (lit "r") (lit "s") None.
(** The signer after signing an event whose envelope is refused, and the next
    signed message. *)
Definition bad_signer : signer :=
  match sign_payload bad_sha bad_hmac (mkSigner (lit "ab") false) (lit "secret") bad_props (i_now ex_in) [] false with
  | Ok (_, st) => st | Err _ => mkSigner [] false end.
Definition bad_next : message :=
  match sign bad_sha bad_hmac bad_signer (lit "secret") bad_props (i_now ex_in) m_small with
  | Ok (m, _) => m | Err _ => mkMessage [] [] end.

Lemma large_event : exists ev inner, encode_message ev = Ok inner /\ 16777216 < len inner.
Proof.
  assert (H : forall n, n = 16777216 -> exists ev inner, encode_message ev = Ok inner /\ 16777216 < len inner); [|exact (H _ eq_refl)].
  intros n Hn. pose proof (repeat_spec (N.to_nat n) 0) as Hr. pose proof (repeat_length 0 (N.to_nat n)) as Hl.
  revert Hr Hl. generalize (repeat 0 (N.to_nat n)). intros l Hr Hl.
  assert (Hlen : len l = 16777216) by (unfold len; rewrite Hl, N2Nat.id; exact Hn).
  assert (Ht : message_typed (mkMessage [] l)).
  { split; [|constructor]. intros x Hx. rewrite (Hr x Hx). reflexivity. }
  assert (Hw : within_limits (mkMessage [] l)).
  { split; [constructor|]. split; [constructor|]. split; [discriminate|]. cbn [m_payload]. rewrite Hlen. apply N.le_refl. }
  apply (encode_iff_within _ Ht) in Hw as [inner Hi]. exists (mkMessage [] l), inner. split; [exact Hi|].
  rewrite (encode_length _ inner Ht Hi). cbn [m_headers m_payload]. rewrite Hlen. reflexivity.
Qed.

Theorem C10_unsent_frame_refuted :
  exists ev s1 s2 f sg,
    prun_task bad_sha bad_hmac (repeat ex_in 7) (PSend (Ok (Some ev))) (pub_init (Some (bad_props, lit "ab"))) = Some (Some InvalidPayloadLength, s1) /\
    p_closed s1 = false /\ p_trace s1 = [] /\
    prun_task bad_sha bad_hmac (repeat ex_in 7) (PSend (Ok (Some m_small))) s1 = Some (None, s2) /\
    p_trace s2 = [AWrite f] /\ encode_message bad_next = Ok f /\
    (forall payload fin, ~ signed_as bad_sha bad_hmac (lit "ab") (mkJob (lit "secret") bad_props (i_now ex_in) payload fin) bad_next sg) /\
    m_headers bad_next = [(lit ":date", HTimestamp 0); (lit ":chunk-signature", HBlob sg)].
Proof.
  destruct large_event as (big & inner & Hi & Hlen). exists big.
  assert (Hrun : exists l1, prun_task bad_sha bad_hmac (repeat ex_in 7) (PSend (Ok (Some big))) (pub_init (Some (bad_props, lit "ab"))) =
       Some (Some InvalidPayloadLength, mkPub false l1 1 (Some (bad_props, bad_signer)) [])).
  { rewrite run_rep by discriminate. cbn [pstep pub_init p_closed p_last p_signing fst snd p_next].
    rewrite run_rep by discriminate. cbn [pstep p_signing i_ident ex_in]. unfold sign. rewrite Hi. cbn [bind].
    match goal with |- context[sign_payload ?a ?b ?c ?d ?e ?f inner ?g] =>
      assert (Hs : exists hs, get_headers_bytes hs <> Err InvalidPayloadLength /\ (exists hb, get_headers_bytes hs = Ok hb /\ (MAX_HEADERS_LENGTH <? len hb) = false) /\
          sign_payload a b c d e f inner g = Ok (mkMessage hs inner, bad_signer)) end.
    { eexists. split; [|split; [|vm_compute; reflexivity]]; [vm_compute; discriminate|eexists; vm_compute; split; reflexivity]. }
    destruct Hs as (hs & _ & (hb & Hhb & Hlb) & Hs). rewrite Hs. unfold hand_over.
    assert (He : encode_message (mkMessage hs inner) = Err InvalidPayloadLength).
    { unfold encode_message. cbn [m_headers m_payload]. rewrite Hhb. cbn [bind]. unfold encode_event_bytes. rewrite Hlb.
      destruct (N.ltb_spec MAX_PAYLOAD_LENGTH (len inner)) as [L|L]; [reflexivity|].
      exfalso. apply (N.lt_irrefl 16777216). eapply N.lt_le_trans; [exact Hlen|exact L]. }
    rewrite He. cbn [fst snd]. rewrite run_done_eq. eexists. reflexivity. }
  destruct Hrun as (l1 & E1).
  eexists _, _, _, _. split; [exact E1|]. split; [reflexivity|]. split; [reflexivity|].
  split; [vm_compute; reflexivity|]. split; [reflexivity|]. split; [vm_compute; reflexivity|].
  split; [|vm_compute; reflexivity].
  intros payload fin (stamp & key & day & region & service & dh & pt & sts & Es & _ & _ & _ & _ & _ & Hp & Hsts & Hsig & _).
  cbn [j_props j_now bad_props sp_date] in Es. subst stamp. vm_compute in Hp. injection Hp as <-.
  vm_compute in Hsts. injection Hsts as <-. vm_compute in Hsig. discriminate Hsig.
Qed.
Print Assumptions C10_unsent_frame_refuted.

(** When every signed message can be encoded, the wire is the chain. *)
Theorem C10_wire_complete log :
  Forall (fun jm => exists f, encode_message (snd jm) = Ok f) log ->
  List.length (frames_of log) = List.length log.
Proof.
  induction 1 as [|[j m] r (f & Hf) _ IH]; [reflexivity|]. cbn [snd] in Hf. cbn [frames_of flat_map snd]. rewrite Hf.
  cbn [app List.length]. f_equal. exact IH.
Qed.
Print Assumptions C10_wire_complete.

(** A send whose identity is resolved after a concurrent close (whose own identity
    resolution failed) writes to the transport after it has been closed. *)
Theorem C08_write_after_close_refuted :
  let bad := mkIn (Err IdentityErr) (i_now ex_in) None None in
  exists f, p_trace (q_pub (qrun toy_sha toy_hmac [(0, ex_in); (1, ex_in); (1, bad); (0, ex_in)]%nat
     (mkPSys (pub_init (Some (bad_props, lit "ab"))) [PSend (Ok (Some m_small)); PClose None]))) = [AClose; AWrite f].
Proof. eexists. vm_compute. reflexivity. Qed.
Print Assumptions C08_write_after_close_refuted.

(** ** C09. Receiver lifecycle. *)

(** For every chunked byte stream and every sequence of calls, the results are
    the deserialised events in stream order, then None forever or, if the stream
    is malformed, one exception and None forever; None after a close. *)
Theorem C09_receives {E} (deser : message -> result (received E)) (chunks : list bytes) (ops : list rop) :
  fst (r_run ar_read deser ops (mkRecv false (ar_of_chunks chunks) 0)) =
  expected_receives deser ops false (fst (decode_all (List.concat chunks))) (snd (decode_all (List.concat chunks))).
Proof. exact (r_run_open deser ops (mkRecv false (ar_of_chunks chunks) 0) eq_refl (ar_of_chunks_open chunks)). Qed.
Print Assumptions C09_receives.

(** In particular for a stream made of encoded messages followed by anything. *)
Theorem C09_encoded_stream {E} (deser : message -> result (received E)) (ms : list message) (frames : list bytes)
    (chunks : list bytes) (n : nat) :
  Forall message_typed ms -> Forall2 (fun m f => encode_message m = Ok f) ms frames ->
  List.concat chunks = List.concat frames ->
  fst (r_run ar_read deser (repeat RReceive (List.length ms + n)) (mkRecv false (ar_of_chunks chunks) 0)) =
  map (fun m => match deser m with Ok (RVal v) => Ok (Some v) | Ok (RExc x) => Err x | Err e => Err e end) ms ++ repeat (Ok None) n.
Proof.
  intros Ht Hf Hc. rewrite C09_receives, Hc.
  assert (Hall : decode_all (List.concat frames) = (ms, None)).
  { pose proof (decode_all_frames ms frames [] Ht Hf) as H. rewrite app_nil_r in H. rewrite H. cbn. rewrite app_nil_r. reflexivity. }
  rewrite Hall. cbn [fst snd]. clear. induction ms as [|m ms IH]; cbn [List.length Nat.add repeat expected_receives map app].
  - induction n as [|n IH]; cbn [repeat expected_receives]; [reflexivity|]. rewrite IH. reflexivity.
  - rewrite IH. reflexivity.
Qed.
Print Assumptions C09_encoded_stream.

(** The source is closed at most once, and exactly when the receiver is. *)
Theorem C09_source_closed {E} (deser : message -> result (received E)) (src : areader) (ops : list rop) :
  let r := snd (r_run ar_read deser ops (mkRecv false src 0)) in
  r_src_closes r = (if r_closed r then 1 else 0)%nat.
Proof. exact (r_closes deser ops (mkRecv false src 0) eq_refl). Qed.
Print Assumptions C09_source_closed.

Definition ex_deser (m : message) : result (received message) := Ok (RVal m).
Example ex_C09 :
  fst (r_run ar_read ex_deser [RReceive; RReceive; RReceive; RReceive]
     (mkRecv false (ar_of_chunks [ex_frame; firstn 9 ex_frame; []; skipn 9 ex_frame; [0;0;0;1]]) 0)) =
  [Ok (Some ex_message); Ok (Some ex_message); Err InvalidEventBytes; Ok None].
Proof. vm_compute. reflexivity. Qed.
