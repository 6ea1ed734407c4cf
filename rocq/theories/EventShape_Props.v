(** C79: events survive the event stream.  C81: messages outside the model are told
    apart. *)
From Verif Require Import Base Base_Proofs Utf8_Model Utf8_Proofs PyDict_Model PyDict_Proofs Streams_Model EventStream_Model
  EventStream_Spec EventStream_Proofs EventIO_Model EventIO_Props EventShape_Model EventShape_Spec EventShape_Proofs.
Local Open Scope N_scope.

Lemma some_inj {A} (a b : A) : Some a = Some b -> a = b.
Proof. congruence. Qed.

Section Props.
  Context {V : Type}.
  Notation members := (list (member * value V)).
  Variables (media : text) (cs : shape -> members -> result bytes) (cv : members -> result bytes)
            (rs : shape -> bytes -> result members) (rv : member -> bytes -> result (value V))
            (ru : bytes -> result (@outcome V)).

  (** C79. What is sent for an event: first what the message is, then one header per
      member bound to a header, in the order of the members and with the type of the
      member, then, when there is a payload, its media type; and the payload.  The
      message is made exactly when the payload can be written and is at most 16 MiB. *)
  Theorem C79_wire client name sh (ws : members) m :
    event_shape sh -> event_members sh ws ->
    (serialize_event media cs cv client name sh ws = Ok m <->
     exists mt key n hvs b t,
       says client name sh = Some (mt, key, n) /\
       Forall2 (fun mv nh => fst nh = mb_name (fst mv) /\ on_wire (mb_type (fst mv)) (snd mv) (snd nh)) (filter in_header ws) hvs /\
       payload_of media cs cv sh ws b t /\ len b <= 16777216 /\
       m_headers m = [(lit ":message-type", HString mt); (key, HString n)] ++ hvs ++
                     match b with [] => [] | _ => [(lit ":content-type", HString t)] end /\
       m_payload m = b).
  Proof.
    intros Hs Hw. rewrite (serialize_ok media cs cv client name sh ws m Hs Hw). split.
    - intros ([[mt k] n] & hvs & b & t & Hx & Hf & Hp & Hl & ->). exists mt, k, n, hvs, b, t.
      exact (conj Hx (conj Hf (conj Hp (conj Hl (conj eq_refl eq_refl))))).
    - intros (mt & k & n & hvs & b & t & Hx & Hf & Hp & Hl & Hh & Hb). exists (mt, k, n), hvs, b, t.
      split; [exact Hx|]. split; [exact Hf|]. split; [exact Hp|]. split; [exact Hl|].
      destruct m as [hs p]. cbn [m_headers m_payload] in Hh, Hb. subst hs p. reflexivity.
  Qed.

  (** C79. Every event whose payload can be written, in at most 16 MiB, is made into a message. *)
  Theorem C79_made client n sh (ws : members) b t :
    event_shape sh -> event_members sh ws -> payload_of media cs cv sh ws b t -> len b <= 16777216 ->
    exists m, serialize_event media cs cv client (Some n) sh ws = Ok m.
  Proof.
    intros Hs Hw Hp Hl. destruct (headers_exist sh ws Hw) as (hvs & Hf).
    assert (exists x, says client (Some n) sh = Some x) as (x & Hx) by (unfold says; destruct (sh_error sh); eexists; reflexivity).
    eexists. apply (serialize_ok media cs cv client (Some n) sh ws _ Hs Hw).
    exists x, hvs, b, t. exact (conj Hx (conj Hf (conj Hp (conj Hl eq_refl)))).
  Qed.

  (** C79. The message made from a variant of the union is read as the same variant
      with the same members: the two sides may use unions that differ in other
      variants. *)
  Theorem C79_event client n sh (ws : members) u m :
    event_shape sh -> event_members sh ws -> comes_back cs cv rs rv sh ws ->
    dict_get n u = Some sh -> n <> lit "initial-request" -> n <> lit "initial-response" ->
    serialize_event media cs cv client (Some n) sh ws = Ok m ->
    exists vs, read_union rs rv ru u m = Ok (Known n (sh_error sh) vs) /\ same_members vs ws.
  Proof.
    intros Hs Hw Hc Hu Hn1 Hn2 H. apply (serialize_ok media cs cv client (Some n) sh ws m Hs Hw) in H.
    destruct H as (x & hvs & b & t & Hx & Hf & Hp & Hl & ->).
    destruct (read_message_back media cs cv rs rv sh ws x hvs b t Hs Hw Hc) as (vs & Hr & Hsame); [|exact Hf|exact Hp|].
    - destruct x as [[mt k] n']. exact (says_colon _ _ _ _ _ _ Hx).
    - exists vs. split; [|exact Hsame]. unfold read_union. cbn [m_headers].
      unfold says in Hx. destruct (sh_error sh) eqn:Ee; apply some_inj in Hx; subst x.
      + replace (is_text (dict_get (lit ":message-type") (told (lit "exception", lit ":exception-type", n) ++ hvs ++ labelled b t)) (lit "event")) with false by reflexivity.
        replace (is_text (dict_get (lit ":message-type") (told (lit "exception", lit ":exception-type", n) ++ hvs ++ labelled b t)) (lit "exception")) with true by reflexivity.
        replace (expect_text (lit ":exception-type") (told (lit "exception", lit ":exception-type", n) ++ hvs ++ labelled b t)) with (Ok n) by reflexivity.
        cbn [bind]. rewrite Hu, Hr. cbn [bind]. rewrite Ee. reflexivity.
      + replace (is_text (dict_get (lit ":message-type") (told (lit "event", lit ":event-type", n) ++ hvs ++ labelled b t)) (lit "event")) with true by reflexivity.
        replace (expect_text (lit ":event-type") (told (lit "event", lit ":event-type", n) ++ hvs ++ labelled b t)) with (Ok n) by reflexivity.
        cbn [bind]. unfold INITIAL_REQUEST, INITIAL_RESPONSE.
        rewrite (proj2 (text_eqb_neq _ _) Hn1), (proj2 (text_eqb_neq _ _) Hn2). cbn [orb].
        rewrite Hu, Hr. cbn [bind]. rewrite Ee. reflexivity.
  Qed.

  (** C79. The initial message of a client or server is read as the same members. *)
  Theorem C79_initial client sh (ws : members) m :
    event_shape sh -> event_members sh ws -> comes_back cs cv rs rv sh ws -> sh_error sh = false ->
    serialize_event media cs cv client None sh ws = Ok m ->
    exists vs, read_initial rs rv sh m = Ok vs /\ same_members vs ws.
  Proof.
    intros Hs Hw Hc He H. apply (serialize_ok media cs cv client None sh ws m Hs Hw) in H.
    destruct H as (x & hvs & b & t & Hx & Hf & Hp & Hl & ->).
    destruct (read_message_back media cs cv rs rv sh ws x hvs b t Hs Hw Hc) as (vs & Hr & Hsame); [|exact Hf|exact Hp|].
    - destruct x as [[mt k] n']. exact (says_colon _ _ _ _ _ _ Hx).
    - exists vs. split; [|exact Hsame]. unfold read_initial. cbn [m_headers].
      unfold says in Hx. rewrite He in Hx. apply some_inj in Hx; subst x.
      set (n := if client then lit "initial-request" else lit "initial-response") in *.
      replace (is_text (dict_get (lit ":message-type") (told (lit "event", lit ":event-type", n) ++ hvs ++ labelled b t)) (lit "event")) with true by reflexivity.
      replace (expect_text (lit ":event-type") (told (lit "event", lit ":event-type", n) ++ hvs ++ labelled b t)) with (Ok n) by reflexivity.
      cbn [bind]. unfold INITIAL_REQUEST, INITIAL_RESPONSE.
      replace (text_eqb n (lit "initial-request") || text_eqb n (lit "initial-response"))%bool with true; [exact Hr|].
      unfold n. destruct client; reflexivity.
  Qed.

  (** C79. A whole stream: events made into messages, encoded, cut into chunks in any
      way and received: each is received in its turn with the same members, a modeled
      exception being raised in its turn, and then the end, as often as asked. *)
  Theorem C79_stream client u (evs : list (text * shape * members)) ms frames chunks k :
    Forall (fun e => let '(n, sh, ws) := e in
       event_shape sh /\ event_members sh ws /\ comes_back cs cv rs rv sh ws /\
       dict_get n u = Some sh /\ n <> lit "initial-request" /\ n <> lit "initial-response") evs ->
    Forall2 (fun e m => let '(n, sh, ws) := e in serialize_event media cs cv client (Some n) sh ws = Ok m) evs ms ->
    Forall message_typed ms -> Forall2 (fun m f => encode_message m = Ok f) ms frames ->
    List.concat chunks = List.concat frames ->
    exists rcv,
      fst (r_run ar_read (receive_event rs rv ru u) (repeat RReceive (List.length evs + k)) (mkRecv false (ar_of_chunks chunks) 0))
      = rcv ++ repeat (Ok None) k /\
      Forall2 (fun e r => let '(n, sh, ws) := e in
         if sh_error sh then r = Err (OtherErr 42)
         else exists vs, r = Ok (Some (Known n false vs)) /\ same_members vs ws) evs rcv.
  Proof.
    intros He Hm Ht Hfr Hc.
    replace (List.length evs) with (List.length ms) by (clear - Hm; induction Hm; cbn [List.length]; congruence).
    rewrite (C09_encoded_stream (receive_event rs rv ru u) ms frames chunks k Ht Hfr Hc).
    eexists. split; [reflexivity|]. clear - He Hm.
    induction Hm as [|[[n sh] ws] m evs ms H Hm IH]; cbn [map]; [constructor|].
    apply Forall_cons_iff in He as ((Hs & Hw & Hb & Hu & Hn1 & Hn2) & He). constructor; [|exact (IH He)].
    destruct (C79_event client n sh ws u m Hs Hw Hb Hu Hn1 Hn2 H) as (vs & Hr & Hsame).
    unfold receive_event. rewrite Hr. cbn [bind]. destruct (sh_error sh); [reflexivity|].
    exists vs. split; [reflexivity|exact Hsame].
  Qed.

  (** C81. An unmodeled error is raised as such, with its code and message. *)
  Theorem C81_unmodeled u m code msg :
    dict_get (lit ":message-type") (m_headers m) = Some (HString (lit "error")) ->
    dict_get (lit ":error-code") (m_headers m) = Some (HString code) ->
    dict_get (lit ":error-message") (m_headers m) = Some (HString msg) ->
    read_union rs rv ru u m = Ok (Unmodeled code msg).
  Proof.
    intros H1 H2 H3. unfold read_union, expect_text. rewrite H1, H2, H3. reflexivity.
  Qed.
  (** It is raised by [receive] and not given to the caller as an event; what is given as
      an event is no exception of the union either. *)
  Theorem C81_raised u m code msg :
    dict_get (lit ":message-type") (m_headers m) = Some (HString (lit "error")) ->
    dict_get (lit ":error-code") (m_headers m) = Some (HString code) ->
    dict_get (lit ":error-message") (m_headers m) = Some (HString msg) ->
    receive_event rs rv ru u m = Err (OtherErr 43).
  Proof. intros H1 H2 H3. unfold receive_event. now rewrite (C81_unmodeled u m code msg H1 H2 H3). Qed.
  Theorem C81_given u m o : receive_event rs rv ru u m = Ok (RVal o) ->
    read_union rs rv ru u m = Ok o /\ (forall code msg, o <> Unmodeled code msg) /\ (forall n vs, o <> Known n true vs).
  Proof.
    unfold receive_event. destruct (read_union rs rv ru u m) as [o'|]; [|discriminate]. cbn [bind].
    destruct o' as [n [] vs| |]; intros E; try discriminate E; apply (f_equal (fun r => match r with Ok (RVal x) => x | _ => o end)) in E; cbn beta iota in E;
      subst o; (split; [reflexivity|split; intros; discriminate]).
  Qed.

  (** C81. An event of a type the union does not have is given as the unknown variant
      with its type, whatever else the message holds. *)
  Theorem C81_unknown_event u m n :
    dict_get (lit ":message-type") (m_headers m) = Some (HString (lit "event")) ->
    dict_get (lit ":event-type") (m_headers m) = Some (HString n) ->
    n <> [] -> n <> lit "initial-request" -> n <> lit "initial-response" -> dict_get n u = None ->
    read_union rs rv ru u m = Ok (UnknownVariant n).
  Proof.
    intros H1 H2 H3 Hn1 Hn2 Hu. unfold read_union, expect_text. rewrite H1, H2.
    replace (is_text (Some (HString (lit "event"))) (lit "event")) with true by reflexivity. cbn [bind].
    unfold INITIAL_REQUEST, INITIAL_RESPONSE.
    rewrite (proj2 (text_eqb_neq _ _) Hn1), (proj2 (text_eqb_neq _ _) Hn2). cbn [orb]. rewrite Hu.
    destruct n; [congruence|reflexivity].
  Qed.

  (** C81. A message of another kind, or of none, raises EventError. *)
  Theorem C81_other u m :
    (forall t, In t [lit "event"; lit "exception"; lit "error"] ->
       dict_get (lit ":message-type") (m_headers m) <> Some (HString t)) ->
    read_union rs rv ru u m = Err (OtherErr 41).
  Proof.
    intros H. unfold read_union.
    assert (F : forall t, In t [lit "event"; lit "exception"; lit "error"] ->
      is_text (dict_get (lit ":message-type") (m_headers m)) t = false).
    { intros t Hin. specialize (H t Hin). unfold is_text. destruct (dict_get _ _) as [[]|]; try reflexivity.
      apply text_eqb_neq. intros ->. exact (H eq_refl). }
    rewrite (F (lit "event")), (F (lit "exception")), (F (lit "error")) by (cbn [In]; tauto). reflexivity.
  Qed.

  (** C81. A variant is only ever given for the type named in the message, and only
      when the union has it: nothing is read as a variant by accident. *)
  Theorem C81_named u m n e vs :
    read_union rs rv ru u m = Ok (Known n e vs) ->
    (exists b, m_payload m = b /\ ru b = Ok (Known n e vs)) \/
    (exists sh, dict_get n u = Some sh /\ e = sh_error sh /\ read_message rs rv sh m = Ok vs /\
       (dict_get (lit ":message-type") (m_headers m) = Some (HString (lit "event")) /\
        dict_get (lit ":event-type") (m_headers m) = Some (HString n) \/
        dict_get (lit ":message-type") (m_headers m) = Some (HString (lit "exception")) /\
        dict_get (lit ":exception-type") (m_headers m) = Some (HString n))).
  Proof.
    unfold read_union, expect_text.
    assert (T : forall h t, is_text h t = true -> h = Some (HString t)).
    { intros [[]|] t H; try discriminate H. cbn in H. apply text_eqb_eq in H. subst. reflexivity. }
    destruct (is_text _ (lit "event")) eqn:E1.
    - apply T in E1. destruct (dict_get (lit ":event-type") (m_headers m)) as [[| | | | | |s| | |]|] eqn:E2; try discriminate. cbn [bind].
      destruct (text_eqb s INITIAL_REQUEST || text_eqb s INITIAL_RESPONSE).
      + destruct (m_payload m) as [|c b] eqn:Ep; [discriminate|]. intros H. left. eexists. split; [reflexivity|exact H].
      + destruct (dict_get s u) as [sh|] eqn:Eu; [|destruct s; discriminate].
        destruct (read_message rs rv sh m) as [vs'|] eqn:Er; [|discriminate]. cbn [bind]. intros [= <- <- <-].
        right. exists sh. exact (conj Eu (conj eq_refl (conj Er (or_introl (conj E1 eq_refl))))).
    - destruct (is_text _ (lit "exception")) eqn:E3.
      + apply T in E3. destruct (dict_get (lit ":exception-type") (m_headers m)) as [[| | | | | |s| | |]|] eqn:E2; try discriminate. cbn [bind].
        destruct (dict_get s u) as [sh|] eqn:Eu; [|discriminate].
        destruct (read_message rs rv sh m) as [vs'|] eqn:Er; [|discriminate]. cbn [bind]. intros [= <- <- <-].
        right. exists sh. exact (conj Eu (conj eq_refl (conj Er (or_intror (conj E3 eq_refl))))).
      + destruct (is_text _ (lit "error")); [|discriminate].
        destruct (dict_get (lit ":error-code") _) as [[]|]; try discriminate.
        destruct (dict_get (lit ":error-message") _) as [[]|]; discriminate.
  Qed.

  (** C81. What is not so: an exception the union does not have raises KeyError, not
      an error of the event stream; so does a message that lacks the header naming
      its type; an empty event type is refused. *)
  Theorem C81_unknown_exception_refuted u m n :
    dict_get (lit ":message-type") (m_headers m) = Some (HString (lit "exception")) ->
    dict_get (lit ":exception-type") (m_headers m) = Some (HString n) -> dict_get n u = None ->
    read_union rs rv ru u m = Err KeyError.
  Proof. intros H1 H2 H3. unfold read_union, expect_text. rewrite H1, H2. cbn [bind]. 
    replace (is_text (Some (HString (lit "exception"))) (lit "event")) with false by reflexivity.
    replace (is_text (Some (HString (lit "exception"))) (lit "exception")) with true by reflexivity. rewrite H3. reflexivity.
  Qed.
  Theorem C81_unnamed_refuted u p :
    read_union rs rv ru u (mkMessage [(lit ":message-type", HString (lit "event"))] p) = Err KeyError /\
    read_union rs rv ru u (mkMessage [(lit ":message-type", HString (lit "exception"))] p) = Err KeyError /\
    read_union rs rv ru u (mkMessage [(lit ":message-type", HString (lit "error"))] p) = Err KeyError /\
    (dict_get [] u = None ->
     read_union rs rv ru u (mkMessage [(lit ":message-type", HString (lit "event")); (lit ":event-type", HString [])] p) = Err SmithyErr).
  Proof.
    split; [reflexivity|]. split; [reflexivity|]. split; [reflexivity|]. intros H. unfold read_union. cbn [m_headers].
    replace (is_text _ (lit "event")) with true by reflexivity.
    replace (expect_text (lit ":event-type") _) with (@Ok text []) by reflexivity. cbn [bind].
    replace (text_eqb [] INITIAL_REQUEST || text_eqb [] INITIAL_RESPONSE)%bool with false by reflexivity. rewrite H. reflexivity.
  Qed.
End Props.
Print Assumptions C79_wire.
Print Assumptions C79_made.
Print Assumptions C79_event.
Print Assumptions C79_initial.
Print Assumptions C79_stream.
Print Assumptions C81_unmodeled.
Print Assumptions C81_raised.
Print Assumptions C81_given.
Print Assumptions C81_unknown_event.
Print Assumptions C81_other.
Print Assumptions C81_named.
Print Assumptions C81_unknown_exception_refuted.
Print Assumptions C81_unnamed_refuted.

(** A concrete union and codec.  The codec writes the texts of the members between
    braces; it reads them back for this shape. *)
Definition ex_note := mkMember (lit "note") TString false false None.
Definition ex_count := mkMember (lit "count") TLong true false None.
Definition ex_when := mkMember (lit "when") TTimestamp true false None.
Definition ex_text := mkMember (lit "text") TString false true None.
Definition ex_plain := mkShape [ex_count; ex_note; ex_when] false.
Definition ex_raw := mkShape [ex_text; ex_count] false.
Definition ex_fault := mkShape [ex_note] true.
Definition ex_cs (sh : shape) (ws : list (member * value unit)) : result bytes :=
  match ws with [] => Ok [123; 125] | [(_, VText s)] => do b <- utf8_encode s; Ok ([123] ++ b ++ [125]) | _ => Err SmithyErr end.
Definition ex_rs (sh : shape) (b : bytes) : result (list (member * value unit)) :=
  do s <- utf8_decode b; match s with [123; 125] => Ok [] | _ :: r => Ok [(ex_note, VText (removelast r))] | [] => Err SmithyErr end.
Definition ex_cv (ws : list (member * value unit)) : result bytes := match ws with [] => Ok [] | _ => Err SmithyErr end.
Definition ex_rv (m : member) (b : bytes) : result (value unit) := Err SmithyErr.
Definition ex_ru (b : bytes) : result (@outcome unit) := Err SmithyErr.
Definition ex_union := [(lit "plain", ex_plain); (lit "raw", ex_raw); (lit "fault", ex_fault)].
Definition ex_ws1 : list (member * value unit) := [(ex_count, VInt (-5)%Z); (ex_note, VText (lit "hi")); (ex_when, VTime 1500%Z)].
Definition ex_ws2 : list (member * value unit) := [(ex_text, VText (lit "hello")); (ex_count, VInt 7%Z)].
Definition ex_ws3 : list (member * value unit) := [(ex_note, VText (lit "no"))].
Definition ex_m1 := mkMessage [(lit ":message-type", HString (lit "event")); (lit ":event-type", HString (lit "plain"));
  (lit "count", HLong (-5)%Z); (lit "when", HTimestamp 1500%Z); (lit ":content-type", HString (lit "application/x"))] (lit "{hi}").
Definition ex_m2 := mkMessage [(lit ":message-type", HString (lit "event")); (lit ":event-type", HString (lit "raw"));
  (lit "count", HLong 7%Z); (lit ":content-type", HString (lit "text/plain"))] (lit "hello").
Definition ex_m3 := mkMessage [(lit ":message-type", HString (lit "exception")); (lit ":exception-type", HString (lit "fault"));
  (lit ":content-type", HString (lit "application/x"))] (lit "{no}").

Ltac nodup := repeat (constructor; [cbn; intuition discriminate|]); constructor.
Lemma ex_shapes : event_shape ex_plain /\ event_shape ex_raw /\ event_shape ex_fault.
Proof.
  split; [|split].
  all: split; [nodup|split; [repeat constructor; intros r; discriminate|split; [repeat constructor; intros; try reflexivity; discriminate|]]].
  - intros m [<-|[<-|[<-|[]]]] H; discriminate H.
  - intros m [<-|[<-|[]]] H; try discriminate H. intros m' [<-|[<-|[]]] Hne; [congruence|reflexivity].
  - intros m [<-|[]] H; discriminate H.
Qed.
Lemma ex_members : event_members ex_plain ex_ws1 /\ event_members ex_raw ex_ws2 /\ event_members ex_fault ex_ws3.
Proof.
  split; [|split].
  all: split; [nodup|split; [repeat (constructor; [cbn; tauto|]); constructor|split]].
  all: repeat (constructor; [first [intros H; discriminate H | intros _; eexists; constructor
     | intros _; split; [intros _; eexists; reflexivity | intros H; discriminate H]]|]); try constructor.
Qed.
Lemma ex_back : comes_back ex_cs ex_cv ex_rs ex_rv ex_plain ex_ws1 /\ comes_back ex_cs ex_cv ex_rs ex_rv ex_raw ex_ws2 /\
  comes_back ex_cs ex_cv ex_rs ex_rv ex_fault ex_ws3.
Proof.
  split; [|split]; (split; [|split]).
  - intros _ b H. vm_compute in H. injection H as <-. split; [discriminate|]. exists [(ex_note, VText (lit "hi"))].
    split; [vm_compute; reflexivity|]. intros n. reflexivity.
  - intros pm [<-|[<-|[<-|[]]]] H; discriminate H.
  - intros pm v [E|[E|[E|[]]]] Hp; inversion E; subst; discriminate Hp.
  - intros H. apply Forall_cons_iff in H as (H & _). discriminate H.
  - intros pm [<-|[<-|[]]] H Hs; [destruct (Hs eq_refl)|discriminate H].
  - intros pm v [E|[E|[]]] Hp; inversion E; subst; [split; discriminate|discriminate Hp].
  - intros _ b H. vm_compute in H. injection H as <-. split; [discriminate|]. exists [(ex_note, VText (lit "no"))].
    split; [vm_compute; reflexivity|]. intros n. reflexivity.
  - intros pm [<-|[]] H; discriminate H.
  - intros pm v [E|[]] Hp; inversion E; subst; discriminate Hp.
Qed.
Example C79_ex :
  serialize_event (lit "application/x") ex_cs ex_cv true (Some (lit "plain")) ex_plain ex_ws1 = Ok ex_m1 /\
  serialize_event (lit "application/x") ex_cs ex_cv true (Some (lit "raw")) ex_raw ex_ws2 = Ok ex_m2 /\
  serialize_event (lit "application/x") ex_cs ex_cv true (Some (lit "fault")) ex_fault ex_ws3 = Ok ex_m3 /\
  Forall message_typed [ex_m1; ex_m2; ex_m3] /\
  exists frames, Forall2 (fun m f => encode_message m = Ok f) [ex_m1; ex_m2; ex_m3] frames.
Proof.
  split; [vm_compute; reflexivity|]. split; [vm_compute; reflexivity|]. split; [vm_compute; reflexivity|].
  assert (T : Forall message_typed [ex_m1; ex_m2; ex_m3]).
  { repeat constructor; cbn [snd value_typed]; try exact I; apply is_bytes_all; reflexivity. }
  split; [exact T|].
  assert (L : forall m, In m [ex_m1; ex_m2; ex_m3] -> exists f, encode_message m = Ok f).
  { intros m Hin. destruct (encode_message m) as [f|e] eqn:E; [eexists; reflexivity|].
    destruct Hin as [<-|[<-|[<-|[]]]]; vm_compute in E; discriminate E. }
  destruct (L ex_m1) as (f1 & H1); [left; reflexivity|]. destruct (L ex_m2) as (f2 & H2); [right; left; reflexivity|].
  destruct (L ex_m3) as (f3 & H3); [right; right; left; reflexivity|].
  exists [f1; f2; f3]. repeat constructor; assumption.
Qed.
Example C79_stream_ex : exists frames rcv,
  Forall2 (fun m f => encode_message m = Ok f) [ex_m1; ex_m2; ex_m3] frames /\
  fst (r_run ar_read (receive_event ex_rs ex_rv ex_ru ex_union) (repeat RReceive 4) (mkRecv false (ar_of_chunks [List.concat frames]) 0))
  = rcv ++ [Ok None] /\ nth_error rcv 2 = Some (Err (OtherErr 42)).
Proof.
  destruct C79_ex as (S1 & S2 & S3 & T & frames & F). exists frames.
  destruct ex_shapes as (A1 & A2 & A3), ex_members as (B1 & B2 & B3), ex_back as (D1 & D2 & D3).
  destruct (C79_stream (lit "application/x") ex_cs ex_cv ex_rs ex_rv ex_ru true ex_union
    [(lit "plain", ex_plain, ex_ws1); (lit "raw", ex_raw, ex_ws2); (lit "fault", ex_fault, ex_ws3)]
    [ex_m1; ex_m2; ex_m3] frames [List.concat frames] 1) as (rcv & H & R).
  - constructor; [|constructor; [|constructor; [|constructor]]].
    + split; [exact A1|]. split; [exact B1|]. split; [exact D1|]. split; [reflexivity|]. split; discriminate.
    + split; [exact A2|]. split; [exact B2|]. split; [exact D2|]. split; [reflexivity|]. split; discriminate.
    + split; [exact A3|]. split; [exact B3|]. split; [exact D3|]. split; [reflexivity|]. split; discriminate.
  - constructor; [exact S1|]. constructor; [exact S2|]. constructor; [exact S3|constructor].
  - exact T.
  - exact F.
  - cbn [List.concat]. apply app_nil_r.
  - exists rcv. split; [exact F|]. split; [exact H|].
    inversion R as [|? ? ? ? _ R1]; subst. inversion R1 as [|? ? ? ? _ R2]; subst. inversion R2 as [|? ? ? ? E _]; subst.
    cbn in E. subst. reflexivity.
Qed.

(** C79. Not so for an empty string or blob payload: it is read as not set. *)
Theorem C79_empty_payload_refuted : exists m,
  serialize_event (lit "application/x") ex_cs ex_cv true (Some (lit "raw")) ex_raw [(ex_text, VText []); (ex_count, VInt 7%Z)] = Ok m /\
  read_union ex_rs ex_rv ex_ru ex_union m = Ok (Known (lit "raw") false [(ex_count, VInt 7%Z)]).
Proof.
  exists (mkMessage [(lit ":message-type", HString (lit "event")); (lit ":event-type", HString (lit "raw")); (lit "count", HLong 7%Z)] []).
  split; vm_compute; reflexivity.
Qed.
Print Assumptions C79_empty_payload_refuted.

Example C81_ex :
  read_union ex_rs ex_rv ex_ru ex_union (mkMessage [(lit ":message-type", HString (lit "error")); (lit ":error-code", HString (lit "E"));
     (lit ":error-message", HString (lit "bad"))] []) = Ok (Unmodeled (lit "E") (lit "bad")) /\
  read_union ex_rs ex_rv ex_ru ex_union (mkMessage [(lit ":event-type", HString (lit "new")); (lit ":message-type", HString (lit "event"))] [1])
    = Ok (UnknownVariant (lit "new")) /\
  read_union ex_rs ex_rv ex_ru ex_union ex_m2 = Ok (Known (lit "raw") false [(ex_count, VInt 7%Z); (ex_text, VText (lit "hello"))]).
Proof. split; [vm_compute; reflexivity|]. split; vm_compute; reflexivity. Qed.
