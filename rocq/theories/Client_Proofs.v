(** Proofs about the request pipeline. *)
From Coq Require Import QArith.
From Verif Require Import Base Retry_Model Retry_Spec Retry_Proofs Client_Model Client_Spec.
Local Open Scope nat_scope.

(** ** Data flow, step by step *)
Definition req_after {S} (r : Req S) (e : event S) : Req S := current_request r [e].
Definition resp_after {S} (p : option (Resp S)) (e : event S) : option (Resp S) := current_response p [e].

Lemma current_request_cons {S} r (e : event S) l :
  current_request r (e :: l) = current_request (req_after r e) l.
Proof. destruct e; try reflexivity; destruct x; reflexivity. Qed.
Lemma current_response_cons {S} p (e : event S) l :
  current_response p (e :: l) = current_response (resp_after p e) l.
Proof. destruct e; try reflexivity; destruct x; reflexivity. Qed.
Lemma current_request_app {S} (r : Req S) a b :
  current_request r (a ++ b) = current_request (current_request r a) b.
Proof.
  revert r. induction a as [|e a IH]; intros r; [reflexivity|].
  cbn [app]. rewrite !current_request_cons. apply IH.
Qed.
Lemma current_response_app {S} (p : option (Resp S)) a b :
  current_response p (a ++ b) = current_response (current_response p a) b.
Proof.
  revert p. induction a as [|e a IH]; intros p; [reflexivity|].
  cbn [app]. rewrite !current_response_cons. apply IH.
Qed.

Definition agrees {X} (given : option X) (now : option X) : Prop :=
  match given with None => True | Some x => now = Some x end.

(** [r], [p], [i]: the request, response and input at the start. *)
Fixpoint flows {S} (r : Req S) (p : option (Resp S)) (es : list (event S)) : Prop :=
  match es with
  | [] => True
  | e :: l =>
    agrees (request_of e) (Some r) /\ agrees (response_of e) p /\ flows (req_after r e) (resp_after p e) l
  end.

Lemma flows_app {S} (r : Req S) p a b :
  flows r p (a ++ b) <-> flows r p a /\ flows (current_request r a) (current_response p a) b.
Proof.
  revert r p. induction a as [|e a IH]; intros r p; cbn [app flows].
  - cbn [current_request current_response]. tauto.
  - rewrite IH, current_request_cons, current_response_cons. tauto.
Qed.

Lemma flows_request {S} (r : Req S) p es : flows r p es -> request_flows r es.
Proof.
  intros H a e b x -> Hx. apply flows_app in H as [_ H]. cbn [flows] in H. destruct H as (H & _).
  rewrite Hx in H. cbn in H. congruence.
Qed.
Lemma flows_response {S} (r : Req S) es : flows r None es -> response_flows es.
Proof.
  intros H a e b x -> Hx. apply flows_app in H as [_ H]. cbn [flows] in H. destruct H as (_ & H & _).
  rewrite Hx in H. cbn in H. congruence.
Qed.

(** A property of every step and the steps before it. *)
Fixpoint splits {S} (G : list (event S) -> event S -> Prop) (a : list (event S)) (es : list (event S)) : Prop :=
  match es with
  | [] => True
  | e :: l => G a e /\ splits G (a ++ [e]) l
  end.
Lemma splits_spec {S} (G : list (event S) -> event S -> Prop) a es :
  splits G a es <-> forall x e y, es = x ++ e :: y -> G (a ++ x) e.
Proof.
  revert a. induction es as [|e0 l IH]; intros a; cbn [splits].
  - split; [|auto]. intros _ x e y H. destruct x; discriminate.
  - rewrite IH. split.
    + intros [H1 H2] x e y H. destruct x as [|e1 x]; injection H as <- H.
      * rewrite app_nil_r. exact H1.
      * replace (a ++ e0 :: x) with ((a ++ [e0]) ++ x) by (rewrite <- app_assoc; reflexivity). eapply H2, H.
    + intros H. split.
      * rewrite <- (app_nil_r a). eapply (H []); reflexivity.
      * intros x e y ->. rewrite <- app_assoc. eapply (H (e0 :: x)). reflexivity.
Qed.
Lemma splits_app {S} (G : list (event S) -> event S -> Prop) a x y :
  splits G a (x ++ y) <-> splits G a x /\ splits G (a ++ x) y.
Proof.
  revert a. induction x as [|e x IH]; intros a; cbn [app splits].
  - rewrite app_nil_r. tauto.
  - rewrite IH, <- app_assoc. cbn [app]. tauto.
Qed.

(** ** One attempt *)
Section Attempt.
  Context {S : sorts} {W : Type}.
  Variable E : env S W.
  Notation F := (spy_env E).
  Definition streaming : bool := match e_future E with Some _ => true | None => false end.

  Definition hooks_see (i : Inp S) (es : list (event S)) : Prop :=
    Forall (fun e => agrees (hook_input_of e) (Some i)) es.
  Definition wire_sees (i : Inp S) (es : list (event S)) : Prop :=
    Forall (fun e => agrees (wire_input_of e) (Some i)) es.

  Variables (ci i : Inp S).

  (** Runs of a part of the attempt that starts with request [r] and response
      [p]: the stages are in [L], and after success [Post] holds of the value and
      of the request and response then current. *)
  Definition T {X} (a : list (event S)) (L : list stage -> Prop) (r : Req S) (p : option (Resp S))
      (m : body (S := S) (W := W * list (event S)) X) (Post : X -> Req S -> option (Resp S) -> Prop) : Prop :=
    forall w log, let '(res, w') := m (w, log) in
      exists sts es complete, snd w' = log ++ es /\ L sts /\ follows sts es complete /\
        flows r p es /\ hooks_see i es /\ wire_sees ci es /\ splits (auth_step E) a es /\
        match res with
        | inl x => complete = true /\ Post x (current_request r es) (current_response p es)
        | inr (r', e) => complete = false /\ r' = current_request r es
        end.


  Lemma T_ret {X} (x : X) a (L : list stage -> Prop) r p (P : X -> Req S -> option (Resp S) -> Prop) :
    L [] -> P x r p -> T a L r p (bret x) P.
  Proof.
    intros HL H w log. unfold bret. exists [], [], true. cbn [snd]. rewrite app_nil_r.
    do 7 (split; [first [reflexivity|assumption|constructor]|]). split; [reflexivity|exact H].
  Qed.

  (** One logged step, then the rest. *)
  Lemma T_step {X Y} (st : stage) (ev : X + Exc S -> event S) (m : eff S W X) (k : X -> body Y) a (L : list stage -> Prop) r p Q :
    (forall x, kind (ev x) = st) ->
    (forall x, raised (ev (inl x)) = false) -> (forall e, raised (ev (inr e)) = true) ->
    (forall x, agrees (request_of (ev x)) (Some r)) ->
    (forall x, agrees (response_of (ev x)) p) ->
    (forall x, agrees (hook_input_of (ev x)) (Some i)) ->
    (forall x, agrees (wire_input_of (ev x)) (Some ci)) ->
    (forall e, req_after r (ev (inr e)) = r) ->
    (forall x w w', m w = (x, w') -> auth_step E a (ev x)) ->
    (exists b, L (st :: b)) ->
    (forall x, T (a ++ [ev (inl x)]) (fun b => L (st :: b)) (req_after r (ev (inl x))) (resp_after p (ev (inl x))) (k x) Q) ->
    T a L r p (bthen (at_ r (logged ev m)) k) Q.
  Proof.
    intros H1 H2 H3 H4 H5 H6 H7 H8 H9 (b & Hb) Hk w log. unfold bthen, at_, logged. cbn [fst snd].
    destruct (m w) as [[x|e] w'] eqn:Em; cbn [fst snd].
    - specialize (Hk x w' (log ++ [ev (inl x)])). destruct (k x (w', log ++ [ev (inl x)])) as [res w2].
      destruct Hk as (sts & es & c & E1 & HL & Hf & Hfl & Hh & Hw & Ha & Hr).
      exists (st :: sts), (ev (inl x) :: es), c. rewrite E1, <- app_assoc. split; [reflexivity|].
      split; [exact HL|]. split; [constructor; auto|].
      split; [cbn [flows]; auto|]. split; [constructor; [apply H6|exact Hh]|].
      split; [constructor; [apply H7|exact Hw]|]. split; [cbn [splits]; eauto|].
      rewrite current_request_cons, current_response_cons. exact Hr.
    - exists (st :: b), [ev (inr e)], false. split; [reflexivity|]. split; [exact Hb|].
      split; [apply fo_raise; auto|]. split; [cbn [flows]; auto|].
      split; [constructor; [apply H6|constructor]|]. split; [constructor; [apply H7|constructor]|].
      split; [cbn [splits]; eauto|]. split; [reflexivity|]. symmetry. apply H8.
  Qed.

  (** Computations that differ only in the exception they end with. *)
  Lemma T_exn {X} (m m' : body X) a L r p Q :
    (forall w, snd (m w) = snd (m' w) /\
       match fst (m w), fst (m' w) with
       | inl x, inl y => x = y | inr (a, _), inr (b, _) => a = b | _, _ => False
       end) ->
    T a L r p m' Q -> T a L r p m Q.
  Proof.
    intros H Hm w log. specialize (H (w, log)). specialize (Hm w log).
    destruct (m (w, log)) as [res w1], (m' (w, log)) as [res' w1']. cbn [fst snd] in H.
    destruct H as [-> H]. destruct res as [x|[b e]], res' as [x'|[b' e']]; try destruct H; exact Hm.
  Qed.

  Lemma T_silent {X} (f : W -> W) (k : unit -> body X) a L r p Q :
    T a L r p (k tt) Q ->
    T a L r p (bthen (fun w => (inl tt, (f (fst w), snd w))) k) Q.
  Proof. intros H w log. unfold bthen. cbn [fst snd]. exact (H (f w) log). Qed.

  Ltac op := eapply T_step; intros; cbn [kind raised request_of response_of hook_input_of wire_input_of
      agrees req_after resp_after current_request current_response oc_input oc_request oc_transport];
      try reflexivity; try exact I.
  Ltac plain := eexists; eassumption.


  Definition completed (c : octx S) (r : Req S) (p : option (Resp S)) : Prop :=
    oc_input c = i /\ oc_request c = Some r /\ oc_transport c = p /\ exists o, oc_response c = inl o.

  Lemma auth_again a e c x c' x' : (match e with EvSign _ _ _ _ _ => False | _ => True end) ->
    auth_step E a (EvRead RAfterSigning c x) -> auth_step E (a ++ [e]) (EvRead RAfterSigning c' x').
  Proof.
    intros N (opts & J & H). exists opts. split; [apply in_or_app; auto|]. destruct H as [(o & s & r' & id & p & r2 & F & Js)|[F Q]].
    - left. exists o, s, r', id, p, r2. split; [exact F|]. apply in_or_app. auto.
    - right. split; [exact F|]. intros s r' id p y Js. apply in_app_or in Js. destruct Js as [Js|[->|[]]]; [exact (Q _ _ _ _ _ Js)|exact N].
  Qed.
  Lemma auth_more a e c x r y : (match e with EvSign _ _ _ _ _ => False | _ => True end) ->
    auth_step E a (EvRead RAfterSigning c x) -> auth_step E (a ++ [e]) (EvSend r y).
  Proof. intros N G. exact (auth_again a e c x c x N G). Qed.
  Lemma T_transmit {Y} r (k : Resp S -> body Y) a (L : list stage -> Prop) p Q :
    (forall c x, auth_step E a (EvRead RAfterSigning c x)) ->
    (exists b, L ((if streaming then [StFuture] else []) ++ StSend :: b)) ->
    (forall x a', T a' (fun b => L ((if streaming then [StFuture] else []) ++ StSend :: b)) r (Some x) (k x) Q) ->
    T a L r p (bthen (at_ r (transmit F i r)) k) Q.
  Proof.
    intros Ha (b & HL) Hk. unfold streaming in *. destruct (e_future E) as [f|] eqn:Ef.
    - eapply T_exn with (m' := bthen (at_ r (logged (EvFuture i r) (f i r)))
        (fun _ => bthen (at_ r (logged (EvSend r) (e_send E r))) k)).
      + intros w. unfold transmit, bthen, at_, andthen. cbn [spy_env e_future e_send]. rewrite Ef.
        destruct (logged (EvFuture i r) (f i r) w) as [[x|e] w1]; [|cbn; auto].
        destruct (logged (EvSend r) (e_send E r) w1) as [[x2|e] w2]; [|cbn; auto].
        destruct (k x2 w2) as [[y|[b' e]] w3]; cbn; auto.
      + op; [eexists; exact HL|]. op; [apply (auth_more a _ (CInput i) (inl tt)); [exact I|apply Ha]|eexists; exact HL|]. apply Hk.
    - eapply T_exn with (m' := bthen (at_ r (logged (EvSend r) (e_send E r))) k).
      + intros w. unfold transmit, bthen, at_, andthen. cbn [spy_env e_future e_send]. rewrite Ef.
        unfold ret. destruct (logged (EvSend r) (e_send E r) w) as [[x2|e] w2]; [|cbn; auto].
        destruct (k x2 w2) as [[y|[b' e]] w3]; cbn; auto.
      + op; [exact (Ha (CInput i) (inl tt))|eexists; exact HL|]. apply Hk.
  Qed.

  Definition back_stages : list stage :=
    [StRead RAfterSigning; StRequest MBeforeTransmit; StRead RBeforeTransmit] ++
    (if streaming then [StFuture] else []) ++
    [StSend; StRead RAfterTransmit; StResponse; StRead RBeforeDeserialization; StDeserialize;
     StRead RAfterDeserialization].

  Lemma exchange_T r3 a (L : list stage -> Prop) :
    (forall x, auth_step E a (EvRead RAfterSigning (CRequest i r3) x)) ->
    L back_stages -> T a L r3 None (exchange F i r3) completed.
  Proof.
    intros Ha HL. unfold back_stages in HL. cbn [app] in HL. unfold exchange.
    cbn [spy_env e_interceptor spy_interceptor i_read i_request i_response i_output i_input
         e_endpoint e_set_endpoint e_auth_options e_send e_deserialize].
    op; [apply Ha|eexists; exact HL|].
    op; [eexists; exact HL|].
    op; [eexists; exact HL|].
    apply T_transmit; [|eexists; exact HL|].
    { intros c y. exact (auth_again _ (EvRead RBeforeTransmit (CRequest i x0) (inl x1)) _ _ c y I (auth_again _ (EvRequest MBeforeTransmit i r3 (inl x0)) _ _ c y I
        (auth_again _ (EvRead RAfterSigning (CRequest i r3) (inl x)) _ _ c y I (Ha (inl tt))))). }
    intros p a'.
    op; [eexists; exact HL|].
    op; [eexists; exact HL|].
    op; [eexists; exact HL|].
    op; [eexists; exact HL|].
    op; [eexists; exact HL|].
    apply T_ret; [exact HL|]. repeat split. eexists. reflexivity.
  Qed.

  Lemma resolve_first opts :
    match resolve_auth F opts with
    | Some (o, s) => first_supported (e_supported E) opts o s
    | None => Forall (fun o => e_supported E o = None) opts
    end.
  Proof.
    induction opts as [|o l IH]; cbn [resolve_auth]; [constructor|].
    change (e_supported F o) with (e_supported E o). destruct (e_supported E o) as [s|] eqn:Eo.
    - exists [], l. auto.
    - destruct (resolve_auth F l) as [[o' s']|].
      + destruct IH as (pre & post & -> & H1 & H2). exists (o :: pre), post. auto.
      + constructor; auto.
  Qed.

  Lemma attempt_T r0 :
    T [] (fun s => exists auth, s = attempt_stages auth streaming) r0 None (attempt_body F ci i r0) completed.
  Proof.
    unfold attempt_body.
    cbn [spy_env e_interceptor spy_interceptor i_read i_request i_response i_output i_input
         e_endpoint e_set_endpoint e_auth_options e_send e_deserialize].
    op; [eexists; exists true; reflexivity|].
    op; [eexists; exists true; reflexivity|].
    op; [eexists; exists true; reflexivity|].
    op; [eexists; exists true; reflexivity|].
    op; [eexists; exists true; reflexivity|].
    op; [cbn; eauto|eexists; exists true; reflexivity|]. rename x4 into opts.
    unfold authenticate. pose proof (resolve_first opts) as Hsel. destruct (resolve_auth F opts) as [[o s]|].
    - cbn [spy_env e_set_scheme e_identity_props e_identity e_signer_props e_sign e_update e_opt_identity_props].
      eapply T_exn with (m' := bthen (fun w => (inl tt, (e_set_scheme E s (fst w), snd w))) (fun _ =>
        bthen (at_ x2 (logged (EvIdentityProps s) (e_identity_props E s))) (fun ip =>
        bthen (at_ x2 (logged (EvIdentity s (e_update E ip (e_opt_identity_props E o)))
                         (e_identity E s (e_update E ip (e_opt_identity_props E o))))) (fun id =>
        bthen (at_ x2 (logged (EvSignerProps s) (e_signer_props E s))) (fun sp =>
        bthen (at_ x2 (logged (EvSign s x2 id (e_update E sp (e_opt_identity_props E o)))
                         (e_sign E s x2 id (e_update E sp (e_opt_identity_props E o))))) (exchange F i)))))).
      + intros w. unfold bthen, at_. cbn [fst snd].
        repeat (match goal with |- context [match ?m with (_, _) => _ end] =>
                  lazymatch m with context [match _ with _ => _ end] => fail | _ => destruct m as [[?|?] ?] end end;
                cbn [fst snd]; auto).
        destruct (exchange F i r s3) as [[?|[? ?]] ?]; cbn; auto.
      + apply T_silent.
        op; [cbn; eauto 20|eexists; exists true; reflexivity|].
        op; [cbn; eauto 20|eexists; exists true; reflexivity|].
        op; [cbn; eauto 20|eexists; exists true; reflexivity|].
        op; [cbn; do 3 eexists; split; [eauto 20|]; split; [eauto 20|]; split; [eauto 20|reflexivity]
            |eexists; exists true; reflexivity|].
        apply exchange_T; [|exists true; reflexivity].
        intros u. cbn. exists opts. split; [eauto 20|]. left. eexists _, _, _, _, _, _. split; [exact Hsel|eauto 20].
    - eapply T_exn with (m' := exchange F i x2).
      + intros w. unfold bthen, bret. destruct (exchange F i x2 w) as [[?|[? ?]] ?]; cbn; auto.
      + apply exchange_T; [|exists false; reflexivity].
        intros u. cbn. exists opts. split; [eauto 20|]. right. split; [exact Hsel|].
        intros ? ? ? ? ?. cbn. intuition discriminate.
  Qed.

  (** A whole attempt. *)
  Definition attempt_facts (r0 : Req S) (es : list (event S)) (c : octx S) : Prop :=
    attempt_shape streaming es /\ flows r0 None es /\ hooks_see i es /\ wire_sees ci es /\ auth_flows E es /\
    oc_input c = i /\ oc_request c = Some (current_request r0 es).

  Lemma finalize_ok m h c w log :
    exists c1 c2 x y w', finalize F m h c (w, log) = (c2, (w', log ++ [EvOutput m c x; EvRead h (COutput c1) y])) /\
      c1 = with_response c (match x with inl z => z | inr e => inr e end) /\
      c2 = match y with inl _ => c1 | inr e => with_response c1 (inr e) end.
  Proof.
    unfold finalize. cbn [spy_env e_interceptor spy_interceptor i_output i_read]. unfold logged. cbn [fst snd].
    destruct (i_output (e_interceptor E) m c w) as [[z|e] w1]; cbn [fst snd];
      match goal with |- context [i_read (e_interceptor E) h (COutput ?cc) w1] =>
        destruct (i_read (e_interceptor E) h (COutput cc) w1) as [[[]|e2] w2] eqn:E2; cbn [fst snd] end;
      eexists _, _, _, _, _; (split; [rewrite <- app_assoc; reflexivity|split; reflexivity]).
  Qed.

  Lemma attempt_ok r0 w log :
    exists es c w', handle_attempt F ci i r0 (w, log) = (c, (w', log ++ es)) /\ attempt_facts r0 es c.
  Proof.
    unfold handle_attempt. pose proof (attempt_T r0 w log) as H.
    destruct (attempt_body F ci i r0 (w, log)) as [res [w1 log1]]. cbn [snd] in H.
    destruct H as (sts & main & complete & -> & (auth & ->) & Hf & Hfl & Hh & Hw & Hau & Hres).
    assert (G : forall c0, oc_input c0 = i -> oc_request c0 = Some (current_request r0 main) ->
              agrees (oc_transport c0) (current_response None main) ->
      exists es c w', finalize F MBeforeAttemptCompletion RAfterAttempt c0 (w1, log ++ main) = (c, (w', log ++ es)) /\
                      attempt_facts r0 es c).
    { intros c0 H1 H2 H3.
      destruct (finalize_ok MBeforeAttemptCompletion RAfterAttempt c0 w1 (log ++ main))
        as (c1 & c2 & x & y & w2 & E1 & -> & ->).
      eexists _, _, w2. split; [rewrite E1, <- app_assoc; reflexivity|]. unfold attempt_facts.
      split; [exists auth, main, complete; eexists _, _, _, _; split; [reflexivity|exact Hf]|].
      split. { apply flows_app. split; [exact Hfl|]. cbn [flows request_of response_of].
               unfold req_after, resp_after. cbn [current_request current_response with_response oc_request oc_transport].
               rewrite H2. cbn [agrees]. auto. }
      split. { apply Forall_app. split; [exact Hh|]. repeat constructor; cbn; congruence. }
      split. { apply Forall_app. split; [exact Hw|]. repeat constructor; cbn; auto. }
      split. { intros a e b. revert a e b. apply (splits_spec _ []). apply splits_app. split; [exact Hau|]. cbn. auto. }
      rewrite current_request_app. cbn [current_request]. destruct y; cbn; auto. }
    destruct res as [c|[r e]].
    - destruct Hres as (-> & H1 & H2 & H3 & _). apply G; auto. rewrite H3.
      destruct (current_response None main); cbn; auto.
    - destruct Hres as (-> & ->). apply G; cbn; auto.
  Qed.
End Attempt.

(** ** The loop and the execution *)
Section Execution.
  Context {S : sorts} {W : Type}.
  Variable E : env S W.
  Notation F := (spy_env E).
  Variable ci : Inp S.

  Definition loop_attempt (i : Inp S) (r : Req S) (w : W * list (event S)) :=
    if e_retryable F then let (r', w') := e_copy F r w in handle_attempt F ci i r' w' else handle_attempt F ci i r w.

  Lemma spy_refresh t e w log :
    e_refresh F t e (w, log) = let (x, w') := e_refresh E t e w in (x, (w', log ++ [EvRefresh t e x])).
  Proof. reflexivity. Qed.
  Lemma spy_rewind r w log :
    unit_effect (e_rewind F r) (w, log) =
    let (x, w') := e_rewind E r w in
    (match x with inl _ => None | inr e => Some e end, (w', log ++ [EvRewind r x])).
  Proof. unfold unit_effect. cbn [spy_env e_rewind]. unfold logged. cbn [fst snd]. destruct (e_rewind E r w) as [[?|?] ?]; reflexivity. Qed.
  Lemma spy_success t w log :
    unit_effect (e_success F t) (w, log) =
    let (x, w') := e_success E t w in
    (match x with inl _ => None | inr e => Some e end, (w', log ++ [EvSuccess t x])).
  Proof. unfold unit_effect. cbn [spy_env e_success]. unfold logged. cbn [fst snd]. destruct (e_success E t w) as [[?|?] ?]; reflexivity. Qed.
  Lemma loop_attempt_ok i r w log :
    e_retryable E = true ->
    exists r' es c w', loop_attempt i r (w, log) = (c, (w', log ++ EvCopy r r' :: es)) /\
      attempt_facts E ci i r' es c.
  Proof.
    intros Hre. unfold loop_attempt. change (e_retryable F) with (e_retryable E). rewrite Hre.
    cbn [spy_env e_copy fst snd]. destruct (e_copy E r w) as [r' w1].
    destruct (attempt_ok E ci i r' w1 (log ++ [EvCopy r r'])) as (es & c & w2 & Ea & Hf).
    exists r', es, c, w2. split; [|exact Hf]. etransitivity; [exact Ea|]. rewrite <- app_assoc. reflexivity.
  Qed.

  Lemma rounds_ok i r fuel t w log res tr w' :
    e_retryable E = true ->
    retry_loop (e_delay F) (e_refresh F) (fun t => unit_effect (e_success F t)) (loop_attempt i r)
      failure (unit_effect (e_rewind F r)) (e_long_polling F) fuel t (w, log) = Some (res, tr, w') ->
    exists es, snd w' = log ++ es /\ rounds_shape (attempt_facts E ci i) r t es res.
  Proof.
    intros Hre. revert t w log res tr w'. induction fuel as [|fuel IH]; intros t w log res tr w'; [discriminate|].
    cbn [retry_loop].
    destruct (loop_attempt_ok i r w log Hre) as (r' & es & c & w2 & Ea & Hf).
    rewrite Ea. destruct (failure c) as [e|] eqn:Ec; unfold failure in Ec.
    - assert (Hc : oc_response c = inr e) by (destruct (oc_response c); congruence).
      rewrite spy_refresh. destruct (e_refresh E t e w2) as [[t'|[q|e']] w3].
      + rewrite spy_rewind. destruct (e_rewind E r w3) as [[[]|e'] w4].
        * destruct (retry_loop _ _ _ _ _ _ _ fuel t' _) as [[[res1 tr1] w5]|] eqn:El; [|intros H; discriminate H].
          intros H. injection H as <- <- <-.
          destruct (IH _ _ _ _ _ _ El) as (es2 & Es & Hr).
          exists (EvCopy r r' :: es ++ EvRefresh t e (inl t') :: EvRewind r (inl tt) :: es2).
          split; [rewrite Es; rewrite <- !app_assoc; cbn [app]; rewrite <- ?app_assoc; reflexivity|].
          eapply rs_more; eauto.
        * intros H. injection H as <- <- <-. eexists. split.
          -- cbn [snd]. rewrite <- !app_assoc. cbn [app]. reflexivity.
          -- eapply rs_rewind_raises; eauto.
      + intros H. injection H as <- <- <-. eexists. split.
        * cbn [snd]. rewrite <- !app_assoc. reflexivity.
        * eapply rs_refused; eauto.
      + intros H. injection H as <- <- <-. eexists. split.
        * cbn [snd]. rewrite <- !app_assoc. reflexivity.
        * eapply rs_refresh_raises; eauto.
    - assert (Hc : exists o, oc_response c = inl o) by (destruct (oc_response c); [eauto|congruence]).
      destruct Hc as [o Hc].
      rewrite spy_success.
      destruct (e_success E t w2) as [[[]|e'] w4]; intros H; injection H as <- <- <-; eexists.
      + split; [cbn [snd]; rewrite <- !app_assoc; reflexivity|]. eapply rs_success; eauto.
      + split; [cbn [snd]; rewrite <- !app_assoc; reflexivity|]. eapply rs_success_raises; eauto.
  Qed.

  Lemma retry_ok i r fuel w log res tr w' :
    run_retry F fuel ci i r (w, log) = Some (res, tr, w') ->
    exists es, snd w' = log ++ es /\ retry_shape (attempt_facts E ci i) r (e_retryable E) es res.
  Proof.
    unfold run_retry, retry, retry_shape. fold (loop_attempt i r). change (e_retryable F) with (e_retryable E).
    destruct (e_retryable E) eqn:Hre.
    - cbn [spy_env e_acquire]. unfold logged. cbn [fst snd].
      destruct (e_acquire E w) as [[t|e] w1]; intros H.
      + destruct (rounds_ok _ _ _ _ _ _ _ _ _ Hre H) as (es & Es & Hs).
        exists (EvAcquire (inl t) :: es). rewrite Es, <- app_assoc. split; [reflexivity|]. left. eauto.
      + injection H as <- <- <-. exists [EvAcquire (inr e)]. split; [reflexivity|]. right. eauto.
    - destruct (attempt_ok E ci i r w log) as (es & c & w2 & Ea & Hf). rewrite Ea.
      intros H. injection H as <- <- <-. exists es. split; [reflexivity|]. eauto.
  Qed.

  Lemma rounds_returned i r t es res :
    rounds_shape (attempt_facts E ci i) r t es res -> match res with Returned c => oc_input c = i | Threw _ => True end.
  Proof. induction 1; auto. destruct H as (_ & _ & _ & _ & _ & H & _). exact H. Qed.
  Lemma retry_returned i r re es c :
    retry_shape (attempt_facts E ci i) r re es (Returned c) -> oc_input c = i.
  Proof.
    unfold retry_shape. destruct re.
    - intros [(t & rest & -> & H)|(e & -> & H)]; [|discriminate]. exact (rounds_returned _ _ _ _ _ H).
    - intros (c' & H & H'). injection H' as <-. destruct H as (_ & _ & _ & _ & _ & H & _). exact H.
  Qed.

  (** The observed final result. *)
  Definition visible (x : Outp S * octx S + Exc S) : Outp S + Exc S :=
    match x with inl (o, _) => inl o | inr e => inr e end.
  Definition surface (e : Exc S) : Exc S := if e_is_smithy E e then e else e_smithy E e.

  (** *** The input along the execution *)
  Definition input_step (a : list (event S)) (e : event S) : Prop :=
    forall x, hook_input_of e = Some x ->
      x = current_input ci a \/
      (x = ci /\ (kind e = StOutput MBeforeCompletion \/ kind e = StRead RAfterExecution) /\
       forall i r, ~ In (EvSerialize i (inl r)) a).

  Definition outer (e : event S) : bool :=
    match kind e with
    | StInput | StRequest MBeforeRetryLoop | StRead RAfterSerialization
    | StOutput MBeforeCompletion | StRead RAfterExecution => true
    | _ => false
    end.
  Definition serialized_step (a : list (event S)) (e : event S) : Prop :=
    match e with
    | EvRequest MBeforeRetryLoop _ r _ | EvRead RAfterSerialization (CRequest _ r) _ =>
      exists i, In (EvSerialize i (inl r)) a
    | _ => True
    end.
  Lemma splits_serialized a es : Forall (fun e => outer e = false) es -> splits serialized_step a es.
  Proof.
    intros H. revert a. induction H as [|e l He _ IH]; intros a; cbn [splits]; [exact I|]. split; [|apply IH].
    destruct e; cbn; auto; destruct h; try discriminate He; auto.
  Qed.

  Definition inner (i : Inp S) (e : event S) : Prop :=
    outer e = false /\ agrees (hook_input_of e) (Some i) /\ agrees (wire_input_of e) (Some ci).

  Lemma current_input_app (i : Inp S) a b : current_input i (a ++ b) = current_input (current_input i a) b.
  Proof.
    revert i. induction a as [|e a IH]; intros i; [reflexivity|]. cbn [app].
    destruct e; cbn [current_input]; try apply IH. destruct x; apply IH.
  Qed.
  Lemma current_input_inner (i : Inp S) es : Forall (fun e => outer e = false) es -> current_input i es = i.
  Proof. induction 1 as [|e l He _ IH]; [reflexivity|]. destruct e; cbn [current_input]; try exact IH. discriminate He. Qed.

  Lemma splits_inner i a es : current_input ci a = i -> Forall (inner i) es -> splits input_step a es.
  Proof.
    intros Ha H. revert a Ha. induction H as [|e l (H1 & H2 & _) _ IH]; intros a Ha; cbn [splits]; [exact I|].
    split.
    - intros x Hx. left. rewrite Hx in H2. cbn in H2. congruence.
    - apply IH. rewrite current_input_app, Ha. apply current_input_inner. auto.
  Qed.

  Lemma follows_kinds (sts : list stage) (es : list (event S)) c :
    follows sts es c -> Forall (fun e => In (kind e) sts) es.
  Proof.
    induction 1 as [|st l e es c Hk Hr Hf IH|st l e Hk Hr].
    - constructor.
    - constructor; [left; auto|]. eapply Forall_impl; [|exact IH]. intros e' He'. right. exact He'.
    - constructor; [left; auto|constructor].
  Qed.

  Lemma attempt_inner i r0 es c : attempt_facts E ci i r0 es c -> Forall (inner i) es.
  Proof.
    intros (Hs & _ & Hh & Hw & _).
    assert (Hk : Forall (fun e => outer e = false) es).
    { destruct Hs as (auth & main & complete & o & x & o' & x' & -> & Hf). apply Forall_app. split.
      - apply follows_kinds in Hf. eapply Forall_impl; [|exact Hf]. intros e He. cbv beta in He. unfold outer. revert He. generalize (kind e).
        intros st. unfold attempt_stages. destruct auth, (streaming E); cbn; intuition (subst; reflexivity).
      - repeat constructor. }
    unfold hooks_see, wire_sees in *. rewrite Forall_forall in *. intros e He. split; [|split]; auto.
  Qed.

  Lemma rounds_inner i r t es res : rounds_shape (attempt_facts E ci i) r t es res -> Forall (inner i) es.
  Proof.
    assert (Hx : forall e : event S, hook_input_of e = None -> wire_input_of e = None -> outer e = false -> inner i e).
    { intros e H1 H2 H3. split; [exact H3|]. rewrite H1, H2. cbn. auto. }
    induction 1; constructor; try (apply Hx; reflexivity);
      apply Forall_app; (split; [eapply attempt_inner; eassumption|]);
      repeat (constructor; try (apply Hx; reflexivity)). assumption.
  Qed.

  Lemma retry_inner i r re es res : retry_shape (attempt_facts E ci i) r re es res -> Forall (inner i) es.
  Proof.
    unfold retry_shape. destruct re.
    - intros [(t & rest & -> & H)|(e & -> & _)]; constructor; try (split; [reflexivity|cbn; auto]); try constructor.
      eapply rounds_inner, H.
    - intros (c & H & _). eapply attempt_inner, H.
  Qed.

  Ltac finish :=
    split; [cbn [app splits]; repeat (split; [intros ? Hx; injection Hx as <-; left; reflexivity|]);
            repeat (split; [intros ? Hx; discriminate Hx|]);
            repeat (split; [intros ? Hx; injection Hx as <-; left; reflexivity|]); exact I|];
    split; [cbn; repeat split; eauto 20|];
    split; [repeat constructor|]; split; [constructor|]; split; [reflexivity|];
    first [left; reflexivity | right; split; [reflexivity|split; [reflexivity|cbn; intuition discriminate]]].

  Lemma execute_ok fuel w log final w' :
    execute F fuel ci (w, log) = Some (final, w') ->
    exists es i, snd w' = log ++ es /\
      execution_shape (attempt_facts E ci i) (e_retryable E) surface es (visible final) /\
      input_flows ci es /\ wire_sees ci es /\ serialized_flows es.
  Proof.
    unfold execute. destruct (handle_execution F fuel ci (w, log)) as [[c [w1 log1]]|] eqn:Eh; [|discriminate].
    destruct (finalize_ok E MBeforeCompletion RAfterExecution c w1 log1) as (c1 & c2 & x & y & w2 & Ef & Hc1 & Hc2).
    rewrite Ef. intros H.
    assert (Hfin : visible final = match y with
            | inr e => inr (surface e)
            | inl _ => match oc_response c1 with inl o => inl o | inr e => inr (surface e) end
            end /\ snd w' = log1 ++ [EvOutput MBeforeCompletion c x; EvRead RAfterExecution (COutput c1) y]).
    { destruct (oc_response c2) as [o|e] eqn:E2; injection H as <- <-; (split; [|reflexivity]); destruct y as [u|e'];
        subst c2; cbn [with_response oc_response] in E2; try discriminate E2; rewrite ?E2; try reflexivity.
      injection E2 as <-. reflexivity. }
    destruct Hfin as [Hfin Hlog]. clear H.
    assert (G : exists before loop complete i, log1 = log ++ before ++ loop /\
       follows execution_stages before complete /\
       (if complete
        then exists r res i' r0 e, retry_shape (attempt_facts E ci i) r (e_retryable E) loop res /\
             oc_response c = loop_response res /\ before = e ++ [EvRequest MBeforeRetryLoop i' r0 (inl r)]
        else loop = [] /\ exists e, oc_response c = inr e) /\
       splits input_step [] before /\ splits serialized_step [] before /\ wire_sees ci before /\ Forall (inner i) loop /\ current_input ci before = i /\
       (oc_input c = i \/ (oc_input c = ci /\ loop = [] /\ forall i r, ~ In (EvSerialize i (inl r)) before))).
    { revert Eh. clear Ef Hlog Hfin Hc1 Hc2. unfold handle_execution.
      cbn [spy_env e_interceptor spy_interceptor i_read i_input i_request e_serialize]. unfold andthen, logged, ret.
      cbn [fst snd].
      destruct (i_read (e_interceptor E) RBeforeExecution (CInput ci) w) as [[[]|e1] wa]; cbn [fst snd].
      2: { intros H. injection H as <- <- <-. eexists _, [], false, ci.
           split; [rewrite app_nil_r; reflexivity|]. split; [apply fo_raise; reflexivity|]. split; [cbn; eauto|]. finish. }
      destruct (i_input (e_interceptor E) ci wa) as [[i|e1] wb]; cbn [fst snd].
      2: { intros H. injection H as <- <- <-. eexists _, [], false, ci.
           split; [rewrite app_nil_r, <- !app_assoc; reflexivity|].
           split; [do 1 (apply fo_step; [reflexivity..|]); apply fo_raise; reflexivity|]. split; [cbn; eauto|]. finish. }
      destruct (i_read (e_interceptor E) RBeforeSerialization (CInput i) wb) as [[[]|e1] wc]; cbn [fst snd].
      2: { intros H. injection H as <- <- <-. eexists _, [], false, i.
           split; [rewrite app_nil_r, <- !app_assoc; reflexivity|].
           split; [do 2 (apply fo_step; [reflexivity..|]); apply fo_raise; reflexivity|]. split; [cbn; eauto|]. finish. }
      destruct (e_serialize E ci wc) as [[r|e1] wd]; cbn [fst snd].
      2: { intros H. injection H as <- <- <-. eexists _, [], false, i.
           split; [rewrite app_nil_r, <- !app_assoc; reflexivity|].
           split; [do 3 (apply fo_step; [reflexivity..|]); apply fo_raise; reflexivity|]. split; [cbn; eauto|]. finish. }
      destruct (i_read (e_interceptor E) RAfterSerialization (CRequest i r) wd) as [[[]|e1] we]; cbn [fst snd].
      2: { intros H. injection H as <- <- <-. eexists _, [], false, i.
           split; [rewrite app_nil_r, <- !app_assoc; reflexivity|].
           split; [do 4 (apply fo_step; [reflexivity..|]); apply fo_raise; reflexivity|]. split; [cbn; eauto|]. finish. }
      destruct (i_request (e_interceptor E) MBeforeRetryLoop i r we) as [[r'|e1] wf]; cbn [fst snd].
      2: { intros H. injection H as <- <- <-. eexists _, [], false, i.
           split; [rewrite app_nil_r, <- !app_assoc; reflexivity|].
           split; [do 5 (apply fo_step; [reflexivity..|]); apply fo_raise; reflexivity|]. split; [cbn; eauto|]. finish. }
      destruct (run_retry F fuel ci i r' _) as [[[res tr] [wg lg]]|] eqn:Er; [|destruct (e_retryable E); discriminate].
      destruct (retry_ok _ _ _ _ _ _ _ _ Er) as (es & Es & Hs). cbn [snd] in Es. intros H.
      assert (Hx : log1 = lg /\ oc_response c = loop_response res /\ oc_input c = i).
      { destruct res as [c0|e0]; injection H as <- <- <-; split; try reflexivity; split; try reflexivity.
        eapply retry_returned, Hs. }
      destruct Hx as (-> & Hx & Hci).
      exists ([EvRead RBeforeExecution (CInput ci) (inl tt); EvInput ci (inl i);
               EvRead RBeforeSerialization (CInput i) (inl tt); EvSerialize ci (inl r);
               EvRead RAfterSerialization (CRequest i r) (inl tt)] ++ [EvRequest MBeforeRetryLoop i r (inl r')]), es, true, i.
      split; [rewrite Es, <- !app_assoc; reflexivity|].
      split; [do 6 (apply fo_step; [reflexivity..|]); constructor|].
      split; [exists r', res, i, r; eexists; split; [exact Hs|]; split; [exact Hx|]; reflexivity|].
      split. { cbn [app splits]. repeat (split; [intros ? Hx'; first [discriminate Hx'|injection Hx' as <-; left; reflexivity]|]).
               exact I. }
      split. { cbn. repeat split; eauto 20. }
      split; [repeat constructor|]. split; [eapply retry_inner, Hs|]. split; [reflexivity|]. left. exact Hci. }
    destruct G as (before & loop & complete & i & -> & H1 & H2 & H3 & H3s & H4 & H5 & H6 & H7).
    exists (before ++ loop ++ [EvOutput MBeforeCompletion c x; EvRead RAfterExecution (COutput c1) y]), i.
    split; [rewrite Hlog, <- !app_assoc; reflexivity|].
    assert (Hloop : current_input ci (before ++ loop) = i).
    { rewrite current_input_app, H6. apply current_input_inner. eapply Forall_impl; [|exact H5]. intros ? (Hi & _). exact Hi. }
    split; [|split; [|split]].
    - exists before, complete, loop, c, x, c1, y. split; [reflexivity|].
      split; [exact H1|]. split; [exact H2|]. split; [subst c1; reflexivity|exact Hfin].
    - intros a e b z. intros Hs Hz. revert Hz. revert z. change (input_step a e). revert a e b Hs.
      apply (splits_spec input_step []). apply splits_app. split; [exact H3|].
      apply splits_app. split; [apply (splits_inner i); assumption|]. rewrite !app_nil_l. cbn [splits].
      assert (Hc1i : oc_input c1 = oc_input c) by (subst c1; reflexivity).
      split; [|split; [|exact I]]; intros z Hz; cbn [hook_input_of] in Hz; injection Hz as <-.
      + destruct H7 as [H7|(H7 & -> & H8)]; [left; congruence|right]. rewrite app_nil_r. auto.
      + rewrite Hc1i. destruct H7 as [H7|(H7 & -> & H8)]; [left|right].
        * rewrite current_input_app. cbn [current_input]. congruence.
        * split; [exact H7|]. split; [auto|]. intros i0 r0 Hin. rewrite app_nil_r in Hin.
          apply in_app_or in Hin. destruct Hin as [Hin|[Hin|[]]]; [exact (H8 _ _ Hin)|discriminate Hin].
    - apply Forall_app. split; [exact H4|]. apply Forall_app. split.
      + eapply Forall_impl; [|exact H5]. intros ? (_ & _ & Hi). exact Hi.
      + repeat constructor.
    - intros a e b Hs. change (serialized_step a e). revert a e b Hs.
      apply (splits_spec serialized_step []). apply splits_app. split; [exact H3s|].
      apply splits_app. split; [|cbn; auto].
      apply splits_serialized. eapply Forall_impl; [|exact H5]. intros ? (Hi & _). exact Hi.
  Qed.
End Execution.
