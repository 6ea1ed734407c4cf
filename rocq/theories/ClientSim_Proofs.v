(** Two calls whose parts behave alike behave alike: used to show that observing
    a call does not change it, and that what every part preserves is preserved. *)
From Coq Require Import QArith.
From Verif Require Import Base Retry_Model Retry_Spec Client_Model Client_Spec Client_Proofs.
Local Open Scope nat_scope.

Section Sim.
  Context {S : sorts} {W V : Type}.
  Variable R : W -> V -> Prop.

  Definition wsim {X} (m : W -> X * W) (m' : V -> X * V) : Prop :=
    forall w v, R w v -> exists x w' v', m w = (x, w') /\ m' v = (x, v') /\ R w' v'.
  Definition osim {X} (m : W -> option (X * W)) (m' : V -> option (X * V)) : Prop :=
    forall w v, R w v ->
      (exists x w' v', m w = Some (x, w') /\ m' v = Some (x, v') /\ R w' v') \/ (m w = None /\ m' v = None).

  Record env_sim (E : env S W) (F : env S V) : Prop := {
    s_read h c : wsim (i_read (e_interceptor E) h c) (i_read (e_interceptor F) h c);
    s_input i : wsim (i_input (e_interceptor E) i) (i_input (e_interceptor F) i);
    s_request h i r : wsim (i_request (e_interceptor E) h i r) (i_request (e_interceptor F) h i r);
    s_response i r p : wsim (i_response (e_interceptor E) i r p) (i_response (e_interceptor F) i r p);
    s_output h c : wsim (i_output (e_interceptor E) h c) (i_output (e_interceptor F) h c);
    s_serialize i : wsim (e_serialize E i) (e_serialize F i);
    s_endpoint i : wsim (e_endpoint E i) (e_endpoint F i);
    s_set_endpoint r ep : wsim (e_set_endpoint E r ep) (e_set_endpoint F r ep);
    s_auth_options : wsim (e_auth_options E) (e_auth_options F);
    s_supported : e_supported E = e_supported F;
    s_set_scheme s w v : R w v -> R (e_set_scheme E s w) (e_set_scheme F s v);
    s_identity_props s : wsim (e_identity_props E s) (e_identity_props F s);
    s_signer_props s : wsim (e_signer_props E s) (e_signer_props F s);
    s_opt_identity_props : e_opt_identity_props E = e_opt_identity_props F;
    s_opt_signer_props : e_opt_signer_props E = e_opt_signer_props F;
    s_update : e_update E = e_update F;
    s_identity s p : wsim (e_identity E s p) (e_identity F s p);
    s_sign s r i p : wsim (e_sign E s r i p) (e_sign F s r i p);
    s_future : match e_future E, e_future F with
               | None, None => True
               | Some f, Some g => forall i r, wsim (f i r) (g i r)
               | _, _ => False
               end;
    s_send r : wsim (e_send E r) (e_send F r);
    s_is_timeout : e_is_timeout E = e_is_timeout F;
    s_timeout : e_timeout E = e_timeout F;
    s_deserialize r p : wsim (e_deserialize E r p) (e_deserialize F r p);
    s_copy r : wsim (e_copy E r) (e_copy F r);
    s_rewind r : wsim (e_rewind E r) (e_rewind F r);
    s_acquire : wsim (e_acquire E) (e_acquire F);
    s_delay : e_delay E = e_delay F;
    s_refresh t e : wsim (e_refresh E t e) (e_refresh F t e);
    s_success t : wsim (e_success E t) (e_success F t);
    s_retryable : e_retryable E = e_retryable F;
    s_long_polling : e_long_polling E = e_long_polling F;
    s_is_smithy : e_is_smithy E = e_is_smithy F;
    s_smithy : e_smithy E = e_smithy F
  }.

  Variables (E : env S W) (F : env S V).
  Hypothesis HE : env_sim E F.

  Lemma wsim_andthen {X Y} (m : eff S W X) m' (k : X -> eff S W Y) k' :
    wsim m m' -> (forall x, wsim (k x) (k' x)) -> wsim (andthen m k) (andthen m' k').
  Proof.
    intros Hm Hk w v Hr. unfold andthen. destruct (Hm w v Hr) as ([x|e] & w' & v' & -> & -> & H).
    - apply Hk, H.
    - eauto 6.
  Qed.
  Lemma wsim_ret {X} (x : X) : wsim (ret (S := S) x) (ret x).
  Proof. intros w v H. unfold ret. eauto 6. Qed.
  Lemma wsim_bret {X} (x : X) : wsim (bret (S := S) x) (bret x).
  Proof. intros w v H. unfold bret. eauto 6. Qed.
  Lemma wsim_bthen {X Y} (m : body (S := S) (W := W) X) m' (k : X -> body (S := S) (W := W) Y) k' :
    wsim m m' -> (forall x, wsim (k x) (k' x)) -> wsim (bthen m k) (bthen m' k').
  Proof.
    intros Hm Hk w v Hr. unfold bthen. destruct (Hm w v Hr) as ([x|e] & w' & v' & -> & -> & H).
    - apply Hk, H.
    - eauto 6.
  Qed.
  Lemma wsim_at {X} r (m : eff S W X) m' : wsim m m' -> wsim (at_ r m) (at_ r m').
  Proof. intros Hm w v Hr. unfold at_. destruct (Hm w v Hr) as ([x|e] & w' & v' & -> & -> & H); eauto 6. Qed.

  Lemma sim_resolve opts : resolve_auth E opts = resolve_auth F opts.
  Proof. induction opts as [|o r IH]; [reflexivity|]. cbn [resolve_auth]. rewrite IH, (s_supported _ _ HE). reflexivity. Qed.

  Lemma sim_authenticate opts r : wsim (authenticate E opts r) (authenticate F opts r).
  Proof.
    unfold authenticate. rewrite sim_resolve. destruct (resolve_auth F opts) as [[o s]|]; [|apply wsim_bret].
    rewrite (s_update _ _ HE), (s_opt_identity_props _ _ HE).
    apply wsim_bthen.
    { intros w v Hr. eexists _, _, _. split; [reflexivity|]. split; [reflexivity|]. apply (s_set_scheme _ _ HE), Hr. }
    intros _. apply wsim_bthen; [apply wsim_at, (s_identity_props _ _ HE)|]. intros ip.
    apply wsim_bthen; [apply wsim_at, (s_identity _ _ HE)|]. intros id.
    apply wsim_bthen; [apply wsim_at, (s_signer_props _ _ HE)|]. intros sp.
    apply wsim_at, (s_sign _ _ HE).
  Qed.

  Lemma sim_transmit i r : wsim (transmit E i r) (transmit F i r).
  Proof.
    assert (H : wsim
      (andthen (match e_future E with Some f => f i r | None => ret tt end) (fun _ => e_send E r))
      (andthen (match e_future F with Some f => f i r | None => ret tt end) (fun _ => e_send F r))).
    { apply wsim_andthen; [|intros _; apply (s_send _ _ HE)]. pose proof (s_future _ _ HE) as Hf.
      destruct (e_future E), (e_future F); try contradiction; [apply Hf|apply wsim_ret]. }
    intros w v Hr. unfold transmit. destruct (H w v Hr) as ([x|e] & w' & v' & -> & -> & H'); [eauto 6|].
    rewrite (s_is_timeout _ _ HE), (s_timeout _ _ HE). eauto 6.
  Qed.

  Lemma sim_exchange i r : wsim (exchange E i r) (exchange F i r).
  Proof.
    unfold exchange.
    repeat first
      [ apply wsim_bret
      | apply wsim_bthen; [apply wsim_at; first [apply (s_read _ _ HE)|apply (s_request _ _ HE)|apply sim_transmit
                           |apply (s_response _ _ HE)|apply (s_deserialize _ _ HE)]|intros ?] ].
  Qed.

  Lemma sim_attempt_body ci i r : wsim (attempt_body E ci i r) (attempt_body F ci i r).
  Proof.
    unfold attempt_body.
    repeat first
      [ apply sim_exchange
      | apply wsim_bthen; [first [apply sim_authenticate | apply wsim_at; first [apply (s_read _ _ HE)
          |apply (s_request _ _ HE)|apply (s_endpoint _ _ HE)|apply (s_set_endpoint _ _ HE)
          |apply (s_auth_options _ _ HE)]]|intros ?] ].
  Qed.

  Lemma sim_finalize m h c : wsim (finalize E m h c) (finalize F m h c).
  Proof.
    intros w v Hr. unfold finalize.
    destruct (s_output _ _ HE m c w v Hr) as ([x|e] & w1 & v1 & -> & -> & H1);
      match goal with |- context [COutput ?cc] =>
        destruct (s_read _ _ HE h (COutput cc) w1 v1 H1) as ([[]|e2] & w2 & v2 & -> & -> & H2) end;
      eexists _, _, _; split; [reflexivity|split; [reflexivity|exact H2]|reflexivity|split; [reflexivity|exact H2]
                              |reflexivity|split; [reflexivity|exact H2]|reflexivity|split; [reflexivity|exact H2]].
  Qed.

  Lemma sim_attempt ci i r : wsim (handle_attempt E ci i r) (handle_attempt F ci i r).
  Proof.
    intros w v Hr. unfold handle_attempt.
    destruct (sim_attempt_body ci i r w v Hr) as ([c|[r' e]] & w1 & v1 & -> & -> & H1); apply sim_finalize, H1.
  Qed.

  Lemma sim_unit (m : eff S W unit) m' : wsim m m' -> wsim (unit_effect m) (unit_effect m').
  Proof. intros Hm w v Hr. unfold unit_effect. destruct (Hm w v Hr) as ([x|e] & w' & v' & -> & -> & H); eauto 6. Qed.

  (** The loop. *)
  Section LoopSim.
    Variables (at1 : W -> octx S * W) (at2 : V -> octx S * V) (rw1 : W -> option (Exc S) * W)
      (rw2 : V -> option (Exc S) * V).
    Hypothesis Hat : wsim at1 at2.
    Hypothesis Hrw : wsim rw1 rw2.

    Lemma sim_loop fuel : forall t,
      osim (retry_loop (e_delay E) (e_refresh E) (fun t => unit_effect (e_success E t)) at1 failure rw1 (e_long_polling E) fuel t)
           (retry_loop (e_delay F) (e_refresh F) (fun t => unit_effect (e_success F t)) at2 failure rw2 (e_long_polling F) fuel t).
    Proof.
      rewrite (s_delay _ _ HE), (s_long_polling _ _ HE).
      induction fuel as [|fuel IH]; intros t w v Hr; [right; split; reflexivity|].
      cbn [retry_loop]. destruct (Hat w v Hr) as (c & w1 & v1 & -> & -> & H1).
      destruct (failure c) as [e|].
      - destruct (s_refresh _ _ HE t e w1 v1 H1) as (x & w2 & v2 & -> & -> & H2).
        destruct x as [t'|[q|e']].
        + destruct (Hrw w2 v2 H2) as ([e3|] & w3 & v3 & -> & -> & H3).
          * left. eauto 7.
          * destruct (IH t' w3 v3 H3) as [(y & w4 & v4 & -> & -> & H4)|[-> ->]].
            -- destruct y as [res tr]. left. eauto 7.
            -- right. split; reflexivity.
        + left. eauto 7.
        + left. eauto 7.
      - destruct (sim_unit _ _ (s_success _ _ HE t) w1 v1 H1) as ([e3|] & w3 & v3 & -> & -> & H3); left; eauto 7.
    Qed.
  End LoopSim.

  Lemma sim_retry fuel ci i r : osim (run_retry E fuel ci i r) (run_retry F fuel ci i r).
  Proof.
    unfold run_retry, retry. rewrite (s_retryable _ _ HE). destruct (e_retryable F).
    - intros w v Hr. destruct (s_acquire _ _ HE w v Hr) as ([t|e] & w1 & v1 & -> & -> & H1).
      + apply sim_loop; [|apply sim_unit, (s_rewind _ _ HE)|exact H1].
        intros w2 v2 H2. destruct (s_copy _ _ HE r w2 v2 H2) as (r' & w3 & v3 & -> & -> & H3).
        apply sim_attempt, H3.
      + left. eauto 7.
    - intros w v Hr. destruct (sim_attempt ci i r w v Hr) as (c & w1 & v1 & -> & -> & H1). left. eauto 7.
  Qed.

  Lemma sim_handle_execution fuel ci : osim (handle_execution E fuel ci) (handle_execution F fuel ci).
  Proof.
    intros w v Hr. unfold handle_execution.
    match goal with |- context [match ?m w with _ => _ end] =>
      match goal with |- context [match ?m' v with _ => _ end] => assert (Hf : wsim m m') end end.
    { apply wsim_andthen; [apply (s_read _ _ HE)|intros _].
      apply wsim_andthen; [apply (s_input _ _ HE)|intros i].
      apply wsim_andthen; [apply (s_read _ _ HE)|intros _].
      apply wsim_andthen; [apply (s_serialize _ _ HE)|intros r]. apply wsim_ret. }
    destruct (Hf w v Hr) as ([[i r]|e] & w1 & v1 & -> & -> & H1); [|left; eauto 7].
    destruct (s_read _ _ HE RAfterSerialization (CRequest i r) w1 v1 H1) as ([[]|e] & w2 & v2 & -> & -> & H2);
      [|left; eauto 7].
    destruct (s_request _ _ HE MBeforeRetryLoop i r w2 v2 H2) as ([r'|e] & w3 & v3 & -> & -> & H3); [|left; eauto 7].
    destruct (sim_retry fuel ci i r' w3 v3 H3) as [([[c|e] tr] & w4 & v4 & -> & -> & H4)|[-> ->]];
      [left; eauto 7|left; eauto 7|right; split; reflexivity].
  Qed.

  Lemma sim_execute fuel ci : osim (execute E fuel ci) (execute F fuel ci).
  Proof.
    intros w v Hr. unfold execute.
    destruct (sim_handle_execution fuel ci w v Hr) as [(c & w1 & v1 & -> & -> & H1)|[-> ->]]; [|right; split; reflexivity].
    destruct (sim_finalize MBeforeCompletion RAfterExecution c w1 v1 H1) as (c' & w2 & v2 & -> & -> & H2).
    rewrite (s_is_smithy _ _ HE), (s_smithy _ _ HE). destruct (oc_response c'); left; eauto 7.
  Qed.
End Sim.

(** Observing does not change the call. *)
Section Erase.
  Context {S : sorts} {W : Type}.
  Definition erased {L} (w : W) (v : W * L) : Prop := fst v = w.

  Lemma erase_logged {X} (ev : X + Exc S -> event S) (m : eff S W X) : wsim erased m (logged ev m).
  Proof.
    intros w [w0 l] H. unfold erased in H. cbn [fst] in H. subst w0. unfold logged. cbn [fst snd].
    destruct (m w) as [x w']. eexists _, _, _. split; [reflexivity|]. split; reflexivity.
  Qed.

  Lemma erase_sim (E : env S W) : env_sim erased E (spy_env E).
  Proof.
    constructor; intros; cbn [spy_env e_interceptor spy_interceptor i_read i_input i_request i_response i_output
      e_serialize e_endpoint e_set_endpoint e_auth_options e_supported e_set_scheme e_identity_props e_signer_props
      e_opt_identity_props e_opt_signer_props e_update e_identity e_sign e_future e_send e_is_timeout e_timeout
      e_deserialize e_copy e_rewind e_acquire e_delay e_refresh e_success e_retryable e_long_polling e_is_smithy e_smithy];
      try apply erase_logged; try reflexivity.
    - unfold erased in *. cbn. congruence.
    - destruct (e_future E); [|exact I]. intros. apply erase_logged.
    - intros w [w0 l] H. unfold erased in H. cbn [fst] in H. subst w0. cbn [fst snd].
      destruct (e_copy E r w) as [x w']. eexists _, _, _. split; [reflexivity|]. split; reflexivity.
    - intros w [w0 l] H. unfold erased in H. cbn [fst] in H. subst w0. cbn [fst snd].
      destruct (e_refresh E t e w) as [x w']. eexists _, _, _. split; [reflexivity|]. split; reflexivity.
  Qed.

  Lemma erase_execute (E : env S W) fuel ci w log :
    execute E fuel ci w =
    match execute (spy_env E) fuel ci (w, log) with
    | Some (x, (w', _)) => Some (x, w')
    | None => None
    end.
  Proof.
    destruct (sim_execute erased E (spy_env E) (erase_sim E) fuel ci w (w, log) eq_refl)
      as [(x & w' & [v' l] & -> & -> & H)|[-> ->]]; [|reflexivity].
    unfold erased in H. cbn in H. subst. reflexivity.
  Qed.
End Erase.

(** ** The future of a streaming call *)
Section FutureInv.
  Context {S : sorts} {W : Type}.
  Variable already : Exc S.
  Definition told (w v : W * future * list (event S)) : Prop := w = v /\ snd (fst w) = transmission (snd w).

  Lemma transmission_snoc (l : list (event S)) e :
    (forall i r u, e <> EvFuture i r (inl u)) -> transmission (l ++ [e]) = transmission l.
  Proof.
    intros H. induction l as [|e0 l IH].
    - destruct e; try reflexivity. destruct x as [u|]; [|reflexivity]. destruct (H i r u eq_refl).
    - cbn [app]. destruct e0; cbn [transmission]; try exact IH. destruct x; [reflexivity|exact IH].
  Qed.

  Lemma told_logged {X} (ev : X + Exc S -> event S) (m : eff S W X) :
    (forall x i r u, ev x <> EvFuture i r (inl u)) ->
    wsim told (logged ev (lifted m)) (logged ev (lifted m)).
  Proof.
    intros Hev [[w f] l] v [<- H]. cbn [fst snd] in H. unfold logged, lifted. cbn [fst snd].
    destruct (m w) as [x w']. eexists _, _, _. split; [reflexivity|]. split; [reflexivity|].
    split; [reflexivity|]. cbn [fst snd]. rewrite transmission_snoc; [exact H|]. apply Hev.
  Qed.

  Lemma transmission_reached (l : list (event S)) i r u :
    transmission l = None -> transmission (l ++ [EvFuture i r (inl u)]) = Some (i, r).
  Proof.
    induction l as [|e0 l IH]; intros H; [reflexivity|]. cbn [app]. destruct e0; cbn [transmission] in *; auto.
    destruct x; [discriminate|auto].
  Qed.

  Lemma told_sim (E : env S W) : env_sim told (spy_env (with_future already E)) (spy_env (with_future already E)).
  Proof.
    constructor; intros; cbn [spy_env with_future e_interceptor spy_interceptor lift_interceptor i_read i_input i_request i_response i_output
      e_serialize e_endpoint e_set_endpoint e_auth_options e_supported e_set_scheme e_identity_props e_signer_props
      e_opt_identity_props e_opt_signer_props e_update e_identity e_sign e_future e_send e_is_timeout e_timeout
      e_deserialize e_copy e_rewind e_acquire e_delay e_refresh e_success e_retryable e_long_polling e_is_smithy e_smithy];
      try (apply told_logged; discriminate); try reflexivity.
    - destruct H as [-> H]. split; [reflexivity|exact H].
    - intros i r [[w f] l] v [<- H]. cbn [fst snd] in H. unfold logged, set_future. cbn [fst snd]. subst f.
      destruct (transmission l) as [[i0 r0]|] eqn:El.
      + eexists _, _, _. split; [reflexivity|]. split; [reflexivity|]. split; [reflexivity|].
        cbn [fst snd]. rewrite transmission_snoc; [symmetry; exact El|discriminate].
      + eexists _, _, _. split; [reflexivity|]. split; [reflexivity|]. split; [reflexivity|].
        cbn [fst snd]. rewrite transmission_reached; [reflexivity|exact El].
    - intros [[w f] l] v [<- H]. cbn [fst snd] in *. destruct (e_copy E r w) as [r' w'].
      eexists _, _, _. split; [reflexivity|]. split; [reflexivity|]. split; [reflexivity|].
      cbn [fst snd]. rewrite transmission_snoc; [exact H|discriminate].
    - intros [[w f] l] v [<- H]. cbn [fst snd] in *. destruct (e_refresh E t e w) as [r' w'].
      eexists _, _, _. split; [reflexivity|]. split; [reflexivity|]. split; [reflexivity|].
      cbn [fst snd]. rewrite transmission_snoc; [exact H|discriminate].
  Qed.

  Lemma stream_told (E : env S W) fuel ci w final w' es :
    execute (spy_env (with_future already E)) fuel ci ((w, None), []) = Some (final, (w', es)) ->
    open_stream already E fuel ci w =
    Some (match transmission es with Some (i, r) => Ready i r | None => Hangs end).
  Proof.
    intros H. unfold open_stream.
    pose proof (erase_execute (with_future already E) fuel ci (w, None) []) as He. unfold future in *. rewrite H in He.
    rewrite He.
    destruct (sim_execute told _ _ (told_sim E) fuel ci ((w, None), []) ((w, None), []) (conj eq_refl eq_refl))
      as [(x & v1 & v2 & E1 & _ & _ & Hv)|[E1 _]].
    - unfold future in *. rewrite H in E1. injection E1 as <- <-. cbn [fst snd] in Hv. destruct w' as [w' f]. cbn [snd] in Hv. subst f.
      destruct (transmission es) as [[i r]|]; reflexivity.
    - unfold future in *. rewrite H in E1. discriminate.
  Qed.
End FutureInv.

(** ** Several interceptors *)
Section ChainProofs.
  Context {S : sorts} {W : Type}.

  Lemma numbered_app {Y} k (a b : list Y) : numbered k (a ++ b) = numbered k a ++ numbered (k + List.length a) b.
  Proof.
    revert k. induction a as [|y a IH]; intros k; cbn [app numbered List.length].
    - rewrite Nat.add_0_r. reflexivity.
    - rewrite IH. replace (k + 1 + List.length a) with (k + Datatypes.S (List.length a)) by lia. reflexivity.
  Qed.

  Lemma last_default {X} (outs : list X) : forall x x0, last outs x = last (x :: outs) x0.
  Proof.
    induction outs as [|y outs IH]; intros x x0; [reflexivity|].
    transitivity (last (y :: outs) x0); [|reflexivity]. rewrite <- (IH y x), <- (IH y x0). reflexivity.
  Qed.

  Lemma modify_alike {X} (ev : X + Exc S -> event S)
      (call : interceptor S (W * list (nat * event S)) -> eff S (W * list (nat * event S)) X)
      (call0 : interceptor S W -> eff S W X) :
    (forall k i, call (spy_interceptor (pair k) i) = logged (fun x => (k, ev x)) (call0 i)) ->
    forall l k x0 w log,
    let '(res, (w', log')) := chain_modify call x0 (spy_list k l) (w, log) in
    match res with
    | inl x => exists outs, List.length outs = List.length l /\
        log' = log ++ numbered k (map (fun o => ev (inl o)) outs) /\ x = last outs x0
    | inr e => exists outs, List.length outs < List.length l /\
        log' = log ++ numbered k (map (fun o => ev (inl o)) outs ++ [ev (inr e)])
    end.
  Proof.
    intros Hc. induction l as [|i l IH]; intros k x0 w log; cbn [spy_list chain_modify].
    - unfold ret. exists []. rewrite app_nil_r. auto.
    - unfold andthen. rewrite Hc. unfold logged. cbn [fst snd].
      destruct (call0 i w) as [[x|e] w1].
      + specialize (IH (k + 1) x w1 (log ++ [(k, ev (inl x))])).
        destruct (chain_modify call x (spy_list (k + 1) l) _) as [[y|e] [w2 l2]].
        * destruct IH as (outs & H1 & H2 & H3). exists (x :: outs). cbn [List.length map numbered].
          split; [congruence|]. split; [rewrite H2, <- app_assoc; reflexivity|]. rewrite H3.
          apply last_default.
        * destruct IH as (outs & H1 & H2). exists (x :: outs). cbn [List.length map app numbered].
          split; [lia|]. rewrite H2, <- app_assoc. reflexivity.
      + exists []. cbn [List.length map app numbered]. split; [lia|reflexivity].
  Qed.

  Lemma modify_alike0 {X} (ev : X + Exc S -> event S)
      (call : interceptor S (W * list (nat * event S)) -> eff S (W * list (nat * event S)) X)
      (call0 : interceptor S W -> eff S W X) l x0 w :
    (forall k i, call (spy_interceptor (pair k) i) = logged (fun x => (k, ev x)) (call0 i)) ->
    let '(res, (w', log')) := chain_modify call x0 (spy_list 0 l) (w, []) in
    asked_alike ev (List.length l) x0 res log'.
  Proof.
    intros Hc. pose proof (modify_alike ev call call0 Hc l 0 x0 w []) as H.
    destruct (chain_modify call x0 (spy_list 0 l) (w, [])) as [[x|e] [w' log']]; exact H.
  Qed.

  Lemma after_all (l : list (interceptor S W)) : forall c last k w log,
    exists outs w', List.length outs = List.length l /\
      chain_after_execution c last (spy_list k l) (w, log) =
      (match fold_left (fun acc o => match o with inl _ => acc | inr e => Some e end) outs last with
       | None => inl tt | Some e => inr e end, (w', log ++ numbered k (everyone_asked c outs))).
  Proof.
    induction l as [|i l IH]; intros c last k w log; cbn [spy_list chain_after_execution].
    - exists [], w. cbn [fold_left everyone_asked numbered]. rewrite app_nil_r. split; [reflexivity|].
      destruct last; reflexivity.
    - cbn [spy_interceptor i_read]. unfold logged. cbn [fst snd].
      destruct (i_read i RAfterExecution (COutput c) w) as [[[]|e] w1].
      + destruct (IH c last (k + 1) w1 (log ++ [(k, EvRead RAfterExecution (COutput c) (inl tt))])) as (outs & w' & H1 & H2).
        exists (inl tt :: outs), w'. cbn [List.length]. split; [congruence|]. rewrite H2.
        cbn [fold_left everyone_asked numbered]. rewrite <- app_assoc. reflexivity.
      + destruct (IH (mkOut (oc_input c) (inr e) (oc_request c) (oc_transport c)) (Some e) (k + 1) w1
                    (log ++ [(k, EvRead RAfterExecution (COutput c) (inr e))])) as (outs & w' & H1 & H2).
        exists (inr e :: outs), w'. cbn [List.length]. split; [congruence|]. rewrite H2.
        cbn [fold_left everyone_asked numbered]. rewrite <- app_assoc. reflexivity.
  Qed.

  Lemma chain_reads_alike h c (l : list (interceptor S W)) : forall k w log,
    let '(res, (w', log')) := chain_reads h c (spy_list k l) (w, log) in
    exists n, log' = log ++ numbered k (repeat (EvRead h c (inl tt)) n ++ match res with inl _ => [] | inr e => [EvRead h c (inr e)] end) /\
      match res with inl _ => n = List.length l | inr _ => n < List.length l end.
  Proof.
    induction l as [|i l IH]; intros k w log; cbn [spy_list chain_reads].
    - exists 0. cbn. rewrite app_nil_r. auto.
    - unfold andthen. cbn [spy_interceptor i_read]. unfold logged. cbn [fst snd].
      destruct (i_read i h c w) as [[[]|e] w1].
      + specialize (IH (k + 1) w1 (log ++ [(k, EvRead h c (inl tt))])).
        destruct (chain_reads h c (spy_list (k + 1) l) _) as [[[]|e] [w2 l2]]; destruct IH as (n & -> & Hn);
          exists (Datatypes.S n); cbn [repeat app numbered List.length];
          (split; [rewrite <- app_assoc; reflexivity|lia]).
      + exists 0. cbn [repeat app numbered List.length]. split; [reflexivity|lia].
  Qed.
End ChainProofs.

(** ** Sending *)
Lemma follows_split {S} (sts : list stage) (es : list (event S)) c :
  follows sts es c -> forall a e b, es = a ++ e :: b ->
  exists pre post, sts = pre ++ kind e :: post /\ Forall2 (fun st x => kind x = st /\ raised x = false) pre a.
Proof.
  induction 1 as [|st l e0 es c Hk Hr Hf IH|st l e0 Hk Hr]; intros a e b He.
  - destruct a; discriminate.
  - destruct a as [|e1 a]; injection He as <- He.
    + exists [], l. subst st. split; [reflexivity|constructor].
    + destruct (IH _ _ _ He) as (pre & post & -> & Hp). exists (st :: pre), post. split; [reflexivity|]. constructor; auto.
  - destruct a as [|e1 a]; injection He as <- He.
    + exists [], l. subst st. split; [reflexivity|constructor].
    + destruct a; discriminate.
Qed.

Lemma follows_prefix {S} (sts : list stage) (es : list (event S)) c :
  follows sts es c -> exists rest, sts = map kind es ++ rest.
Proof.
  induction 1 as [|st l e es c Hk Hr Hf IH|st l e Hk Hr].
  - exists []. reflexivity.
  - destruct IH as [rest ->]. exists rest. cbn. congruence.
  - exists l. cbn. congruence.
Qed.

Definition stage_send (st : stage) : bool := match st with StSend => true | _ => false end.
Lemma count_sends {S} (es : list (event S)) :
  List.length (filter is_send es) = List.length (filter stage_send (map kind es)).
Proof. induction es as [|e l IH]; [reflexivity|]. cbn [filter map]. destruct e; cbn; congruence. Qed.

Lemma sends_once {S} str (es : list (event S)) : attempt_shape str es -> List.length (filter is_send es) <= 1.
Proof.
  intros (auth & main & complete & c & x & c' & x' & -> & Hf).
  rewrite filter_app, app_length. cbn [filter is_send List.length]. rewrite Nat.add_0_r, count_sends.
  destruct (follows_prefix _ _ _ Hf) as [rest Hp].
  assert (Hn : List.length (filter stage_send (attempt_stages auth str)) = 1) by (destruct auth, str; reflexivity).
  rewrite Hp, filter_app, app_length in Hn. lia.
Qed.

Lemma sent_after {S} str (es : list (event S)) a r x b :
  attempt_shape str es -> es = a ++ EvSend r x :: b ->
  Forall (fun st => exists e, In e a /\ kind e = st /\ raised e = false)
    [StRead RBeforeAttempt; StEndpoint; StSetEndpoint; StRequest MBeforeSigning; StRead RBeforeSigning; StAuthOptions;
     StRead RAfterSigning; StRequest MBeforeTransmit; StRead RBeforeTransmit].
Proof.
  intros (auth & main & complete & c & y & c' & y' & -> & Hf) He.
  assert (Hm : exists b', main = a ++ EvSend r x :: b').
  { clear Hf. revert a He. induction main as [|e0 main IH]; intros a He.
    - destruct a as [|? a]; [discriminate|]. destruct a as [|? a]; [discriminate|]. destruct a; discriminate.
    - destruct a as [|e1 a]; injection He as -> He.
      + exists main. reflexivity.
      + destruct (IH _ He) as [b' ->]. exists b'. reflexivity. }
  destruct Hm as [b' Hm]. destruct (follows_split _ _ _ Hf _ _ _ Hm) as (pre & post & Hs & Hp). cbn [kind] in Hs.
  assert (Hin : forall st, In st pre -> exists e, In e a /\ kind e = st /\ raised e = false).
  { clear - Hp. induction Hp as [|st e pre a [H1 H2] _ IH]; intros s [].
    - subst s. exists e. cbn. auto.
    - destruct (IH s H) as (e' & ? & ? & ?). exists e'. cbn. auto. }
  assert (Hall : Forall (fun st => In st pre) [StRead RBeforeAttempt; StEndpoint; StSetEndpoint; StRequest MBeforeSigning;
     StRead RBeforeSigning; StAuthOptions; StRead RAfterSigning; StRequest MBeforeTransmit; StRead RBeforeTransmit]).
  { clear - Hs. unfold attempt_stages in Hs. destruct auth, str; cbn [app] in Hs;
    repeat (let st := fresh "st" in destruct pre as [|st pre]; [discriminate Hs|]; cbn [app] in Hs;
            injection Hs as Hst Hs; subst st);
    clear Hs; repeat (apply Forall_cons; [cbn [In]; auto 20|]); apply Forall_nil. }
  eapply Forall_impl; [|exact Hall]. exact Hin.
Qed.
