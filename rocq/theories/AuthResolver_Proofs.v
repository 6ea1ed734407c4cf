(** What every component of a call preserves, the call preserves. *)
From Verif Require Import Base Base_Proofs Retry_Model Client_Model Client_Spec AuthResolver_Model.
From Coq Require Import QArith.
Local Open Scope nat_scope.

Section Preserved.
  Context {S : sorts} {W : Type}.
  Variable E : env S W.
  Variable K : W -> Prop.
  Definition kept {X} (m : eff S W X) : Prop := forall w, K w -> K (snd (m w)).
  Record preserved : Prop := {
    k_read : forall h c, kept (i_read (e_interceptor E) h c);
    k_input : forall i, kept (i_input (e_interceptor E) i);
    k_request : forall h i r, kept (i_request (e_interceptor E) h i r);
    k_response : forall i r p, kept (i_response (e_interceptor E) i r p);
    k_output : forall h c, kept (i_output (e_interceptor E) h c);
    k_serialize : forall i, kept (e_serialize E i);
    k_endpoint : forall i, kept (e_endpoint E i);
    k_set_endpoint : forall r ep, kept (e_set_endpoint E r ep);
    k_options : kept (e_auth_options E);
    k_authenticate : forall w opts w' r, K w -> e_auth_options E w = (inl opts, w') -> K (snd (authenticate E opts r w'));
    k_future : forall f, e_future E = Some f -> forall i r, kept (f i r);
    k_send : forall r, kept (e_send E r);
    k_deserialize : forall r p, kept (e_deserialize E r p);
    k_copy : forall r w, K w -> K (snd (e_copy E r w));
    k_rewind : forall r, kept (e_rewind E r);
    k_acquire : kept (e_acquire E);
    k_refresh : forall t e w, K w -> K (snd (e_refresh E t e w));
    k_success : forall t, kept (e_success E t) }.
  Hypothesis P : preserved.

  Definition bkept {X} (m : body (S := S) (W := W) X) : Prop := forall w, K w -> K (snd (m w)).
  Lemma k_at {X} r (m : eff S W X) : kept m -> bkept (at_ r m).
  Proof. intros H w Kw. specialize (H w Kw). unfold at_. destruct (m w) as [[x|e] w']; exact H. Qed.
  Lemma k_bthen {X Y} (m : body X) (k : X -> body Y) : bkept m -> (forall x, bkept (k x)) -> bkept (bthen m k).
  Proof. intros H N w Kw. specialize (H w Kw). unfold bthen. destruct (m w) as [[x|e] w']; [now apply N|exact H]. Qed.
  Lemma k_andthen {X Y} (m : eff S W X) (k : X -> eff S W Y) : kept m -> (forall x, kept (k x)) -> kept (andthen m k).
  Proof. intros H N w Kw. specialize (H w Kw). unfold andthen. destruct (m w) as [[x|e] w']; [now apply N|exact H]. Qed.
  Lemma k_transmit i r : kept (transmit E i r).
  Proof.
    intros w Kw. unfold transmit. assert (H : kept (andthen (match e_future E with Some f => f i r | None => ret tt end) (fun _ => e_send E r))).
    { apply k_andthen; [|intros _; apply P]. destruct (e_future E) as [f|] eqn:F; [now apply (k_future P)|intros v Kv; exact Kv]. }
    specialize (H w Kw). destruct (andthen _ _ w) as [[x|e] w']; exact H.
  Qed.
  Lemma k_exchange i r : bkept (exchange E i r).
  Proof.
    unfold exchange. repeat (apply k_bthen; [apply k_at; first [apply k_transmit | apply P]|intros ?]). intros w Kw. exact Kw.
  Qed.
  Lemma k_attempt ci i r : bkept (attempt_body E ci i r).
  Proof.
    unfold attempt_body. do 5 (apply k_bthen; [apply k_at; apply P|intros ?]). intros w Kw.
    unfold bthen, at_. pose proof (k_options P w Kw) as Ko. destruct (e_auth_options E w) as [[opts|e] w'] eqn:O; [|exact Ko].
    pose proof (k_authenticate P w opts w' x2 Kw O) as Ka. destruct (authenticate E opts x2 w') as [[r3|e] w2]; [now apply k_exchange|exact Ka].
  Qed.
  Lemma k_finalize m h c w : K w -> K (snd (finalize E m h c w)).
  Proof.
    intros Kw. unfold finalize. pose proof (k_output P m c w Kw) as Ko. destruct (i_output (e_interceptor E) m c w) as [[x|e] w1]; cbn in Ko.
    - pose proof (k_read P h (COutput (with_response c x)) w1 Ko) as Kr. destruct (i_read _ _ _ w1) as [[y|e] w2]; exact Kr.
    - pose proof (k_read P h (COutput (with_response c (inr e))) w1 Ko) as Kr. destruct (i_read _ _ _ w1) as [[y|e'] w2]; exact Kr.
  Qed.
  Lemma k_handle ci i r w : K w -> K (snd (handle_attempt E ci i r w)).
  Proof.
    intros Kw. unfold handle_attempt. pose proof (k_attempt ci i r w Kw) as Ka. destruct (attempt_body E ci i r w) as [[c|[r' e]] w1]; now apply k_finalize.
  Qed.
  Lemma k_unit (m : eff S W unit) w : kept m -> K w -> K (snd (unit_effect m w)).
  Proof. intros H Kw. specialize (H w Kw). unfold unit_effect. destruct (m w) as [[x|e] w']; exact H. Qed.
  Lemma k_retry fuel ci i r w res tr w' : K w -> run_retry E fuel ci i r w = Some (res, tr, w') -> K w'.
  Proof.
    intros Kw. unfold run_retry, retry.
    set (attempt := fun w => if e_retryable E then let (r', w') := e_copy E r w in handle_attempt E ci i r' w' else handle_attempt E ci i r w).
    assert (Ka : forall v, K v -> K (snd (attempt v))).
    { intros v Kv. unfold attempt. destruct (e_retryable E); [|now apply k_handle]. pose proof (k_copy P r v Kv) as Kc. destruct (e_copy E r v) as [r' v']. now apply k_handle. }
    assert (Kl : forall fuel t v res tr w', K v ->
      retry_loop (e_delay E) (e_refresh E) (fun t => unit_effect (e_success E t)) attempt failure (unit_effect (e_rewind E r)) (e_long_polling E) fuel t v = Some (res, tr, w') -> K w').
    { clear fuel w res tr w' Kw. induction fuel as [|fuel IH]; intros t v res tr w' Kv; cbn [retry_loop]; [discriminate|].
      pose proof (Ka v Kv) as K1. destruct (attempt v) as [o w1]. cbn in K1. destruct (failure o) as [e|].
      - pose proof (k_refresh P t e w1 K1) as K2. destruct (e_refresh E t e w1) as [[t'|[a|e']] w2]; cbn in K2.
        + pose proof (k_unit _ w2 (k_rewind P r) K2) as K3. destruct (unit_effect (e_rewind E r) w2) as [[e'|] w3]; cbn in K3; [now intros [= _ _ <-]|].
          destruct (retry_loop _ _ _ _ _ _ _ fuel t' w3) as [[[res' tr'] w4]|] eqn:R; [|discriminate]. intros [= <- _ <-]. exact (IH _ _ _ _ _ K3 R).
        + now intros [= _ _ <-].
        + now intros [= _ _ <-].
      - pose proof (k_unit _ w1 (k_success P t) K1) as K2. destruct (unit_effect (e_success E t) w1) as [[e'|] w2]; now intros [= _ _ <-]. }
    destruct (e_retryable E) eqn:R.
    - pose proof (k_acquire P w Kw) as K1. destruct (e_acquire E w) as [[t|e] w1]; cbn in K1; [now apply Kl|now intros [= _ _ <-]].
    - pose proof (Ka w Kw) as K1. unfold attempt in K1 |- *. destruct (handle_attempt E ci i r w) as [o w1]. now intros [= _ _ <-].
  Qed.
  Lemma k_execute fuel ci w final w' : K w -> execute E fuel ci w = Some (final, w') -> K w'.
  Proof.
    intros Kw. unfold execute.
    assert (Kh : forall c w1, handle_execution E fuel ci w = Some (c, w1) -> K w1).
    { intros c w1. unfold handle_execution. cbv zeta.
      set (first := andthen (i_read (e_interceptor E) RBeforeExecution (CInput ci)) _).
      assert (Kf : kept first). { unfold first. repeat (apply k_andthen; [apply P|intros ?]). intros v Kv. exact Kv. }
      specialize (Kf w Kw). destruct (first w) as [[[i r]|e] w2]; cbn in Kf; [|now intros [= _ <-]].
      pose proof (k_read P RAfterSerialization (CRequest i r) w2 Kf) as K3. destruct (i_read _ _ _ w2) as [[x|e] w3]; cbn in K3; [|now intros [= _ <-]].
      pose proof (k_request P MBeforeRetryLoop i r w3 K3) as K4. destruct (i_request _ _ _ _ w3) as [[r'|e] w4]; cbn in K4; [|now intros [= _ <-]].
      destruct (run_retry E fuel ci i r' w4) as [[[[c'|e] tr] w5]|] eqn:R; [| |discriminate]; intros [= _ <-]; exact (k_retry _ _ _ _ _ _ _ _ K4 R). }
    destruct (handle_execution E fuel ci w) as [[c w1]|]; [|discriminate]. specialize (Kh c w1 eq_refl).
    pose proof (k_finalize MBeforeCompletion RAfterExecution c w1 Kh) as Kz. destruct (finalize E MBeforeCompletion RAfterExecution c w1) as [c' w2].
    destruct (oc_response c'); intros [= _ <-]; exact Kz.
  Qed.
End Preserved.

Section Resolver.
  Context {S : sorts} {ID W : Type}.
  Variable options : list (auth_option ID (Props S)).
  Variable supported : ID -> option (Scheme S).
  Variable E : env (with_options S ID) W.
  Notation T := (with_options S ID).
  Notation A := (with_resolver options supported E).

  (** [o] is the first option the client supports. *)
  Definition chosen (o : auth_option ID (Props S)) (s : Scheme S) : Prop :=
    exists pre post, options = pre ++ o :: post /\ supported (scheme_id o) = Some s /\ Forall (fun o' => supported (scheme_id o') = None) pre.
  Definition signs_ok (log : list (event T)) : Prop :=
    (forall s p x, In (EvIdentity (S := T) s p x) log ->
       exists o ip, chosen o s /\ In (EvIdentityProps (S := T) s (inl ip)) log /\ p = e_update E ip (identity_properties o))
    /\ (forall s r id p x, In (EvSign (S := T) s r id p x) log ->
       exists o sp q, chosen o s /\ In (EvSignerProps (S := T) s (inl sp)) log /\ In (EvIdentity (S := T) s q (inl id)) log /\ p = e_update E sp (identity_properties o)).
  Definition plain (e : event T) : Prop := match e with EvIdentity _ _ _ | EvSign _ _ _ _ _ => False | _ => True end.
  Lemma signs_plain log e : plain e -> signs_ok log -> signs_ok (log ++ [e]).
  Proof.
    intros Pl [Hi Hs]. split.
    - intros s p x J. apply in_app_or in J. destruct J as [J|[->|[]]]; [|destruct Pl]. destruct (Hi _ _ _ J) as (o & ip & C & I & U). exists o, ip. split; [exact C|]. split; [|exact U]. apply in_or_app. auto.
    - intros s r id p x J. apply in_app_or in J. destruct J as [J|[->|[]]]; [|destruct Pl]. destruct (Hs _ _ _ _ _ J) as (o & sp & q & C & I & Q & U). exists o, sp, q.
      split; [exact C|]. split; [apply in_or_app; auto|]. split; [apply in_or_app; auto|exact U].
  Qed.
  Definition KK (w : W * list (event T)) : Prop := signs_ok (snd w).
  Lemma kept_logged {X} (ev : X + Exc T -> event T) (m : eff T W X) : (forall x, plain (ev x)) -> kept KK (logged (S := T) ev m).
  Proof. intros Pl [w log] Kw. unfold logged, KK in *. cbn [fst snd] in *. destruct (m w) as [x w']. cbn. now apply signs_plain. Qed.
  Lemma resolve_chosen o s : resolve_auth (spy_env A) options = Some (o, s) -> chosen o s.
  Proof.
    unfold chosen. revert o s. induction options as [|o' l IH]; intros o s; [discriminate|]. cbn [resolve_auth]. cbn [e_supported spy_env with_resolver].
    destruct (supported (scheme_id o')) as [s'|] eqn:N; [intros [= <- <-]|].
    - exists [], l. auto.
    - intros R. destruct (IH _ _ R) as (pre & post & -> & Sp & F). exists (o' :: pre), post. split; [reflexivity|]. split; [exact Sp|]. now constructor.
  Qed.
  Lemma authenticate_ok r w : KK w -> KK (snd (authenticate (spy_env A) options r w)).
  Proof.
    intros Kw. unfold authenticate. destruct (resolve_auth (spy_env A) options) as [[o s]|] eqn:R; [|exact Kw]. apply resolve_chosen in R.
    destruct w as [w log]. unfold KK in *. cbn in Kw. unfold bthen at 1. cbn [spy_env e_set_scheme with_resolver fst snd].
    unfold bthen, at_, logged. cbn [spy_env e_identity_props e_identity e_signer_props e_sign e_update e_opt_identity_props with_resolver fst snd]. unfold logged. cbn [fst snd].
    destruct (e_identity_props E s _) as [[ip|e] w1]; cbn [fst snd]; [|now apply signs_plain].
    assert (K1 : signs_ok (log ++ [EvIdentityProps (S := T) s (inl ip)])) by now apply signs_plain.
    set (log1 := log ++ [EvIdentityProps (S := T) s (inl ip)]) in *.
    assert (K2 : forall x, signs_ok (log1 ++ [EvIdentity (S := T) s (e_update E ip (identity_properties o)) x])).
    { intros x. destruct K1 as [Hi Hs]. split.
      - intros s0 p0 x0 J. apply in_app_or in J. destruct J as [J|[[= <- <- <-]|[]]].
        + destruct (Hi _ _ _ J) as (o1 & ip1 & C & I & U). exists o1, ip1. split; [exact C|]. split; [|exact U]. apply in_or_app. auto.
        + exists o, ip. split; [exact R|]. split; [|reflexivity]. apply in_or_app. left. apply in_or_app. right. left. reflexivity.
      - intros s0 r0 id0 p0 x0 J. apply in_app_or in J. destruct J as [J|[[=]|[]]]. destruct (Hs _ _ _ _ _ J) as (o1 & sp & q & C & I & Q & U). exists o1, sp, q.
        split; [exact C|]. split; [apply in_or_app; auto|]. split; [apply in_or_app; auto|exact U]. }
    destruct (e_identity E s _ w1) as [[id|e] w2]; cbn [fst snd]; [|apply K2]. specialize (K2 (inl id)).
    set (log2 := log1 ++ _) in *.
    destruct (e_signer_props E s w2) as [[sp|e] w3]; cbn [fst snd]; [|now apply signs_plain].
    assert (K3 : signs_ok (log2 ++ [EvSignerProps (S := T) s (inl sp)])) by now apply signs_plain.
    set (log3 := log2 ++ [EvSignerProps (S := T) s (inl sp)]) in *.
    assert (K4 : forall x, signs_ok (log3 ++ [EvSign (S := T) s r id (e_update E sp (identity_properties o)) x])).
    { intros x. destruct K3 as [Hi Hs]. split.
      - intros s0 p0 x0 J. apply in_app_or in J. destruct J as [J|[[=]|[]]]. destruct (Hi _ _ _ J) as (o1 & ip1 & C & I & U). exists o1, ip1.
        split; [exact C|]. split; [|exact U]. apply in_or_app. auto.
      - intros s0 r0 id0 p0 x0 J. apply in_app_or in J. destruct J as [J|[[= <- <- <- <- <-]|[]]].
        + destruct (Hs _ _ _ _ _ J) as (o1 & sp1 & q & C & I & Q & U). exists o1, sp1, q. split; [exact C|]. split; [apply in_or_app; auto|]. split; [apply in_or_app; auto|exact U].
        + exists o, sp, (e_update E ip (identity_properties o)). split; [exact R|]. split; [apply in_or_app; left; apply in_or_app; right; left; reflexivity|].
          split; [|reflexivity]. apply in_or_app. left. apply in_or_app. left. apply in_or_app. right. left. reflexivity. }
    destruct (e_sign E s r id _ w3) as [[r'|e] w4]; apply K4.
  Qed.
  Lemma resolver_preserved : preserved (spy_env A) KK.
  Proof.
    constructor; intros; try (apply kept_logged; exact (fun _ => Logic.I)).
    - cbn in H0. injection H0 as <- <-. apply authenticate_ok. now apply (kept_logged (X := list (Opt T)) EvAuthOptions (ret options) (fun _ => Logic.I)).
    - cbn [spy_env e_future] in H. destruct (e_future A); [|discriminate]. injection H as <-. apply kept_logged. exact (fun _ => Logic.I).
    - destruct w as [w log]. cbn. destruct (e_copy E r w). cbn. now apply signs_plain.
    - destruct w as [w log]. cbn. destruct (e_refresh E t e w). cbn. now apply signs_plain.
  Qed.
  Lemma resolver_signs fuel ci w final w' es : execute (spy_env A) fuel ci (w, []) = Some (final, (w', es)) -> signs_ok es.
  Proof. intros H. apply (k_execute (spy_env A) KK resolver_preserved _ _ _ _ _) in H; [exact H|]. split; intros; destruct H0. Qed.
End Resolver.
