(** Proofs about interrupted calls. *)
From Coq Require Import QArith.
From Verif Require Import Base Retry_Model Client_Model Cancel_Model Cancel_Spec.
Local Open Scope nat_scope.

Section Sim.
  Context {S : sorts} {W : Type}.
  Variable E : env S W.
  Variable stop : place -> W -> option W.
  Variable R : W -> W -> Prop.
  Hypothesis R_refl : forall w, R w w.
  Hypothesis R_trans : forall a b c, R a b -> R b c -> R a c.

  Definition fired (w' : W) : Prop := exists p w, stop p w = Some w'.
  (** A callee moves on, and further than when it is interrupted. *)
  Definition good {Y} (p : place) (m : W -> Y * W) : Prop :=
    forall w, R w (snd (m w)) /\ forall w', stop p w = Some w' -> R w' (snd (m w)).
  Definition moves {Y} (m : W -> Y * W) : Prop := forall w, R w (snd (m w)).

  Record steady : Prop := mkSteady {
    s_read : forall h c, good (PRead h) (i_read (e_interceptor E) h c);
    s_input : forall i, good PModifyInput (i_input (e_interceptor E) i);
    s_request : forall h i r, good (PModifyRequest h) (i_request (e_interceptor E) h i r);
    s_response : forall i r p, good PModifyResponse (i_response (e_interceptor E) i r p);
    s_output : forall h c, good (PModifyOutput h) (i_output (e_interceptor E) h c);
    s_serialize : forall i, good PSerialize (e_serialize E i);
    s_endpoint : forall i, good PEndpoint (e_endpoint E i);
    s_set_endpoint : forall r ep, good PSetEndpoint (e_set_endpoint E r ep);
    s_auth : good PAuthOptions (e_auth_options E);
    s_scheme : forall s w, R w (e_set_scheme E s w);
    s_identity_props : forall s, good PIdentityProps (e_identity_props E s);
    s_signer_props : forall s, good PSignerProps (e_signer_props E s);
    s_identity : forall s p, good PIdentity (e_identity E s p);
    s_sign : forall s r i p, good PSign (e_sign E s r i p);
    s_future : forall f i r, e_future E = Some f -> good PFuture (f i r);
    s_send : forall r, good PSend (e_send E r);
    s_deserialize : forall r p, good PDeserialize (e_deserialize E r p);
    s_copy : forall r, moves (e_copy E r);
    s_rewind : forall r, good PRewind (e_rewind E r);
    s_acquire : good PAcquire (e_acquire E);
    s_refresh : forall t e, good PRefresh (e_refresh E t e);
    s_success : forall t, good PSuccess (e_success E t);
    s_sleep : forall w w', stop PSleep w = Some w' -> R w' w
  }.
  Hypothesis G : steady.

  Definition sim {Y} (c : W -> ends Y * W) (m : W -> Y * W) : Prop :=
    forall w, R w (snd (m w)) /\
      match c w with
      | (Ended y, w') => m w = (y, w')
      | (Interrupted, w') => R w' (snd (m w)) /\ fired w'
      end.

  Lemma sim_call : forall Y p (m : W -> Y * W), good p m -> sim (c_call stop p m) m.
  Proof.
    intros Y p m H w. destruct (H w) as [A B]. split; [exact A|]. unfold c_call. destruct (stop p w) as [w'|] eqn:P.
    - split; [now apply B|]. now exists p, w.
    - destruct (m w) as [y w']. reflexivity.
  Qed.
  Lemma sim_ret : forall Y (y : Y), sim (c_ret y) (fun w => (y, w)).
  Proof. intros Y y w. split; [apply R_refl|]. reflexivity. Qed.
  Lemma sim_bind : forall Y Z (c : W -> ends Y * W) m (kc : Y -> W -> ends Z * W) k,
    sim c m -> (forall y, sim (kc y) (k y)) -> sim (c_bind c kc) (fun w => let (y, w') := m w in k y w').
  Proof.
    intros Y Z c m kc k A B w. destruct (A w) as [M C]. unfold c_bind. destruct (m w) as [y w1] eqn:Em. cbn in M.
    destruct (B y w1) as [N D]. split; [now apply (R_trans _ w1)|]. destruct (c w) as [[|y'] w2].
    - destruct C as [C F]. cbn in C. split; [now apply (R_trans _ w1)|exact F].
    - injection C as -> ->. exact D.
  Qed.
  Lemma sim_ext : forall Y (c : W -> ends Y * W) m m', (forall w, m w = m' w) -> sim c m -> sim c m'.
  Proof. intros Y c m m' X A w. specialize (A w). rewrite X in A. exact A. Qed.
  Lemma sim_then : forall X Y Ex (c : W -> ends (X + Ex) * W) m (kc : X -> W -> ends (Y + Ex) * W) k,
    sim c m -> (forall x, sim (kc x) (k x)) ->
    sim (c_then c kc) (fun w => match m w with (inl x, w') => k x w' | (inr e, w') => (inr e, w') end).
  Proof.
    intros X Y Ex c m kc k A B. unfold c_then.
    apply sim_ext with (m := fun w => let (y, w') := m w in (match y with inl x => k x | inr e => fun w => (inr e, w) end) w').
    - intros w. destruct (m w) as [[x|e] w']; reflexivity.
    - apply sim_bind; [exact A|]. intros [x|e]; [apply B|apply sim_ret].
  Qed.
  Lemma sim_bthen : forall X Y (c : W -> ends (X + Req S * Exc S) * W) (m : body X) (kc : X -> W -> ends (Y + Req S * Exc S) * W) k,
    sim c m -> (forall x, sim (kc x) (k x)) -> sim (c_then c kc) (bthen m k).
  Proof. intros X Y c m kc k A B. exact (sim_then X Y _ c m kc k A B). Qed.
  Lemma sim_andthen : forall X Y (c : W -> ends (X + Exc S) * W) (m : eff S W X) (kc : X -> W -> ends (Y + Exc S) * W) k,
    sim c m -> (forall x, sim (kc x) (k x)) -> sim (c_then c kc) (andthen m k).
  Proof. intros X Y c m kc k A B. exact (sim_then X Y _ c m kc k A B). Qed.
  Lemma sim_at : forall X r p (m : eff S W X), good p m -> sim (c_at stop r p m) (at_ r m).
  Proof.
    intros X r p m H. unfold c_at.
    apply sim_ext with (m := fun w => let (y, w') := m w in (match y with inl x => fun w => (inl x, w) | inr e => fun w => (inr (r, e), w) end) w').
    - intros w. unfold at_. destruct (m w) as [[x|e] w']; reflexivity.
    - apply sim_bind; [now apply sim_call|]. intros [x|e]; apply sim_ret.
  Qed.

  Lemma sim_authenticate : forall opts r, sim (c_authenticate E stop opts r) (authenticate E opts r).
  Proof.
    intros opts r. unfold c_authenticate, authenticate. destruct (resolve_auth E opts) as [[o s]|]; [|apply sim_ret].
    apply sim_bthen.
    { intros w. split; [apply (s_scheme G)|reflexivity]. }
    intros _. apply sim_bthen; [apply sim_at, (s_identity_props G)|]. intros ip.
    apply sim_bthen; [apply sim_at, (s_identity G)|]. intros id.
    apply sim_bthen; [apply sim_at, (s_signer_props G)|]. intros sp. apply sim_at, (s_sign G).
  Qed.
  Lemma sim_transmit : forall i r, sim (c_transmit E stop i r) (transmit E i r).
  Proof.
    intros i r. unfold c_transmit, transmit.
    apply sim_ext with (m := fun w => let (y, w') := andthen (match e_future E with Some f => f i r | None => ret tt end) (fun _ => e_send E r) w in
      (match y with inl p => fun w => (inl p, w) | inr e => fun w => (inr (if e_is_timeout E e then e_timeout E e else e), w) end) w').
    - intros w. destruct (andthen _ _ w) as [[p|e] w']; reflexivity.
    - apply sim_bind.
      + apply sim_andthen; [|intros _; apply sim_call, (s_send G)].
        destruct (e_future E) as [f|] eqn:F; [apply sim_call; now apply (s_future G)|apply sim_ret].
      + intros [p|e]; apply sim_ret.
  Qed.
  Lemma sim_exchange : forall i r, sim (c_exchange E stop i r) (exchange E i r).
  Proof.
    intros i r. unfold c_exchange, exchange.
    apply sim_bthen; [apply sim_at, (s_read G)|]. intros _.
    apply sim_bthen; [apply sim_at, (s_request G)|]. intros r4.
    apply sim_bthen; [apply sim_at, (s_read G)|]. intros _.
    apply sim_bthen.
    { apply sim_ext with (m := fun w => let (y, w') := transmit E i r4 w in (match y with inl x => fun w => (inl x, w) | inr e => fun w => (inr (r4, e), w) end) w').
      - intros w. unfold at_. destruct (transmit E i r4 w) as [[x|e] w']; reflexivity.
      - apply sim_bind; [apply sim_transmit|]. intros [x|e]; apply sim_ret. }
    intros p. apply sim_bthen; [apply sim_at, (s_read G)|]. intros _.
    apply sim_bthen; [apply sim_at, (s_response G)|]. intros p'.
    apply sim_bthen; [apply sim_at, (s_read G)|]. intros _.
    apply sim_bthen; [apply sim_at, (s_deserialize G)|]. intros o.
    apply sim_bthen; [apply sim_at, (s_read G)|]. intros _. apply sim_ret.
  Qed.
  Lemma sim_attempt_body : forall ci i r, sim (c_attempt_body E stop ci i r) (attempt_body E ci i r).
  Proof.
    intros ci i r. unfold c_attempt_body, attempt_body.
    apply sim_bthen; [apply sim_at, (s_read G)|]. intros _.
    apply sim_bthen; [apply sim_at, (s_endpoint G)|]. intros ep.
    apply sim_bthen; [apply sim_at, (s_set_endpoint G)|]. intros r1.
    apply sim_bthen; [apply sim_at, (s_request G)|]. intros r2.
    apply sim_bthen; [apply sim_at, (s_read G)|]. intros _.
    apply sim_bthen; [apply sim_at, (s_auth G)|]. intros opts.
    apply sim_bthen; [apply sim_authenticate|]. intros r3. apply sim_exchange.
  Qed.
  Lemma sim_finalize : forall m h c, sim (c_finalize E stop m h c) (finalize E m h c).
  Proof.
    intros m h c. unfold c_finalize.
    apply sim_ext with (m := fun w => let (y, w1) := i_output (e_interceptor E) m c w in
      (fun w1 => let c1 := match y with inl x => with_response c x | inr e => with_response c (inr e) end in
       let (z, w2) := i_read (e_interceptor E) h (COutput c1) w1 in
       (match z with inl _ => fun w => (c1, w) | inr e => fun w => (with_response c1 (inr e), w) end) w2) w1).
    - intros w. unfold finalize. destruct (i_output (e_interceptor E) m c w) as [[x|e] w1]; cbn;
        destruct (i_read (e_interceptor E) h _ w1) as [[u|e'] w2]; reflexivity.
    - apply sim_bind; [apply sim_call, (s_output G)|]. intros y. cbv zeta.
      apply sim_bind; [apply sim_call, (s_read G)|]. intros [u|e]; apply sim_ret.
  Qed.
  Lemma sim_handle_attempt : forall ci i r, sim (c_handle_attempt E stop ci i r) (handle_attempt E ci i r).
  Proof.
    intros ci i r. unfold c_handle_attempt.
    apply sim_ext with (m := fun w => let (y, w1) := attempt_body E ci i r w in
      (match y with
       | inl c => finalize E MBeforeAttemptCompletion RAfterAttempt c
       | inr (r, e) => finalize E MBeforeAttemptCompletion RAfterAttempt (mkOut i (inr e) (Some r) None)
       end) w1).
    - intros w. unfold handle_attempt. destruct (attempt_body E ci i r w) as [[c|[r' e]] w1]; reflexivity.
    - apply sim_bind; [apply sim_attempt_body|]. intros [c|[r' e]]; apply sim_finalize.
  Qed.

  Definition attempt_of (ci i : Inp S) (r : Req S) : W -> octx S * W :=
    fun w => if e_retryable E then let (r', w') := e_copy E r w in handle_attempt E ci i r' w' else handle_attempt E ci i r w.
  Lemma sim_attempt : forall ci i r, sim (c_attempt E stop ci i r) (attempt_of ci i r).
  Proof.
    intros ci i r w. unfold c_attempt, attempt_of. destruct (e_retryable E); [|apply sim_handle_attempt].
    pose proof (s_copy G r w) as C. destruct (e_copy E r w) as [r' w']. cbn in C.
    destruct (sim_handle_attempt ci i r' w') as [A B]. split; [now apply (R_trans _ w')|]. exact B.
  Qed.
  Lemma sim_sleep : sim (c_sleep stop) (fun w => (tt, w)).
  Proof. apply sim_call. intros w. cbn. split; [apply R_refl|]. intros w' H. now apply (s_sleep G). Qed.

  Definition loop_of (ci i : Inp S) (r : Req S) :=
    retry_loop (e_delay E) (e_refresh E) (fun t => unit_effect (e_success E t)) (attempt_of ci i r) failure
      (unit_effect (e_rewind E r)) (e_long_polling E).

  Lemma unit_effect_eq : forall (m : eff S W unit) w, unit_effect m w =
    (match fst (m w) with inl _ => None | inr e => Some e end, snd (m w)).
  Proof. intros m w. unfold unit_effect. destruct (m w) as [[u|e] w']; reflexivity. Qed.

  Lemma loop_moves : forall ci i r fuel t w res tr w2, loop_of ci i r fuel t w = Some (res, tr, w2) -> R w w2.
  Proof.
    intros ci i r. induction fuel as [|n IH]; intros t w res tr w2 H; [discriminate|]. unfold loop_of in H. cbn [retry_loop] in H.
    destruct (sim_attempt ci i r w) as [A _]. destruct (attempt_of ci i r w) as [o w1]. cbn in A.
    destruct (failure o) as [e|].
    - destruct (s_refresh G t e w1) as [B _]. destruct (e_refresh E t e w1) as [[t'|[a|e']] w3]; cbn in B.
      + rewrite unit_effect_eq in H. destruct (s_rewind G r w3) as [C _]. destruct (e_rewind E r w3) as [[u|e'] w4]; cbn in H, C.
        * fold (loop_of ci i r) in H. destruct (loop_of ci i r n t' w4) as [[[res' tr'] w5]|] eqn:L; [|discriminate].
          injection H as <- <- <-. apply IH in L. eauto.
        * injection H as <- <- <-. eauto.
      + injection H as <- <- <-. eauto.
      + injection H as <- <- <-. eauto.
    - rewrite unit_effect_eq in H. destruct (s_success G t w1) as [B _]. destruct (e_success E t w1) as [[u|e'] w3]; cbn in H, B;
        injection H as <- <- <-; eauto.
  Qed.

  Lemma loop_sim : forall ci i r fuel t w,
    match c_loop E stop fuel ci i r t w with
    | None => loop_of ci i r fuel t w = None
    | Some (Ended (inl o), w') => exists tr, loop_of ci i r fuel t w = Some (Returned o, tr, w')
    | Some (Ended (inr e), w') => exists tr, loop_of ci i r fuel t w = Some (Threw e, tr, w')
    | Some (Interrupted, w') => fired w' /\ forall fuel' res tr w2, loop_of ci i r fuel' t w = Some (res, tr, w2) -> R w' w2
    end.
  Proof.
    intros ci i r. induction fuel as [|n IH]; intros t w; [reflexivity|]. cbn [c_loop].
    assert (match (if nonzero (e_delay E t) then c_sleep stop w else (Ended tt, w)) with
            | (Interrupted, w') => R w' w /\ fired w' | (Ended _, w') => w' = w end) as SL.
    { destruct (nonzero (e_delay E t)); [|reflexivity]. destruct (sim_sleep w) as [_ B].
      destruct (c_sleep stop w) as [[|[]] w']; cbn in B; [exact B|congruence]. }
    destruct (if nonzero (e_delay E t) then c_sleep stop w else (Ended tt, w)) as [[|u] w0].
    { destruct SL as [A F]. split; [exact F|]. intros f res tr w2 H. apply loop_moves in H. eauto. }
    subst w0. destruct (sim_attempt ci i r w) as [A B].
    destruct (c_attempt E stop ci i r w) as [[|o] w1].
    { destruct B as [B F]. split; [exact F|]. intros [|f] res tr w2 H; [discriminate|]. unfold loop_of in H. cbn [retry_loop] in H.
      destruct (attempt_of ci i r w) as [o w1']. cbn in B. apply (R_trans _ w1' _ B).
      destruct (failure o) as [e|].
      - destruct (s_refresh G t e w1') as [B2 _]. destruct (e_refresh E t e w1') as [[t'|[a|e']] w3]; cbn in B2.
        + rewrite unit_effect_eq in H. destruct (s_rewind G r w3) as [C _]. destruct (e_rewind E r w3) as [[u'|e'] w4]; cbn in H, C.
          * fold (loop_of ci i r) in H. destruct (loop_of ci i r f t' w4) as [[[res' tr'] w5]|] eqn:L; [|discriminate].
            injection H as <- <- <-. apply loop_moves in L. eauto.
          * injection H as <- <- <-. eauto.
        + injection H as <- <- <-. eauto.
        + injection H as <- <- <-. eauto.
      - rewrite unit_effect_eq in H. destruct (s_success G t w1') as [B2 _]. destruct (e_success E t w1') as [[u'|e'] w3]; cbn in H, B2;
          injection H as <- <- <-; eauto. }
    unfold loop_of. destruct (failure o) as [e|] eqn:F.
    - pose proof (sim_call _ PRefresh (e_refresh E t e) (s_refresh G t e) w1) as [C D].
      destruct (c_call stop PRefresh (e_refresh E t e) w1) as [[|[t'|[a|e']]] w2].
      + destruct D as [D Fi]. split; [exact Fi|]. intros [|f] res tr w3 H; [discriminate|]. cbn [retry_loop] in H.
        rewrite B, F in H. destruct (e_refresh E t e w1) as [[t'|[a|e']] w4]; cbn in C, D.
        * rewrite unit_effect_eq in H. destruct (s_rewind G r w4) as [X _]. destruct (e_rewind E r w4) as [[u'|e'] w5]; cbn in H, X.
          -- fold (loop_of ci i r) in H. destruct (loop_of ci i r f t' w5) as [[[res' tr'] w6]|] eqn:L; [|discriminate].
             injection H as <- <- <-. apply loop_moves in L. eauto.
          -- injection H as <- <- <-. eauto.
        * injection H as <- <- <-. exact D.
        * injection H as <- <- <-. exact D.
      + pose proof (sim_call _ PRewind (e_rewind E r) (s_rewind G r) w2) as [X Y].
        destruct (c_call stop PRewind (e_rewind E r) w2) as [[|[u'|e']] w3].
        * destruct Y as [Y Fi]. split; [exact Fi|]. intros [|f] res tr w4 H; [discriminate|]. cbn [retry_loop] in H.
          rewrite B, F, D in H. rewrite unit_effect_eq in H. destruct (e_rewind E r w2) as [[u'|e'] w5]; cbn in H, Y.
          -- fold (loop_of ci i r) in H. destruct (loop_of ci i r f t' w5) as [[[res' tr'] w6]|] eqn:L; [|discriminate].
             injection H as <- <- <-. apply loop_moves in L. eauto.
          -- injection H as <- <- <-. exact Y.
        * specialize (IH t' w3).
          assert (forall f, loop_of ci i r (Datatypes.S f) t w =
            match loop_of ci i r f t' w3 with
            | Some (res, tr, w4) => Some (res, (if nonzero (e_delay E t) then [ASleep (e_delay E t)] else []) ++ [AAttempt o; ARefresh t e; ARewind] ++ tr, w4)
            | None => None end) as Q.
          { intros f. unfold loop_of at 1. cbn [retry_loop]. rewrite B, F, D, unit_effect_eq, Y. reflexivity. }
          fold (loop_of ci i r). destruct (c_loop E stop n ci i r t' w3) as [[[|[o'|e']] w4]|].
          -- destruct IH as [Fi IH]. split; [exact Fi|]. intros [|f] res tr w5 H; [discriminate|]. rewrite Q in H.
             destruct (loop_of ci i r f t' w3) as [[[res' tr'] w6]|] eqn:L; [|discriminate]. injection H as <- <- <-. eauto.
          -- destruct IH as [tr IH]. rewrite Q, IH. eauto.
          -- destruct IH as [tr IH]. rewrite Q, IH. eauto.
          -- rewrite Q, IH. reflexivity.
        * cbn [retry_loop]. rewrite B, F, D, unit_effect_eq, Y. cbn. eauto.
      + assert (match (match a with Some _ => if e_long_polling E then c_sleep stop w2 else (Ended tt, w2) | None => (Ended tt, w2) end) with
                | (Interrupted, w') => R w' w2 /\ fired w' | (Ended _, w') => w' = w2 end) as SB.
        { destruct a; [|reflexivity]. destruct (e_long_polling E); [|reflexivity]. destruct (sim_sleep w2) as [_ Z].
          destruct (c_sleep stop w2) as [[|[]] w']; cbn in Z; [exact Z|congruence]. }
        destruct (match a with Some _ => if e_long_polling E then c_sleep stop w2 else (Ended tt, w2) | None => (Ended tt, w2) end) as [[|u'] w3].
        * destruct SB as [Z Fi]. split; [exact Fi|]. intros [|f] res tr w4 H; [discriminate|]. cbn [retry_loop] in H.
          rewrite B, F, D in H. injection H as <- <- <-. exact Z.
        * subst w3. cbn [retry_loop]. rewrite B, F, D. eauto.
      + cbn [retry_loop]. rewrite B, F, D. eauto.
    - pose proof (sim_call _ PSuccess (e_success E t) (s_success G t) w1) as [C D].
      destruct (c_call stop PSuccess (e_success E t) w1) as [[|[u'|e']] w2].
      + destruct D as [D Fi]. split; [exact Fi|]. intros [|f] res tr w3 H; [discriminate|]. cbn [retry_loop] in H.
        rewrite B, F, unit_effect_eq in H. destruct (e_success E t w1) as [[u'|e'] w4]; cbn in H, D; injection H as <- <- <-; exact D.
      + cbn [retry_loop]. rewrite B, F, unit_effect_eq, D. cbn. eauto.
      + cbn [retry_loop]. rewrite B, F, unit_effect_eq, D. cbn. eauto.
  Qed.

  Lemma loop_agree : forall ci i r f f' t w x y, loop_of ci i r f t w = Some x -> loop_of ci i r f' t w = Some y -> x = y.
  Proof.
    intros ci i r. induction f as [|n IH]; intros [|n'] t w x y H H'; try discriminate. unfold loop_of in H, H'. cbn [retry_loop] in H, H'.
    destruct (attempt_of ci i r w) as [o w1]. destruct (failure o) as [e|].
    - destruct (e_refresh E t e w1) as [[t'|[a|e']] w2]; [|congruence|congruence].
      destruct (unit_effect (e_rewind E r) w2) as [[e'|] w3]; [congruence|]. fold (loop_of ci i r) in H, H'.
      destruct (loop_of ci i r n t' w3) as [[[r1 t1] w4]|] eqn:L; [|discriminate].
      destruct (loop_of ci i r n' t' w3) as [[[r2 t2] w5]|] eqn:L'; [|discriminate].
      pose proof (IH _ _ _ _ _ L L') as Q. injection Q as -> -> ->. congruence.
    - destruct (unit_effect (e_success E t) w1) as [[e'|] w2]; congruence.
  Qed.
  Lemma retry_eq : forall fuel ci i r w, run_retry E fuel ci i r w =
    if e_retryable E then
      match e_acquire E w with
      | (inl t, w1) => loop_of ci i r fuel t w1
      | (inr e, w1) => Some (Threw e, [], w1)
      end
    else let (o, w1) := attempt_of ci i r w in Some (Returned o, [AAttempt o], w1).
  Proof.
    intros fuel ci i r w. unfold run_retry, retry. fold (attempt_of ci i r). destruct (e_retryable E) eqn:X.
    - destruct (e_acquire E w) as [[t|e] w1]; [|reflexivity]. unfold loop_of, attempt_of. rewrite X. reflexivity.
    - unfold attempt_of. rewrite X. reflexivity.
  Qed.
  Lemma retry_moves : forall fuel ci i r w res tr w2, run_retry E fuel ci i r w = Some (res, tr, w2) -> R w w2.
  Proof.
    intros fuel ci i r w res tr w2 H. rewrite retry_eq in H. destruct (e_retryable E).
    - destruct (s_acquire G w) as [A _]. destruct (e_acquire E w) as [[t|e] w1]; cbn in A.
      + apply loop_moves in H. eauto.
      + injection H as <- <- <-. exact A.
    - destruct (sim_attempt ci i r w) as [A _]. destruct (attempt_of ci i r w) as [o w1]. injection H as <- <- <-. exact A.
  Qed.
  Lemma retry_sim : forall ci i r fuel w,
    match c_retry E stop fuel ci i r w with
    | None => run_retry E fuel ci i r w = None
    | Some (Ended (inl o), w') => exists tr, run_retry E fuel ci i r w = Some (Returned o, tr, w')
    | Some (Ended (inr e), w') => exists tr, run_retry E fuel ci i r w = Some (Threw e, tr, w')
    | Some (Interrupted, w') => fired w' /\ forall fuel' res tr w2, run_retry E fuel' ci i r w = Some (res, tr, w2) -> R w' w2
    end.
  Proof.
    intros ci i r fuel w. pose proof (fun f => retry_eq f ci i r w) as Q. unfold c_retry.
    destruct (e_retryable E).
    - pose proof (sim_call _ PAcquire (e_acquire E) (s_acquire G) w) as [A B].
      destruct (c_call stop PAcquire (e_acquire E) w) as [[|[t|e]] w1].
      + destruct B as [B F]. split; [exact F|]. intros f res tr w2 H. rewrite Q in H.
        destruct (e_acquire E w) as [[t|e] w3]; cbn in B; [apply loop_moves in H; eauto|injection H as <- <- <-; exact B].
      + pose proof (loop_sim ci i r fuel t w1) as L. rewrite (Q fuel), B. destruct (c_loop E stop fuel ci i r t w1) as [[[|[o|e]] w2]|]; try exact L.
        destruct L as [F L]. split; [exact F|]. intros f res tr w3 H. rewrite (Q f), B in H. eauto.
      + rewrite (Q fuel), B. eauto.
    - destruct (sim_attempt ci i r w) as [A B]. destruct (c_attempt E stop ci i r w) as [[|o] w1].
      + destruct B as [B F]. split; [exact F|]. intros f res tr w2 H. rewrite Q in H.
        destruct (attempt_of ci i r w) as [o w3]. injection H as <- <- <-. exact B.
      + rewrite (Q fuel), B. eauto.
  Qed.

  Definition first_of (ci : Inp S) : eff S W (Inp S * Req S) :=
    andthen (i_read (e_interceptor E) RBeforeExecution (CInput ci)) (fun _ =>
    andthen (i_input (e_interceptor E) ci) (fun i =>
    andthen (i_read (e_interceptor E) RBeforeSerialization (CInput i)) (fun _ =>
    andthen (e_serialize E ci) (fun r => ret (i, r))))).
  Lemma sim_first : forall ci, sim (c_first E stop ci) (first_of ci).
  Proof.
    intros ci. unfold c_first, first_of.
    apply sim_andthen; [apply sim_call, (s_read G)|]. intros _.
    apply sim_andthen; [apply sim_call, (s_input G)|]. intros i.
    apply sim_andthen; [apply sim_call, (s_read G)|]. intros _.
    apply sim_andthen; [apply sim_call, (s_serialize G)|]. intros r. apply sim_ret.
  Qed.

  (** What follows the first block, of the plain pipeline. *)
  Definition rest_of (fuel : nat) (ci i : Inp S) (r : Req S) (w1 : W) : option (octx S * W) :=
    match i_read (e_interceptor E) RAfterSerialization (CRequest i r) w1 with
    | (inr e, w2) => Some (mkOut i (inr e) (Some r) None, w2)
    | (inl _, w2) =>
      match i_request (e_interceptor E) MBeforeRetryLoop i r w2 with
      | (inr e, w3) => Some (mkOut i (inr e) (Some r) None, w3)
      | (inl r', w3) =>
        match run_retry E fuel ci i r' w3 with
        | None => None
        | Some (Returned c, _, w4) => Some (c, w4)
        | Some (Threw e, _, w4) => Some (mkOut i (inr e) (Some r') None, w4)
        end
      end
    end.
  Lemma execution_eq : forall fuel ci w, handle_execution E fuel ci w =
    match first_of ci w with
    | (inr e, w1) => Some (mkOut ci (inr e) None None, w1)
    | (inl (i, r), w1) => rest_of fuel ci i r w1
    end.
  Proof. reflexivity. Qed.
  Lemma ask_moves : forall fuel ci i r w3 c w4,
    match run_retry E fuel ci i r w3 with
    | None => None
    | Some (Returned c, _, w4) => Some (c, w4)
    | Some (Threw e, _, w4) => Some (mkOut i (inr e) (Some r) None, w4)
    end = Some (c, w4) -> R w3 w4.
  Proof.
    intros fuel ci i r w3 c w4 H. destruct (run_retry E fuel ci i r w3) as [[[[c'|e] tr] w5]|] eqn:Q; [| |discriminate];
      injection H as <- <-; now apply retry_moves in Q.
  Qed.
  Lemma rest_moves : forall fuel ci i r w c w', rest_of fuel ci i r w = Some (c, w') -> R w w'.
  Proof.
    intros fuel ci i r w c w' H. unfold rest_of in H.
    destruct (s_read G RAfterSerialization (CRequest i r) w) as [A _].
    destruct (i_read (e_interceptor E) RAfterSerialization (CRequest i r) w) as [[u|e] w2]; cbn in A.
    - destruct (s_request G MBeforeRetryLoop i r w2) as [B _].
      destruct (i_request (e_interceptor E) MBeforeRetryLoop i r w2) as [[r'|e] w3]; cbn in B.
      + apply ask_moves in H. eauto.
      + injection H as <- <-. eauto.
    - injection H as <- <-. exact A.
  Qed.

  Lemma execution_sim : forall fuel ci w,
    match c_handle_execution E stop fuel ci w with
    | None => handle_execution E fuel ci w = None
    | Some (Ended c, w') => handle_execution E fuel ci w = Some (c, w')
    | Some (Interrupted, w') => fired w' /\ forall fuel' c w2, handle_execution E fuel' ci w = Some (c, w2) -> R w' w2
    end.
  Proof.
    intros fuel ci w. pose proof (fun f => execution_eq f ci w) as Q. unfold c_handle_execution.
    destruct (sim_first ci w) as [A B]. destruct (c_first E stop ci w) as [[|[[i r]|e]] w1].
    - destruct B as [B F]. split; [exact F|]. intros f c w2 H. rewrite Q in H.
      destruct (first_of ci w) as [[[i r]|e] w3]; cbn in B; [apply rest_moves in H; eauto|injection H as <- <-; exact B].
    - assert (forall f, handle_execution E f ci w = rest_of f ci i r w1) as Q1 by (intros f; now rewrite Q, B).
      clear Q. pose proof (sim_call _ _ _ (s_read G RAfterSerialization (CRequest i r)) w1) as [C D].
      destruct (c_call stop (PRead RAfterSerialization) _ w1) as [[|[u|e]] w2].
      + destruct D as [D F]. split; [exact F|]. intros f c w3 H. rewrite Q1 in H. unfold rest_of in H.
        destruct (i_read (e_interceptor E) RAfterSerialization (CRequest i r) w1) as [[u|e] w4]; cbn in D.
        * destruct (s_request G MBeforeRetryLoop i r w4) as [X _].
          destruct (i_request (e_interceptor E) MBeforeRetryLoop i r w4) as [[r'|e] w5]; cbn in X.
          -- apply ask_moves in H. eauto.
          -- injection H as <- <-. eauto.
        * injection H as <- <-. exact D.
      + pose proof (sim_call _ _ _ (s_request G MBeforeRetryLoop i r) w2) as [X Y].
        destruct (c_call stop (PModifyRequest MBeforeRetryLoop) _ w2) as [[|[r'|e]] w3].
        * destruct Y as [Y F]. split; [exact F|]. intros f c w4 H. rewrite Q1 in H. unfold rest_of in H. rewrite D in H.
          destruct (i_request (e_interceptor E) MBeforeRetryLoop i r w2) as [[r'|e] w5]; cbn in Y.
          -- apply ask_moves in H. eauto.
          -- injection H as <- <-. exact Y.
        * assert (forall f, handle_execution E f ci w =
            match run_retry E f ci i r' w3 with
            | None => None
            | Some (Returned c, _, w4) => Some (c, w4)
            | Some (Threw e, _, w4) => Some (mkOut i (inr e) (Some r') None, w4)
            end) as Q2 by (intros f; rewrite Q1; unfold rest_of; now rewrite D, Y).
          pose proof (retry_sim ci i r' fuel w3) as L.
          destruct (c_retry E stop fuel ci i r' w3) as [[[|[o|e]] w4]|].
          -- destruct L as [F L]. split; [exact F|]. intros f c w5 H. rewrite Q2 in H.
             destruct (run_retry E f ci i r' w3) as [[[[c'|e] tr] w6]|] eqn:K; [| |discriminate]; injection H as <- <-; eauto.
          -- destruct L as [tr L]. now rewrite Q2, L.
          -- destruct L as [tr L]. now rewrite Q2, L.
          -- now rewrite Q2, L.
        * rewrite Q1. unfold rest_of. now rewrite D, Y.
      + rewrite Q1. unfold rest_of. now rewrite D.
    - now rewrite Q, B.
  Qed.

  Lemma execution_agree : forall f f' ci w x y, handle_execution E f ci w = Some x -> handle_execution E f' ci w = Some y -> x = y.
  Proof.
    intros f f' ci w x y H H'. rewrite execution_eq in H, H'. destruct (first_of ci w) as [[[i r]|e] w1]; [|congruence].
    unfold rest_of in H, H'. destruct (i_read _ RAfterSerialization _ w1) as [[u|e] w2]; [|congruence].
    destruct (i_request _ MBeforeRetryLoop i r w2) as [[r'|e] w3]; [|congruence].
    destruct (run_retry E f ci i r' w3) as [a|] eqn:A; [|discriminate].
    destruct (run_retry E f' ci i r' w3) as [b|] eqn:B; [|discriminate].
    assert (a = b) as ->; [|congruence]. rewrite retry_eq in A, B. destruct (e_retryable E).
    - destruct (e_acquire E w3) as [[t|e] w4]; [now apply (loop_agree _ _ _ _ _ _ _ _ _ A B)|congruence].
    - destruct (attempt_of ci i r' w3). congruence.
  Qed.
  Lemma execute_sim : forall fuel ci w,
    match c_execute E stop fuel ci w with
    | None => execute E fuel ci w = None
    | Some (Ended y, w') => execute E fuel ci w = Some (y, w')
    | Some (Interrupted, w') => fired w' /\ forall fuel' y w2, execute E fuel' ci w = Some (y, w2) -> R w' w2
    end.
  Proof.
    intros fuel ci w. pose proof (execution_sim fuel ci w) as X. unfold c_execute.
    assert (forall f y w2, execute E f ci w = Some (y, w2) -> exists c w1, handle_execution E f ci w = Some (c, w1)
              /\ w2 = snd (finalize E MBeforeCompletion RAfterExecution c w1)) as H.
    { intros f y w2 H. unfold execute in H. destruct (handle_execution E f ci w) as [[c w1]|]; [|discriminate].
      exists c, w1. split; [reflexivity|]. destruct (finalize E _ _ c w1) as [c' w3]. cbn. destruct (oc_response c'); congruence. }
    destruct (c_handle_execution E stop fuel ci w) as [[[|c] w1]|].
    - destruct X as [F X]. split; [exact F|]. intros f y w2 Y. destruct (H _ _ _ Y) as (c & w3 & Z & ->).
      apply (R_trans _ w3); [eauto|]. apply (sim_finalize MBeforeCompletion RAfterExecution c w3).
    - destruct (sim_finalize MBeforeCompletion RAfterExecution c w1) as [A B].
      destruct (c_finalize E stop MBeforeCompletion RAfterExecution c w1) as [[|c'] w2].
      + destruct B as [B F]. split; [exact F|]. intros f y w3 Y. destruct (H _ _ _ Y) as (c0 & w4 & Z & ->).
        pose proof (execution_agree _ _ _ _ _ _ X Z) as Q. injection Q as <- <-. exact B.
      + unfold execute. rewrite X, B. destruct (oc_response c'); reflexivity.
    - unfold execute. now rewrite X.
  Qed.
End Sim.
