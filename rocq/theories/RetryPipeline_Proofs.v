(** Calls with a strategy that counts its attempts. *)
From Coq Require Import QArith Lia.
From Verif Require Import Base Base_Proofs Retry_Model Retry_Proofs Client_Model Client_Spec Client_Proofs ClientShape_Proofs ClientSim_Proofs AuthResolver_Proofs RetryPipeline_Model RetryPipeline_Spec.
Local Open Scope Z_scope.

(** Between two sends there is a refresh that granted a token. *)
Section Spaced.
  Context {S : sorts}.
  Fixpoint spaced (armed : bool) (es : list (event S)) : Prop :=
    match es with
    | [] => True
    | EvSend _ _ :: l => armed = true /\ spaced false l
    | EvRefresh _ _ (inl _) :: l => spaced true l
    | _ :: l => spaced armed l
    end.
  Lemma spaced_mono l : spaced false l -> spaced true l.
  Proof.
    induction l as [|e l IH]; [trivial|]. destruct e; cbn [spaced]; try exact IH.
    - now intros [[=] _].
    - destruct x; [trivial|exact IH].
  Qed.
  Lemma spaced_quiet b es l : filter is_send es = [] -> spaced b l -> spaced b (es ++ l).
  Proof.
    revert b. induction es as [|e es IH]; intros b F Hl; [exact Hl|]. destruct e; cbn [filter is_send] in F; cbn [app spaced]; try discriminate F; try (now apply IH).
    destruct x; [|now apply IH]. apply IH; [exact F|]. destruct b; [exact Hl|now apply spaced_mono].
  Qed.
  Lemma spaced_once es l : (List.length (filter is_send es) <= 1)%nat -> spaced false l -> spaced true (es ++ l).
  Proof.
    intros F Hl. induction es as [|e es IH]; [now apply spaced_mono|]. destruct e; cbn [filter is_send List.length] in F; cbn [app spaced]; try (now apply IH).
    - split; [reflexivity|]. apply spaced_quiet; [|exact Hl]. destruct (filter is_send es); [reflexivity|cbn in F; lia].
    - destruct x; now apply IH.
  Qed.
  Lemma spaced_between armed a r x b r2 x2 c : spaced armed (a ++ EvSend r x :: b ++ EvSend r2 x2 :: c) -> exists t e t', In (EvRefresh t e (inl t')) b.
  Proof.
    revert armed. induction a as [|e a IH]; intros armed H.
    - destruct H as [_ H]. induction b as [|e b IHb]; [destruct H as [[=] _]|].
      assert (G : forall e0, e = e0 -> (exists t e' t', In (EvRefresh t e' (inl t')) b) -> exists t e' t', In (EvRefresh t e' (inl t')) (e0 :: b)).
      { intros e0 _ (t & e' & t' & J). exists t, e', t'. now right. }
      destruct e; cbn [app spaced] in H; try (apply (G _ eq_refl); now apply IHb).
      + destruct x0 as [t'|y]; [exists t, e, t'; now left|apply (G _ eq_refl); now apply IHb].
    - destruct e; cbn [app spaced] in H; try (eapply IH; exact H).
      + destruct H as [_ H]. eapply IH; exact H.
      + destruct x0; eapply IH; exact H.
  Qed.
End Spaced.

Section Counted.
  Context {S : sorts} {W : Type}.
  Variable acquire : W -> (token + Exc S) * W.
  Variable refresh : token -> Exc S -> W -> (token + (option Q + Exc S)) * W.
  Variable success : token -> W -> option (Exc S) * W.
  Variable m : Z.
  Variable safe : Exc S -> Prop.
  Hypothesis starts : forall w x w', acquire w = (x, w') -> exists t, x = inl t /\ k_count t = 0.
  Hypothesis grants : forall t e w t' w', refresh t e w = (inl t', w') -> k_count t' = k_count t + 1 /\ k_count t' < m /\ safe e.
  Hypothesis gives_up : forall t e w w', refresh t e w = (inr (inl None), w') -> safe e -> m <= k_count t + 1.
  Variable E : env (with_tokens S) W.
  Notation T := (with_tokens S).
  Notation A := (with_strategy acquire refresh success E).

  Definition fine (e : event T) : Prop :=
    match e with
    | EvAcquire (inl t) => k_count t = 0
    | EvAcquire (inr _) => False
    | EvRefresh t e (inl t') => k_count t' = k_count t + 1 /\ k_count t' < m /\ safe e
    | EvRefresh t e (inr (inl None)) => safe e -> m <= k_count t + 1
    | _ => True
    end.
  Definition KF (w : W * list (event T)) : Prop := Forall fine (snd w).
  Lemma fine_add log e : fine e -> Forall fine log -> Forall fine (log ++ [e]).
  Proof. intros H F. apply Forall_app. auto. Qed.
  Lemma fine_logged {X} (ev : X + Exc T -> event T) (n : eff T W X) : (forall x, fine (ev x)) -> kept KF (logged (S := T) ev n).
  Proof. intros Pl [w log] Kw. unfold logged, KF in *. cbn [fst snd] in *. destruct (n w) as [x w']. cbn. now apply fine_add. Qed.
  Lemma fine_preserved : preserved (spy_env A) KF.
  Proof.
    constructor; intros; try (apply fine_logged; exact (fun _ => Logic.I)).
    - unfold authenticate. assert (Kw' : KF w') by (replace w' with (snd (e_auth_options (spy_env A) w)) by (rewrite H0; reflexivity); now apply (fine_logged EvAuthOptions _ (fun _ => Logic.I))).
      clear H H0 w. destruct (resolve_auth (spy_env A) opts) as [[o s]|]; [|exact Kw'].
      apply (k_bthen KF (fun w => (inl tt, e_set_scheme (spy_env A) s w))); [intros [v l] Kv; exact Kv| |exact Kw']. intros _.
      repeat (apply k_bthen; [apply k_at; apply fine_logged; exact (fun _ => Logic.I)|intros ?]). apply k_at. apply fine_logged. exact (fun _ => Logic.I).
    - cbn [spy_env e_future] in H. destruct (e_future A); [|discriminate]. injection H as <-. apply fine_logged. exact (fun _ => Logic.I).
    - destruct w as [w log]. cbn. destruct (e_copy E r w). cbn. now apply fine_add.
    - intros [w log] Kw. unfold KF in *. cbn. unfold logged. cbn. destruct (acquire w) as [x w'] eqn:Q. destruct (starts _ _ _ Q) as (t & -> & C). now apply fine_add.
    - destruct w as [w log]. unfold KF in *. cbn. destruct (refresh t e w) as [x w'] eqn:Q. cbn. apply fine_add; [|exact H]. destruct x as [t'|[[q|]|y]]; try exact Logic.I; [exact (grants _ _ _ _ _ Q)|exact (gives_up _ _ _ _ Q)].
  Qed.

  Notation At := (fun (_ : Req T) es (_ : octx T) => attempt_shape (match e_future A with Some _ => true | None => false end) es).
  Definition stage_begins (st : stage) : bool := match st with StRead RBeforeAttempt => true | _ => false end.
  Lemma count_begins (es : list (event T)) : List.length (filter begins_attempt es) = List.length (filter stage_begins (map kind es)).
  Proof. induction es as [|e l IH]; [reflexivity|]. cbn [filter map]. destruct e; try (cbn; congruence). destruct h; cbn; congruence. Qed.
  Lemma begins_once str (es : list (event T)) : attempt_shape str es -> List.length (filter begins_attempt es) = 1%nat.
  Proof.
    intros (auth & main & complete & c & x & c' & x' & -> & Hf).
    rewrite filter_app, app_length. cbn [filter begins_attempt List.length]. rewrite Nat.add_0_r, count_begins.
    destruct (follows_prefix _ _ _ Hf) as [rest Hp].
    assert (Hn : List.length (filter stage_begins (attempt_stages auth str)) = 1%nat) by (destruct auth, str; reflexivity).
    destruct main as [|e main]; [inversion Hf|]. rewrite Hp, filter_app, app_length in Hn.
    assert (K : kind e = StRead RBeforeAttempt) by (inversion Hf; assumption). cbn [map filter] in *. rewrite K in *. cbn [stage_begins List.length] in *. lia.
  Qed.
  Lemma no_refresh str (es : list (event T)) t e y : attempt_shape str es -> ~ In (EvRefresh t e y) es.
  Proof.
    intros (auth & main & complete & c & x & c' & x' & -> & Hf) J. apply in_app_or in J. destruct J as [J|[[=]|[[=]|[]]]].
    destruct (follows_prefix _ _ _ Hf) as [rest Hp]. apply (in_map kind) in J. cbn [kind] in J.
    assert (K : In StRefresh (attempt_stages auth str)) by (rewrite Hp; apply in_or_app; now left).
    destruct auth, str; cbn in K; intuition discriminate.
  Qed.

  Lemma rounds_count r t es res : rounds_shape (S := T) At r t es res -> Forall fine es ->
    1 <= attempts_of es <= Z.max 1 (m - k_count t) /\ sends_of es <= attempts_of es /\ spaced true es /\
    (forall t' e, In (EvRefresh t' e (inr (inl None))) es -> k_count t' + 1 = k_count t + attempts_of es).
  Proof.
    unfold attempts_of, sends_of. intros H.
    induction H as [t r' es c e t' rest res Ha _ _ IH|t r' es c o Ha _|t r' es c e q Ha _|t r' es c o e Ha _|t r' es c e e' Ha _|t r' es c e t' e' Ha _]; intros F;
      pose proof (sends_once _ _ Ha) as Hs; pose proof (begins_once _ _ Ha) as Hb; pose proof (fun t e y => no_refresh _ _ t e y Ha) as Hn;
      cbn [filter is_send begins_attempt spaced]; rewrite !filter_app, !app_length; cbn [filter is_send begins_attempt List.length].
    1:{ inversion F as [|? ? _ F']; subst. apply Forall_app in F'. destruct F' as [_ F']. inversion F' as [|? ? F1 F2]; subst. destruct F1 as (C1 & C2 & _).
        inversion F2 as [|? ? _ F3]; subst. destruct (IH F3) as (I1 & I2 & I3 & I4). split; [lia|]. split; [lia|]. split.
        - apply spaced_once; [exact Hs|]. exact I3.
        - intros t0 e0 J. destruct J as [[=]|J]. apply in_app_or in J. destruct J as [J|[[=]|[[=]|J]]]; [destruct (Hn _ _ _ J)|]. specialize (I4 _ _ J). lia. }
    all: split; [lia|]; split; [lia|]; split; [apply spaced_once; [exact Hs|exact Logic.I]|].
    all: intros t0 e0 J; destruct J as [[=]|J]; apply in_app_or in J; destruct J as [J|J]; [destruct (Hn _ _ _ J)|].
    all: cbn [In] in J; repeat match type of J with _ \/ _ => destruct J as [J|J] end; try discriminate J; try exact (False_ind _ J).
    injection J as -> _ _. lia.
  Qed.

  Lemma counted fuel ci w final w' es : execute (spy_env A) fuel ci (w, []) = Some (final, (w', es)) ->
    sends_of es <= attempts_of es <= (if e_retryable E then Z.max 1 m else 1) /\
    (forall a r x b r2 x2 c, es = a ++ EvSend r x :: b ++ EvSend r2 x2 :: c ->
       exists t e t', In (EvRefresh (S := T) t e (inl t')) b /\ safe e) /\
    (forall t e, In (EvRefresh (S := T) t e (inr (inl None))) es -> safe e -> attempts_of es = Z.max 1 m).
  Proof.
    intros H. assert (F : Forall fine es). { apply (k_execute (spy_env A) KF fine_preserved) in H; [exact H|constructor]. }
    assert (Hs : execution_shape At (e_retryable A) (fun e => if e_is_smithy A e then e else e_smithy A e) es (match final with inl (o, _) => inl o | inr e => inr e end)).
    { destruct (execute_ok A ci _ _ _ _ _ H) as (es' & i & E1 & Hs & _). cbn [snd app] in E1. subst es'. eapply execution_mono; [|exact Hs]. intros r es' c Hf. apply Hf. }
    clear H. destruct Hs as (before & complete & loop & c & x & c' & x' & -> & Fo & Hl & _).
    assert (Jn : exists n, map kind before = firstn n execution_stages).
    { clear -Fo. induction Fo as [|st l e es complete K R Fo (n & IH)|st l e K R]; [exists O; reflexivity|exists (Datatypes.S n); cbn; now rewrite K, IH|exists 1%nat; cbn; now rewrite K]. }
    assert (Q : filter is_send before = []).
    { apply length_zero_iff_nil. rewrite count_sends. destruct Jn as (n & ->). do 7 (destruct n as [|n]; [reflexivity|]). reflexivity. }
    assert (Q2 : filter begins_attempt before = []).
    { apply length_zero_iff_nil. rewrite count_begins. destruct Jn as (n & ->). do 7 (destruct n as [|n]; [reflexivity|]). reflexivity. }
    assert (Q3 : forall t e y, ~ In (EvRefresh t e y) before).
    { intros t e y J. apply (in_map kind) in J. cbn [kind] in J. destruct Jn as (n & Jn). rewrite Jn in J.
      do 7 (destruct n as [|n]; [cbn in J; intuition discriminate|]). cbn in J. intuition discriminate. }
    assert (G : sends_of loop <= attempts_of loop <= (if e_retryable E then Z.max 1 m else 1) /\ spaced true loop /\
                (forall t e, In (EvRefresh (S := T) t e (inr (inl None))) loop -> safe e -> attempts_of loop = Z.max 1 m)).
    { destruct complete.
      - destruct Hl as (r & res & i & r0 & e & Hr & _). apply Forall_app in F. destruct F as [_ F]. apply Forall_app in F. destruct F as [F _].
        unfold retry_shape in Hr. cbn [e_retryable with_strategy] in Hr. destruct (e_retryable E).
        + destruct Hr as [(t & rest & -> & Hr)|(e0 & -> & _)].
          * inversion F as [|? ? C F']; subst. destruct (rounds_count _ _ _ _ Hr F') as (N1 & N2 & N3 & N4). cbn [fine] in C. rewrite C in N1.
            assert (X1 : sends_of (EvAcquire (S := T) (inl t) :: rest) = sends_of rest) by reflexivity.
            assert (X2 : attempts_of (EvAcquire (S := T) (inl t) :: rest) = attempts_of rest) by reflexivity. rewrite X1, X2.
            split; [lia|]. split; [exact N3|]. intros t0 e0 [[=]|J] Hsafe. specialize (N4 _ _ J). rewrite Forall_forall in F'. pose proof (F' _ J Hsafe) as B. cbn [fine] in B. lia.
          * split; [cbn; lia|]. split; [exact Logic.I|]. intros t0 e1 [[=]|[]].
        + destruct Hr as (c0 & Ha & _). pose proof (sends_once _ _ Ha) as Hs. pose proof (begins_once _ _ Ha) as Hb. unfold sends_of, attempts_of. split; [lia|]. split.
          * rewrite <- (app_nil_r loop). now apply spaced_once.
          * intros t0 e0 J. destruct (no_refresh _ _ _ _ _ Ha J).
      - destruct Hl as [-> _]. split; [cbn; destruct (e_retryable E); lia|]. split; [exact Logic.I|]. intros t0 e0 []. }
    destruct G as (N & Sp & P).
    assert (X1 : sends_of (before ++ loop ++ [EvOutput MBeforeCompletion c x; EvRead RAfterExecution (COutput c') x']) = sends_of loop).
    { unfold sends_of. rewrite !filter_app, Q. cbn [app filter is_send]. now rewrite app_nil_r. }
    assert (X2 : attempts_of (before ++ loop ++ [EvOutput MBeforeCompletion c x; EvRead RAfterExecution (COutput c') x']) = attempts_of loop).
    { unfold attempts_of. rewrite !filter_app, Q2. cbn [app filter begins_attempt]. now rewrite app_nil_r. }
    rewrite X1, X2. split; [exact N|]. split.
    - intros a r y b r2 x2 c2 Eq.
      assert (Sp' : spaced true (before ++ loop ++ [EvOutput MBeforeCompletion c x; EvRead RAfterExecution (COutput c') x'])).
      { apply spaced_quiet; [exact Q|]. clear -Sp. revert Sp. generalize true. induction loop as [|e l IH]; intros b Sp; [exact Logic.I|].
        destruct e; cbn [app spaced] in *; try (now apply IH); [split; [apply Sp|now apply IH]|destruct x0; now apply IH]. }
      rewrite Eq in Sp', F. destruct (spaced_between _ _ _ _ _ _ _ _ Sp') as (t & e & t' & J). exists t, e, t'. split; [exact J|].
      rewrite Forall_forall in F. assert (Fj : fine (EvRefresh (S := T) t e (inl t'))) by (apply F; apply in_or_app; right; right; apply in_or_app; left; exact J). apply Fj.
    - intros t e J. apply (P t e). apply in_app_or in J. destruct J as [J|J]; [destruct (Q3 _ _ _ J)|]. apply in_app_or in J. destruct J as [J|[[=]|[[=]|[]]]]. exact J.
  Qed.

  Lemma cut_short l st (es : list (event T)) e : follows (l ++ [st]) es false -> ~ In st l -> In e es -> kind e = st -> raised e = true.
  Proof.
    intros F N. remember (l ++ [st]) as sts eqn:Es. remember false as cm eqn:Ec. revert l N Es. induction F as [|s l0 e0 es0 cm K R F IH|s l0 e0 K R]; intros l N Es J Ke.
    - destruct J.
    - destruct l as [|s' l]; injection Es as -> ->.
      + inversion F; subst. discriminate.
      + destruct J as [->|J]; [destruct N; left; congruence|]. apply (IH Ec l); auto. intros H. apply N. now right.
    - destruct J as [->|[]]. exact R.
  Qed.
  Lemma attempt_starts str (es : list (event T)) : attempt_shape str es -> exists c x, In (EvRead RBeforeAttempt c x) es.
  Proof.
    intros (auth & main & complete & c & x & c' & x' & -> & F).
    destruct main as [|e main]; [inversion F|].
    assert (K : kind e = StRead RBeforeAttempt) by (inversion F; assumption).
    destruct e; try discriminate K. injection K as ->. eexists _, _. left. reflexivity.
  Qed.
  Lemma attempted fuel ci w final w' es : execute (spy_env A) fuel ci (w, []) = Some (final, (w', es)) ->
    forall i r0 r, In (EvRequest MBeforeRetryLoop i r0 (inl r)) es -> exists c x, In (EvRead (S := T) RBeforeAttempt c x) es.
  Proof.
    intros H i r0 r J. assert (F : Forall fine es). { apply (k_execute (spy_env A) KF fine_preserved) in H; [exact H|constructor]. }
    assert (Hs : execution_shape At (e_retryable A) (fun e => if e_is_smithy A e then e else e_smithy A e) es (match final with inl (o, _) => inl o | inr e => inr e end)).
    { destruct (execute_ok A ci _ _ _ _ _ H) as (es' & i' & E1 & Hs & _). cbn [snd app] in E1. subst es'. eapply execution_mono; [|exact Hs]. intros r' es' c Hf. apply Hf. }
    destruct Hs as (before & complete & loop & c & x & c' & x' & -> & Fo & Hl & _).
    assert (L : (exists c x, In (EvRead (S := T) RBeforeAttempt c x) loop) -> exists c0 x0, In (EvRead (S := T) RBeforeAttempt c0 x0) (before ++ loop ++ [EvOutput MBeforeCompletion c x; EvRead RAfterExecution (COutput c') x'])).
    { intros (c0 & x0 & I). exists c0, x0. apply in_or_app. right. apply in_or_app. now left. }
    apply L. destruct complete.
    - destruct Hl as (r1 & res & i1 & r2 & e & Hr & _). unfold retry_shape in Hr. destruct (e_retryable A).
      + destruct Hr as [(t & rest & -> & Hr)|(e0 & -> & _)].
        * assert (G : exists r' es1 rest', rest = EvCopy (S := T) r1 r' :: es1 ++ rest' /\ attempt_shape (match e_future A with Some _ => true | None => false end) es1).
          { destruct Hr; eexists _, _, _; (split; [reflexivity|eassumption]). }
          destruct G as (r' & es1 & rest' & -> & Ha). destruct (attempt_starts _ _ Ha) as (c0 & x0 & I). exists c0, x0. right. right. apply in_or_app. now left.
        * exfalso. rewrite Forall_forall in F. apply (F (EvAcquire (S := T) (inr e0))). apply in_or_app. right. left. reflexivity.
      + destruct Hr as (c0 & Ha & _). exact (attempt_starts _ _ Ha).
    - exfalso. destruct Hl as [-> _].
      assert (N : In (EvRequest (S := T) MBeforeRetryLoop i r0 (inl r)) before) by (apply in_app_or in J; destruct J as [J|[[=]|[[=]|[]]]]; exact J).
      assert (R := cut_short (removelast execution_stages) (StRequest MBeforeRetryLoop) before _ Fo ltac:(cbn; intuition discriminate) N eq_refl). discriminate R.
  Qed.

  Lemma ends fuel ci w : (Z.to_nat (Z.max 1 m) <= fuel)%nat -> exists final w', execute A fuel ci w = Some (final, w').
  Proof.
    intros Hf. unfold execute.
    assert (L : forall i r v, exists x, run_retry A fuel ci i r v = Some x).
    { intros i r v. unfold run_retry, retry. cbn [e_retryable with_strategy]. destruct (e_retryable E).
      - cbn [e_acquire with_strategy]. destruct (acquire v) as [x v1] eqn:Q. destruct (starts _ _ _ Q) as (t & -> & C).
        match goal with |- context [retry_loop ?d ?rf ?su ?at0 ?fa ?rw ?lp fuel t v1] =>
          destruct (loop_bounded (W := W) d rf su at0 fa rw lp k_count m safe (fun _ => True)) with (fuel := fuel) (t := t) (w := v1) as (res & tr & w' & R & _) end; auto.
        + intros t0 e w0 t' w1 _ R. exact (grants _ _ _ _ _ R).
        + rewrite C. lia.
        + lia.
        + rewrite R. eauto.
      - destruct (handle_attempt A ci i r v). eauto. }
    assert (Hh : exists c w1, handle_execution A fuel ci w = Some (c, w1)).
    { unfold handle_execution. cbv zeta. destruct (andthen _ _ w) as [[[i r]|e] w2]; [|eauto].
      destruct (i_read _ _ _ w2) as [[x|e] w3]; [|eauto]. destruct (i_request _ _ _ _ w3) as [[r'|e] w4]; [|eauto].
      destruct (L i r' w4) as ([[[c'|e] tr] w5] & ->); eauto. }
    destruct Hh as (c & w1 & ->). destruct (finalize _ _ _ _ _) as [c' w2]. destruct (oc_response c'); eauto.
  Qed.
End Counted.

Lemma spied_ends {S W} (E : env S W) fuel ci w final w' : execute E fuel ci w = Some (final, w') ->
  exists es, execute (spy_env E) fuel ci (w, []) = Some (final, (w', es)).
Proof.
  rewrite (erase_execute E fuel ci w []). destruct (execute (spy_env E) fuel ci (w, [])) as [[x [v l]]|]; [|discriminate]. intros [= <- <-]. eauto.
Qed.

Section Uses.
  Context {S : sorts} {W : Type}.
  Variable E : env S W.
  Notation At := (fun (_ : Req S) es (_ : octx S) => attempt_shape (match e_future E with Some _ => true | None => false end) es).
  Definition stage_uses (st : stage) : bool := match st with StAcquire | StRefresh | StSuccess => true | _ => false end.
  Lemma uses_kinds (es : list (event S)) sts rest : forallb (fun st => negb (stage_uses st)) sts = true -> sts = map kind es ++ rest -> filter about_strategy es = [].
  Proof.
    revert sts. induction es as [|e l IH]; intros sts H ->; [reflexivity|]. cbn [map app forallb] in H. apply andb_prop in H. destruct H as [H1 H2].
    cbn [filter]. specialize (IH _ H2 eq_refl). destruct e; try discriminate H1; exact IH.
  Qed.
  Lemma begins_kinds (es : list (event S)) sts rest : forallb (fun st => negb (stage_begins st)) sts = true -> sts = map kind es ++ rest -> filter begins_attempt es = [].
  Proof.
    revert sts. induction es as [|e l IH]; intros sts H ->; [reflexivity|]. cbn [map app forallb] in H. apply andb_prop in H. destruct H as [H1 H2].
    cbn [filter]. specialize (IH _ H2 eq_refl). destruct e; try exact IH. destruct h; try discriminate H1; exact IH.
  Qed.
  Lemma attempt_uses str (es : list (event S)) : attempt_shape str es -> filter about_strategy es = [].
  Proof.
    intros (auth & main & complete & c & x & c' & x' & -> & Hf). rewrite filter_app. cbn [filter about_strategy]. rewrite app_nil_r.
    destruct (follows_prefix _ _ _ Hf) as [rest Hp]. eapply uses_kinds; [|exact Hp]. destruct auth, str; reflexivity.
  Qed.
  Lemma rounds_uses r t es res : rounds_shape At r t es res -> uses_from t (filter about_strategy es).
  Proof.
    induction 1 as [t r' es c e t' rest res Ha _ _ IH|t r' es c o Ha _|t r' es c e q Ha _|t r' es c o e Ha _|t r' es c e e' Ha _|t r' es c e t' e' Ha _];
      apply attempt_uses in Ha; cbn [filter about_strategy]; rewrite filter_app, Ha; cbn [app filter about_strategy]; now constructor.
  Qed.
  Lemma call_uses fuel ci w final w' es : execute (spy_env E) fuel ci (w, []) = Some (final, (w', es)) ->
    (filter about_strategy es = [] /\ (e_retryable E = false \/ attempts_of es = 0)) \/
    (e_retryable E = true /\ exists e, filter about_strategy es = [EvAcquire (inr e)]) \/
    (e_retryable E = true /\ exists t l, filter about_strategy es = EvAcquire (inl t) :: l /\ uses_from t l).
  Proof.
    intros H.
    assert (Hs : execution_shape At (e_retryable E) (fun e => if e_is_smithy E e then e else e_smithy E e) es (match final with inl (o, _) => inl o | inr e => inr e end)).
    { destruct (execute_ok E ci _ _ _ _ _ H) as (es' & i & E1 & Hs & _). cbn [snd app] in E1. subst es'. eapply execution_mono; [|exact Hs]. intros r es' c Hf. apply Hf. }
    destruct Hs as (before & complete & loop & c & x & c' & x' & -> & Fo & Hl & _).
    unfold attempts_of. rewrite !filter_app. cbn [filter about_strategy begins_attempt]. rewrite !app_nil_r.
    assert (Q' : filter begins_attempt before = []) by (destruct (follows_prefix _ _ _ Fo) as [rest Hp]; eapply begins_kinds; [|exact Hp]; reflexivity). rewrite Q'.
    assert (Q : filter about_strategy before = []) by (destruct (follows_prefix _ _ _ Fo) as [rest Hp]; eapply uses_kinds; [|exact Hp]; reflexivity).
    rewrite Q. cbn [app]. destruct complete.
    - destruct Hl as (r & res & i & r0 & e & Hr & _). unfold retry_shape in Hr. destruct (e_retryable E).
      + destruct Hr as [(t & rest & -> & Hr)|(e0 & -> & _)].
        * right. right. split; [reflexivity|]. exists t, (filter about_strategy rest). split; [reflexivity|]. exact (rounds_uses _ _ _ _ Hr).
        * right. left. split; [reflexivity|]. exists e0. reflexivity.
      + destruct Hr as (c0 & Ha & _). left. split; [exact (attempt_uses _ _ Ha)|now left].
    - destruct Hl as [-> _]. left. split; [reflexivity|now right].
  Qed.
End Uses.
