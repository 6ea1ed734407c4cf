From Verif Require Import Base Base_Proofs Identity_Model Identity_Spec ResolverTree_Model ResolverTasks_Model ResolverTasks_Spec.
From Coq Require Import ZArith.

Section Proofs.
  Context {I : Type}.
  Variable expires : I -> option Z.
  Variable root : tree.
  Notation state := (state I).
  Notation justified := (justified expires root).
  Notation during := (@during I).

  Definition todo (c : control (I := I)) : list source :=
    match c with Eval _ t => sources t | Wait _ _ k => [k] | Back _ => [] end.
  Definition later (st : list frame) : list source := flat_map (fun f => flat_map sources (fr_rest f)) st.
  Definition plain_control (c : control (I := I)) : Prop :=
    match c with Eval _ t => no_environment t = true | Wait _ kind _ => kind <> LEnvironment | Back _ => True end.
  Definition plain_stack (st : list frame) : Prop := Forall (fun f => forallb no_environment (fr_rest f) = true) st.

  Definition call_ok (i : nat) (mid : list (obs I)) (c : control (I := I)) (st : list frame) : Prop :=
    incl (todo c ++ later st) (sources root)
    /\ (no_environment root = true -> plain_control c /\ plain_stack st)
    /\ match c with
       | Back (Ok id) => justified i mid (Ok id)
       | Back (Err IdentityErr) | Eval _ _ | Wait _ _ _ =>
         forall k, In k (sources root) -> In (Answered i k (Err IdentityErr)) mid \/ In k (todo c ++ later st)
       | Back (Err e) => justified i mid (Err e)
       end.

  Record inv (s : state) : Prop := {
    inv_tasks : forall i c st, tasks s i = Some (c, st) -> exists mid, during i (log s) mid /\ call_ok i mid c st;
    inv_ended : forall before i r after, log s = before ++ Ended i r :: after -> exists mid, during i before mid /\ justified i mid r }.

  (** ** More is observed. *)
  Definition foreign (i : nat) (o : obs I) : Prop :=
    match o with Began j | Ended j _ => j <> i | _ => True end.
  Lemma justified_more i mid os r : justified i mid r -> justified i (mid ++ os) r.
  Proof.
    destruct r as [id|e]; cbn.
    - intros [(k & K & A)|[(p & n & A & U)|(E & p & n & A)]].
      + left. exists k. split; [exact K|]. apply in_or_app. auto.
      + right. left. exists p, n. split; [|exact U]. apply in_or_app. auto.
      + right. right. split; [exact E|]. exists p, n. apply in_or_app. auto.
    - destruct e; try (intros (k & K & A); exists k; split; [exact K|]; apply in_or_app; auto).
      intros A k K. apply in_or_app. auto.
  Qed.
  Lemma call_ok_more i mid os c st : call_ok i mid c st -> call_ok i (mid ++ os) c st.
  Proof.
    intros (A & B & C). split; [exact A|]. split; [exact B|].
    destruct c as [p t|p kind k|[id|e]]; try (intros k0 K; destruct (C k0 K) as [X|X]; [left; apply in_or_app; auto|auto]).
    - apply justified_more, C.
    - destruct e; try (apply (justified_more i mid os (Err _)), C).
      intros k0 K; destruct (C k0 K) as [X|X]; [left; apply in_or_app; auto|auto].
  Qed.
  Lemma during_more i log mid os : Forall (foreign i) os -> during i log mid -> during i (log ++ os) (mid ++ os).
  Proof.
    intros F (b & -> & N & E). exists b. rewrite <- app_assoc. split; [reflexivity|]. rewrite Forall_forall in F. split.
    - intros J. apply in_app_or in J. destruct J as [J|J]; [auto|]. exact (F _ J eq_refl).
    - intros x J. apply in_app_or in J. destruct J as [J|J]; [exact (E x J)|]. exact (F _ J eq_refl).
  Qed.
  Lemma split_last {A} (l a b : list A) x y : l ++ [y] = a ++ x :: b ->
    (b = [] /\ a = l /\ x = y) \/ exists b', b = b' ++ [y] /\ l = a ++ x :: b'.
  Proof.
    destruct (@exists_last _ (x :: b)) as (m & z & E); [discriminate|].
    intros H. destruct b as [|b0 b] using rev_ind.
    - left. apply app_inj_tail in H as [-> ->]. auto.
    - right. exists b. rewrite app_comm_cons, app_assoc in H. apply app_inj_tail in H as [-> ->]. auto.
  Qed.

  (** The state changes for one task, and something is observed that is neither a
      beginning nor an end. *)
  Definition quiet (o : obs I) : Prop := match o with Began _ | Ended _ _ => False | _ => True end.
  Lemma quiet_foreign i os : Forall quiet os -> Forall (foreign i) os.
  Proof. intros F. eapply Forall_impl; [|exact F]. intros []; cbn; tauto. Qed.
  Lemma ended_quiet lg os : Forall quiet os ->
    (forall before i r after, lg = before ++ Ended i r :: after -> exists mid, during i before mid /\ justified i mid r) ->
    (forall before i r after, lg ++ os = before ++ Ended i r :: after -> exists mid, during i before mid /\ justified i mid r).
  Proof.
    intros F. revert lg. induction F as [|o os Q F IH]; intros lg H; [now rewrite app_nil_r|].
    change (o :: os) with ([o] ++ os). rewrite app_assoc. apply IH. intros before i r after E.
    apply split_last in E. destruct E as [(-> & -> & <-)|(b' & -> & E)]; [cbn in Q; tauto|]. exact (H _ _ _ _ E).
  Qed.
  Lemma inv_moves s i c st os (s' : state) : inv s -> Forall quiet os ->
    log s' = log s ++ os -> (forall j, tasks s' j = if Nat.eqb j i then Some (c, st) else tasks s j) ->
    (forall mid, during i (log s) mid -> (exists c0 st0, tasks s i = Some (c0, st0) /\ call_ok i mid c0 st0) -> call_ok i (mid ++ os) c st) ->
    (exists c0 st0, tasks s i = Some (c0, st0)) -> inv s'.
  Proof.
    intros V Q L T C (c0 & st0 & T0). constructor.
    - intros j c1 st1. rewrite T. destruct (Nat.eqb_spec j i) as [->|N].
      + intros [= <- <-]. destruct (inv_tasks _ V i _ _ T0) as (mid & U & K). exists (mid ++ os). rewrite L. split; [|apply C; eauto].
        apply during_more; [now apply quiet_foreign|exact U].
      + intros T1. destruct (inv_tasks _ V j _ _ T1) as (mid & U & K). exists (mid ++ os). rewrite L. split; [|apply call_ok_more, K].
        apply during_more; [now apply quiet_foreign|exact U].
    - rewrite L. apply ended_quiet; [exact Q|]. apply (inv_ended _ V).
  Qed.

  Lemma unexpired_iff id now : usable expires WhileUnexpired id now = true -> unexpired (expires id) now.
  Proof. cbn. unfold is_expired, unexpired. destruct (expires id); [|auto]. intros H. apply negb_true_iff in H. lia. Qed.
  Lemma unexpired_until id now : usable expires UntilExpiration id now = true -> unexpired (expires id) now.
  Proof. cbn. unfold unexpired. destruct (expires id); [lia|auto]. Qed.

  Lemma inv_move i now c st s : tasks s i = Some (c, st) -> inv s -> inv (move expires i now c st s).
  Proof.
    intros T V.
    assert (G : forall os c' st' (s' : state), Forall quiet os -> log s' = log s ++ os ->
              (forall j, tasks s' j = if Nat.eqb j i then Some (c', st') else tasks s j) ->
              (forall mid, call_ok i mid c st -> call_ok i (mid ++ os) c' st') -> inv s').
    { intros os c' st' s' Q L Ts C. eapply inv_moves; eauto. intros mid _ (c0 & st0 & T0 & K). rewrite T in T0. injection T0 as <- <-. auto. }
    destruct c as [p [kind k|ts|ts]|p kind k|x]; cbn [move].
    - (* a leaf *)
      assert (A : inv (see (Asked i k) (set_task i (Some (Wait p kind k, st)) s))).
      { apply (G [Asked i k] (Wait p kind k) st); [repeat constructor|reflexivity|reflexivity|]. intros mid K.
        destruct K as (A & B & C). split; [exact A|]. split.
        - intros E. destruct (B E) as (B1 & B2). split; [|exact B2]. cbn in *. intros ->. discriminate.
        - intros k0 K0. destruct (C k0 K0); [left; apply in_or_app|]; auto. }
      destruct (held s p) as [id|]; [|exact A]. destruct (gives expires kind id now) eqn:Gi; [|exact A]. clear A.
      apply (G [Found i p (match kind with LEnvironment => true | _ => false end) id now] (Back (Ok id)) st); [repeat constructor|reflexivity|reflexivity|].
      intros mid (A & B & C). split; [intros q Q; apply A, in_or_app; right; exact Q|]. split; [intros E; split; [exact Logic.I|apply (B E)]|].
      destruct kind as [| |how]; cbn in Gi; [discriminate| |].
      + right. right. split.
        * destruct (no_environment root) eqn:E; [|reflexivity]. destruct (B eq_refl) as (B1 & _). discriminate.
        * exists p, now. apply in_or_app. right. left. reflexivity.
      + right. left. exists p, now. split; [apply in_or_app; right; left; reflexivity|]. destruct how; [now apply unexpired_iff|now apply unexpired_until].
    - (* a chain that keeps *)
      assert (A : inv (set_task i (Some (Back (Err IdentityErr), mkFrame p true 0 ts :: st)) s)).
      { apply (G [] (Back (Err IdentityErr)) (mkFrame p true 0 ts :: st)); [constructor|cbn; now rewrite app_nil_r|reflexivity|]. intros mid (A & B & C). rewrite app_nil_r. split; [exact A|]. split; [|exact C].
        intros E. destruct (B E) as (B1 & B2). split; [exact Logic.I|]. constructor; [exact B1|exact B2]. }
      destruct (held s p) as [id|]; [|exact A]. destruct (usable expires WhileUnexpired id now) eqn:Gi; [|exact A]. clear A.
      apply (G [Found i p false id now] (Back (Ok id)) st); [repeat constructor|reflexivity|reflexivity|].
      intros mid (A & B & C). split; [intros q Q; apply A, in_or_app; right; exact Q|]. split; [intros E; split; [exact Logic.I|apply (B E)]|].
      right. left. exists p, now. split; [apply in_or_app; right; left; reflexivity|now apply unexpired_iff].
    - (* a chain *)
      apply (G [] (Back (Err IdentityErr)) (mkFrame p false 0 ts :: st)); [constructor|cbn; now rewrite app_nil_r|reflexivity|]. intros mid (A & B & C). rewrite app_nil_r. split; [exact A|]. split; [|exact C].
      intros E. destruct (B E) as (B1 & B2). split; [exact Logic.I|]. constructor; [exact B1|exact B2].
    - exact V.
    - destruct st as [|f st].
      + (* the call ends *)
        destruct (inv_tasks _ V i _ _ T) as (mid & U & K). constructor.
        * intros j c1 st1. cbn. destruct (Nat.eqb_spec j i) as [->|N]; [discriminate|]. intros T1.
          destruct (inv_tasks _ V j _ _ T1) as (mid1 & U1 & K1). exists (mid1 ++ [Ended i x]). split; [|apply call_ok_more, K1].
          apply during_more; [|exact U1]. constructor; [cbn; congruence|constructor].
        * intros before j r after E. cbn in E. apply split_last in E. destruct E as [(-> & -> & [= <- <-])|(b' & -> & E)]; [|exact (inv_ended _ V _ _ _ _ E)].
          exists mid. split; [exact U|]. destruct K as (_ & _ & C). destruct r as [id|e]; [exact C|]. destruct e; try exact C.
          cbn. intros k K. destruct (C k K) as [X|X]; [exact X|destruct X].
      + destruct x as [id|e].
        * set (s1 := set_task i (Some (Back (Ok id), st)) s).
          assert (K : forall s' : state, log s' = log s -> tasks s' = tasks s1 -> inv s').
          { intros s' L E. apply (G [] (Back (Ok id)) st); [constructor|rewrite L; now rewrite app_nil_r|intros j; rewrite E; reflexivity|].
            intros mid (A & B & C). rewrite app_nil_r. split; [intros q Q; apply A; cbn; apply in_or_app; right; exact Q|]. split; [|exact C].
            intros E0. destruct (B E0) as (_ & B2). inversion B2; subst. split; [exact Logic.I|assumption]. }
          destruct (fr_keeps f); apply K; reflexivity.
        * assert (K : e <> IdentityErr -> inv (set_task i (Some (Back (Err e), st)) s)).
          { intros Ne. apply (G [] (Back (Err e)) st); [constructor|cbn; now rewrite app_nil_r|reflexivity|].
            intros mid (A & B & C). rewrite app_nil_r. split; [intros q Q; apply A; cbn; apply in_or_app; right; exact Q|]. split.
            - intros E0. destruct (B E0) as (_ & B2). inversion B2; subst. split; [exact Logic.I|assumption].
            - destruct e; try exact C. congruence. }
          destruct e; try (apply K; discriminate). clear K. destruct f as [p kp n [|t ts]]; cbn [fr_rest fr_path fr_keeps fr_next].
          -- apply (G [] (Back (Err IdentityErr)) st); [constructor|cbn; now rewrite app_nil_r|reflexivity|].
             intros mid (A & B & C). rewrite app_nil_r. split; [exact A|]. split; [|exact C].
             intros E0. destruct (B E0) as (_ & B2). inversion B2; subst. split; [exact Logic.I|assumption].
          -- apply (G [] (Eval (p ++ [n]) t) (mkFrame p kp (S n) ts :: st)); [constructor|cbn; now rewrite app_nil_r|reflexivity|].
             intros mid (A & B & C). rewrite app_nil_r. cbn [todo later flat_map fr_rest app] in *. rewrite <- app_assoc in *. split; [exact A|]. split; [|exact C].
             intros E0. destruct (B E0) as (_ & B2). inversion B2 as [|? ? B3 B4]; subst. cbn in B3. apply andb_true_iff in B3 as [B5 B6].
             split; [exact B5|]. constructor; [exact B6|exact B4].
  Qed.

  Lemma inv_step e s : inv s -> inv (step expires root e s).
  Proof.
    intros V. destruct e as [i|i now|i r| |p]; cbn [step].
    - destruct (tasks s i) as [[c st]|] eqn:T; [exact V|]. constructor.
      + intros j c st. cbn. destruct (Nat.eqb_spec j i) as [->|N].
        * intros [= <- <-]. exists []. split; [exists (log s); split; [reflexivity|]; split; [intros []|intros x []]|].
          split; [cbn; rewrite app_nil_r; apply incl_refl|]. split; [intros E; split; [exact E|constructor]|]. intros k K. right. cbn. rewrite app_nil_r. exact K.
        * intros T1. destruct (inv_tasks _ V j _ _ T1) as (mid & U & K). exists (mid ++ [Began i]). split; [|apply call_ok_more, K].
          apply during_more; [|exact U]. constructor; [cbn; congruence|constructor].
      + intros before j r after E. cbn in E. apply split_last in E. destruct E as [(_ & _ & [=])|(b' & -> & E)]. exact (inv_ended _ V _ _ _ _ E).
    - destruct (tasks s i) as [[c st]|] eqn:T; [|exact V]. now apply inv_move.
    - destruct (tasks s i) as [[[p t|p kind k|x] st]|] eqn:T; try exact V.
      set (s1 := see (Answered i k r) (set_task i (Some (Back r, st)) s)).
      assert (K : forall s' : state, log s' = log s1 -> tasks s' = tasks s1 -> inv s').
      { intros s' L E. apply (inv_moves s i (Back r) st [Answered i k r]); [exact V|repeat constructor|rewrite L; reflexivity|intros j; rewrite E; reflexivity| |eauto].
        intros mid _ (c0 & st0 & T0 & A & B & C). rewrite T in T0. injection T0 as <- <-. split; [intros q Q; apply A, in_or_app; right; exact Q|].
        split; [intros E0; split; [exact Logic.I|apply (B E0)]|].
        assert (Kr : In k (sources root)) by (apply A; left; reflexivity).
        assert (La : In (Answered i k r) (mid ++ [Answered i k r])) by (apply in_or_app; right; left; reflexivity).
        destruct r as [id|e]; [left; eauto|]. destruct e; try (cbn; eauto; fail).
        intros k0 K0. destruct (C k0 K0) as [X|[<-|X]]; [left; apply in_or_app; auto|left; exact La|right; exact X]. }
      destruct r as [id|e]; [destruct (keeps kind)|]; apply K; reflexivity.
    - constructor.
      + intros j c st T. cbn in T. destruct (inv_tasks _ V j _ _ T) as (mid & U & K). exists (mid ++ [Invalidated]). split; [|apply call_ok_more, K].
        apply during_more; [repeat constructor|exact U].
      + intros before j r after E. cbn in E. apply split_last in E. destruct E as [(_ & _ & [=])|(b' & -> & E)]. exact (inv_ended _ V _ _ _ _ E).
    - destruct (environment_at root p); [exact V|]. destruct V as [A B]. constructor; assumption.
  Qed.
  Lemma inv_run es : forall s, inv s -> inv (run expires root es s).
  Proof. induction es as [|e es IH]; intros s V; [exact V|]. apply IH, inv_step, V. Qed.
  Lemma inv_fresh : inv fresh_state.
  Proof. constructor; [intros i c st [=]|]. intros [|? ?] i r after; discriminate. Qed.
  Lemma idle_tasks s : inv s -> idle (log s) -> forall i, tasks s i = None.
  Proof.
    intros V D i. destruct (tasks s i) as [[c st]|] eqn:T; [|reflexivity]. exfalso.
    destruct (inv_tasks _ V _ _ _ T) as (mid & (b & L & _ & E) & _). destruct (D _ _ _ L) as (x & X). exact (E x X).
  Qed.

  (** ** Where identities come from, from some point of the log on. *)
  Definition told (later : list (obs I)) (id : I) : Prop := exists j k, In k (sources root) /\ In (Answered j k (Ok id)) later.
  Definition provided (pre : list (obs I)) (s : state) : Prop :=
    exists mid, log s = pre ++ mid
      /\ (forall p id, held s p = Some id -> told mid id)
      /\ (forall i id st, tasks s i = Some (Back (Ok id), st) -> told mid id)
      /\ (forall i id, In (Ended i (Ok id)) mid -> told mid id).
  Lemma told_more a b id : told a id -> told (a ++ b) id.
  Proof. intros (j & k & K & A). exists j, k. split; [exact K|]. apply in_or_app. auto. Qed.
  Lemma provided_changes pre s os (s' : state) : provided pre s -> log s' = log s ++ os ->
    (forall mid, (forall id, (exists p, held s p = Some id) \/ (exists i st, tasks s i = Some (Back (Ok id), st)) \/ (exists i, In (Ended i (Ok id)) mid) -> told mid id) ->
       (forall p id, held s' p = Some id -> told (mid ++ os) id)
       /\ (forall i id st, tasks s' i = Some (Back (Ok id), st) -> told (mid ++ os) id)
       /\ (forall i id, In (Ended i (Ok id)) os -> told (mid ++ os) id)) ->
    provided pre s'.
  Proof.
    intros (mid & L & A & B & C) L' H. exists (mid ++ os). rewrite L', L, app_assoc. split; [reflexivity|].
    destruct (H mid) as (A' & B' & C').
    { intros id [(p & E)|[(i & st & E)|(i & E)]]; eauto. }
    split; [exact A'|]. split; [exact B'|]. intros i id J. apply in_app_or in J. destruct J as [J|J]; [apply told_more; eauto|eauto].
  Qed.
  Lemma provided_step pre e s : inv s -> provided pre s -> provided pre (step expires root e s).
  Proof.
    intros V P. destruct e as [i|i now|i r| |p]; cbn [step].
    - destruct (tasks s i) as [[c st]|] eqn:T; [exact P|]. eapply provided_changes; [exact P|reflexivity|]. intros mid H. cbn [held tasks see set_task].
      split; [intros; apply told_more, H; eauto|]. split; [|intros j id [[=]|[]]].
      intros j id st. destruct (Nat.eqb j i); [discriminate|]. intros E. apply told_more, H. eauto.
    - destruct (tasks s i) as [[c st]|] eqn:T; [|exact P].
      assert (G : forall os c' st' h, log (mkState (I := I) h (tasks s) (log s)) = log s ->
                (forall mid id, (forall id, (exists p, held s p = Some id) \/ (exists i st, tasks s i = Some (Back (Ok id), st)) \/ (exists i, In (Ended i (Ok id)) mid) -> told mid id) ->
                   (exists p, h p = Some id) \/ c' = Some (Back (Ok id), st') \/ (exists j, In (Ended j (Ok id)) os) -> told (mid ++ os) id) ->
                (forall x, c' = Some x -> snd x = st') ->
                provided pre (mkState h (fun j => if Nat.eqb j i then c' else tasks s j) (log s ++ os))).
      { intros os c' st' h _ H Sn. eapply provided_changes; [exact P|reflexivity|]. intros mid M. cbn [held tasks].
        split; [intros p id E; apply H; eauto|]. split; [|intros j id J; apply H; eauto].
        intros j id st1. destruct (Nat.eqb j i); intros E; [|apply told_more, M; eauto]. pose proof (Sn _ E) as S1. cbn in S1. subst st1. apply H; auto. }
      assert (Hh : forall mid os id, (forall id, (exists p, held s p = Some id) \/ (exists i st, tasks s i = Some (Back (Ok id), st)) \/ (exists i, In (Ended i (Ok id)) mid) -> told mid id) ->
                 (exists p, held s p = Some id) -> told (mid ++ os) id) by (intros; apply told_more; auto).
      destruct c as [p [kind k|ts|ts]|p kind k|x]; cbn [move].
      + assert (A : provided pre (see (Asked i k) (set_task i (Some (Wait p kind k, st)) s))).
        { apply (G [Asked i k] (Some (Wait p kind k, st)) st (held s)); [reflexivity| |intros x [= <-]; reflexivity].
          intros mid id M [E|[[=]|(j & [[=]|[]])]]; auto. }
        destruct (held s p) as [id|] eqn:E; [|exact A]. destruct (gives expires kind id now); [|exact A].
        apply (G [Found i p _ id now] (Some (Back (Ok id), st)) st (held s)); [reflexivity| |intros x [= <-]; reflexivity].
        intros mid id' M [E'|[[= <-]|(j & [[=]|[]])]]; eauto.
      + assert (A : provided pre (set_task i (Some (Back (Err IdentityErr), mkFrame p true 0 ts :: st)) s)).
        { unfold set_task. rewrite <- (app_nil_r (log s)). apply (G [] (Some (Back (Err IdentityErr), mkFrame p true 0 ts :: st)) (mkFrame p true 0 ts :: st) (held s)); [reflexivity| |intros x [= <-]; reflexivity].
          intros mid id M [E|[[=]|(j & [])]]; auto. }
        destruct (held s p) as [id|] eqn:E; [|exact A]. destruct (usable expires WhileUnexpired id now); [|exact A].
        apply (G [Found i p false id now] (Some (Back (Ok id), st)) st (held s)); [reflexivity| |intros x [= <-]; reflexivity].
        intros mid id' M [E'|[[= <-]|(j & [[=]|[]])]]; eauto.
      + unfold set_task. rewrite <- (app_nil_r (log s)). apply (G [] (Some (Back (Err IdentityErr), mkFrame p false 0 ts :: st)) (mkFrame p false 0 ts :: st) (held s)); [reflexivity| |intros x [= <-]; reflexivity].
        intros mid id M [E|[[=]|(j & [])]]; auto.
      + exact P.
      + destruct st as [|f st].
        * apply (G [Ended i x] None [] (held s)); [reflexivity| |discriminate].
          intros mid id M [E|[[=]|(j & [[= <- ->]|[]])]]; auto. apply told_more, M. eauto.
        * destruct x as [id|e].
          -- destruct (fr_keeps f).
             ++ unfold keep, set_task. cbn. rewrite <- (app_nil_r (log s)). apply (G [] (Some (Back (Ok id), st)) st); [reflexivity| |intros x [= <-]; reflexivity].
                intros mid id' M [(q & E)|[[= <-]|(j & [])]]; [destruct (path_eqb q (fr_path f)); [injection E as <-|]; apply told_more, M; eauto|apply told_more, M; eauto].
             ++ unfold set_task. rewrite <- (app_nil_r (log s)). apply (G [] (Some (Back (Ok id), st)) st (held s)); [reflexivity| |intros x [= <-]; reflexivity].
                intros mid id' M [E|[[= <-]|(j & [])]]; [auto|apply told_more, M; eauto].
          -- assert (K : forall c' st', (forall id, c' <> Back (Ok id)) -> provided pre (set_task i (Some (c', st')) s)).
             { intros c' st' Nc. unfold set_task. rewrite <- (app_nil_r (log s)). apply (G [] (Some (c', st')) st' (held s)); [reflexivity| |intros x [= <-]; reflexivity].
               intros mid id M [E|[[= E]|(j & [])]]; [auto|destruct (Nc _ E)]. }
             destruct e; try (apply K; discriminate). destruct (fr_rest f); apply K; discriminate.
    - destruct (tasks s i) as [[[p t|p kind k|x] st]|] eqn:T; try exact P.
      assert (Kr : In k (sources root)).
      { destruct (inv_tasks _ V _ _ _ T) as (mid & _ & A & _). apply A. left. reflexivity. }
      assert (N : forall mid id, r = Ok id -> told (mid ++ [Answered i k r]) id).
      { intros mid id ->. exists i, k. split; [exact Kr|]. apply in_or_app. right. left. reflexivity. }
      assert (K : forall h, (forall q id, h q = Some id -> held s q = Some id \/ r = Ok id) ->
                provided pre (mkState h (fun j => if Nat.eqb j i then Some (Back r, st) else tasks s j) (log s ++ [Answered i k r]))).
      { intros h Hh. eapply provided_changes; [exact P|reflexivity|]. intros mid M. cbn [held tasks]. split; [|split; [|intros j id [[=]|[]]]].
        - intros q id E. destruct (Hh q id E) as [X|X]; [apply told_more, M; eauto|now apply N].
        - intros j id st1. destruct (Nat.eqb j i); [intros [= E _]; now apply N|intros E; apply told_more, M; eauto]. }
      destruct r as [id|e]; [destruct (keeps kind)|]; unfold keep, see, set_task; cbn [held tasks log]; apply K; auto.
      intros q id'. destruct (path_eqb q p); [intros [= <-]; auto|auto].
    - eapply provided_changes; [exact P|reflexivity|]. intros mid M. cbn [held tasks see]. split; [|split; [|intros j id [[=]|[]]]].
      + intros q id. destruct (environment_at root q); [|discriminate]. intros E. apply told_more, M. eauto.
      + intros j id st E. apply told_more, M. eauto.
    - destruct (environment_at root p); [exact P|]. destruct P as (mid & L & A & B & C). exists mid. split; [exact L|]. split; [|split; assumption].
      intros q id. cbn. destruct (path_eqb q p); [discriminate|apply A].
  Qed.
  Lemma provided_run pre es : forall s, inv s -> provided pre s -> provided pre (run expires root es s).
  Proof. induction es as [|e es IH]; intros s V P; [exact P|]. apply IH; [now apply inv_step|now apply provided_step]. Qed.
  Lemma run_app a b s : run expires root (a ++ b) s = run expires root b (run expires root a s).
  Proof. revert s. induction a as [|e a IH]; intros s; [reflexivity|]. apply IH. Qed.
End Proofs.

Fixpoint tree_ind' (P : tree -> Prop) (L : forall kind k, P (TLeaf kind k)) (C : forall ts, Forall P ts -> P (TChained ts))
    (D : forall ts, Forall P ts -> P (TChain ts)) (t : tree) : P t :=
  let all := (fix all (ts : list tree) : Forall P ts :=
    match ts with [] => Forall_nil P | t :: rest => Forall_cons t (tree_ind' P L C D t) (all rest) end) in
  match t with TLeaf kind k => L kind k | TChained ts => C ts (all ts) | TChain ts => D ts (all ts) end.
Lemma no_environment_at t : no_environment t = true -> forall p, environment_at t p = false.
Proof.
  induction t as [kind k|ts F|ts F] using tree_ind'; cbn.
  - destruct kind; [| discriminate |]; intros _ [|]; reflexivity.
  - intros H [|n q]; [reflexivity|]. revert n. induction F as [|t ts A F IH]; intros n; [reflexivity|]. cbn in H. apply andb_true_iff in H as [H1 H2].
    destruct n; [now apply A|]. apply (IH H2).
  - intros H [|n q]; [reflexivity|]. revert n. induction F as [|t ts A F IH]; intros n; [reflexivity|]. cbn in H. apply andb_true_iff in H as [H1 H2].
    destruct n; [now apply A|]. apply (IH H2).
Qed.

(** ** The order of the questions. *)
Lemma among_refl {A} (a b c d : list A) : among a b -> among c d -> among (a ++ c) (b ++ d).
Proof. induction 1; intros H'; cbn; [exact H'|constructor; auto|constructor; auto]. Qed.
Lemma among_none {A} (b : list A) : among [] b.
Proof. induction b; constructor; auto. Qed.
Lemma among_more {A} (a b c : list A) : among a b -> among a (b ++ c).
Proof. intros H. rewrite <- (app_nil_r a). apply among_refl; [exact H|apply among_none]. Qed.

Section Order.
  Context {I : Type}.
  Variable expires : I -> option Z.
  Variable root : tree.
  Notation state := (state I).
  Notation during := (@during I).

  Definition ahead (c : control (I := I)) : list source := match c with Eval _ t => sources t | _ => [] end.
  Definition ask_ok (i : nat) (mid : list (obs I)) (c : control (I := I)) (st : list frame) : Prop :=
    exists past, sources root = past ++ ahead c ++ later st /\ among (asked i mid) past.
  Record oinv (s : state) : Prop := {
    oinv_tasks : forall i c st, tasks s i = Some (c, st) -> exists mid, during i (log s) mid /\ ask_ok i mid c st;
    oinv_ended : forall before i r after, log s = before ++ Ended i r :: after -> exists mid, during i before mid /\ among (asked i mid) (sources root) }.

  Lemma asked_app i (a b : list (obs I)) : asked i (a ++ b) = asked i a ++ asked i b.
  Proof. induction a as [|o a IH]; [reflexivity|]. destruct o; cbn; try exact IH. destruct (Nat.eqb i0 i); cbn; congruence. Qed.

  Lemma oinv_changes s i nc os (s' : state) : oinv s -> Forall (fun o => match o with Began j | Ended j _ | Asked j _ => j = i | _ => True end) os ->
    log s' = log s ++ os -> (forall j, tasks s' j = if Nat.eqb j i then nc else tasks s j) ->
    (forall c st, nc = Some (c, st) -> exists mid, during i (log s ++ os) mid /\ ask_ok i mid c st) ->
    (forall before j r after, log s ++ os = before ++ Ended j r :: after -> exists mid, during j before mid /\ among (asked j mid) (sources root)) -> oinv s'.
  Proof.
    intros V Q L T C E. constructor; [|rewrite L; exact E]. intros j c st. rewrite T, L. destruct (Nat.eqb_spec j i) as [->|N]; [apply C|].
    intros T1. destruct (oinv_tasks _ V _ _ _ T1) as (mid & U & past & S & A). exists (mid ++ os).
    assert (F : Forall (foreign j) os) by (eapply Forall_impl; [|exact Q]; intros [] H; cbn in *; congruence || exact Logic.I).
    split; [now apply during_more|]. exists past. split; [exact S|]. rewrite asked_app.
    assert (Z0 : asked j os = []).
    { clear -Q N. induction Q as [|o os H Q IH]; [reflexivity|]. destruct o; cbn in *; try exact IH. destruct (Nat.eqb_spec i0 j); [congruence|exact IH]. }
    rewrite Z0, app_nil_r. exact A.
  Qed.
  Lemma ended_still lg (os : list (obs I)) : Forall quiet os ->
    (forall before i r after, lg = before ++ Ended i r :: after -> exists mid, during i before mid /\ among (asked i mid) (sources root)) ->
    (forall before i r after, lg ++ os = before ++ Ended i r :: after -> exists mid, during i before mid /\ among (asked i mid) (sources root)).
  Proof.
    intros F. revert lg. induction F as [|o os Q F IH]; intros lg H; [now rewrite app_nil_r|].
    change (o :: os) with ([o] ++ os). rewrite app_assoc. apply IH. intros before i r after E.
    apply split_last in E. destruct E as [(-> & -> & <-)|(b' & -> & E)]; [cbn in Q; tauto|]. exact (H _ _ _ _ E).
  Qed.
  (** A step of the task [i]. *)
  Lemma oinv_moves s i c st c' st' os (s' : state) : oinv s -> tasks s i = Some (c, st) ->
    Forall (fun o => quiet o /\ match o with Asked j _ => j = i | _ => True end) os ->
    log s' = log s ++ os -> (forall j, tasks s' j = if Nat.eqb j i then Some (c', st') else tasks s j) ->
    (forall past, exists past', past ++ ahead c ++ later st = past' ++ ahead c' ++ later st'
       /\ exists new, past' = past ++ new /\ among (asked i os) new) -> oinv s'.
  Proof.
    intros V T Q L Ts C. assert (Q1 : Forall quiet os) by (eapply Forall_impl; [|exact Q]; cbn; tauto).
    eapply oinv_changes; [exact V| |exact L|exact Ts| |].
    - eapply Forall_impl; [|exact Q]. intros [] [H1 H2]; cbn in *; auto; tauto.
    - intros c1 st1 [= <- <-]. destruct (oinv_tasks _ V _ _ _ T) as (mid & U & past & S & A). exists (mid ++ os).
      split; [apply during_more; [now apply quiet_foreign|exact U]|]. destruct (C past) as (past' & E & new & -> & B). exists (past ++ new).
      split; [congruence|]. rewrite asked_app. now apply among_refl.
    - apply ended_still; [exact Q1|]. apply (oinv_ended _ V).
  Qed.
  Lemma oinv_move i now c st s : tasks s i = Some (c, st) -> oinv s -> oinv (move expires i now c st s).
  Proof.
    intros T V.
    assert (Skip : forall x y : list source, forall past, exists past', past ++ x ++ y = past' ++ [] ++ y /\ exists new, past' = past ++ new /\ among [] new).
    { intros x y past. exists (past ++ x). split; [now rewrite <- app_assoc|]. exists x. split; [reflexivity|apply among_none]. }
    assert (Stay : forall x : list source, forall past, exists past', past ++ x = past' ++ x /\ exists new, past' = past ++ new /\ among (A := source) [] new).
    { intros x past. exists past. split; [reflexivity|]. exists []. split; [now rewrite app_nil_r|constructor]. }
    destruct c as [p [kind k|ts|ts]|p kind k|x]; cbn [move].
    - assert (A : oinv (see (Asked i k) (set_task i (Some (Wait p kind k, st)) s))).
      { eapply (oinv_moves s i _ _ _ _ [Asked i k]); [exact V|exact T|repeat constructor|reflexivity|reflexivity|]. intros past. exists (past ++ [k]).
        split; [cbn; now rewrite <- app_assoc|]. exists [k]. split; [reflexivity|]. cbn. rewrite Nat.eqb_refl. repeat constructor. }
      destruct (held s p) as [id|]; [|exact A]. destruct (gives expires kind id now); [|exact A].
      eapply (oinv_moves s i _ _ _ _ [Found i p _ id now]); [exact V|exact T|repeat constructor|reflexivity|reflexivity|]. apply Skip.
    - assert (A : oinv (set_task i (Some (Back (Err IdentityErr), mkFrame p true 0 ts :: st)) s)).
      { eapply (oinv_moves s i _ _ _ _ []); [exact V|exact T|constructor|cbn; now rewrite app_nil_r|reflexivity|]. apply Stay. }
      destruct (held s p) as [id|]; [|exact A]. destruct (usable expires WhileUnexpired id now); [|exact A].
      eapply (oinv_moves s i _ _ _ _ [Found i p false id now]); [exact V|exact T|repeat constructor|reflexivity|reflexivity|]. apply Skip.
    - eapply (oinv_moves s i _ _ _ _ []); [exact V|exact T|constructor|cbn; now rewrite app_nil_r|reflexivity|]. apply Stay.
    - exact V.
    - destruct st as [|f st].
      + destruct (oinv_tasks _ V _ _ _ T) as (mid & U & past & S & A).
        apply (oinv_changes s i None [Ended i x]); [exact V|repeat constructor|reflexivity|reflexivity|discriminate|].
        intros before j r after E. apply split_last in E. destruct E as [(-> & -> & [= <- <-])|(b' & -> & E)]; [|exact (oinv_ended _ V _ _ _ _ E)].
        exists mid. split; [exact U|]. rewrite S. now apply among_more.
      + assert (K : forall c' (s' : state), ahead c' = [] -> log s' = log s -> (forall j, tasks s' j = if Nat.eqb j i then Some (c', st) else tasks s j) -> oinv s').
        { intros c' s' Ac L E. eapply (oinv_moves s i _ _ c' st []); [exact V|exact T|constructor|rewrite L; now rewrite app_nil_r|exact E|]. rewrite Ac. cbn [ahead later flat_map app]. apply Skip. }
        destruct x as [id|e].
        * destruct (fr_keeps f); apply (K (Back (Ok id))); reflexivity.
        * destruct e; try (eapply K; [|reflexivity|reflexivity]; reflexivity). destruct f as [p kp n [|t ts]]; cbn [fr_rest fr_path fr_keeps fr_next].
          -- eapply K; [|reflexivity|reflexivity]; reflexivity.
          -- eapply (oinv_moves s i _ _ _ _ []); [exact V|exact T|constructor|cbn; now rewrite app_nil_r|reflexivity|]. cbn [ahead later flat_map fr_rest app]. rewrite <- app_assoc. apply Stay.
  Qed.
  Lemma oinv_step e s : oinv s -> oinv (step expires root e s).
  Proof.
    intros V. destruct e as [i|i now|i r| |p]; cbn [step].
    - destruct (tasks s i) as [[c st]|] eqn:T; [exact V|].
      apply (oinv_changes s i (Some (Eval [] root, [])) [Began i]); [exact V|repeat constructor|reflexivity|reflexivity| |].
      + intros c st [= <- <-]. exists []. split; [exists (log s); split; [reflexivity|]; split; [intros []|intros x []]|]. exists []. cbn. rewrite app_nil_r. split; [reflexivity|constructor].
      + intros before j r after E. apply split_last in E. destruct E as [(_ & _ & [=])|(b' & -> & E)]. exact (oinv_ended _ V _ _ _ _ E).
    - destruct (tasks s i) as [[c st]|] eqn:T; [|exact V]. now apply oinv_move.
    - destruct (tasks s i) as [[[p t|p kind k|x] st]|] eqn:T; try exact V.
      assert (K : forall s' : state, log s' = log s ++ [Answered i k r] -> (forall j, tasks s' j = if Nat.eqb j i then Some (Back r, st) else tasks s j) -> oinv s').
      { intros s' L E. eapply (oinv_moves s i _ _ (Back r) st [Answered i k r]); [exact V|exact T|repeat constructor|exact L|exact E|]. intros past. exists past. split; [reflexivity|].
        exists []. split; [now rewrite app_nil_r|constructor]. }
      destruct r as [id|e]; [destruct (keeps kind)|]; apply K; reflexivity.
    - constructor.
      + intros j c st T. cbn in T. destruct (oinv_tasks _ V _ _ _ T) as (mid & U & past & S & A). exists (mid ++ [Invalidated]).
        split; [apply during_more; [repeat constructor|exact U]|]. exists past. split; [exact S|]. rewrite asked_app. cbn. now rewrite app_nil_r.
      + intros before j r after E. cbn in E. apply split_last in E. destruct E as [(_ & _ & [=])|(b' & -> & E)]. exact (oinv_ended _ V _ _ _ _ E).
    - destruct (environment_at root p); [exact V|]. destruct V as [A B]. constructor; assumption.
  Qed.
  Lemma oinv_run es : forall s, oinv s -> oinv (run expires root es s).
  Proof. induction es as [|e es IH]; intros s V; [exact V|]. apply IH, oinv_step, V. Qed.
  Lemma oinv_fresh : oinv fresh_state.
  Proof. constructor; [intros i c st [=]|]. intros [|? ?] i r after; discriminate. Qed.

  (** ** Calls end. *)
  Fixpoint size (t : tree) : nat :=
    match t with TLeaf _ _ => 1 | TChained ts | TChain ts => S (S (fold_right (fun t n => S (S (size t)) + n)%nat 0%nat ts)) end.
  Definition sizes (ts : list tree) : nat := fold_right (fun t n => S (S (size t)) + n)%nat 0%nat ts.
  Definition work (c : control (I := I)) (st : list frame) : nat :=
    (match c with Eval _ t => S (S (size t)) | Wait _ _ _ => 2 | Back _ => 1 end + fold_right (fun f n => S (sizes (fr_rest f)) + n) 0 st)%nat.
  Lemma move_log i now c st s : exists new, log (move expires i now c st s) = log s ++ new.
  Proof.
    assert (N : forall s' : state, log s' = log s -> exists new, log s' = log s ++ new) by (intros s' E; exists []; now rewrite app_nil_r).
    destruct c as [p [kind k|ts|ts]|p kind k|x]; cbn [move]; [| |now apply N|now apply N|].
    - destruct (held s p) as [id|]; [destruct (gives expires kind id now)|]; eexists; reflexivity.
    - destruct (held s p) as [id|]; [destruct (usable expires WhileUnexpired id now)|]; [eexists; reflexivity|now apply N|now apply N].
    - destruct st as [|f st]; [eexists; reflexivity|]. destruct x as [id|e]; [destruct (fr_keeps f); now apply N|].
      destruct e; try now apply N. destruct (fr_rest f); now apply N.
  Qed.
  (** A task that is not waiting for a source does not stand still. *)
  Lemma move_works i now c st s : (forall p kind k, c <> Wait p kind k) ->
    match tasks (move expires i now c st s) i with
    | None => exists x, log (move expires i now c st s) = log s ++ [Ended i x]
    | Some (c', st') => (work c' st' < work c st)%nat
    end.
  Proof.
    intros Nw. destruct c as [p [kind k|ts|ts]|p kind k|x]; cbn [move].
    - destruct (held s p) as [id|]; [destruct (gives expires kind id now)|]; cbn; rewrite Nat.eqb_refl; unfold work; cbn; lia.
    - destruct (held s p) as [id|]; [destruct (usable expires WhileUnexpired id now)|]; cbn; rewrite Nat.eqb_refl; unfold work; cbn; fold (sizes ts); lia.
    - cbn; rewrite Nat.eqb_refl; unfold work; cbn; fold (sizes ts); lia.
    - destruct (Nw p kind k eq_refl).
    - destruct st as [|f st]; [cbn; rewrite Nat.eqb_refl; eauto|]. destruct x as [id|e].
      + destruct (fr_keeps f); cbn; rewrite Nat.eqb_refl; unfold work; cbn; lia.
      + destruct f as [p kp n ts]. cbn [fr_rest fr_path fr_keeps fr_next]. destruct e; try (cbn; rewrite Nat.eqb_refl; unfold work; cbn; lia).
        destruct ts as [|t ts]; cbn; rewrite Nat.eqb_refl; unfold work; cbn; [lia|]. fold (sizes ts). lia.
  Qed.

  Lemma call_ends i now (answers : source -> result I) n : forall c st s, tasks s i = Some (c, st) -> (work c st <= n)%nat ->
    exists ds, Forall (fun d => d = Step i now \/ exists k, d = Answer i (answers k)) ds
      /\ exists news r, log (run expires root ds s) = log s ++ news ++ [Ended i r].
  Proof.
    induction n as [|n IH]; intros c st s T W.
    { exfalso. destruct c as [p t|p kind k|x]; unfold work in W; cbn in W; lia. }
    assert (Next : forall d, (d = Step i now \/ exists k, d = Answer i (answers k)) ->
              (exists new, log (step expires root d s) = log s ++ new) ->
              (match tasks (step expires root d s) i with
               | None => exists x, log (step expires root d s) = log s ++ [Ended i x]
               | Some (c', st') => (work c' st' < work c st)%nat end) ->
              exists ds, Forall (fun d => d = Step i now \/ exists k, d = Answer i (answers k)) ds
                /\ exists news r, log (run expires root ds s) = log s ++ news ++ [Ended i r]).
    { intros d D (new & L) H. destruct (tasks (step expires root d s) i) as [[c' st']|] eqn:T'.
      - destruct (IH _ _ _ T') as (ds & F & news & r & E); [lia|]. exists (d :: ds). split; [constructor; assumption|].
        exists (new ++ news), r. cbn [run]. rewrite E, L, <- !app_assoc. reflexivity.
      - destruct H as (x & E). exists [d]. split; [constructor; [exact D|constructor]|]. exists [], x. exact E. }
    destruct c as [p t|p kind k|x].
    - apply (Next (Step i now)); [auto| |cbn [step]; rewrite T; apply move_works; discriminate]. cbn [step]. rewrite T. apply move_log.
    - apply (Next (Answer i (answers k))); [eauto| |].
      + exists [Answered i k (answers k)]. cbn [step]. rewrite T. destruct (answers k) as [id|e]; [destruct (keeps kind)|]; reflexivity.
      + cbn [step]. rewrite T. destruct (answers k) as [id|e]; [destruct (keeps kind)|]; cbn; rewrite Nat.eqb_refl; unfold work; cbn; lia.
    - apply (Next (Step i now)); [auto| |cbn [step]; rewrite T; apply move_works; discriminate]. cbn [step]. rewrite T. apply move_log.
  Qed.

  (** A task without a call has ended all its calls. *)
  Definition closed (s : state) : Prop :=
    forall i, tasks s i = None -> forall before mid, log s = before ++ Began i :: mid -> exists x, In (Ended i x) mid.
  Lemma closed_changes s os (s' : state) : closed s -> log s' = log s ++ os ->
    (forall j, tasks s' j = None -> (exists x, In (Ended j x) os) \/ (tasks s j = None /\ ~ In (Began j) os)) ->
    Forall (fun o => match o with Began j => tasks s' j <> None | _ => True end) os -> closed s'.
  Proof.
    intros C L T B j Tj before mid E. rewrite L in E.
    assert (G : exists os1 mid0, (mid = mid0 ++ os /\ log s = before ++ Began j :: mid0) \/ (In (Began j) os /\ os1 = @nil (obs I))).
    { clear -E. revert mid E. induction os as [|o os IH] using rev_ind; intros mid E.
      - exists [], mid. left. rewrite app_nil_r in *. auto.
      - rewrite app_assoc in E. apply split_last in E. destruct E as [(_ & _ & <-)|(b' & -> & E)].
        + exists [], []. right. split; [|reflexivity]. apply in_or_app. right. left. reflexivity.
        + destruct (IH _ E) as (o1 & m0 & [(-> & E')|(J & _)]).
          * exists [], m0. left. rewrite app_assoc. auto.
          * exists [], []. right. split; [|reflexivity]. apply in_or_app. auto. }
    destruct G as (os1 & mid0 & [(-> & E')|(J & _)]).
    - destruct (T j Tj) as [(x & X)|(X & _)]; [exists x; apply in_or_app; auto|]. destruct (C j X _ _ E') as (x & Y). exists x. apply in_or_app. auto.
    - rewrite Forall_forall in B. destruct (B _ J Tj).
  Qed.
  Lemma closed_step e s : closed s -> closed (step expires root e s).
  Proof.
    intros C.
    assert (G : forall i v os (s' : state), tasks s i <> None -> log s' = log s ++ os -> Forall quiet os ->
              (forall j, tasks s' j = if Nat.eqb j i then Some v else tasks s j) -> closed s').
    { intros i v os s' _ L Q T. eapply closed_changes; [exact C|exact L| |].
      - intros j. rewrite T. destruct (Nat.eqb j i); [discriminate|]. intros E. right. split; [exact E|]. intros J. rewrite Forall_forall in Q. exact (Q _ J).
      - eapply Forall_impl; [|exact Q]. intros []; cbn; tauto. }
    destruct e as [i|i now|i r| |p]; cbn [step].
    - destruct (tasks s i) as [[c st]|] eqn:T; [exact C|]. eapply (closed_changes s [Began i]); [exact C|reflexivity| |].
      + intros j. cbn. destruct (Nat.eqb_spec j i); [discriminate|]. intros E. right. split; [exact E|]. intros [[=]|[]]. congruence.
      + constructor; [|constructor]. cbn. rewrite Nat.eqb_refl. discriminate.
    - destruct (tasks s i) as [[c st]|] eqn:T; [|exact C]. assert (N : tasks s i <> None) by congruence.
      destruct c as [p [kind k|ts|ts]|p kind k|x]; cbn [move].
      + destruct (held s p) as [id|]; [destruct (gives expires kind id now)|];
          (eapply (G i); [exact N|reflexivity|repeat constructor|reflexivity]).
      + assert (A : closed (set_task i (Some (Back (Err IdentityErr), mkFrame p true 0 ts :: st)) s)).
        { eapply (G i _ []); [exact N|cbn; now rewrite app_nil_r|constructor|reflexivity]. }
        destruct (held s p) as [id|]; [destruct (usable expires WhileUnexpired id now)|]; [|exact A|exact A].
        eapply (G i); [exact N|reflexivity|repeat constructor|reflexivity].
      + eapply (G i _ []); [exact N|cbn; now rewrite app_nil_r|constructor|reflexivity].
      + exact C.
      + destruct st as [|f st].
        * eapply (closed_changes s [Ended i x]); [exact C|reflexivity| |repeat constructor]. intros j. cbn. destruct (Nat.eqb_spec j i) as [->|].
          -- intros _. left. exists x. left. reflexivity.
          -- intros E. right. split; [exact E|]. intros [[=]|[]].
        * assert (K : forall v (s' : state), log s' = log s -> (forall j, tasks s' j = if Nat.eqb j i then Some v else tasks s j) -> closed s').
          { intros v s' L E. eapply (G i v []); [exact N|rewrite L; now rewrite app_nil_r|constructor|exact E]. }
          destruct x as [id|e]; [destruct (fr_keeps f); eapply K; reflexivity|]. destruct e; try (eapply K; reflexivity).
          destruct (fr_rest f); eapply K; reflexivity.
    - destruct (tasks s i) as [[[p t|p kind k|x] st]|] eqn:T; try exact C. assert (N : tasks s i <> None) by congruence.
      destruct r as [id|e]; [destruct (keeps kind)|]; (eapply (G i _ [Answered i k _]); [exact N|reflexivity|repeat constructor|reflexivity]).
    - eapply (closed_changes s [Invalidated]); [exact C|reflexivity| |repeat constructor]. intros j E. right. split; [exact E|]. intros [[=]|[]].
    - destruct (environment_at root p); exact C.
  Qed.
  Lemma closed_run es : forall s, closed s -> closed (run expires root es s).
  Proof. induction es as [|e es IH]; intros s V; [exact V|]. apply IH, closed_step, V. Qed.
  Lemma closed_fresh : closed fresh_state.
  Proof. intros i _ [|? ?] mid; discriminate. Qed.
End Order.

Lemma skipn_first {A} n (l : list A) x rest : skipn n l = x :: rest -> nth_error l n = Some x.
Proof. revert l. induction n as [|n IH]; intros [|y l]; cbn; try discriminate; [now intros [= -> _]|apply IH]. Qed.
Lemma skipn_add {A} n m (l : list A) : skipn n (skipn m l) = skipn (n + m) l.
Proof.
  rewrite Nat.add_comm. revert l. induction m as [|m IH]; intros l; [reflexivity|]. destruct l as [|x l]; [now rewrite skipn_nil|]. apply IH.
Qed.
(** ** What is found in a resolver was answered by a source below it. *)
Section Places.
  Context {I : Type}.
  Variable expires : I -> option Z.
  Variable root : tree.
  Notation state := (state I).

  Definition chain_of (kp : bool) (ts : list tree) : tree := if kp then TChained ts else TChain ts.
  Lemma sources_chain kp ts : sources (chain_of kp ts) = flat_map sources ts.
  Proof. destruct kp; reflexivity. Qed.
  (** A resolver at a place, below the chains of a stack. *)
  Fixpoint stack_ok (p : path) (t : tree) (st : list frame) : Prop :=
    match st with
    | [] => p = [] /\ t = root
    | f :: st' => exists n ts, p = fr_path f ++ [n] /\ fr_next f = S n /\ nth_error ts n = Some t /\ fr_rest f = skipn (S n) ts
                   /\ stack_ok (fr_path f) (chain_of (fr_keeps f) ts) st'
    end.
  Definition said (lg : list (obs I)) (t : tree) (id : I) : Prop := exists j k, In k (sources t) /\ In (Answered j k (Ok id)) lg.
  Definition place_ok (lg : list (obs I)) (c : control (I := I)) (st : list frame) : Prop :=
    match c with
    | Eval p t => stack_ok p t st
    | Wait p kind k => stack_ok p (TLeaf kind k) st
    | Back x =>
      match st with
      | [] => True
      | f :: st' => exists ts, stack_ok (fr_path f) (chain_of (fr_keeps f) ts) st' /\ fr_rest f = skipn (fr_next f) ts
                     /\ forall id, x = Ok id -> said lg (chain_of (fr_keeps f) ts) id
      end
    end.
  Record pinv (s : state) : Prop := {
    pinv_tasks : forall i c st, tasks s i = Some (c, st) -> place_ok (log s) c st;
    pinv_held : forall p id, held s p = Some id -> exists t, resolver_at root p = Some t /\ (forall ts, t <> TChain ts) /\ said (log s) t id;
    pinv_found : forall before i p e id now after, log s = before ++ Found i p e id now :: after ->
      exists t, resolver_at root p = Some t /\ said before t id }.

  Lemma said_more a b t id : said a t id -> said (a ++ b) t id.
  Proof. intros (j & k & K & A). exists j, k. split; [exact K|]. apply in_or_app. auto. Qed.
  Lemma place_more a b c st : place_ok a c st -> place_ok (a ++ b) c st.
  Proof.
    destruct c as [p t|p kind k|x]; cbn; auto. destruct st as [|f st]; [auto|]. intros (ts & A & B & C). exists ts. split; [exact A|]. split; [exact B|].
    intros id E. apply said_more, C, E.
  Qed.
  Lemma resolver_at_app t p n : resolver_at t (p ++ [n]) =
    match resolver_at t p with
    | Some (TChained ts) | Some (TChain ts) => nth_error ts n
    | _ => None
    end.
  Proof.
    revert t. induction p as [|m p IH]; intros t; cbn [app resolver_at].
    - destruct t as [kind k|ts|ts]; [reflexivity| |]; destruct (nth_error ts n); reflexivity.
    - destruct t as [kind k|ts|ts]; [reflexivity| |]; destruct (nth_error ts m); auto.
  Qed.
  Lemma stack_at st : forall p t, stack_ok p t st -> resolver_at root p = Some t.
  Proof.
    induction st as [|f st IH]; intros p t; cbn.
    - intros [-> ->]. reflexivity.
    - intros (n & ts & -> & _ & N & _ & S). rewrite resolver_at_app, (IH _ _ S). destruct (fr_keeps f); exact N.
  Qed.
  (** An identity is handed to the chain above. *)
  Lemma hand_up lg p t st id : stack_ok p t st -> said lg t id -> place_ok lg (Back (Ok id)) st.
  Proof.
    destruct st as [|f st]; cbn; [auto|]. intros (n & ts & _ & Nx & N & R & S) (j & k & K & A). exists ts. split; [exact S|]. split; [now rewrite Nx|].
    intros id' [= <-]. exists j, k. split; [|exact A]. rewrite sources_chain. apply in_flat_map. exists t. split; [|exact K]. eapply nth_error_In, N.
  Qed.
  Lemma hand_err lg p t st e : stack_ok p t st -> place_ok lg (Back (Err e)) st.
  Proof.
    destruct st as [|f st]; cbn; [auto|]. intros (n & ts & _ & Nx & N & R & S). exists ts. split; [exact S|]. split; [now rewrite Nx|]. discriminate.
  Qed.

  Lemma pinv_changes s i nc h os (s' : state) : pinv s ->
    tasks s' = (fun j => if Nat.eqb j i then nc else tasks s j) -> held s' = h -> log s' = log s ++ os ->
    (forall c st, nc = Some (c, st) -> place_ok (log s ++ os) c st) ->
    (forall p id, h p = Some id -> exists t, resolver_at root p = Some t /\ (forall ts, t <> TChain ts) /\ said (log s ++ os) t id) ->
    (forall before i p e id now after, log s ++ os = before ++ Found i p e id now :: after -> exists t, resolver_at root p = Some t /\ said before t id) -> pinv s'.
  Proof.
    intros V T H L C K F. constructor; rewrite ?L.
    - intros j c st. rewrite T. destruct (Nat.eqb j i); [apply C|]. intros E. apply place_more, (pinv_tasks _ V _ _ _ E).
    - rewrite H. exact K.
    - exact F.
  Qed.
  Lemma found_not s (o : obs I) : pinv s -> match o with Found _ _ _ _ _ => False | _ => True end ->
    forall before i p e id now after, log s ++ [o] = before ++ Found i p e id now :: after -> exists t, resolver_at root p = Some t /\ said before t id.
  Proof.
    intros V Q before i p e id now after E. apply split_last in E. destruct E as [(_ & _ & <-)|(b' & -> & E)]; [destruct Q|]. exact (pinv_found _ V _ _ _ _ _ _ _ E).
  Qed.
  Lemma found_nil s : pinv s ->
    forall before i p e id now after, log s ++ [] = before ++ Found i p e id now :: after -> exists t, resolver_at root p = Some t /\ said before t id.
  Proof. intros V before i p e id now after E. rewrite app_nil_r in E. exact (pinv_found _ V _ _ _ _ _ _ _ E). Qed.
  Lemma held_more s os : pinv s -> forall p id, held s p = Some id -> exists t, resolver_at root p = Some t /\ (forall ts, t <> TChain ts) /\ said (log s ++ os) t id.
  Proof. intros V p id H. destruct (pinv_held _ V _ _ H) as (t & R & N & S). exists t. split; [exact R|]. split; [exact N|]. apply said_more, S. Qed.

  Lemma pinv_move i now c st s : tasks s i = Some (c, st) -> pinv s -> pinv (move expires i now c st s).
  Proof.
    intros T V. pose proof (pinv_tasks _ V _ _ _ T) as K.
    assert (Found_ : forall p t b id, stack_ok p t st -> held s p = Some id -> pinv (see (Found i p b id now) (set_task i (Some (Back (Ok id), st)) s))).
    { intros p t b id S H. pose proof (stack_at _ _ _ S) as R. destruct (pinv_held _ V _ _ H) as (t' & R' & _ & Sa). rewrite R in R'. injection R' as <-.
      eapply (pinv_changes s i _ _ [Found i p b id now]); [exact V|reflexivity|reflexivity|reflexivity| |exact (held_more s _ V)|].
      - intros c1 st1 [= <- <-]. apply place_more. eapply hand_up; eauto.
      - intros before j q e id' now' after E. apply split_last in E. destruct E as [(_ & -> & [= <- <- <- <- <-])|(b' & -> & E)]; [exists t; auto|]. exact (pinv_found _ V _ _ _ _ _ _ _ E). }
    assert (Quiet_ : forall c' st' o, match o with Found _ _ _ _ _ => False | _ => True end -> place_ok (log s) c' st' -> pinv (see o (set_task i (Some (c', st')) s))).
    { intros c' st' o Q P. eapply (pinv_changes s i _ _ [o]); [exact V|reflexivity|reflexivity|reflexivity| |exact (held_more s _ V)|now apply (found_not s)].
      intros c1 st1 [= <- <-]. now apply place_more. }
    assert (Silent_ : forall c' st', place_ok (log s) c' st' -> pinv (set_task i (Some (c', st')) s)).
    { intros c' st' P. eapply (pinv_changes s i _ _ []); [exact V|reflexivity|reflexivity|cbn; now rewrite app_nil_r| |exact (held_more s _ V)|exact (found_nil s V)].
      intros c1 st1 [= <- <-]. now apply place_more. }
    destruct c as [p [kind k|ts|ts]|p kind k|x]; cbn [move].
    - destruct (held s p) as [id|] eqn:H; [|now apply Quiet_]. destruct (gives expires kind id now); [|now apply Quiet_]. eapply Found_; eauto.
    - assert (A : pinv (set_task i (Some (Back (Err IdentityErr), mkFrame p true 0 ts :: st)) s)).
      { apply Silent_. exists ts. split; [exact K|]. split; [reflexivity|discriminate]. }
      destruct (held s p) as [id|] eqn:H; [|exact A]. destruct (usable expires WhileUnexpired id now); [|exact A]. eapply Found_; eauto.
    - apply Silent_. exists ts. split; [exact K|]. split; [reflexivity|discriminate].
    - exact V.
    - destruct st as [|f st].
      + eapply (pinv_changes s i None _ [Ended i x]); [exact V|reflexivity|reflexivity|reflexivity|discriminate|exact (held_more s _ V)|now apply (found_not s)].
      + cbn in K. destruct K as (ts & S & R & Sa). destruct x as [id|e].
        * specialize (Sa id eq_refl). assert (P : place_ok (log s) (Back (Ok id)) st) by (eapply hand_up; eauto).
          destruct (fr_keeps f) eqn:Kp; [|now apply Silent_].
          eapply (pinv_changes s i (Some (Back (Ok id), st)) _ []); [exact V|reflexivity|reflexivity|cbn; now rewrite app_nil_r| | |exact (found_nil s V)].
          -- intros c1 st1 [= <- <-]. now apply place_more.
          -- intros p id'. cbn. unfold path_eqb. destruct (list_eq_dec Nat.eq_dec p (fr_path f)) as [->|]; [|apply (held_more s _ V)].
             intros [= <-]. exists (TChained ts). split; [exact (stack_at _ _ _ S)|]. split; [discriminate|]. now apply said_more.
        * destruct e; try (apply Silent_; eapply hand_err; eauto). destruct (fr_rest f) as [|t rest] eqn:Rs; [apply Silent_; eapply hand_err; eauto|].
          apply Silent_. exists (fr_next f), ts. cbn [fr_path fr_next fr_rest fr_keeps]. split; [reflexivity|]. split; [reflexivity|].
          assert (Nt : nth_error ts (fr_next f) = Some t).
          { apply skipn_first with (rest := rest). now rewrite <- R. }
          split; [exact Nt|]. split; [|exact S]. change (Datatypes.S (fr_next f)) with (1 + fr_next f)%nat. rewrite <- skipn_add, <- R. reflexivity.
  Qed.

  Lemma pinv_step e s : pinv s -> pinv (step expires root e s).
  Proof.
    intros V. destruct e as [i|i now|i r| |p]; cbn [step].
    - destruct (tasks s i) as [[c st]|] eqn:T; [exact V|].
      eapply (pinv_changes s i _ _ [Began i]); [exact V|reflexivity|reflexivity|reflexivity| |exact (held_more s _ V)|now apply (found_not s)].
      intros c1 st1 [= <- <-]. split; reflexivity.
    - destruct (tasks s i) as [[c st]|] eqn:T; [|exact V]. now apply pinv_move.
    - destruct (tasks s i) as [[[p t|p kind k|x] st]|] eqn:T; try exact V. pose proof (pinv_tasks _ V _ _ _ T) as S. cbn in S.
      assert (A : forall id, r = Ok id -> said (log s ++ [Answered i k r]) (TLeaf kind k) id).
      { intros id ->. exists i, k. split; [left; reflexivity|]. apply in_or_app. right. left. reflexivity. }
      destruct r as [id|e].
      + assert (P : forall c1 st1, Some (Back (Ok id), st) = Some (c1, st1) -> place_ok (log s ++ [Answered i k (Ok id)]) c1 st1).
        { intros c1 st1 [= <- <-]. eapply hand_up; eauto. }
        destruct (keeps kind).
        * eapply (pinv_changes s i (Some (Back (Ok id), st)) _ [Answered i k (Ok id)]); [exact V|reflexivity|reflexivity|reflexivity|exact P| |now apply (found_not s)].
          intros q id'. cbn. unfold path_eqb. destruct (list_eq_dec Nat.eq_dec q p) as [->|]; [|apply (held_more s _ V)].
          intros [= <-]. exists (TLeaf kind k). split; [exact (stack_at _ _ _ S)|]. split; [discriminate|]. now apply A.
        * eapply (pinv_changes s i (Some (Back (Ok id), st)) _ [Answered i k (Ok id)]); [exact V|reflexivity|reflexivity|reflexivity|exact P|exact (held_more s _ V)|now apply (found_not s)].
      + eapply (pinv_changes s i _ _ [Answered i k (Err e)]); [exact V|reflexivity|reflexivity|reflexivity| |exact (held_more s _ V)|now apply (found_not s)].
        intros c1 st1 [= <- <-]. eapply hand_err; eauto.
    - constructor; cbn.
      + intros i c st T. apply place_more, (pinv_tasks _ V _ _ _ T).
      + intros p id. destruct (environment_at root p); [|discriminate]. apply (held_more s _ V).
      + now apply (found_not s).
    - destruct (environment_at root p); [exact V|]. destruct V as [A B C]. constructor; [exact A| |exact C].
      intros q id. cbn. destruct (path_eqb q p); [discriminate|apply B].
  Qed.
  Lemma pinv_run es : forall s, pinv s -> pinv (run expires root es s).
  Proof. induction es as [|e es IH]; intros s V; [exact V|]. apply IH, pinv_step, V. Qed.
  Lemma pinv_fresh : pinv fresh_state.
  Proof. constructor; cbn; [discriminate|discriminate|]. intros [|? ?]; discriminate. Qed.
End Places.

(** ** One place after the other, or all at once. *)
Section Walk.
  Context {I : Type}.
  Variable expires : I -> option Z.
  Variable root : tree.
  Notation state := (state I).

  Definition walk (p : path) : list tree -> nat -> list path :=
    fix walk ts n := match ts with [] => [] | t :: ts => places t (p ++ [n]) ++ walk ts (S n) end.
  Lemma walk_in p t ts : forall n m q, nth_error ts m = Some t -> In q (places t (p ++ [n + m])%nat) -> In q (walk p ts n).
  Proof.
    induction ts as [|u ts IH]; intros n [|m] q; cbn [nth_error walk]; try discriminate.
    - intros [= ->] J. rewrite Nat.add_0_r in J. apply in_or_app. auto.
    - intros E J. apply in_or_app. right. apply (IH (S n) m q E). now rewrite <- Nat.add_succ_comm in J.
  Qed.
  Lemma places_in r : forall t p u, resolver_at t r = Some u -> (forall ts, u <> TChain ts) -> In (p ++ r) (places t p).
  Proof.
    induction r as [|n r IH]; intros t p u; cbn [resolver_at].
    - intros [= ->] N. rewrite app_nil_r. destruct u as [kind k|ts|ts]; [left; reflexivity|left; reflexivity|destruct (N ts eq_refl)].
    - assert (G : forall ts, match nth_error ts n with Some t' => resolver_at t' r | None => None end = Some u -> (forall ts, u <> TChain ts) -> In (p ++ n :: r) (walk p ts 0)).
      { intros ts E N. destruct (nth_error ts n) as [t'|] eqn:Et; [|discriminate]. apply (walk_in p t' ts 0 n); [exact Et|].
        cbn [Nat.add]. replace (p ++ n :: r) with ((p ++ [n]) ++ r) by now rewrite <- app_assoc. now apply (IH _ _ u). }
      destruct t as [kind k|ts|ts]; [discriminate| |]; intros E N; [right|]; now apply (G ts).
  Qed.
  Lemma forgets_run ps : forall s, let s' := run expires root (map Forgets ps) s in
    log s' = log s /\ tasks s' = tasks s
    /\ forall q, held s' q = held s q \/ held s' q = None /\ environment_at root q = false.
  Proof.
    induction ps as [|p ps IH]; intros s; cbn [map run]; [cbn; auto|]. destruct (IH (step expires root (Forgets p) s)) as (L & T & H). cbn [step] in *.
    destruct (environment_at root p) eqn:E; [auto|]. cbn in L, T. split; [exact L|]. split; [exact T|]. intros q. specialize (H q). cbn in H. unfold path_eqb in H.
    destruct (list_eq_dec Nat.eq_dec q p) as [->|]; [|exact H]. destruct H as [H|H]; auto.
  Qed.
  Lemma forgets_in ps q : forall s, In q ps -> environment_at root q = false -> held (run expires root (map Forgets ps) s) q = None.
  Proof.
    induction ps as [|p ps IH]; intros s; [intros []|]. intros J E. cbn [map run]. destruct (in_dec (list_eq_dec Nat.eq_dec) q ps) as [Y|N]; [now apply IH|].
    destruct J as [->|J]; [|destruct (N J)]. destruct (forgets_run ps (step expires root (Forgets q) s)) as (_ & _ & H). destruct (H q) as [X|X]; [|apply X].
    rewrite X. cbn [step]. rewrite E. cbn. unfold path_eqb. now destruct (list_eq_dec Nat.eq_dec q q).
  Qed.

  (** States that differ only in that one log says [Invalidated] once more. *)
  Definition twin (pre : list (obs I)) (s s' : state) : Prop :=
    (forall p, held s p = held s' p) /\ (forall i, tasks s i = tasks s' i) /\ exists mid, log s = pre ++ Invalidated :: mid /\ log s' = pre ++ mid.
  Lemma twin_see pre o s s' : twin pre s s' -> twin pre (see o s) (see o s').
  Proof.
    intros (H & T & mid & L & L'). split; [exact H|]. split; [exact T|]. exists (mid ++ [o]). cbn. rewrite L, L', <- !app_assoc. split; reflexivity.
  Qed.
  Lemma twin_set pre i c s s' : twin pre s s' -> twin pre (set_task i c s) (set_task i c s').
  Proof. intros (H & T & L). split; [exact H|]. split; [|exact L]. intros j. cbn. destruct (Nat.eqb j i); [reflexivity|apply T]. Qed.
  Lemma twin_keep pre p v s s' : twin pre s s' -> twin pre (keep p v s) (keep p v s').
  Proof. intros (H & T & L). split; [|split; [exact T|exact L]]. intros q. cbn. destruct (path_eqb q p); [reflexivity|apply H]. Qed.
  Lemma twin_step pre e s s' : twin pre s s' -> twin pre (step expires root e s) (step expires root e s').
  Proof.
    intros W. pose proof W as (H & T & _). destruct e as [i|i now|i r| |p]; cbn [step].
    - rewrite <- T. destruct (tasks s i); [exact W|]. apply twin_see, twin_set, W.
    - rewrite <- T. destruct (tasks s i) as [[c st]|]; [|exact W].
      destruct c as [p [kind k|ts|ts]|p kind k|x]; cbn [move]; rewrite <- ?H.
      + destruct (held s p) as [id|]; [destruct (gives expires kind id now)|]; apply twin_see, twin_set, W.
      + destruct (held s p) as [id|]; [destruct (usable expires WhileUnexpired id now); [apply twin_see|]|]; apply twin_set, W.
      + apply twin_set, W.
      + exact W.
      + destruct st as [|f st]; [apply twin_see, twin_set, W|]. destruct x as [id|e].
        * destruct (fr_keeps f); [apply twin_keep|]; apply twin_set, W.
        * destruct e; try apply twin_set, W. destruct (fr_rest f); apply twin_set, W.
    - rewrite <- T. destruct (tasks s i) as [[[p t|p kind k|x] st]|]; try exact W.
      destruct r as [id|e]; [destruct (keeps kind); [apply twin_keep|]|]; apply twin_see, twin_set, W.
    - apply twin_see. destruct W as (_ & _ & L). split; [|split; [exact T|exact L]]. intros p. cbn. destruct (environment_at root p); [apply H|reflexivity].
    - destruct (environment_at root p); [exact W|]. apply twin_keep, W.
  Qed.
  Lemma twin_run pre es : forall s s', twin pre s s' -> twin pre (run expires root es s) (run expires root es s').
  Proof. induction es as [|e es IH]; intros s s' W; [exact W|]. apply IH, twin_step, W. Qed.
  Lemma twin_walk s : pinv root s -> twin (log s) (step expires root Invalidates s) (run expires root (map Forgets (places root [])) s).
  Proof.
    intros V. destruct (forgets_run (places root []) s) as (L & T & H). split; [|split; [now rewrite T|exists []; rewrite app_nil_r; split; [reflexivity|exact L]]].
    intros p. cbn [step see held]. destruct (environment_at root p) eqn:E.
    - destruct (H p) as [X|[_ X]]; [now rewrite X|congruence].
    - destruct (held s p) as [id|] eqn:Hp; [|destruct (H p) as [X|[X _]]; now rewrite X].
      destruct (pinv_held _ _ V _ _ Hp) as (t & R & N & _). symmetry. apply forgets_in; [|exact E]. exact (places_in p root [] t R N).
  Qed.
End Walk.
