(** An invariant of the log and the client for tests. *)
From Verif Require Import Base Base_Proofs Retry_Model Client_Model Client_Spec AuthResolver_Proofs MockPipeline_Model MockPipeline_Spec.
From Coq Require Import QArith.
Local Open Scope nat_scope.

Section Mock.
  Context {S : sorts} {W : Type}.
  Variable exhausted : Exc S.
  Variable E : env S W.
  Variable q : list (Resp S).
  Variable c : list (Req S).
  Notation M := (with_mock exhausted E).

  Lemma transmitted_app (a b : list (event S)) : transmitted (a ++ b) = transmitted a ++ transmitted b.
  Proof. induction a as [|e a IH]; [reflexivity|]. destruct e; cbn; rewrite ?IH; reflexivity. Qed.
  Definition quiet_event (e : event S) : Prop := match e with EvSend _ _ => False | _ => True end.
  Lemma transmitted_quiet (a : list (event S)) e : quiet_event e -> transmitted (a ++ [e]) = transmitted a.
  Proof. intros Q. rewrite transmitted_app. destruct e; cbn; rewrite ?app_nil_r; try reflexivity. destruct Q. Qed.

  Definition served (m : mock S) (t : list (Req S * (Resp S + Exc S))) : Prop :=
    m_captured m = c ++ map fst t /\ m_queue m = skipn (List.length t) q
    /\ map snd t = map inl (firstn (List.length t) q) ++ repeat (inr exhausted) (List.length t - List.length q).
  Definition K (w : W * mock S * list (event S)) : Prop := served (snd (fst w)) (transmitted (snd w)).

  Lemma kept_beside {X} (ev : X + Exc S -> event S) (m : eff S W X) : (forall x, quiet_event (ev x)) -> kept K (logged ev (beside m)).
  Proof.
    intros Q [[w m0] log] Kw. unfold logged, beside, K in *. cbn [fst snd] in *. destruct (m w) as [x w']. cbn. now rewrite transmitted_quiet.
  Qed.
  Lemma kept_send r : kept K (logged (EvSend r) (mock_send exhausted r)).
  Proof.
    intros [[w [mq mc]] log] (C & Q & A). unfold logged, mock_send, K, served in *. cbn [fst snd m_queue m_captured] in *. subst mq mc.
    set (t := transmitted log) in *.
    destruct (skipn (List.length t) q) as [|p rest] eqn:Sk; cbn [fst snd m_queue m_captured]; rewrite transmitted_app; cbn [transmitted]; fold t;
      rewrite !map_app, app_length, A; cbn [map List.length fst snd]; rewrite <- app_assoc; (split; [reflexivity|]).
    - assert (L : List.length q <= List.length t).
      { assert (X : List.length (skipn (List.length t) q) = 0) by now rewrite Sk. rewrite skipn_length in X. lia. }
      split; [now rewrite skipn_all2 by lia|]. rewrite !firstn_all2 by lia. rewrite <- app_assoc. f_equal.
      replace (List.length t + 1 - List.length q) with (Datatypes.S (List.length t - List.length q)) by lia. symmetry. apply repeat_cons.
    - assert (L : List.length t < List.length q).
      { assert (X : List.length (skipn (List.length t) q) = Datatypes.S (List.length rest)) by now rewrite Sk. rewrite skipn_length in X. lia. }
      assert (Eq : q = firstn (List.length t) q ++ p :: rest) by (rewrite <- Sk; symmetry; apply firstn_skipn).
      assert (F : List.length (firstn (List.length t) q) = List.length t) by (rewrite firstn_length; lia).
      split.
      + rewrite Eq, skipn_app, F, skipn_all2 by lia. replace (List.length t + 1 - List.length t) with 1 by lia. reflexivity.
      + replace (List.length t + 1 - List.length q) with 0 by lia. replace (List.length t - List.length q) with 0 by lia. cbn [repeat]. rewrite !app_nil_r.
        rewrite Eq at 2. rewrite firstn_app, F, (firstn_all2 (n := List.length t + 1)) by lia. replace (List.length t + 1 - List.length t) with 1 by lia.
        cbn [firstn]. now rewrite map_app.
  Qed.
  Lemma mock_auth opts r w : K w -> K (snd (authenticate (spy_env M) opts r w)).
  Proof.
    intros Kw. unfold authenticate. destruct (resolve_auth (spy_env M) opts) as [[o s]|]; [|exact Kw].
    set (b := bthen _ _). enough (B : bkept K b) by exact (B w Kw). unfold b.
    apply k_bthen; [intros [[v m] log] Kv; exact Kv|intros _].
    repeat (apply k_bthen; [apply k_at; apply kept_beside; exact (fun _ => Logic.I)|intros ?]). apply k_at, kept_beside. exact (fun _ => Logic.I).
  Qed.
  Lemma mock_preserved : preserved (spy_env M) K.
  Proof.
    constructor; intros; try (apply kept_beside; exact (fun _ => Logic.I)).
    - apply mock_auth. assert (Ko : kept K (e_auth_options (spy_env M))) by (apply kept_beside; exact (fun _ => Logic.I)).
      specialize (Ko w H). rewrite H0 in Ko. exact Ko.
    - cbn [spy_env e_future with_mock] in H. destruct (e_future E) as [g|]; [|discriminate]. injection H as <-. apply kept_beside. exact (fun _ => Logic.I).
    - apply kept_send.
    - destruct w as [[w m] log]. cbn. destruct (e_copy E r w). unfold K in *. cbn in *. now rewrite transmitted_quiet.
    - destruct w as [[w m] log]. cbn. destruct (e_refresh E t e w). unfold K in *. cbn in *. now rewrite transmitted_quiet.
  Qed.
  Lemma mock_served fuel ci w final w' m' es :
    execute (spy_env M) fuel ci ((w, mkMock q c), []) = Some (final, ((w', m'), es)) -> served m' (transmitted es).
  Proof.
    intros H. apply (k_execute (spy_env M) K mock_preserved) in H; [exact H|]. split; [cbn; now rewrite app_nil_r|]. split; reflexivity.
  Qed.
End Mock.
