(** Proofs about the event signer, publisher and receiver. *)
From Verif Require Import Base Base_Proofs Utf8_Model EventStream_Model EventStream_Spec EventStream_Proofs EventIO_Model EventIO_Spec
  Streams_Model Streams_Spec Streams_Proofs.
Local Open Scope N_scope.

Lemma nth_error_set_nth {A} i (x : A) l k :
  nth_error (set_nth i x l) k = if Nat.eqb k i then (if Nat.ltb i (List.length l) then Some x else None) else nth_error l k.
Proof.
  revert i k; induction l as [|y r IH]; intros [|i] [|k]; cbn; try reflexivity.
  - destruct (Nat.eqb k i); reflexivity.
  - rewrite IH. reflexivity.
Qed.
Lemma nth_error_lt {A} (l : list A) i x : nth_error l i = Some x -> (i < List.length l)%nat.
Proof. intros H. apply nth_error_Some. rewrite H. discriminate. Qed.

Lemma bind_ok {A B} (r : result A) (f : A -> result B) b :
  bind r f = Ok b -> exists a, r = Ok a /\ f a = Ok b.
Proof. destruct r; cbn; [eauto|discriminate]. Qed.

Section Sign.
  Context (sha256 : bytes -> bytes) (hmac : bytes -> bytes -> bytes).

  Lemma sign_body_spec st secret p now payload fin m sg :
    sign_body sha256 hmac st secret p now payload = Ok (m, sg) ->
    sg_final st = false /\ signed_as sha256 hmac (sg_prior st) (mkJob secret p now payload fin) m sg.
  Proof.
    unfold sign_body. destruct (sg_final st) eqn:Ef; [discriminate|]. intros H. split; [reflexivity|].
    apply bind_ok in H as (eh & Heh & H). apply bind_ok in H as (sts & Hsts & H). apply bind_ok in H as (sg' & Hsg & H).
    injection H as Hm Hs. subst sg'.
    unfold event_string_to_sign in Hsts. apply bind_ok in Hsts as (pr & Hpr & Hsts). injection Hsts as Hsts.
    unfold sign_event in Hsg.
    apply bind_ok in Hsg as (key & Hkey & Hsg). apply bind_ok in Hsg as (today & Htoday & Hsg).
    apply bind_ok in Hsg as (region & Hregion & Hsg). apply bind_ok in Hsg as (service & Hservice & Hsg).
    apply bind_ok in Hsg as (s & Hs & Hsg). injection Hsg as Hsg.
    unfold signed_as. cbn [j_secret j_props j_now j_payload].
    exists (match sp_date p with Some d => d | None => t_stamp now end), key, today, region, service, eh, pr, s.
    repeat split; auto. rewrite <- Hs, <- Hsts. unfold scope. cbn [lines].
    reflexivity.
  Qed.

  Definition sinv (seed : bytes) (y : ssys) : Prop :=
    chain sha256 hmac seed (y_log y) (sg_prior (y_signer y)) (sg_final (y_signer y)) /\
    (forall i j, nth_error (y_jobs y) i = Some (JLocked j) -> y_lock y = Some i) /\
    (forall i j m sg, nth_error (y_jobs y) i = Some (JSigned j m sg) -> y_lock y = Some i /\
       sign_body sha256 hmac (y_signer y) (j_secret j) (j_props j) (j_now j) (j_payload j) = Ok (m, sg)) /\
    (forall i m, nth_error (y_jobs y) i = Some (JDone (Ok m)) -> exists j, In (j, m) (y_log y)).

  Lemma job_eta j : mkJob (j_secret j) (j_props j) (j_now j) (j_payload j) (j_final j) = j.
  Proof. destruct j; reflexivity. Qed.

  Ltac split_set H :=
    rewrite nth_error_set_nth in H;
    match type of H with context[Nat.eqb ?a ?b] => destruct (Nat.eqb_spec a b) end;
    [subst; destruct (Nat.ltb _ _); [|discriminate H]; try discriminate H|].

  Lemma sstep_inv seed i c y : sinv seed y -> sinv seed (sstep sha256 hmac i c y).
  Proof.
    intros (Hch & Hlk & Hsg & Hdn). unfold sstep.
    destruct (nth_error (y_jobs y) i) as [[j|j|j m sg|r]|] eqn:Ei; [| | |repeat split; auto; eapply Hsg; eauto|repeat split; auto; eapply Hsg; eauto].
    - destruct c; [|destruct (y_lock y) eqn:El; [unfold sinv; rewrite El; repeat split; auto; eapply Hsg; eauto|]];
        unfold sinv; cbn [y_signer y_lock y_jobs y_log]; (split; [exact Hch|split; [|split]]).
      + intros k j' H. split_set H. eauto.
      + intros k j' m sg H. split_set H. eauto.
      + intros k m H. split_set H. eauto.
      + intros k j' H. split_set H; [reflexivity|]. apply Hlk in H. discriminate.
      + intros k j' m sg H. split_set H. apply Hsg in H as [H _]. discriminate.
      + intros k m H. split_set H. eauto.
    - pose proof (Hlk _ _ Ei) as El. rewrite El. cbn [holds]. rewrite Nat.eqb_refl.
      assert (Hother : forall k j', k <> i -> nth_error (y_jobs y) k <> Some (JLocked j')).
      { intros k j' Hk H. apply Hlk in H. congruence. }
      assert (Hother2 : forall k j' m sg, nth_error (y_jobs y) k <> Some (JSigned j' m sg)).
      { intros k j' m sg H. pose proof H as H0. apply Hsg in H as [H _]. rewrite El in H. injection H as ->. congruence. }
      destruct c; [|destruct (sign_body _ _ _ _ _ _ _) as [[m sg]|e] eqn:Eb];
        unfold sinv; cbn [y_signer y_lock y_jobs y_log]; (split; [exact Hch|split; [|split]]).
      + intros k j' H. split_set H. destruct (Hother _ _ n H).
      + intros k j' m sg H. split_set H. destruct (Hother2 _ _ _ _ H).
      + intros k m H. split_set H. eauto.
      + intros k j' H. split_set H. destruct (Hother _ _ n H).
      + intros k j' m' sg' H. split_set H; [|destruct (Hother2 _ _ _ _ H)].
        injection H as <- <- <-. split; [reflexivity|exact Eb].
      + intros k m' H. split_set H. eauto.
      + intros k j' H. split_set H. destruct (Hother _ _ n H).
      + intros k j' m sg H. split_set H. destruct (Hother2 _ _ _ _ H).
      + intros k m H. split_set H. eauto.
    - destruct (Hsg _ _ _ _ Ei) as [El Eb]. rewrite El. cbn [holds]. rewrite Nat.eqb_refl.
      assert (Hother : forall k j', nth_error (y_jobs y) k <> Some (JLocked j')).
      { intros k j' H. pose proof H as H0. apply Hlk in H. rewrite El in H. injection H as ->. congruence. }
      assert (Hother2 : forall k j' m sg, k <> i -> nth_error (y_jobs y) k <> Some (JSigned j' m sg)).
      { intros k j' m' sg' Hk H. apply Hsg in H as [H _]. congruence. }
      destruct c; unfold sinv; cbn [y_signer y_lock y_jobs y_log]; (split; [|split; [|split]]).
      + exact Hch.
      + intros k j' H. split_set H. destruct (Hother _ _ H).
      + intros k j' m' sg' H. split_set H. destruct (Hother2 _ _ _ _ n H).
      + intros k m' H. split_set H. eauto.
      + apply sign_body_spec with (fin := j_final j) in Eb as [Ef Hs]. rewrite job_eta in Hs.
        unfold sign_commit. cbn [sg_prior sg_final]. rewrite Ef in *. rewrite orb_false_r. econstructor; eassumption.
      + intros k j' H. split_set H. destruct (Hother _ _ H).
      + intros k j' m' sg' H. split_set H. destruct (Hother2 _ _ _ _ n H).
      + intros k m' H. split_set H.
        * injection H as <-. exists j. apply in_or_app. right. left. reflexivity.
        * destruct (Hdn _ _ H) as [j' Hj]. exists j'. apply in_or_app. left. exact Hj.
  Qed.

  Lemma srun_inv seed sched y : sinv seed y -> sinv seed (srun sha256 hmac sched y).
  Proof. revert y; induction sched as [|[i c] r IH]; intros y H; cbn [srun]; [exact H|]. apply IH, sstep_inv, H. Qed.

  Lemma sinit_inv seed jobs : sinv seed (sinit seed jobs).
  Proof.
    unfold sinv, sinit. cbn [y_signer y_lock y_jobs y_log sg_prior sg_final].
    assert (H : forall i x, nth_error (map JWait jobs) i = Some x -> exists j, x = JWait j).
    { intros i x Hx. rewrite nth_error_map in Hx. destruct (nth_error jobs i); cbn in Hx; [|discriminate]. injection Hx as <-. eauto. }
    split; [constructor|]. split; [|split]; intros; match goal with E : nth_error _ _ = _ |- _ => apply H in E as [? E]; discriminate end.
  Qed.

  Lemma sign_payload_spec st secret p now payload fin m st' :
    sign_payload sha256 hmac st secret p now payload fin = Ok (m, st') ->
    exists sg, sg_final st = false /\ signed_as sha256 hmac (sg_prior st) (mkJob secret p now payload fin) m sg /\
      st' = mkSigner (hexlify sg) fin.
  Proof.
    unfold sign_payload. intros H. apply bind_ok in H as ([m' sg] & Hb & H).
    apply sign_body_spec with (fin := fin) in Hb as [Hf Hs]. unfold sign_commit in H. rewrite Hf, orb_false_r in H.
    injection H as <- <-. eauto.
  Qed.

  Lemma signed_as_shape prior j m sg :
    signed_as sha256 hmac prior j m sg ->
    m = mkMessage [(lit ":date", HTimestamp (t_millis (j_now j))); (lit ":chunk-signature", HBlob sg)] (j_payload j).
  Proof. intros (? & ? & ? & ? & ? & ? & ? & ? & H). intuition. Qed.

  (** ** Publisher, all schedules *)
  Definition closes (t : list pact) : nat := List.length (filter (fun a => match a with AClose => true | _ => false end) t).
  Definition pending_close (pc : ppc) : nat := match pc with PCloseIdent _ | PCloseWriting _ => 1 | _ => 0 end.
  Definition sum_pending (l : list ppc) : nat := fold_right (fun pc n => (pending_close pc + n)%nat) 0%nat l.

  Lemma sum_pending_set i pc0 pc l : nth_error l i = Some pc0 ->
    (sum_pending (set_nth i pc l) + pending_close pc0 = sum_pending l + pending_close pc)%nat.
  Proof.
    revert i; induction l as [|y r IH]; intros [|i]; cbn; try discriminate.
    - intros H; injection H as ->. lia.
    - intros H. specialize (IH i H). unfold sum_pending in IH. lia.
  Qed.
  Lemma writes_app a b : writes (a ++ b) = writes a ++ writes b.
  Proof. unfold writes. apply flat_map_app. Qed.
  Lemma closes_app a b : closes (a ++ b) = (closes a + closes b)%nat.
  Proof. unfold closes. rewrite filter_app, app_length. reflexivity. Qed.
  Lemma frames_app a b : frames_of (a ++ b) = frames_of a ++ frames_of b.
  Proof. unfold frames_of. apply flat_map_app. Qed.

  (** The messages that calls of [send] have put into the system. *)
  Definition origin (evs : list message) (pc : ppc) : Prop :=
    match pc with
    | PSend (Ok (Some m)) => In m evs
    | PSend (Ok None) => False
    | PSendIdent _ m => In m evs
    | _ => True
    end.

  Definition qinv (evs : list message) (seed : bytes) (q : psys) : Prop :=
    (exists p st log, p_signing (q_pub q) = Some (p, st) /\
        chain sha256 hmac seed log (sg_prior st) (sg_final st) /\
        writes (p_trace (q_pub q)) = frames_of log /\
        (forall j m, In (j, m) log -> j_props j = p /\
            ((j_final j = true /\ j_payload j = []) \/ (j_final j = false /\ exists ev, In ev evs /\ encode_message ev = Ok (j_payload j))))) /\
    (closes (p_trace (q_pub q)) + sum_pending (q_tasks q) = if p_closed (q_pub q) then 1 else 0)%nat /\
    (forall i pc, nth_error (q_tasks q) i = Some pc -> origin evs pc).

  Ltac keep :=
    match goal with
    | |- (exists p st log, _) => solve [ do 3 eexists; repeat split; eauto ]
    end.

  Lemma pstep_inv evs seed inp i pc q :
    qinv evs seed q -> nth_error (q_tasks q) i = Some pc ->
    qinv evs seed (let (pc', s') := pstep sha256 hmac inp pc (q_pub q) in mkPSys s' (set_nth i pc' (q_tasks q))).
  Proof.
    intros ((p & st & log & Hs & Hc & Hw & Hl) & Hcl & Hor) Hi.
    pose proof (Hor _ _ Hi) as Ho.
    assert (Hset : forall pc', origin evs pc' -> forall k x, nth_error (set_nth i pc' (q_tasks q)) k = Some x -> origin evs x).
    { intros pc' Hp k x H. rewrite nth_error_set_nth in H. destruct (Nat.eqb_spec k i) as [->|]; [|eauto].
      destruct (Nat.ltb _ _); [|discriminate]. injection H as <-. exact Hp. }
    assert (Hsum := fun pc' => sum_pending_set i pc pc' _ Hi).
    set (s := q_pub q) in *.
    assert (Hkeep : forall s' pc', p_signing s' = p_signing s -> writes (p_trace s') = writes (p_trace s) ->
       (closes (p_trace s') + pending_close pc' + (if p_closed s then 1 else 0) = closes (p_trace s) + pending_close pc + (if p_closed s' then 1 else 0))%nat ->
       origin evs pc' -> qinv evs seed (mkPSys s' (set_nth i pc' (q_tasks q)))).
    { intros s' pc' E1 E2 E3 E4. unfold qinv. cbn [q_pub q_tasks]. split; [|split].
      - exists p, st, log. rewrite E1, E2. auto.
      - specialize (Hsum pc'). lia.
      - apply Hset, E4. }
    destruct pc as [ser|id m|  |k|k|k|ra k|r]; cbn [pstep]; cbn [pending_close] in *.
    - (* send *)
      destruct (p_closed s) eqn:Ecl; [(apply Hkeep; cbn [emit p_signing p_trace p_closed pending_close origin]; try match goal with E : p_closed _ = _ |- _ => rewrite E end; auto; try lia)|].
      destruct ser as [[m|]|e]; [| destruct Ho | (apply Hkeep; cbn [emit p_signing p_trace p_closed pending_close origin]; try match goal with E : p_closed _ = _ |- _ => rewrite E end; auto; try lia)].
      cbn [p_last p_signing]. rewrite Hs. (apply Hkeep; cbn [emit p_signing p_trace p_closed pending_close origin]; try match goal with E : p_closed _ = _ |- _ => rewrite E end; auto; try lia).
    - (* identity *)
      destruct (i_ident inp) as [secret|e]; [|(apply Hkeep; cbn [emit p_signing p_trace p_closed pending_close origin]; try match goal with E : p_closed _ = _ |- _ => rewrite E end; auto; try lia)].
      rewrite Hs. unfold sign.
      destruct (encode_message m) as [payload|e] eqn:Em; cbn [bind]; [|(apply Hkeep; cbn [emit p_signing p_trace p_closed pending_close origin]; try match goal with E : p_closed _ = _ |- _ => rewrite E end; auto; try lia)].
      destruct (sign_payload _ _ _ _ _ _ _ _) as [[sm st']|e] eqn:Es; [|(apply Hkeep; cbn [emit p_signing p_trace p_closed pending_close origin]; try match goal with E : p_closed _ = _ |- _ => rewrite E end; auto; try lia)].
      apply sign_payload_spec in Es as (sg & Hf & Hsig & ->).
      unfold hand_over.
      assert (Hnew : forall s' pc', p_signing s' = Some (p, mkSigner (hexlify sg) false) ->
         writes (p_trace s') = writes (p_trace s) ++ frames_of [(mkJob secret p (i_now inp) payload false, sm)] ->
         closes (p_trace s') = closes (p_trace s) -> p_closed s' = p_closed s -> pending_close pc' = 0%nat -> origin evs pc' ->
         qinv evs seed (mkPSys s' (set_nth i pc' (q_tasks q)))).
      { intros s' pc' E1 E2 E3 E4 E5 E6. unfold qinv. cbn [q_pub q_tasks]. split; [|split].
        - exists p, (mkSigner (hexlify sg) false), (log ++ [(mkJob secret p (i_now inp) payload false, sm)]).
          cbn [sg_prior sg_final]. split; [exact E1|]. split; [|split].
          + change false with (j_final (mkJob secret p (i_now inp) payload false)). eapply chain_snoc; [|exact Hsig].
            rewrite Hf in Hc. exact Hc.
          + rewrite E2, Hw, frames_app. reflexivity.
          + intros j' m' Hin. apply in_app_or in Hin as [Hin|[Hin|[]]]; [eauto|]. injection Hin as <- <-. cbn.
            split; [reflexivity|]. right. split; [reflexivity|]. exists m. auto.
        - specialize (Hsum pc'). rewrite E3, E4. lia.
        - apply Hset, E6. }
      destruct (encode_message sm) as [f|e] eqn:Ef.
      + apply Hnew; cbn [emit p_signing p_trace p_closed pending_close origin]; auto.
        * rewrite writes_app. cbn [frames_of flat_map snd]. rewrite Ef. reflexivity.
        * rewrite closes_app. cbn. lia.
      + apply Hnew; cbn [emit p_signing p_trace p_closed pending_close origin]; auto.
        cbn [frames_of flat_map snd]. rewrite Ef. rewrite app_nil_r. reflexivity.
    - (* write ends *)
      destruct (i_write inp); (apply Hkeep; cbn [emit p_signing p_trace p_closed pending_close origin]; try match goal with E : p_closed _ = _ |- _ => rewrite E end; auto; try lia).
    - (* close *)
      destruct (p_closed s) eqn:Ecl; [(apply Hkeep; cbn [emit p_signing p_trace p_closed pending_close origin]; try match goal with E : p_closed _ = _ |- _ => rewrite E end; auto; try lia)|].
      cbn [p_signing]. rewrite Hs. apply Hkeep; cbn [p_signing p_trace p_closed pending_close origin]; auto. lia.
    - (* end frame identity *)
      assert (Hab : forall ra, qinv evs seed (mkPSys (emit AClose s) (set_nth i (PCloseWriter ra k) (q_tasks q)))).
      { intros ra. apply Hkeep; cbn [emit p_signing p_trace p_closed pending_close origin]; auto.
        - rewrite writes_app. apply app_nil_r.
        - rewrite closes_app. cbn. lia. }
      destruct (i_ident inp) as [secret|e]; [|apply Hab].
      rewrite Hs. unfold sign_empty. cbn [m_headers m_payload].
      destruct (sign_payload _ _ _ _ _ _ _ _) as [[sm st']|e] eqn:Es; [|apply Hab].
      apply sign_payload_spec in Es as (sg & Hf & Hsig & ->).
      assert (Hnew : forall s' pc', p_signing s' = Some (p, mkSigner (hexlify sg) true) ->
         writes (p_trace s') = writes (p_trace s) ++ frames_of [(mkJob secret p (i_now inp) [] true, sm)] ->
         p_closed s' = p_closed s -> (closes (p_trace s') + pending_close pc' = closes (p_trace s) + 1)%nat -> origin evs pc' ->
         qinv evs seed (mkPSys s' (set_nth i pc' (q_tasks q)))).
      { intros s' pc' E1 E2 E4 E5 E6. unfold qinv. cbn [q_pub q_tasks]. split; [|split].
        - exists p, (mkSigner (hexlify sg) true), (log ++ [(mkJob secret p (i_now inp) [] true, sm)]).
          cbn [sg_prior sg_final]. split; [exact E1|]. split; [|split].
          + change true with (j_final (mkJob secret p (i_now inp) [] true)). eapply chain_snoc; [|exact Hsig].
            rewrite Hf in Hc. exact Hc.
          + rewrite E2, Hw, frames_app. reflexivity.
          + intros j' m' Hin. apply in_app_or in Hin as [Hin|[Hin|[]]]; [eauto|]. injection Hin as <- <-. cbn.
            split; [reflexivity|]. left. auto.
        - specialize (Hsum pc'). rewrite E4. lia.
        - apply Hset, E6. }
      destruct (encode_message sm) as [f|e] eqn:Ef.
      + apply Hnew; cbn [emit p_signing p_trace p_closed pending_close origin]; auto.
        * rewrite writes_app. cbn [frames_of flat_map snd]. rewrite Ef. reflexivity.
        * rewrite closes_app. cbn. lia.
      + apply Hnew; cbn [emit p_signing p_trace p_closed pending_close origin]; auto.
        * rewrite writes_app. cbn [frames_of flat_map snd]. rewrite Ef. reflexivity.
        * rewrite closes_app. cbn. lia.
    - apply Hkeep; cbn [emit p_signing p_trace p_closed pending_close origin]; auto.
      + rewrite writes_app. apply app_nil_r.
      + rewrite closes_app. cbn. lia.
    - (apply Hkeep; cbn [emit p_signing p_trace p_closed pending_close origin]; try match goal with E : p_closed _ = _ |- _ => rewrite E end; auto; try lia).
    - (apply Hkeep; cbn [emit p_signing p_trace p_closed pending_close origin]; try match goal with E : p_closed _ = _ |- _ => rewrite E end; auto; try lia).
  Qed.

  Lemma qrun_inv evs seed sched q : qinv evs seed q -> qinv evs seed (qrun sha256 hmac sched q).
  Proof.
    revert q; induction sched as [|[i inp] r IH]; intros q H; cbn [qrun]; [exact H|]. apply IH.
    unfold qstep. destruct (nth_error (q_tasks q) i) as [pc|] eqn:Ei; [|exact H].
    apply (pstep_inv evs seed inp i pc q H Ei).
  Qed.

  (** Tasks a client can start. *)
  Definition client_call (evs : list message) (pc : ppc) : Prop :=
    (exists m, pc = PSend (Ok (Some m)) /\ In m evs) \/ (exists e, pc = PSend (Err e)) \/ pc = PClose None.

  Lemma qinit_inv evs p seed tasks :
    Forall (client_call evs) tasks -> qinv evs seed (mkPSys (pub_init (Some (p, seed))) tasks).
  Proof.
    intros H. unfold qinv, pub_init. cbn [q_pub q_tasks p_signing p_trace p_closed]. split; [|split].
    - exists p, (mkSigner seed false), []. cbn. repeat split; try constructor; contradiction.
    - cbn. induction H as [|pc r Hp Hr IH]; [reflexivity|]. cbn [sum_pending fold_right].
      destruct Hp as [(m & -> & _)|[(e & ->)| ->]]; exact IH.
    - intros i pc Hn. apply nth_error_In in Hn. rewrite Forall_forall in H. apply H in Hn as [(m & -> & Hm)|[(e & ->)| ->]]; cbn; auto.
  Qed.
End Sign.

Section Sequential.
  Context (sha256 : bytes -> bytes) (hmac : bytes -> bytes -> bytes).
  Notation run := (prun_task sha256 hmac).
  Notation step := (pstep sha256 hmac).

  Lemma run_done ins r s x : run ins (PDone r) s = Some x -> (r, s) = x.
  Proof. destruct ins; cbn; congruence. Qed.
  Lemma run_step ins pc s x :
    run ins pc s = Some x -> (exists r, pc = PDone r /\ x = (r, s)) \/
    exists i rest, ins = i :: rest /\ run rest (fst (step i pc s)) (snd (step i pc s)) = Some x.
  Proof.
    intros H. destruct pc; try (right; destruct ins as [|i rest]; [discriminate H|]; cbn [prun_task] in H;
      exists i, rest; split; [reflexivity|]; destruct (step i _ s); exact H).
    left. apply run_done in H. subst x. eauto.
  Qed.

  Ltac step_in H :=
    apply run_step in H as [(?r & ?E & H)|(?inp & ?rest & -> & H)]; [discriminate|].

  (** The end frame, when there is one. *)
  Definition end_frame_ok (s : pub) (ws : list pact) : Prop :=
    ws = [] \/
    exists f p st j m sg, ws = [AWrite f] /\ p_signing s = Some (p, st) /\ sg_final st = false /\
      signed_as sha256 hmac (sg_prior st) j m sg /\ j_payload j = [] /\ encode_message m = Ok f.

  Lemma end_frame_short s ws sig : end_frame_ok s ws -> p_signing s = sig ->
    (ws = [] \/ exists g, ws = [AWrite g]) /\ (sig = None -> ws = []).
  Proof.
    intros [->|(f & p & st & j & m & sg & -> & Hs & _)] <-; [auto|]. split; [eauto|]. rewrite Hs. discriminate.
  Qed.

  Lemma closer_run ins ra k s r s' : run ins (PCloseWriter ra k) s = Some (r, s') ->
    s' = s /\ (r = None -> k = None /\ ra = None).
  Proof.
    intros H. step_in H. cbn [pstep fst snd] in H. apply run_done in H. injection H as <- <-.
    split; [reflexivity|]. destruct (i_close inp), ra; try discriminate. auto.
  Qed.

  Lemma close_run ins k s r s' : run ins (PClose k) s = Some (r, s') ->
    (p_closed s = true -> r = k /\ s' = s) /\
    (p_closed s = false -> p_closed s' = true /\ (r = None -> k = None) /\
       exists ws, p_trace s' = p_trace s ++ ws ++ [AClose] /\ end_frame_ok s ws).
  Proof.
    intros H. step_in H. cbn [pstep] in H. destruct (p_closed s) eqn:Ec.
    - cbn [fst snd] in H. apply run_done in H. injection H as <- <-. split; [auto|discriminate].
    - split; [discriminate|]. intros _. cbn [p_signing] in H.
      destruct (p_signing s) as [[p st]|] eqn:Es; cbn [fst snd] in H.
      + step_in H. cbn [pstep p_signing p_closed p_last p_next p_trace] in H.
        assert (Hab : forall e s1 ins1, p_trace s1 = p_trace s -> p_closed s1 = true ->
                  run ins1 (PCloseWriter (Some e) k) (emit AClose s1) = Some (r, s') ->
                  p_closed s' = true /\ (r = None -> k = None) /\ exists ws, p_trace s' = p_trace s ++ ws ++ [AClose] /\ end_frame_ok s ws).
        { intros e s1 ins1 T C R. apply closer_run in R as [-> Hr]. cbn [emit p_closed p_trace]. split; [exact C|]. split; [apply Hr|].
          exists []. rewrite T. split; [reflexivity|left; reflexivity]. }
        destruct (i_ident inp0) as [secret|e]; cbn [fst snd] in H; [|eapply Hab; [| |exact H]; reflexivity].
        unfold sign_empty in H. cbn [m_headers m_payload] in H.
        destruct (sign_payload _ _ _ _ _ _ _ _) as [[sm st']|e] eqn:Esp; cbn [fst snd] in H; [|eapply Hab; [| |exact H]; reflexivity].
        apply sign_payload_spec in Esp as (sg & Hf & Hsig & ->).
        destruct (encode_message sm) as [f|e] eqn:Ef; cbn [fst snd] in H; [|eapply Hab; [| |exact H]; reflexivity].
        step_in H. cbn [pstep fst snd] in H. apply closer_run in H as [-> Hr]. cbn [emit p_closed p_trace].
        split; [reflexivity|]. split; [apply Hr|]. exists [AWrite f]. rewrite <- app_assoc. split; [reflexivity|].
        right. exists f, p, st. do 3 eexists. split; [reflexivity|]. split; [exact Es|]. split; [exact Hf|]. split; [exact Hsig|]. split; [reflexivity|exact Ef].
      + apply closer_run in H as [-> Hr]. cbn [emit p_closed p_trace]. split; [reflexivity|]. split; [apply Hr|].
        exists []. split; [reflexivity|left; reflexivity].
  Qed.

  (** The frame that carries event [m]. *)
  Definition frame_for (s : pub) (m : message) (f : bytes) : Prop :=
    match p_signing s with
    | None => encode_message m = Ok f
    | Some (p, st) => exists j sm sg, signed_as sha256 hmac (sg_prior st) j sm sg /\ sg_final st = false /\
        encode_message m = Ok (j_payload j) /\ encode_message sm = Ok f
    end.

  Lemma writing_run ins s r s' : run ins PSendWriting s = Some (r, s') ->
    (r = None /\ s' = s) \/
    (r <> None /\ ((p_closed s = true /\ s' = s) \/
      (p_closed s = false /\ p_closed s' = true /\ exists ws, p_trace s' = p_trace s ++ ws ++ [AClose] /\ end_frame_ok s ws))).
  Proof.
    intros H. step_in H. cbn [pstep] in H. destruct (i_write inp); cbn [fst snd] in H.
    - apply close_run in H as [H1 H2]. right. destruct (p_closed s).
      + destruct (H1 eq_refl) as [-> ->]. split; [discriminate|]. left. auto.
      + destruct (H2 eq_refl) as (Hc & Hr & ws & Hw). split; [intros E; apply Hr in E; discriminate|]. right. eauto.
    - apply run_done in H. injection H as <- <-. auto.
  Qed.

  Lemma send_run ins m s r s' : run ins (PSend (Ok (Some m))) s = Some (r, s') ->
    (p_closed s = true -> r = Some OSError /\ s' = s) /\
    (p_closed s = false ->
      (* refused before reaching the transport *)
      (r <> None /\ p_closed s' = false /\ p_trace s' = p_trace s) \/
      (* handed to the transport *)
      (exists f, frame_for s m f /\
        ((r = None /\ p_closed s' = false /\ p_trace s' = p_trace s ++ [AWrite f]) \/
         (r <> None /\ p_closed s' = true /\ exists ws, p_trace s' = p_trace s ++ [AWrite f] ++ ws ++ [AClose] /\
            (ws = [] \/ exists g, ws = [AWrite g]) /\ (p_signing s = None -> ws = []))))).
  Proof.
    intros H. step_in H. cbn [pstep] in H. destruct (p_closed s) eqn:Ec.
    - cbn [fst snd] in H. apply run_done in H. injection H as <- <-. split; [auto|discriminate].
    - split; [discriminate|]. intros _. cbn [p_last p_signing] in H. unfold frame_for.
      destruct (p_signing s) as [[p st]|] eqn:Es; cbn [fst snd] in H.
      + step_in H. cbn [pstep p_signing p_closed p_last p_next p_trace] in H.
        destruct (i_ident inp0) as [secret|e]; cbn [fst snd] in H; [|apply run_done in H; injection H as <- <-; left; split; [discriminate|split; reflexivity]].
        unfold sign in H.
        destruct (encode_message m) as [payload|e] eqn:Em; cbn [bind fst snd] in H; [|apply run_done in H; injection H as <- <-; left; split; [discriminate|split; reflexivity]].
        destruct (sign_payload _ _ _ _ _ _ _ _) as [[sm st']|e] eqn:Esp; cbn [fst snd] in H; [|apply run_done in H; injection H as <- <-; left; split; [discriminate|split; reflexivity]].
        apply sign_payload_spec in Esp as (sg & Hf & Hsig & ->). unfold hand_over in H.
        destruct (encode_message sm) as [f|e] eqn:Ef; cbn [fst snd] in H; [|apply run_done in H; injection H as <- <-; left; split; [discriminate|split; [reflexivity|reflexivity]]].
        right. exists f. split.
        { do 3 eexists. split; [exact Hsig|]. split; [exact Hf|]. split; [reflexivity|exact Ef]. }
        apply writing_run in H as [[-> ->]|(Hr & [[Hc ->]|(Hc & Hc' & ws & Hw & He)])].
        * left. cbn [emit p_closed p_trace]. split; [reflexivity|]. split; reflexivity.
        * cbn [emit p_closed] in Hc. congruence.
        * right. split; [exact Hr|]. split; [exact Hc'|]. exists ws. rewrite Hw. cbn [emit p_trace]. rewrite <- !app_assoc. split; [reflexivity|]. destruct (end_frame_short _ _ _ He eq_refl) as [Hx _]. split; [exact Hx|discriminate].
      + unfold hand_over in H. destruct (encode_message m) as [f|e] eqn:Ef; cbn [fst snd] in H;
          [|apply run_done in H; injection H as <- <-; left; split; [discriminate|split; [reflexivity|reflexivity]]].
        right. exists f. split; [reflexivity|].
        apply writing_run in H as [[-> ->]|(Hr & [[Hc ->]|(Hc & Hc' & ws & Hw & He)])].
        * left. cbn [emit p_closed p_trace]. auto.
        * cbn [emit p_closed] in Hc. congruence.
        * right. split; [exact Hr|]. split; [exact Hc'|]. exists ws. rewrite Hw. cbn [emit p_trace]. rewrite <- !app_assoc. split; [reflexivity|]. destruct (end_frame_short _ _ _ He eq_refl) as [Hx Hy]. split; [exact Hx|intros _; apply Hy; reflexivity].
  Qed.

  (** Every call ends, whatever the environment answers. *)
  Definition rank (pc : ppc) : nat :=
    match pc with PSend _ => 7 | PSendIdent _ _ => 6 | PSendWriting => 5 | PClose _ => 4 | PCloseIdent _ => 3
    | PCloseWriting _ => 2 | PCloseWriter _ _ => 1 | PDone _ => 0 end.
  Lemma step_rank i pc s : rank pc <> 0%nat -> (rank (fst (step i pc s)) < rank pc)%nat.
  Proof.
    intros H. destruct pc; cbn [rank] in *; cbn [pstep]; try (cbn; lia).
    - destruct (p_closed s); [cbn; lia|]. destruct ser as [om|e]; [|cbn; lia].
      destruct (p_last _) as [[id m]|]; [|cbn; lia]. destruct (p_signing _); [cbn; lia|].
      unfold hand_over. destruct (encode_message m); cbn; lia.
    - destruct (i_ident i); [|cbn; lia]. destruct (p_signing s) as [[p st]|]; [|cbn; lia].
      destruct (sign _ _ _ _ _ _ _) as [[sm st']|]; [|cbn; lia]. unfold hand_over. destruct (encode_message sm); cbn; lia.
    - destruct (i_write i); cbn; lia.
    - destruct (p_closed s); [cbn; lia|]. destruct (p_signing _); cbn; lia.
    - destruct (i_ident i); [|cbn; lia]. destruct (p_signing s) as [[p st]|]; [|cbn; lia].
      destruct (sign_empty _ _ _ _ _ _ _) as [[sm st']|]; [|cbn; lia]. destruct (encode_message sm); cbn; lia.
  Qed.
  Lemma run_total ins pc s : (rank pc <= List.length ins)%nat -> exists r s', run ins pc s = Some (r, s').
  Proof.
    revert pc s; induction ins as [|i r IH]; intros pc s H.
    - destruct pc; cbn in H; try lia. eexists _, _. reflexivity.
    - destruct (Nat.eq_dec (rank pc) 0) as [E|E].
      + destruct pc; try discriminate E. eexists _, _. reflexivity.
      + pose proof (step_rank i pc s E) as Hr.
        destruct (IH (fst (step i pc s)) (snd (step i pc s))) as (x & s' & Hx); [cbn in *; lia|].
        exists x, s'. rewrite <- Hx. destruct pc; cbn [rank] in E; try lia;
          cbn [prun_task]; destruct (step i _ s); reflexivity.
  Qed.

  (** A history of calls, each run to its end before the next. *)
  Definition start (c : call) : ppc := match c with CSend m _ => PSend (Ok (Some m)) | CClose => PClose None end.
  Inductive history : list (call * option exn) -> pub -> pub -> Prop :=
  | h_nil s : history [] s s
  | h_cons c ins r s1 s2 s3 h : run ins (start c) s1 = Some (r, s2) -> history h s2 s3 -> history ((c, r) :: h) s1 s3.

  Lemma history_shape h s s' : history h s s' ->
    forall fs, p_trace s = map AWrite fs ++ (if p_closed s then [AClose] else []) ->
    exists fs', p_trace s' = map AWrite fs' ++ (if p_closed s' then [AClose] else []).
  Proof.
    induction 1 as [s|c ins r s1 s2 s3 h Hr Hh IH]; intros fs Hs; [eauto|].
    assert (exists fs', p_trace s2 = map AWrite fs' ++ (if p_closed s2 then [AClose] else [])) as [fs' H']; [|eauto].
    destruct c as [m fails|]; cbn [start] in Hr.
    - apply send_run in Hr as [H1 H2]. destruct (p_closed s1) eqn:Ec.
      + destruct (H1 eq_refl) as [-> ->]. exists fs. rewrite Ec. exact Hs.
      + rewrite app_nil_r in Hs. destruct (H2 eq_refl) as [(_ & Hc & Ht)|(f & Hf & [(_ & Hc & Ht)|(_ & Hc & ws & Ht & Hws & _)])]; rewrite Hc, Ht, Hs.
        * exists fs. symmetry; apply app_nil_r.
        * exists (fs ++ [f]). rewrite map_app, app_nil_r. reflexivity.
        * destruct Hws as [->|[g ->]].
          -- exists (fs ++ [f]). rewrite map_app, <- app_assoc. reflexivity.
          -- exists (fs ++ [f; g]). rewrite map_app, <- app_assoc. reflexivity.
    - apply close_run in Hr as [H1 H2]. destruct (p_closed s1) eqn:Ec.
      + destruct (H1 eq_refl) as [-> ->]. exists fs. rewrite Ec. exact Hs.
      + rewrite app_nil_r in Hs. destruct (H2 eq_refl) as (Hc & _ & ws & Ht & He). rewrite Hc, Ht, Hs.
        destruct (end_frame_short _ _ _ He eq_refl) as [[->|[g ->]] _].
        * exists fs. reflexivity.
        * exists (fs ++ [g]). rewrite map_app, <- app_assoc. reflexivity.
  Qed.

  (** Unsigned: the whole trace is the specified one. *)
  Definition answers (ci : call * pinput) : Prop :=
    i_close (snd ci) = None /\
    match fst ci with CSend _ fails => fails = match i_write (snd ci) with Some _ => true | None => false end | CClose => True end.

  Fixpoint run_calls (cs : list (call * pinput)) (s : pub) : option (list (option exn) * pub) :=
    match cs with
    | [] => Some ([], s)
    | (c, i) :: rest =>
      match run (repeat i 7) (start c) s with
      | None => None
      | Some (r, s1) => match run_calls rest s1 with None => None | Some (rs, s2) => Some (r :: rs, s2) end
      end
    end.
  Definition raises (r : option exn) : bool := match r with Some _ => true | None => false end.

  Lemma run_rep n i pc s : rank pc <> 0%nat -> run (repeat i (S n)) pc s = run (repeat i n) (fst (step i pc s)) (snd (step i pc s)).
  Proof. intros H. destruct pc; cbn [rank] in H; try lia; cbn [repeat prun_task]; destruct (step i _ s); reflexivity. Qed.
  Lemma run_done_eq ins r s : run ins (PDone r) s = Some (r, s).
  Proof. destruct ins; reflexivity. Qed.

  Lemma call_closed c i s : p_closed s = true ->
    run (repeat i 7) (start c) s = Some (match c with CSend _ _ => Some OSError | CClose => None end, s).
  Proof.
    intros Hc. destruct c; cbn [start]; rewrite run_rep by discriminate; cbn [pstep]; rewrite Hc; cbn [fst snd]; apply run_done_eq.
  Qed.

  Lemma run_calls_closed cs s :
    p_closed s = true ->
    exists rs, run_calls cs s = Some (rs, s) /\ map raises rs = expected_raises true (map fst cs).
  Proof.
    intros Hc. induction cs as [|[c i] rest IH]; cbn [run_calls map fst]; [eexists; split; reflexivity|].
    destruct IH as (rs & E & Er). rewrite call_closed by exact Hc. rewrite E. eexists. split; [reflexivity|].
    destruct c; cbn [map raises expected_raises]; rewrite Er; reflexivity.
  Qed.

  Lemma close_unsigned n i k s : p_closed s = false -> p_signing s = None -> i_close i = None ->
    exists s', run (repeat i (2 + n)) (PClose k) s = Some (k, s') /\ p_trace s' = p_trace s ++ [AClose] /\ p_closed s' = true.
  Proof.
    intros Hc Hs Hi. change (2 + n)%nat with (S (S n)). rewrite run_rep by discriminate. cbn [pstep]. rewrite Hc. cbn [p_signing]. rewrite Hs. cbn [fst snd].
    rewrite run_rep by discriminate. cbn [pstep]. rewrite Hi. cbn [fst snd]. rewrite run_done_eq. eexists. split; [reflexivity|]. auto.
  Qed.

  Lemma call_send_unsigned m i s : p_closed s = false -> p_signing s = None -> i_close i = None ->
    exists r s', run (repeat i 7) (PSend (Ok (Some m))) s = Some (r, s') /\ 
      match encode_message m with
      | Err _ => raises r = true /\ p_trace s' = p_trace s /\ p_closed s' = false /\ p_signing s' = None
      | Ok f => match i_write i with
                | None => raises r = false /\ p_trace s' = p_trace s ++ [AWrite f] /\ p_closed s' = false /\ p_signing s' = None
                | Some _ => raises r = true /\ p_trace s' = p_trace s ++ [AWrite f; AClose] /\ p_closed s' = true
                end
      end.
  Proof.
    intros Hc Hs Hi. rewrite run_rep by discriminate. cbn [pstep]. rewrite Hc. cbn [p_last p_signing]. rewrite Hs. unfold hand_over.
    destruct (encode_message m) as [f|e]; cbn [fst snd].
    - rewrite run_rep by discriminate. cbn [pstep]. destruct (i_write i); cbn [fst snd].
      + match goal with |- context[run _ _ ?st] => destruct (close_unsigned 3 i (Some OSError) st) as (s' & E & Et & Ec); [reflexivity|reflexivity|exact Hi|] end.
        change (2 + 3)%nat with 5%nat in E. rewrite E. eexists _, _. split; [reflexivity|]. rewrite Et. cbn [emit p_trace]. rewrite <- app_assoc. auto.
      + rewrite run_done_eq. eexists _, _. split; [reflexivity|]. auto.
    - rewrite run_done_eq. eexists _, _. split; [reflexivity|]. auto.
  Qed.

  Lemma run_calls_open cs s :
    Forall answers cs -> p_closed s = false -> p_signing s = None ->
    exists rs s', run_calls cs s = Some (rs, s') /\
      p_trace s' = p_trace s ++ expected_trace (map fst cs) /\
      map raises rs = expected_raises false (map fst cs).
  Proof.
    intros Ha. revert s. induction Ha as [|[c i] rest [Hcl Hw] Hrest IH]; intros s Hc Hs; cbn [run_calls map fst].
    { eexists _, _. split; [reflexivity|]. rewrite app_nil_r. auto. }
    cbn [fst snd] in *. destruct c as [m fails|]; cbn [start expected_trace expected_raises].
    - destruct (call_send_unsigned m i s Hc Hs Hcl) as (r & s1 & E & H). rewrite E.
      destruct (encode_message m) as [f|e].
      + destruct (i_write i); subst fails.
        * destruct H as (Hr & Ht & Hc1). destruct (run_calls_closed rest s1 Hc1) as (rs & E2 & Er2). rewrite E2.
          eexists _, _. split; [reflexivity|]. cbn [map]. rewrite Hr, Er2. auto.
        * destruct H as (Hr & Ht & Hc1 & Hs1). destruct (IH s1 Hc1 Hs1) as (rs & s2 & E2 & Et2 & Er2). rewrite E2.
          eexists _, _. split; [reflexivity|]. cbn [map]. rewrite Hr, Er2, Et2, Ht, <- app_assoc. auto.
      + destruct H as (Hr & Ht & Hc1 & Hs1). destruct (IH s1 Hc1 Hs1) as (rs & s2 & E2 & Et2 & Er2). rewrite E2.
        eexists _, _. split; [reflexivity|]. cbn [map]. rewrite Hr, Er2, Et2, Ht. auto.
    - destruct (close_unsigned 5 i None s Hc Hs Hcl) as (s1 & E & Ht & Hc1). change (2 + 5)%nat with 7%nat in E. rewrite E.
      destruct (run_calls_closed rest s1 Hc1) as (rs & E2 & Er2). rewrite E2.
      eexists _, _. split; [reflexivity|]. cbn [map raises]. rewrite Er2. auto.
  Qed.
End Sequential.

(** ** Receiver *)
Section ReceiverProofs.
  Context {E : Type} (deser : message -> result (received E)).

  Lemma decode_event_nil : decode_event [] = Ok (None, []).
  Proof. reflexivity. Qed.

  Lemma decode_none_nil src rest : decode_event src = Ok (None, rest) -> rest = [].
  Proof.
    unfold decode_event, decode_event_from. intros H.
    apply bind_ok in H as ([pb s1] & H1 & H). destruct pb as [|x xs].
    - injection H as <-. destruct src; [|discriminate H1]. injection H1 as <-. reflexivity.
    - repeat (let t := fresh in apply bind_ok in H as (t & _ & H); repeat match type of t with (_ * _)%type => destruct t as [t ?] end).
      discriminate H.
  Qed.

  Lemma r_run_closed ops (r : recv areader) : r_closed r = true ->
    fst (r_run ar_read deser ops r) = map (fun _ => Ok None) ops /\ snd (r_run ar_read deser ops r) = r.
  Proof.
    intros H. induction ops as [|op ops IH]; cbn [r_run map]; [auto|].
    assert (Es : r_step ar_read deser op r = (Ok None, r)).
    { destruct op; cbn [r_step]; unfold receive, r_close; rewrite H; reflexivity. }
    rewrite Es. destruct (r_run ar_read deser ops r) as [os r2]; cbn [fst snd] in *. destruct IH as [-> ->]. auto.
  Qed.
  Lemma expected_closed ops ms f : expected_receives deser ops true ms f = map (fun _ => Ok None) ops.
  Proof. induction ops as [|[] ops IH]; cbn; rewrite ?IH; reflexivity. Qed.

  Lemma r_run_open ops (r : recv areader) : r_closed r = false -> ar_open (r_src r) ->
    fst (r_run ar_read deser ops r) =
    expected_receives deser ops false (fst (decode_all (ar_content (r_src r)))) (snd (decode_all (ar_content (r_src r)))).
  Proof.
    revert r; induction ops as [|op ops IH]; intros r Hc Ho; cbn [r_run]; [reflexivity|].
    destruct op; cbn [r_step expected_receives].
    - unfold receive. rewrite Hc.
      pose proof (decode_async_refines (r_src r) Ho) as Hd.
      destruct (decode_event_from ar_read (r_src r)) as [[[ev|] s']|e].
      + destruct Hd as [Hd Ho']. rewrite (decode_all_cons _ _ _ Hd). cbn [fst snd].
        specialize (IH (mkRecv false s' (r_src_closes r)) eq_refl Ho'). cbn [r_src] in IH. rewrite <- IH.
        destruct (deser (e_message ev)) as [[v|x]|e]; destruct (r_run ar_read deser ops _) as [os r2]; reflexivity.
      + destruct Hd as [Hd Ho']. pose proof (decode_none_nil _ _ Hd) as Hn.
        assert (Hall : decode_all (ar_content (r_src r)) = ([], None)).
        { unfold decode_all. destruct (List.length (ar_content (r_src r))); cbn [decode_all_loop]; rewrite Hd; reflexivity. }
        rewrite Hall. cbn [fst snd].
        specialize (IH (mkRecv false s' (r_src_closes r)) eq_refl Ho'). cbn [r_src] in IH. rewrite Hn in IH.
        change (decode_all []) with (@nil message, @None exn) in IH. cbn [fst snd] in IH. rewrite <- IH.
        destruct (r_run ar_read deser ops _) as [os r2]; reflexivity.
      + rewrite (decode_all_err _ _ Hd). cbn [fst snd]. rewrite expected_closed.
        unfold r_close. rewrite Hc.
        destruct (r_run_closed ops (mkRecv true (r_src r) (Datatypes.S (r_src_closes r))) eq_refl) as [Ec _].
        rewrite <- Ec. destruct (r_run ar_read deser ops _) as [os r2]; reflexivity.
    - rewrite expected_closed. unfold r_close. rewrite Hc.
      destruct (r_run_closed ops (mkRecv true (r_src r) (Datatypes.S (r_src_closes r))) eq_refl) as [Ec _].
      rewrite <- Ec. destruct (r_run ar_read deser ops _) as [os r2]; reflexivity.
  Qed.

  (** The source is closed at most once, and exactly when the receiver is. *)
  Lemma r_closes ops (r : recv areader) :
    r_src_closes r = (if r_closed r then 1 else 0)%nat ->
    r_src_closes (snd (r_run ar_read deser ops r)) = (if r_closed (snd (r_run ar_read deser ops r)) then 1 else 0)%nat.
  Proof.
    revert r; induction ops as [|op ops IH]; intros r H; cbn [r_run]; [exact H|].
    destruct (r_step ar_read deser op r) as [o r1] eqn:Es.
    assert (H1 : r_src_closes r1 = (if r_closed r1 then 1 else 0)%nat).
    { assert (Hcl : r_src_closes (r_close r) = (if r_closed (r_close r) then 1 else 0)%nat).
      { unfold r_close. destruct (r_closed r) eqn:Ec; [rewrite Ec; exact H|]. cbn. rewrite H. reflexivity. }
      destruct op; cbn [r_step] in Es; [|injection Es as <- <-; exact Hcl].
      unfold receive in Es. destruct (r_closed r) eqn:Ec; [injection Es as <- <-; rewrite Ec; exact H|].
      destruct (decode_event_from _ _) as [[[ev|] s']|e]; [|injection Es as <- <-; exact H|injection Es as <- <-; exact Hcl].
      destruct (deser (e_message ev)) as [[v|x]|e]; injection Es as <- <-; exact H. }
    specialize (IH r1 H1). destruct (r_run ar_read deser ops r1) as [os r2]. exact IH.
  Qed.
End ReceiverProofs.
