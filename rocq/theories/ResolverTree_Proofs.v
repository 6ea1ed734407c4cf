(** Proofs about trees of identity resolvers. *)
From Verif Require Import Base Base_Proofs Identity_Model Identity_Spec ResolverTree_Model ResolverTree_Spec.
From Coq Require Import ZArith Lia.

Section Trees.
  Context {I : Type}.
  Variable expires : I -> option Z.
  Notation resolver := (resolver I).

  Lemma resolver_ind2 (P : resolver -> Prop) :
    (forall k, P (Direct k)) -> (forall k h, P (Environment k h)) -> (forall how k h, P (Caching how k h)) ->
    (forall h rs, Forall P rs -> P (Chained h rs)) -> (forall rs, Forall P rs -> P (Chain rs)) -> (forall k e, P (Foreign k e)) ->
    forall r, P r.
  Proof using.
    intros H1 H2 H3 H4 H5 H6. fix IH 1. intros [k|k h|how k h|h rs|rs|k e]; [apply H1|apply H2|apply H3| | |apply H6].
    - apply H4. induction rs as [|r rs IHl]; constructor; [apply IH|exact IHl].
    - apply H5. induction rs as [|r rs IHl]; constructor; [apply IH|exact IHl].
  Qed.

  (** The loops by themselves. *)
  Section Loop.
  Variable now : Z.
  Variable answers : source -> result I.
  Fixpoint try_all (rs : list resolver) : list resolver * (result I * list source) :=
    match rs with
    | [] => ([], (Err IdentityErr, []))
    | r :: rest =>
      let '(r', (x, a)) := get expires now answers r in
      match x with
      | Err IdentityErr => let '(rest', (y, b)) := try_all rest in (r' :: rest', (y, a ++ b))
      | _ => (r' :: rest, (x, a))
      end
    end.
  End Loop.
  Fixpoint invalidate_all (rs : list resolver) : list resolver * option exn :=
    match rs with
    | [] => ([], None)
    | r :: rest =>
      match invalidate r with
      | (r', None) => let (rest', e) := invalidate_all rest in (r' :: rest', e)
      | (r', Some e) => (r' :: rest, Some e)
      end
    end.
  Lemma get_chained now answers held rs : get expires now answers (Chained held rs) =
    let ask := let '(rs', (x, a)) := try_all now answers rs in
               (Chained (match x with Ok id => Some id | Err _ => held end) rs', (x, a)) in
    match held with Some id => if usable expires WhileUnexpired id now then (Chained held rs, (Ok id, [])) else ask | None => ask end.
  Proof. reflexivity. Qed.
  Lemma get_chain now answers rs : get expires now answers (Chain rs) = let '(rs', p) := try_all now answers rs in (Chain rs', p).
  Proof. reflexivity. Qed.
  Lemma invalidate_chained held rs : invalidate (Chained held rs) = let (rs', e) := invalidate_all rs in (Chained (I := I) None rs', e).
  Proof. reflexivity. Qed.
  Lemma invalidate_chain rs : invalidate (Chain rs) = let (rs', e) := invalidate_all rs in (Chain (I := I) rs', e).
  Proof. reflexivity. Qed.

  Lemma fresh_all rs : (fix all (rs : list resolver) : Prop := match rs with [] => True | r :: rest => fresh r /\ all rest end) rs <-> Forall fresh rs.
  Proof using.
    induction rs as [|r rs IH]; [split; constructor|]. rewrite IH. split; [intros []; constructor; assumption|]. intros H. inversion H; auto.
  Qed.
  Lemma leaves_all p rs : (fix all (rs : list resolver) : Prop := match rs with [] => True | r :: rest => leaves p r /\ all rest end) rs <-> Forall (leaves p) rs.
  Proof using.
    induction rs as [|r rs IH]; [split; constructor|]. rewrite IH. split; [intros []; constructor; assumption|]. intros H. inversion H; auto.
  Qed.

  Lemma first_app answers ks ls : first (I := I) answers (ks ++ ls) =
    match fst (first answers ks) with
    | Err IdentityErr => (fst (first answers ls), snd (first answers ks) ++ snd (first answers ls))
    | _ => first answers ks
    end.
  Proof using.
    induction ks as [|k ks IH]; cbn [app first fst snd]; [destruct (first answers ls); reflexivity|].
    destruct (answers k) as [id|[]]; try reflexivity. cbn [fst snd]. rewrite IH. destruct (first answers ks) as [x a]. cbn [fst snd]. destruct x as [id|[]]; reflexivity.
  Qed.

  (** A fresh tree gives what the first of its sources gives. *)
  Lemma get_fresh now answers r : fresh r -> snd (get expires now answers r) = first answers (sources r).
  Proof.
    assert (One : forall k, first answers [k] = (answers k, [k])).
    { intros k. cbn. destruct (answers k) as [id|[]]; reflexivity. }
    assert (All : forall rs, Forall (fun r => fresh r -> snd (get expires now answers r) = first answers (sources r)) rs ->
      Forall fresh rs -> snd (try_all now answers rs) = first answers (flat_map sources rs)).
    { clear r. intros rs H. induction H as [|r rs Hr _ IH]; intros F; [reflexivity|]. inversion F as [|? ? F1 F2]; subst.
      specialize (Hr F1). specialize (IH F2). cbn [try_all flat_map]. rewrite first_app, <- Hr, <- IH.
      destruct (get expires now answers r) as [r' [x a]]. cbn [fst snd]. destruct x as [id|[]]; try reflexivity.
      destruct (try_all now answers rs) as [rs' [y b]]. reflexivity. }
    induction r as [k|k h|how k h|h rs IH|rs IH|k e] using resolver_ind2; intros F; cbn [fresh] in F; cbn [sources].
    - rewrite One. reflexivity.
    - subst h. rewrite One. cbn. destruct (answers k); reflexivity.
    - subst h. rewrite One. cbn. destruct (answers k); reflexivity.
    - destruct F as [-> F]. apply fresh_all in F. rewrite get_chained. cbn zeta. rewrite <- (All rs IH F).
      destruct (try_all now answers rs) as [rs' [x a]]. reflexivity.
    - apply fresh_all in F. rewrite get_chain. rewrite <- (All rs IH F). destruct (try_all now answers rs) as [rs' p]. reflexivity.
    - rewrite One. reflexivity.
  Qed.

  (** What an invalidation leaves of a tidy tree is fresh. *)
  Lemma invalidate_fresh (r : resolver) : tidy r -> fresh (fst (invalidate r)) /\ snd (invalidate r) = None /\ sources (fst (invalidate r)) = sources r /\ tidy (fst (invalidate r)).
  Proof using.
    assert (All : forall rs, Forall (fun r => tidy r -> fresh (fst (invalidate r)) /\ snd (invalidate r) = None /\ sources (fst (invalidate r)) = sources r /\ tidy (fst (invalidate r))) rs ->
      Forall tidy rs -> Forall fresh (fst (invalidate_all rs)) /\ snd (invalidate_all rs) = None
        /\ flat_map sources (fst (invalidate_all rs)) = flat_map sources rs /\ Forall tidy (fst (invalidate_all rs))).
    { clear r. intros rs H. induction H as [|r rs Hr _ IH]; intros T; [cbn; auto|]. inversion T as [|? ? T1 T2]; subst.
      destruct (Hr T1) as (A & B & C & D). destruct (IH T2) as (A' & B' & C' & D'). cbn [invalidate_all].
      destruct (invalidate r) as [r' e]. cbn [fst snd] in *. subst e. destruct (invalidate_all rs) as [rs' e]. cbn [fst snd] in *.
      split; [constructor; assumption|]. split; [assumption|]. split; [cbn [flat_map]; congruence|constructor; assumption]. }
    unfold tidy in *. induction r as [k|k h|how k h|h rs IH|rs IH|k e] using resolver_ind2; intros T; cbn [leaves] in T; try contradiction; try solve [cbn; auto].
    - apply leaves_all in T. rewrite invalidate_chained. destruct (All rs IH T) as (A & B & C & D).
      destruct (invalidate_all rs) as [rs' e]. cbn [fst snd fresh sources leaves] in *. rewrite fresh_all, leaves_all. auto.
    - apply leaves_all in T. rewrite invalidate_chain. destruct (All rs IH T) as (A & B & C & D).
      destruct (invalidate_all rs) as [rs' e]. cbn [fst snd fresh sources leaves] in *. rewrite fresh_all, leaves_all. auto.
  Qed.

  (** Calls do not change which sources there are, nor of what kind. *)
  Definition alike (r r' : resolver) : Prop := sources r' = sources r /\ environments r' = environments r /\ (tidy r -> tidy r').
  Lemma alike_refl r : alike r r. Proof. repeat split; auto. Qed.
  Lemma alike_all rs rs' : Forall2 alike rs rs' -> flat_map sources rs' = flat_map sources rs /\ flat_map environments rs' = flat_map environments rs
    /\ (Forall tidy rs -> Forall tidy rs').
  Proof.
    induction 1 as [|r r' rs rs' (A & B & C) _ (A' & B' & C')]; [auto|]. cbn [flat_map]. rewrite A, B, A', B'.
    repeat split; auto. intros T. inversion T; constructor; auto.
  Qed.
  Lemma alike_refls rs : Forall2 alike rs rs.
  Proof. induction rs; constructor; [apply alike_refl|assumption]. Qed.
  Lemma get_alike now answers r : alike r (fst (get expires now answers r)).
  Proof.
    assert (All : forall rs, Forall (fun r => alike r (fst (get expires now answers r))) rs -> Forall2 alike rs (fst (try_all now answers rs))).
    { clear r. intros rs H. induction H as [|r rs Hr _ IH]; [constructor|]. cbn [try_all]. destruct (get expires now answers r) as [r' [x a]].
      cbn [fst] in Hr. destruct x as [id|[]]; try (constructor; [exact Hr|apply alike_refls]).
      destruct (try_all now answers rs) as [rs' [y b]]. constructor; assumption. }
    induction r as [k|k h|how k h|h rs IH|rs IH|k e] using resolver_ind2; try solve [apply alike_refl].
    - destruct h as [id|]; [apply alike_refl|]. cbn. destruct (answers k); [|apply alike_refl]. repeat split; auto.
    - cbn. destruct h as [id|]; [destruct (usable expires how id now); [apply alike_refl|]|]; (destruct (answers k); [|apply alike_refl]; repeat split; auto).
    - rewrite get_chained. cbn zeta. specialize (All rs IH). apply alike_all in All as (A & B & C).
      destruct (try_all now answers rs) as [rs' [x a]]. cbn [fst] in *.
      assert (X : forall h', alike (Chained h rs) (Chained h' rs')).
      { intros h'. unfold alike, tidy. cbn [sources environments leaves]. rewrite !leaves_all. auto. }
      destruct h as [id|]; [destruct (usable expires WhileUnexpired id now); [apply alike_refl|]|]; apply X.
    - rewrite get_chain. specialize (All rs IH). apply alike_all in All as (A & B & C).
      destruct (try_all now answers rs) as [rs' p]. cbn [fst] in *. unfold alike, tidy. cbn [sources environments leaves]. rewrite !leaves_all. auto.
  Qed.
  Lemma invalidate_alike r : alike r (fst (invalidate r)).
  Proof.
    assert (All : forall rs, Forall (fun r => alike r (fst (invalidate r))) rs -> Forall2 alike rs (fst (invalidate_all rs))).
    { clear r. intros rs H. induction H as [|r rs Hr _ IH]; [constructor|]. cbn [invalidate_all]. destruct (invalidate r) as [r' [e|]]; cbn [fst] in Hr.
      - constructor; [exact Hr|apply alike_refls].
      - destruct (invalidate_all rs) as [rs' e]. constructor; assumption. }
    induction r as [k|k h|how k h|h rs IH|rs IH|k e] using resolver_ind2; try solve [apply alike_refl].
    - repeat split; auto.
    - rewrite invalidate_chained. specialize (All rs IH). apply alike_all in All as (A & B & C). destruct (invalidate_all rs) as [rs' e]. cbn [fst] in *.
      unfold alike, tidy. cbn [sources environments leaves]. rewrite !leaves_all. auto.
    - rewrite invalidate_chain. specialize (All rs IH). apply alike_all in All as (A & B & C). destruct (invalidate_all rs) as [rs' e]. cbn [fst] in *.
      unfold alike, tidy. cbn [sources environments leaves]. rewrite !leaves_all. auto.
  Qed.
  Lemma run_alike cs : forall r, alike r (run expires cs r).
  Proof.
    induction cs as [|c cs IH]; intros r; [apply alike_refl|]. cbn [run]. destruct (IH (step expires c r)) as (A & B & C).
    assert (S : alike r (step expires c r)) by (destruct c; [apply get_alike|apply invalidate_alike]). destruct S as (A' & B' & C').
    repeat split; [congruence|congruence|auto].
  Qed.

  (** Everything that is kept satisfies [P]; what is kept from the environment [Q]. *)
  Section Holds.
    Variables P Q : I -> Prop.
    Fixpoint holds (r : resolver) : Prop :=
      match r with
      | Direct _ | Foreign _ _ => True
      | Environment _ held => match held with Some id => P id /\ Q id | None => True end
      | Caching _ _ held => match held with Some id => P id | None => True end
      | Chained held rs => match held with Some id => P id | None => True end
          /\ (fix all (rs : list resolver) : Prop := match rs with [] => True | r :: rest => holds r /\ all rest end) rs
      | Chain rs => (fix all (rs : list resolver) : Prop := match rs with [] => True | r :: rest => holds r /\ all rest end) rs
      end.
    Lemma holds_all rs : (fix all (rs : list resolver) : Prop := match rs with [] => True | r :: rest => holds r /\ all rest end) rs <-> Forall holds rs.
    Proof using.
      induction rs as [|r rs IH]; [split; constructor|]. rewrite IH. split; [intros []; constructor; assumption|]. intros H. inversion H; auto.
    Qed.
    Lemma fresh_holds r : fresh r -> holds r.
    Proof using.
      assert (All : forall rs, Forall (fun r => fresh r -> holds r) rs -> Forall fresh rs -> Forall holds rs).
      { clear r. intros rs H. induction H; intros F; [constructor|]. inversion F; constructor; auto. }
      induction r as [k|k h|how k h|h rs IH|rs IH|k e] using resolver_ind2; cbn [fresh holds]; intros F; auto; try (subst h; exact Logic.I).
      - destruct F as [-> F]. split; [exact Logic.I|]. apply holds_all, All; [exact IH|]. apply fresh_all, F.
      - apply holds_all, All; [exact IH|]. apply fresh_all, F.
    Qed.

    Definition good_answers (answers : source -> result I) (r : resolver) : Prop :=
      (forall k id, In k (sources r) -> answers k = Ok id -> P id) /\ (forall k id, In k (environments r) -> answers k = Ok id -> Q id).

    Lemma get_holds now answers r : good_answers answers r -> holds r ->
      let '(r', (x, asked)) := get expires now answers r in
      holds r' /\ incl asked (sources r) /\ match x with
                                            | Ok id => P id /\ ((exists k, In k asked /\ answers k = Ok id) \/ Q id \/ unexpired (expires id) now)
                                            | Err _ => True
                                            end.
    Proof.
      set (concl := fun (r : resolver) (out : resolver * (result I * list source)) =>
        let '(r', (x, asked)) := out in
        holds r' /\ incl asked (sources r) /\ match x with
                                              | Ok id => P id /\ ((exists k, In k asked /\ answers k = Ok id) \/ Q id \/ unexpired (expires id) now)
                                              | Err _ => True
                                              end).
      change (good_answers answers r -> holds r -> concl r (get expires now answers r)).
      assert (U : forall how id, usable expires how id now = true -> unexpired (expires id) now).
      { intros how id H. unfold usable, is_expired, unexpired in *. destruct (expires id) as [e|]; [|exact Logic.I].
        destruct how; [apply Bool.negb_true_iff, Z.leb_gt in H|apply Z.ltb_lt in H]; lia. }
      assert (All : forall rs, Forall (fun r => good_answers answers r -> holds r -> concl r (get expires now answers r)) rs ->
        Forall (good_answers answers) rs -> Forall holds rs ->
        let '(rs', (x, asked)) := try_all now answers rs in
        Forall holds rs' /\ incl asked (flat_map sources rs) /\ match x with
                                              | Ok id => P id /\ ((exists k, In k asked /\ answers k = Ok id) \/ Q id \/ unexpired (expires id) now)
                                              | Err _ => True
                                              end).
      { intros rs H. induction H as [|r0 rs Hr _ IH]; intros G K; [cbn; split; [constructor|split; [intros ? []|exact Logic.I]]|].
        inversion G as [|? ? G1 G2]; subst. inversion K as [|? ? K1 K2]; subst. specialize (Hr G1 K1). specialize (IH G2 K2).
        unfold concl in Hr. cbn [try_all flat_map]. destruct (get expires now answers r0) as [r' [x a]]. destruct Hr as (A & B & C).
        assert (Stop : forall y, x = y -> Forall holds (r' :: rs) /\ incl a (sources r0 ++ flat_map sources rs) /\ match y with
                                              | Ok id => P id /\ ((exists k, In k a /\ answers k = Ok id) \/ Q id \/ unexpired (expires id) now)
                                              | Err _ => True
                                              end).
        { intros y <-. split; [constructor; assumption|]. split; [apply incl_appl; exact B|exact C]. }
        destruct x as [id|e]; [exact (Stop _ eq_refl)|].
        destruct e; try exact (Stop _ eq_refl).
        destruct (try_all now answers rs) as [rs' [y b]]. destruct IH as (A' & B' & C').
        split; [constructor; assumption|]. split; [apply incl_app; [apply incl_appl; exact B|apply incl_appr; exact B']|].
        destruct y as [id|]; [|exact Logic.I]. destruct C' as [C1 [(k & C2 & C3)|C2]]; split; auto. left. exists k. split; [apply in_or_app; auto|exact C3]. }
      assert (Split : forall rs, (forall k id, In k (flat_map sources rs) -> answers k = Ok id -> P id) /\ (forall k id, In k (flat_map environments rs) -> answers k = Ok id -> Q id) ->
        Forall (good_answers answers) rs).
      { intros rs [G1 G2]. apply Forall_forall. intros x X. split; intros k id K; [apply G1|apply G2]; apply in_flat_map; eauto. }
      induction r as [k|k h|how k h|h rs IH|rs IH|k e] using resolver_ind2; intros G H.
      - cbn. split; [exact Logic.I|]. split; [apply incl_refl|]. destruct (answers k) as [id|] eqn:E; [|exact Logic.I].
        split; [apply (proj1 G k); [left; reflexivity|exact E]|]. left. exists k. split; [left; reflexivity|exact E].
      - destruct h as [id|].
        + cbn in *. split; [exact H|]. split; [intros ? []|]. tauto.
        + cbn. destruct (answers k) as [id|] eqn:E; cbn; (split; [|split; [apply incl_refl|]]); auto.
          * split; [apply (proj1 G k)|apply (proj2 G k)]; try exact E; left; reflexivity.
          * split; [apply (proj1 G k); [left; reflexivity|exact E]|]. left. exists k. split; [left; reflexivity|exact E].
      - assert (Ask : concl (Caching how k h) (match answers k with
                   | Ok id => (Caching how k (Some id), (Ok id, [k]))
                   | Err e => (Caching how k h, (Err e, [k]))
                   end)).
        { destruct (answers k) as [id|] eqn:E; cbn; (split; [|split; [apply incl_refl|]]); auto.
          - apply (proj1 G k); [left; reflexivity|exact E].
          - split; [apply (proj1 G k); [left; reflexivity|exact E]|]. left. exists k. split; [left; reflexivity|exact E]. }
        cbn [get]. cbn zeta. destruct h as [id|]; [|exact Ask]. destruct (usable expires how id now) eqn:E; [|exact Ask].
        cbn in *. split; [exact H|]. split; [intros ? []|]. split; [exact H|]. right. right. exact (U _ _ E).
      - rewrite get_chained. cbn zeta. cbn [holds] in H. destruct H as [H1 H2]. apply holds_all in H2.
        specialize (All rs IH (Split rs G) H2).
        assert (Ask : concl (Chained h rs) (let '(rs', (x, a)) := try_all now answers rs in
               (Chained (match x with Ok id => Some id | Err _ => h end) rs', (x, a)))).
        { destruct (try_all now answers rs) as [rs' [x a]]. destruct All as (A & B & C). cbn [concl holds sources]. rewrite holds_all.
          split; [split; [|exact A]; destruct x as [id|]; [exact (proj1 C)|exact H1]|]. split; [exact B|exact C]. }
        destruct h as [id|]; [|exact Ask]. destruct (usable expires WhileUnexpired id now) eqn:E; [|exact Ask].
        cbn [concl holds]. rewrite holds_all. split; [split; assumption|]. split; [intros ? []|]. split; [exact H1|]. right. right. exact (U _ _ E).
      - rewrite get_chain. cbn [holds] in H. apply holds_all in H. specialize (All rs IH (Split rs G) H).
        destruct (try_all now answers rs) as [rs' [x a]]. destruct All as (A & B & C). cbn [concl holds sources]. rewrite holds_all. auto.
      - cbn. split; [exact Logic.I|]. split; [apply incl_refl|]. destruct (answers k) as [id|] eqn:E; [|exact Logic.I].
        split; [apply (proj1 G k); [left; reflexivity|exact E]|]. left. exists k. split; [left; reflexivity|exact E].
    Qed.
    Lemma invalidate_holds r : holds r -> holds (fst (invalidate r)).
    Proof using.
      assert (All : forall rs, Forall (fun r => holds r -> holds (fst (invalidate r))) rs -> Forall holds rs -> Forall holds (fst (invalidate_all rs))).
      { intros rs H. induction H as [|r0 rs Hr _ IH]; intros K; [constructor|]. inversion K; subst. cbn [invalidate_all].
        destruct (invalidate r0) as [r' [e|]]; cbn [fst] in Hr; [constructor; auto|]. destruct (invalidate_all rs) as [rs' e]. constructor; auto. }
      induction r as [k|k h|how k h|h rs IH|rs IH|k e] using resolver_ind2; cbn [holds]; intros H; auto.
      - exact Logic.I.
      - destruct H as [_ H]. apply holds_all in H. specialize (All rs IH H). rewrite invalidate_chained. destruct (invalidate_all rs) as [rs' e].
        cbn [fst holds]. split; [exact Logic.I|]. apply holds_all, All.
      - apply holds_all in H. specialize (All rs IH H). rewrite invalidate_chain. destruct (invalidate_all rs) as [rs' e]. cbn [fst holds]. apply holds_all, All.
    Qed.
    Lemma run_holds cs : forall r, holds r ->
      (forall now answers, In (Get now answers) cs -> good_answers answers r) -> holds (run expires cs r).
    Proof.
      induction cs as [|c cs IH]; intros r H G; [exact H|]. cbn [run]. apply IH.
      - destruct c as [now answers|]; cbn [step]; [|apply invalidate_holds, H].
        pose proof (get_holds now answers r (G _ _ (or_introl eq_refl)) H) as X. destruct (get expires now answers r) as [r' [x a]]. exact (proj1 X).
      - assert (S : alike r (step expires c r)) by (destruct c; [apply get_alike|apply invalidate_alike]). destruct S as (A & B & _).
        intros now answers J. destruct (G now answers (or_intror J)) as [G1 G2]. unfold good_answers. rewrite A, B. split; assumption.
    Qed.
  End Holds.

  Lemma run_app cs ds : forall r, run expires (cs ++ ds) r = run expires ds (run expires cs r).
  Proof. induction cs as [|c cs IH]; intros r; [reflexivity|]. cbn. apply IH. Qed.
End Trees.
