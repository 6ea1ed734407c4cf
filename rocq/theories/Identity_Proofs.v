(** Lemmas about the identity resolvers. *)
From Verif Require Import Base Base_Proofs PyText_Model Identity_Model Identity_Spec.
From Coq Require Import ZArith.

Section Lists.
Context {A : Type}.
Lemma app_cons_split (l b x z : list A) (y : A) : l ++ b = x ++ y :: z ->
  (exists z', l = x ++ y :: z' /\ z = z' ++ b) \/ (exists x', x = l ++ x' /\ b = x' ++ y :: z).
Proof.
  revert x. induction l as [|a l IH]; intros x H.
  - right. exists x. split; [reflexivity|exact H].
  - destruct x as [|c x].
    + cbn in H. injection H as E1 E2. left. exists l. rewrite E1. split; [reflexivity|symmetry; exact E2].
    + cbn in H. injection H as E1 E2. subst c. destruct (IH x E2) as [(z' & E3 & E4)|(x' & E3 & E4)].
      * left. exists z'. rewrite E3. split; [reflexivity|exact E4].
      * right. exists x'. rewrite E3. split; [reflexivity|exact E4].
Qed.
End Lists.

Section Machine.
Variable I : Type.
Variable usable : I -> Z -> bool.
Variable sources : nat.
Variable skips : exn -> bool.
Notation step := (step I usable sources skips).
Notation run := (run I usable sources skips).
Notation cache := (cache I).
Notation obs := (obs I).
Notation skipped := (fun e => skips e = true).
Notation Complete := (Complete (I := I) sources skipped).
Notation Trying := (Trying (I := I) sources skipped).

Definition asks (i : nat) : list obs := if Nat.ltb 0 sources then [Asked i 0] else [Raised i IdentityErr].
Definition next (i p : nat) : list obs := if Nat.ltb (S p) sources then [Asked i (S p)] else [Raised i IdentityErr].

(** What one event adds. *)
Inductive Block (c : cache) : list obs -> Prop :=
| B_none : Block c []
| B_hit i t id : waiting I c i = None -> cached I c = Some id -> usable id t = true -> Block c [Called i t; Returned i id]
| B_miss i t : waiting I c i = None -> (forall id, cached I c = Some id -> usable id t = false) ->
    Block c (Called i t :: asks i)
| B_ok i p id : waiting I c i = Some p -> Block c [Answered i (Ok id); Returned i id]
| B_skip i p e : waiting I c i = Some p -> skips e = true -> Block c (Answered i (Err e) :: next i p)
| B_err i p e : waiting I c i = Some p -> skips e = false -> Block c [Answered i (Err e); Raised i e]
| B_inv : Block c [Invalidated].

Lemma step_block c e : exists b, seen I (step c e) = seen I c ++ b /\ Block c b.
Proof.
  destruct e as [i t|i r|]; cbn [Identity_Model.step].
  - destruct (waiting I c i) eqn:W; [exists []; split; [symmetry; apply app_nil_r|constructor]|].
    cbn [see cached].
    assert (M : seen I (ask I sources i 0 (see I [Called i t] c)) = seen I c ++ Called i t :: asks i).
    { unfold ask, asks. destruct (Nat.ltb 0 sources); cbn [see wait seen]; rewrite <- app_assoc; reflexivity. }
    destruct (cached I c) as [id|] eqn:C.
    + destruct (usable id t) eqn:Us.
      * eexists. split; [cbn [see seen]; rewrite <- app_assoc; reflexivity|]. exact (B_hit c i t id W C Us).
      * eexists. split; [exact M|]. apply B_miss; [exact W|]. intros id' E. rewrite C in E. injection E as <-. exact Us.
    + eexists. split; [exact M|]. apply B_miss; [exact W|]. intros id' E. rewrite C in E. discriminate E.
  - destruct (waiting I c i) as [p|] eqn:W; [|exists []; split; [symmetry; apply app_nil_r|constructor]].
    destruct r as [id|e].
    + eexists. split; [cbn [see store wait seen]; rewrite <- app_assoc; reflexivity|]. exact (B_ok c i p id W).
    + destruct (skips e) eqn:K.
      * eexists. split; [|exact (B_skip c i p e W K)]. unfold ask, next.
        destruct (Nat.ltb (S p) sources); cbn [see wait seen]; rewrite <- app_assoc; reflexivity.
      * eexists. split; [|exact (B_err c i p e W K)]. cbn [see wait seen]; rewrite <- app_assoc; reflexivity.
  - eexists. split; [reflexivity|constructor].
Qed.

Lemma latest_app (l b : list obs) : latest (l ++ b) =
  fold_left (fun v o => match o with Answered _ (Ok id) => Some id | Invalidated => None | _ => v end) b (latest l).
Proof. unfold latest. apply fold_left_app. Qed.

Lemma step_latest c e : latest (seen I c) = cached I c -> latest (seen I (step c e)) = cached I (step c e).
Proof.
  intros H. destruct e as [i t|i r|]; cbn [Identity_Model.step].
  - destruct (waiting I c i); [exact H|]. cbn [see cached].
    assert (M : latest (seen I (ask I sources i 0 (see I [Called i t] c))) = cached I (ask I sources i 0 (see I [Called i t] c))).
    { unfold ask. destruct (Nat.ltb 0 sources); cbn [see wait seen cached]; rewrite !latest_app; cbn [fold_left]; exact H. }
    destruct (cached I c) as [id|] eqn:C; [|exact M].
    destruct (usable id t); [|exact M]. cbn [see seen cached]. rewrite !latest_app. cbn [fold_left]. rewrite H, C. reflexivity.
  - destruct (waiting I c i) as [p|]; [|exact H]. destruct r as [id|e].
    + cbn [see store wait seen cached]. rewrite !latest_app. reflexivity.
    + destruct (skips e).
      * unfold ask. destruct (Nat.ltb (S p) sources); cbn [see wait seen cached]; rewrite !latest_app; cbn [fold_left]; exact H.
      * cbn [see wait seen cached]; rewrite !latest_app; cbn [fold_left]; exact H.
  - cbn [see store seen cached]. rewrite latest_app. reflexivity.
Qed.
Lemma run_snoc es e : run (es ++ [e]) = step (run es) e.
Proof. unfold Identity_Model.run. rewrite fold_left_app. reflexivity. Qed.
Lemma run_latest es : latest (seen I (run es)) = cached I (run es).
Proof.
  induction es as [|e es IH] using rev_ind; [reflexivity|]. rewrite run_snoc. apply step_latest, IH.
Qed.

(** A property of every position of the log, from that of blocks. *)
Lemma positions (y : obs -> bool) (Q : list obs -> obs -> list obs -> Prop) :
  (forall b o a a', Q b o a -> Q b o (a ++ a')) ->
  (forall es b x o z, Block (run es) b -> y o = true -> b = x ++ o :: z -> Q (seen I (run es) ++ x) o z) ->
  forall es b o a, y o = true -> seen I (run es) = b ++ o :: a -> Q b o a.
Proof.
  intros Hm Hb es. induction es as [|e es IH] using rev_ind; intros b o a Hy H.
  - destruct b; discriminate H.
  - rewrite run_snoc in H. destruct (step_block (run es) e) as (blk & E & B). rewrite E in H.
    apply app_cons_split in H. destruct H as [(z' & E1 & ->)|(x' & -> & E1)].
    + apply Hm. eapply IH; [exact Hy|exact E1].
    + eapply Hb; eassumption.
Qed.

Lemma asks_cases i : asks i = [Asked i 0] \/ asks i = [Raised i IdentityErr].
Proof. unfold asks. destruct (Nat.ltb 0 sources); auto. Qed.
Lemma next_cases i p : next i p = [Asked i (S p)] \/ next i p = [Raised i IdentityErr].
Proof. unfold next. destruct (Nat.ltb (S p) sources); auto. Qed.

Lemma call_spec es b i t a : seen I (run es) = b ++ Called i t :: a ->
  match latest b with
  | Some id => if usable id t then exists a', a = Returned i id :: a' else exists a', a = asks i ++ a'
  | None => exists a', a = asks i ++ a'
  end.
Proof.
  intros H.
  refine (positions (fun o => match o with Called _ _ => true | _ => false end)
    (fun b o a => match o with Called i t =>
       match latest b with
       | Some id => if usable id t then exists a', a = Returned i id :: a' else exists a', a = asks i ++ a'
       | None => exists a', a = asks i ++ a'
       end | _ => True end) _ _ es b (Called i t) a eq_refl H); clear.
  - intros b o a a' Q. destruct o; try exact Logic.I. destruct (latest b) as [id|].
    + destruct (usable id now); destruct Q as (r & ->); exists (r ++ a'); [reflexivity|rewrite app_assoc; reflexivity].
    + destruct Q as (r & ->); exists (r ++ a'). rewrite app_assoc. reflexivity.
  - intros es b x o z B Hy E. destruct o as [i t| | | | |]; try discriminate Hy.
    assert (Hin : In (Called i t) b) by (rewrite E; apply in_or_app; right; left; reflexivity).
    destruct B as [|j s id W C Us|j s W N|j p id W|j p e W K|j p e W K|].
    + destruct Hin.
    + destruct x as [|? x]; [|destruct x as [|? [|]]; discriminate E]. injection E as <- <- <-.
      rewrite app_nil_r, run_latest, C, Us. exists []. reflexivity.
    + destruct x as [|? x].
      * injection E as <- <- <-. rewrite app_nil_r, run_latest.
        destruct (cached I (run es)) as [id|] eqn:C; [rewrite (N id eq_refl)|]; exists []; symmetry; apply app_nil_r.
      * exfalso. injection E as _ E. destruct (asks_cases j) as [A|A]; rewrite A in E; destruct x as [|? [|]]; discriminate E.
    + destruct Hin as [X|[X|[]]]; discriminate X.
    + destruct Hin as [X|X]; [discriminate X|]. destruct (next_cases j p) as [A|A]; rewrite A in X; destruct X as [X|[]]; discriminate X.
    + destruct Hin as [X|[X|[]]]; discriminate X.
    + destruct Hin as [X|[]]; discriminate X.
Qed.

Lemma return_spec es b i id a : seen I (run es) = b ++ Returned i id :: a ->
  (exists b' t, b = b' ++ [Called i t] /\ latest b' = Some id /\ usable id t = true)
  \/ (exists b', b = b' ++ [Answered i (Ok id)]).
Proof.
  intros H.
  refine (positions (fun o => match o with Returned _ _ => true | _ => false end)
    (fun b o a => match o with Returned i id =>
       (exists b' t, b = b' ++ [Called i t] /\ latest b' = Some id /\ usable id t = true)
       \/ (exists b', b = b' ++ [Answered i (Ok id)]) | _ => True end) _ _ es b (Returned i id) a eq_refl H); clear.
  - intros b o a a' Q. exact Q.
  - intros es b x o z B Hy E. destruct o as [| | |i id| |]; try discriminate Hy.
    assert (Hin : In (Returned i id) b) by (rewrite E; apply in_or_app; right; left; reflexivity).
    destruct B as [|j s id' W C Us|j s W N|j p id' W|j p e W K|j p e W K|].
    + destruct Hin.
    + destruct x as [|? [|? [|]]]; try discriminate E. injection E as <- <- <- <-. left.
      exists (seen I (run es)), s. split; [reflexivity|]. split; [rewrite run_latest; exact C|exact Us].
    + destruct Hin as [X|X]; [discriminate X|]. destruct (asks_cases j) as [A|A]; rewrite A in X; destruct X as [X|[]]; discriminate X.
    + destruct x as [|? [|? [|]]]; try discriminate E. injection E as <- <- <- <-. right. exists (seen I (run es)). reflexivity.
    + destruct Hin as [X|X]; [discriminate X|]. destruct (next_cases j p) as [A|A]; rewrite A in X; destruct X as [X|[]]; discriminate X.
    + destruct Hin as [X|[X|[]]]; discriminate X.
    + destruct Hin as [X|[]]; discriminate X.
Qed.

(** ** One task *)
Lemma mine_app i (l b : list obs) : mine i (l ++ b) = mine i l ++ mine i b.
Proof. apply filter_app. Qed.
Definition session (i : nat) (w : option nat) (log : list obs) : Prop :=
  match w with None => idle sources skipped i log | Some p => busy sources skipped i p log end.

Lemma idle_add i (log b : list obs) : idle sources skipped i log -> Complete i b -> idle sources skipped i (log ++ b).
Proof.
  intros (cs & E & F) Cb. exists (cs ++ [b]). rewrite mine_app, E, concat_app. cbn [List.concat]. rewrite app_nil_r.
  split; [|apply Forall_app; split; [exact F|constructor; [exact Cb|constructor]]]. f_equal.
  assert (T : forall p l, Trying i p l -> mine i l = l).
  { intros p l H. induction H as [t|p l e H IH Hp He]; [cbn; rewrite Nat.eqb_refl; reflexivity|].
    rewrite mine_app, IH. cbn. rewrite Nat.eqb_refl. reflexivity. }
  destruct Cb as [t id|p l id Ht Hp|p l e Ht Hp He|l Ht].
  - cbn. rewrite Nat.eqb_refl. reflexivity.
  - rewrite mine_app, (T _ _ Ht). cbn. rewrite Nat.eqb_refl. reflexivity.
  - rewrite mine_app, (T _ _ Ht). cbn. rewrite Nat.eqb_refl. reflexivity.
  - rewrite mine_app, (T _ _ Ht). cbn. rewrite Nat.eqb_refl. reflexivity.
Qed.
Lemma session_same i w log b : mine i b = [] -> session i w log -> session i w (log ++ b).
Proof.
  intros E. unfold session, idle, busy. rewrite mine_app, E, app_nil_r. exact (fun H => H).
Qed.
Lemma finish_idle i cs l b log : mine i log = List.concat cs ++ l -> Forall (Complete i) cs -> mine i b = b ->
  Complete i (l ++ b) -> idle sources skipped i (log ++ b).
Proof.
  intros E F Eb C. exists (cs ++ [l ++ b]). rewrite mine_app, E, Eb, concat_app. cbn [List.concat].
  rewrite app_nil_r, <- app_assoc. split; [reflexivity|]. apply Forall_app. split; [exact F|]. constructor; [exact C|constructor].
Qed.

Lemma step_session c e i : session i (waiting I c i) (seen I c) -> session i (waiting I (step c e) i) (seen I (step c e)).
Proof.
  intros H. destruct e as [j t|j r|]; cbn [Identity_Model.step].
  - destruct (waiting I c j) eqn:W; [exact H|]. cbn [see cached].
    assert (M : session i (waiting I (ask I sources j 0 (see I [Called j t] c)) i)
                        (seen I (ask I sources j 0 (see I [Called j t] c)))).
    { unfold ask. destruct (Nat.ltb_spec 0 sources) as [L|L]; cbn [see wait seen waiting]; rewrite <- app_assoc; cbn [app];
        destruct (Nat.eqb_spec j i) as [->|N].
      - rewrite W in H. destruct H as (cs & E & F). exists cs, [Called i t].
        rewrite mine_app, E. cbn. rewrite Nat.eqb_refl. split; [reflexivity|]. split; [exact F|]. split; [constructor|exact L].
      - apply session_same; [|exact H]. cbn. destruct (Nat.eqb_spec i j); [congruence|reflexivity].
      - rewrite W in H. apply idle_add; [exact H|]. apply (Complete_none sources skipped i [Called i t]).
        replace sources with 0%nat by lia. constructor.
      - apply session_same; [|exact H]. cbn. destruct (Nat.eqb_spec i j); [congruence|reflexivity]. }
    destruct (cached I c) as [id|] eqn:C; [|exact M]. destruct (usable id t); [|exact M].
    cbn [see seen waiting]. rewrite <- app_assoc. cbn [app]. destruct (Nat.eqb_spec j i) as [->|N].
    + rewrite W in *. apply idle_add; [exact H|]. constructor.
    + apply session_same; [|exact H]. cbn. destruct (Nat.eqb_spec i j); [congruence|reflexivity].
  - destruct (waiting I c j) as [p|] eqn:W; [|exact H]. destruct (Nat.eqb_spec j i) as [->|N].
    + rewrite W in H. destruct H as (cs & l & E & F & T & L). destruct r as [id|e].
      * cbn [see store wait seen waiting]. rewrite Nat.eqb_refl, <- app_assoc. cbn [app session].
        apply (finish_idle i cs (l ++ [Asked i p])); [exact E|exact F|cbn; rewrite Nat.eqb_refl; reflexivity|].
        rewrite <- app_assoc. exact (Complete_first sources skipped i p l id T L).
      * destruct (skips e) eqn:K.
        -- unfold ask. destruct (Nat.ltb_spec (S p) sources) as [L'|L']; cbn [see wait seen waiting];
             rewrite Nat.eqb_refl, <- app_assoc; cbn [app session].
           ++ exists cs, (l ++ [Asked i p; Answered i (Err e)]). rewrite mine_app, E. cbn. rewrite Nat.eqb_refl.
              split; [rewrite <- !app_assoc; reflexivity|]. split; [exact F|]. split; [|exact L'].
              apply Trying_next; assumption.
           ++ apply (finish_idle i cs (l ++ [Asked i p])); [exact E|exact F|cbn; rewrite Nat.eqb_refl; reflexivity|].
              rewrite <- app_assoc. cbn [app].
              replace (l ++ [Asked i p; Answered i (Err e); Raised i IdentityErr])
                with ((l ++ [Asked i p; Answered i (Err e)]) ++ [Raised i IdentityErr]) by (rewrite <- app_assoc; reflexivity).
              apply Complete_none. replace sources with (S p) at 2 by lia. apply Trying_next; assumption.
        -- cbn [see wait seen waiting]. rewrite Nat.eqb_refl, <- app_assoc. cbn [app session].
           apply (finish_idle i cs (l ++ [Asked i p])); [exact E|exact F|cbn; rewrite Nat.eqb_refl; reflexivity|].
           rewrite <- app_assoc. cbn [app]. apply Complete_error; [exact T|exact L|congruence].
    + assert (Ne : Nat.eqb j i = false) by (apply Nat.eqb_neq; exact N).
      assert (Ne' : Nat.eqb i j = false) by (apply Nat.eqb_neq; congruence).
      destruct r as [id|e].
      * cbn [see store wait seen waiting]. rewrite Ne, <- app_assoc. apply session_same; [|exact H]. cbn. rewrite Ne'. reflexivity.
      * destruct (skips e).
        -- unfold ask. destruct (Nat.ltb (S p) sources); cbn [see wait seen waiting];
             rewrite Ne, <- app_assoc; (apply session_same; [|exact H]); cbn; rewrite Ne'; reflexivity.
        -- cbn [see wait seen waiting]. rewrite Ne, <- app_assoc. apply session_same; [|exact H]. cbn. rewrite Ne'. reflexivity.
  - cbn [see store seen waiting]. apply session_same; [reflexivity|exact H].
Qed.
Lemma run_session es i : session i (waiting I (run es) i) (seen I (run es)).
Proof.
  induction es as [|e es IH] using rev_ind; [exists []; split; [reflexivity|constructor]|]. rewrite run_snoc. apply step_session, IH.
Qed.

(** An answer goes to a task that has just asked. *)
Lemma answer_spec es b i r a : seen I (run es) = b ++ Answered i r :: a ->
  exists p b1, mine i b = b1 ++ [Asked i p].
Proof.
  intros H.
  refine (positions (fun o => match o with Answered _ _ => true | _ => false end)
    (fun b o a => match o with Answered i r => exists p b1, mine i b = b1 ++ [Asked i p] | _ => True end)
    _ _ es b (Answered i r) a eq_refl H); clear.
  - intros b o a a' Q. exact Q.
  - intros es b x o z B Hy E. destruct o as [| |i r| | |]; try discriminate Hy.
    assert (Hin : In (Answered i r) b) by (rewrite E; apply in_or_app; right; left; reflexivity).
    assert (W : exists p, waiting I (run es) i = Some p /\ x = []).
    { destruct B as [|j s id' W C Us|j s W N|j p id' W|j p e W K|j p e W K|].
      - destruct Hin.
      - destruct Hin as [X|[X|[]]]; discriminate X.
      - destruct Hin as [X|X]; [discriminate X|]. destruct (asks_cases j) as [A|A]; rewrite A in X; destruct X as [X|[]]; discriminate X.
      - destruct x as [|? [|? [|]]]; try discriminate E. injection E as <- <- <-. eauto.
      - destruct x as [|? x].
        + injection E as <- <- <-. eauto.
        + injection E as _ E. destruct (next_cases j p) as [A|A]; rewrite A in E; destruct x as [|? [|]]; discriminate E.
      - destruct x as [|? [|? [|]]]; try discriminate E. injection E as <- <- <-. eauto.
      - destruct Hin as [X|[]]; discriminate X. }
    destruct W as (p & W & ->). rewrite app_nil_r. pose proof (run_session es i) as S. rewrite W in S.
    destruct S as (cs & l & E' & _). exists p, (List.concat cs ++ l). rewrite E', app_assoc. reflexivity.
Qed.

Lemma Complete_last i l : Complete i l -> exists l' o, l = l' ++ [o] /\ forall p, o <> Asked i p.
Proof.
  intros [t id|p l0 id _ _|p l0 e _ _ _|l0 _].
  - exists [Called i t], (Returned i id). split; [reflexivity|discriminate].
  - exists (l0 ++ [Asked i p; Answered i (Ok id)]), (Returned i id). rewrite <- app_assoc. split; [reflexivity|discriminate].
  - exists (l0 ++ [Asked i p; Answered i (Err e)]), (Raised i e). rewrite <- app_assoc. split; [reflexivity|discriminate].
  - exists l0, (Raised i IdentityErr). split; [reflexivity|discriminate].
Qed.
Lemma idle_last i (log b : list obs) p : idle sources skipped i log -> mine i log = b ++ [Asked i p] -> False.
Proof.
  intros (cs & E & F) H. rewrite E in H. destruct cs as [|c cs] using rev_ind.
  - destruct b; discriminate H.
  - apply Forall_app in F. destruct F as [_ F]. inversion F as [|? ? Cc _]; subst.
    destruct (Complete_last _ _ Cc) as (l' & o & -> & No). rewrite concat_app in H. cbn [List.concat] in H.
    rewrite app_nil_r, app_assoc in H. apply app_inj_tail in H. destruct H as [_ H]. exact (No p H).
Qed.

Lemma latest_from (l : list obs) : forall (v : option I) id,
  fold_left (fun v o => match o with Answered _ (Ok id) => Some id | Invalidated => None | _ => v end) l v = Some id ->
  v = Some id \/ exists j, In (Answered j (Ok id)) l.
Proof.
  induction l as [|o l IH]; intros v id E; [left; exact E|]. cbn [fold_left] in E. apply IH in E.
  destruct E as [E|(j & H)]; [|right; exists j; right; exact H].
  destruct o as [| |j [id'|]| | |]; try (left; exact E); [|discriminate E].
  injection E as ->. right. exists j. left. reflexivity.
Qed.

Lemma after_invalidate es b m i t id a :
  seen I (run es) = b ++ Invalidated :: m ++ Called i t :: Returned i id :: a ->
  (exists j, In (Answered j (Ok id)) m)
  /\ ((forall j, idle sources skipped j b) ->
      exists j p m1 m2 m3, m = m1 ++ Asked j p :: m2 ++ Answered j (Ok id) :: m3).
Proof.
  intros H.
  assert (A : exists j, In (Answered j (Ok id)) m).
  { assert (H' : seen I (run es) = (b ++ Invalidated :: m) ++ Called i t :: Returned i id :: a)
      by (rewrite <- app_assoc; exact H).
    pose proof (call_spec es _ i t _ H') as C.
    destruct (latest (b ++ Invalidated :: m)) as [id'|] eqn:L.
    - destruct (usable id' t); destruct C as (a' & C).
      + injection C as <- _. rewrite latest_app in L. cbn [fold_left] in L. apply latest_from in L.
        destruct L as [L|L]; [discriminate L|exact L].
      + destruct (asks_cases i) as [E|E]; rewrite E in C; discriminate C.
    - destruct C as (a' & C). destruct (asks_cases i) as [E|E]; rewrite E in C; discriminate C. }
  split; [exact A|]. intros Hid. destruct A as (j & Hj). apply in_split in Hj. destruct Hj as (m1 & m3 & ->).
  assert (H' : seen I (run es) = (b ++ Invalidated :: m1) ++ Answered j (Ok id) :: (m3 ++ Called i t :: Returned i id :: a)).
  { rewrite H, <- !app_assoc. cbn [app]. reflexivity. }
  destruct (answer_spec es _ j _ _ H') as (p & b1 & E). rewrite mine_app in E. cbn [mine filter of_task] in E.
  assert (In (Asked j p) m1).
  { change (mine j b ++ mine j m1 = b1 ++ [Asked j p]) in E. destruct (mine j m1) as [|o r] eqn:Em using rev_ind.
    - rewrite app_nil_r in E. exfalso. exact (idle_last j b b1 p (Hid j) E).
    - clear IHr. rewrite app_assoc in E. apply app_inj_tail in E. destruct E as [_ ->].
      apply (filter_In (of_task j) (Asked j p) m1). change (In (Asked j p) (mine j m1)). rewrite Em. apply in_or_app. right. left. reflexivity. }
  apply in_split in H0. destruct H0 as (x & y & ->). exists j, p, x, y, m3. rewrite <- app_assoc. reflexivity.
Qed.
End Machine.

(** ** Container credentials *)
Section ContainerProofs.
Variable decode : bytes -> option text.
Variable json_loads : text -> option document.
Variable replies : nat -> reply.
Notation attempts := (attempts decode json_loads replies).

Lemma attempts_all left : forall n req r, In r (fst (attempts left n req)) -> r = req.
Proof.
  induction left as [|left IH]; intros n req r H; [destruct H|]. cbn [Identity_Model.attempts] in H.
  assert (A : In r (fst (let (rs, res) := attempts left (S n) req in (req :: rs, res))) -> r = req).
  { specialize (IH (S n) req r). destruct (attempts left (S n) req) as [rs res]. intros [<-|X]; [reflexivity|exact (IH X)]. }
  destruct (replies n) as [st body|]; [|exact (A H)]. destruct (negb _); [exact (A H)|].
  destruct (decode body); [|exact (A H)]. destruct (json_loads t); [|exact (A H)].
  destruct H as [<-|[]]. reflexivity.
Qed.
Definition good (r : reply) (d : document) : Prop :=
  exists body t, r = Response 200 body /\ decode body = Some t /\ json_loads t = Some d.
Definition bad (r : reply) : Prop := forall d, ~ good r d.
Lemma attempts_spec left : forall n req,
  (exists k d, (k < left)%nat /\ good (replies (n + k)) d /\ (forall j, (j < k)%nat -> bad (replies (n + j)))
     /\ fst (attempts left n req) = repeat req (S k) /\ snd (attempts left n req) = Ok d)
  \/ ((forall j, (j < left)%nat -> bad (replies (n + j)))
      /\ fst (attempts left n req) = repeat req left /\ snd (attempts left n req) = Err IdentityErr).
Proof.
  induction left as [|left IH]; intros n req.
  - right. split; [intros j Hj; lia|]. split; reflexivity.
  - assert (A : bad (replies n) -> attempts (S left) n req = (let (rs, res) := attempts left (S n) req in (req :: rs, res)) ->
      (exists k d, (k < S left)%nat /\ good (replies (n + k)) d /\ (forall j, (j < k)%nat -> bad (replies (n + j)))
         /\ fst (attempts (S left) n req) = repeat req (S k) /\ snd (attempts (S left) n req) = Ok d)
      \/ ((forall j, (j < S left)%nat -> bad (replies (n + j)))
          /\ fst (attempts (S left) n req) = repeat req (S left) /\ snd (attempts (S left) n req) = Err IdentityErr)).
    { intros B E. rewrite E. specialize (IH (S n) req). destruct (attempts left (S n) req) as [rs res]. cbn [fst snd] in *.
      assert (Sh : forall j, (n + S j = S n + j)%nat) by lia.
      destruct IH as [(k & d & Hk & G & Bk & E1 & E2)|(Bk & E1 & E2)].
      - left. exists (S k), d. split; [lia|]. rewrite Sh. split; [exact G|]. split; [|split; [rewrite E1; reflexivity|exact E2]].
        intros [|j] Hj; [rewrite Nat.add_0_r; exact B|]. rewrite Sh. apply Bk. lia.
      - right. split; [|split; [rewrite E1; reflexivity|exact E2]].
        intros [|j] Hj; [rewrite Nat.add_0_r; exact B|]. rewrite Sh. apply Bk. lia. }
    destruct (replies n) as [st body|e] eqn:R.
    2:{ apply A; [intros d (b & t & X & _); discriminate X|]. cbn [Identity_Model.attempts]. rewrite R. reflexivity. }
    destruct (N.eqb_spec st 200) as [->|Hs].
    2:{ apply A; [intros d (b & t & X & _); injection X as X _; contradiction|]. cbn [Identity_Model.attempts]. rewrite R.
        apply N.eqb_neq in Hs. rewrite Hs. reflexivity. }
    destruct (decode body) as [t|] eqn:D.
    2:{ apply A; [intros d (b & t & X & X2 & _); injection X as <-; congruence|]. cbn [Identity_Model.attempts]. rewrite R, D. reflexivity. }
    destruct (json_loads t) as [d|] eqn:J.
    2:{ apply A; [intros d (b & t' & X & X2 & X3); injection X as <-; congruence|]. cbn [Identity_Model.attempts]. rewrite R, D, J. reflexivity. }
    left. exists 0%nat, d. split; [lia|]. rewrite Nat.add_0_r, R. split; [exists body, t; auto|].
    split; [intros j Hj; lia|]. cbn [Identity_Model.attempts]. rewrite R, D, J. split; reflexivity.
Qed.
End ContainerProofs.

Lemma permitted_spec ip_loopback h : is_loopback ip_loopback h || is_allowed h = true <-> permitted ip_loopback h.
Proof.
  unfold is_loopback, is_allowed, permitted. rewrite Bool.orb_true_iff, mem_text_In.
  unfold ALLOWED_HOSTS, METADATA_IP. cbn [In].
  assert (L : match ip_loopback h with Some b => b | None => false end = true <-> ip_loopback h = Some true).
  { destruct (ip_loopback h) as [[]|]; split; intros; congruence. }
  rewrite L. split.
  - intros [H|[H|[H|[H|[H|[]]]]]]; auto 8.
  - intros [H|[H|[H|[H|H]]]]; auto 8.
Qed.
