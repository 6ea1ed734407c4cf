(** Proofs about enumerations that take unknown values. *)
From Verif Require Import Base Base_Proofs UnknownEnum_Model.

Lemma native_eqb_eq : forall a b, native_eqb a b = true <-> a = b.
Proof.
  intros [x|x] [y|y]; cbn; split; intros H; try discriminate.
  - f_equal. now apply text_eqb_eq.
  - injection H as ->. apply text_eqb_refl.
  - f_equal. now apply Z.eqb_eq.
  - injection H as ->. apply Z.eqb_refl.
Qed.
Lemma native_eqb_refl : forall a, native_eqb a a = true.
Proof. intros a. now apply native_eqb_eq. Qed.
Lemma native_eqb_sym : forall a b, native_eqb a b = native_eqb b a.
Proof.
  intros a b. destruct (native_eqb a b) eqn:E.
  - apply native_eqb_eq in E. subst. symmetry. apply native_eqb_refl.
  - destruct (native_eqb b a) eqn:F; [|reflexivity]. apply native_eqb_eq in F. subst. rewrite native_eqb_refl in E. discriminate.
Qed.

Lemma nth_old : forall A (l r : list A) i x, nth_error l i = Some x -> nth_error (l ++ r) i = Some x.
Proof. intros A l r i x H. rewrite nth_error_app1; [exact H|]. apply nth_error_Some. rewrite H. discriminate. Qed.
Lemma nth_snoc : forall A (l : list A) y i x, nth_error (l ++ [y]) i = Some x ->
  nth_error l i = Some x \/ (i = List.length l /\ x = y).
Proof.
  intros A l y i x H. destruct (Nat.lt_ge_cases i (List.length l)) as [L|L].
  - left. now rewrite nth_error_app1 in H.
  - right. rewrite nth_error_app2 in H by exact L. destruct (i - List.length l)%nat as [|n] eqn:E.
    + cbn in H. injection H as <-. split; [lia|reflexivity].
    + cbn in H. destruct n; discriminate.
Qed.
Lemma nth_last : forall A (l : list A) y, nth_error (l ++ [y]) (List.length l) = Some y.
Proof. intros A l y. rewrite nth_error_app2 by lia. now rewrite Nat.sub_diag. Qed.

(** ** What holds of every world a program can get to *)
Definition class_ok (w : world) (c : nat) (k : cls) : Prop :=
  (forall m, In m (c_members k) -> exists o, get_obj w m = Some o /\ o_kind o = Enum c /\ o_unknown o = false
     /\ o_corrected o = false /\ In (o_native o) (c_values k)) /\
  (forall v, In v (c_values k) -> exists m o, In m (c_members k) /\ get_obj w m = Some o /\ o_native o = v) /\
  (forall m n o p, In m (c_members k) -> In n (c_members k) -> get_obj w m = Some o -> get_obj w n = Some p ->
     o_native o = o_native p -> m = n) /\
  (forall v, In v (c_values k) -> has_type (c_str k) v = true).
Definition obj_ok (w : world) (r : nat) (o : obj) : Prop :=
  match o_kind o with
  | Enum c => exists k, get_cls w c = Some k /\ has_type (c_str k) (o_native o) = true
      /\ (o_unknown o = false <-> In r (c_members k)) /\ (o_corrected o = true -> o_unknown o = true)
  | _ => o_unknown o = false /\ o_corrected o = false
  end.
Definition world_ok (w : world) : Prop :=
  (forall c k, get_cls w c = Some k -> class_ok w c k) /\ (forall r o, get_obj w r = Some o -> obj_ok w r o).

Lemma members_old : forall w c k m, world_ok w -> get_cls w c = Some k -> In m (c_members k) -> (m < List.length (objs w))%nat.
Proof.
  intros w c k m [C _] G I. destruct (C _ _ G) as [M _]. destruct (M m I) as (o & O & _).
  apply nth_error_Some. unfold get_obj in O. rewrite O. discriminate.
Qed.

Lemma class_ok_grows : forall w x c k, world_ok w -> get_cls w c = Some k -> class_ok w c k ->
  forall ks, class_ok (mkWorld (objs w ++ x) ks) c k.
Proof.
  intros w x c k W G (A & B & D & E) ks. repeat split.
  - intros m I. destruct (A m I) as (o & O & R). exists o. split; [|exact R]. unfold get_obj. cbn. now apply nth_old.
  - intros v I. destruct (B v I) as (m & o & M & O & V). exists m, o. repeat split; try assumption. unfold get_obj. cbn. now apply nth_old.
  - intros m n o p Im In_ Om On V.
    assert (forall i q, In i (c_members k) -> nth_error (objs w ++ x) i = Some q -> get_obj w i = Some q) as H.
    { intros i q Ii Q. rewrite nth_error_app1 in Q; [exact Q|]. eapply members_old; eassumption. }
    apply (D m n o p Im In_ (H _ _ Im Om) (H _ _ In_ On) V).
  - exact E.
Qed.

Lemma alloc_ok : forall w o, world_ok w ->
  match o_kind o with
  | Enum c => exists k, get_cls w c = Some k /\ has_type (c_str k) (o_native o) = true /\ o_unknown o = true
  | _ => o_unknown o = false /\ o_corrected o = false
  end -> world_ok (fst (alloc o w)).
Proof.
  intros w o W H. pose proof W as [C O]. split.
  - intros c k G. cbn in G. apply class_ok_grows; auto.
  - intros r p G. cbn in G. apply nth_snoc in G as [G|[-> ->]].
    + specialize (O r p G). unfold obj_ok in *. exact O.
    + unfold obj_ok. destruct (o_kind o) as [|c|]; [exact H| |exact H]. destruct H as (k & K & T & U).
      exists k. split; [exact K|]. split; [exact T|]. split; [|intros _; exact U]. split; intros I.
      * rewrite U in I. discriminate.
      * apply (members_old _ _ _ _ W K) in I. lia.
Qed.

Definition new_member (c : nat) (v : native) : obj := mkObj (Enum c) v false false.
Lemma make_members_spec : forall c values done w w1 ms, make_members c values done w = (w1, ms) ->
  exists vs, objs w1 = objs w ++ map (new_member c) vs /\ classes w1 = classes w
    /\ ms = done ++ combine vs (seq (List.length (objs w)) (List.length vs))
    /\ NoDup vs
    /\ (forall v, In v vs -> ~ In v (map fst done))
    /\ (forall v, In v vs -> In v values) /\ (forall v, In v values -> In v vs \/ In v (map fst done)).
Proof.
  intros c. induction values as [|v l IH]; intros done w w1 ms H; cbn [make_members] in H.
  - injection H as <- <-. exists []. cbn. rewrite !app_nil_r.
    split; [reflexivity|]. split; [reflexivity|]. split; [reflexivity|]. split; [constructor|].
    split; [intros v []|]. split; intros v [].
  - destruct (existsb (fun p => native_eqb (fst p) v) done) eqn:X.
    + destruct (IH _ _ _ _ H) as (vs & A & B & D & E & F & G & I). exists vs.
      split; [exact A|]. split; [exact B|]. split; [exact D|]. split; [exact E|]. split; [exact F|]. split.
      * intros u U. right. now apply G.
      * intros u [<-|U]; [|now apply I]. right. apply existsb_exists in X as (p & P & Q). apply native_eqb_eq in Q. subst.
        now apply in_map.
    + cbn [alloc] in H. destruct (IH _ _ _ _ H) as (vs & A & B & D & E & F & G & I). cbn in A, B, D.
      exists (v :: vs). rewrite app_length in D. cbn in D. rewrite Nat.add_1_r in D.
      assert (~ In v vs) as N. { intros U. apply (F v U). rewrite map_app. apply in_or_app. right. now left. }
      split; [rewrite A, <- app_assoc; reflexivity|]. split; [exact B|].
      split; [rewrite D, <- app_assoc; reflexivity|]. split; [now constructor|]. split; [|split].
      * intros u [<-|U] J.
        -- apply in_map_iff in J as (p & P & Q). assert (existsb (fun p => native_eqb (fst p) v) done = true) as Y.
           { apply existsb_exists. exists p. split; [exact Q|]. now apply native_eqb_eq. }
           rewrite Y in X. discriminate.
        -- apply (F u U). rewrite map_app. apply in_or_app. now left.
      * intros u [<-|U]; [now left|right; now apply G].
      * intros u [<-|U]; [left; now left|]. destruct (I u U) as [J|J]; [left; now right|].
        rewrite map_app in J. apply in_app_or in J as [J|[<-|[]]]; [now right|left; now left].
Qed.

Lemma map_snd_combine_seq : forall A (vs : list A) n, map snd (combine vs (seq n (List.length vs))) = seq n (List.length vs).
Proof. induction vs as [|v vs IH]; intros n; cbn; [reflexivity|]. now rewrite IH. Qed.

Lemma nth_tail : forall A (l r : list A) i, (List.length l <= i)%nat -> nth_error (l ++ r) i = nth_error r (i - List.length l).
Proof. intros. now apply nth_error_app2. Qed.

Lemma define_ok : forall str values w, world_ok w -> world_ok (fst (define str values w)).
Proof.
  intros str values w W. unfold define. destruct (forallb (has_type str) values) eqn:T; [|exact W].
  rewrite forallb_forall in T.
  destruct (make_members (List.length (classes w)) values [] w) as [w1 ms] eqn:M. cbn [fst].
  destruct (make_members_spec _ _ _ _ _ _ M) as (vs & A & B & D & E & _ & G & I).
  cbn in D. subst ms. rewrite map_snd_combine_seq, A, B.
  set (c := List.length (classes w)). set (n := List.length (objs w)).
  set (k := mkCls str values (seq n (List.length vs))).
  assert (forall m o, In m (c_members k) -> nth_error (objs w ++ map (new_member c) vs) m = Some o ->
            exists v, nth_error vs (m - n) = Some v /\ o = new_member c v) as H.
  { intros m o J O. cbn in J. apply in_seq in J. rewrite nth_tail in O by (unfold n in J; lia).
    rewrite nth_error_map in O. fold n in O. destruct (nth_error vs (m - n)) as [v|]; [|discriminate].
    injection O as <-. now exists v. }
  assert (forall m, In m (c_members k) -> exists v, nth_error vs (m - n) = Some v /\
            nth_error (objs w ++ map (new_member c) vs) m = Some (new_member c v)) as H2.
  { intros m J. cbn in J. apply in_seq in J. destruct (nth_error vs (m - n)) as [v|] eqn:V.
    - exists v. split; [reflexivity|]. rewrite nth_tail by (unfold n in J; lia). rewrite nth_error_map. fold n. now rewrite V.
    - apply nth_error_None in V. lia. }
  pose proof W as [C O]. split.
  - intros d kd GD. unfold get_cls in GD. cbn [classes] in GD. apply nth_snoc in GD as [GD|[-> ->]].
    + apply (class_ok_grows w (map (new_member c) vs)); [exact W|exact GD|]. now apply C.
    + fold c. repeat split.
      * intros m J. destruct (H2 m J) as (v & V & Q). exists (new_member c v). repeat split; [exact Q|].
        cbn. apply G. apply nth_error_In in V. exact V.
      * intros v J. destruct (I v J) as [U|[]]. apply In_nth_error in U as [i U].
        exists (n + i)%nat, (new_member c v). repeat split.
        -- cbn. apply in_seq. assert (i < List.length vs)%nat by (apply nth_error_Some; rewrite U; discriminate). lia.
        -- unfold get_obj. cbn. rewrite nth_tail by (unfold n; lia). fold n. replace (n + i - n)%nat with i by lia.
           now rewrite nth_error_map, U.
      * intros m m' o o' J J' Q Q' V. unfold get_obj in Q, Q'. cbn [objs] in Q, Q'.
        destruct (H m o J Q) as (v & X & ->). destruct (H m' o' J' Q') as (v' & X' & ->). cbn in V. subst v'.
        cbn in J, J'. apply in_seq in J. apply in_seq in J'.
        assert (m - n = m' - n)%nat as Y.
        { apply (proj1 (NoDup_nth_error vs) E); [apply nth_error_Some; rewrite X; discriminate|congruence]. }
        lia.
      * intros v J. cbn. now apply T.
  - intros r o GO. unfold get_obj in GO. cbn [objs] in GO. destruct (Nat.lt_ge_cases r n) as [L|L].
    + rewrite nth_error_app1 in GO by exact L. specialize (O r o GO). unfold obj_ok in *. destruct (o_kind o) as [|d|]; try exact O.
      destruct O as (kd & K & R). exists kd. split; [|exact R]. unfold get_cls in *. cbn. now apply nth_old.
    + rewrite nth_tail in GO by exact L. rewrite nth_error_map in GO. fold n in GO.
      destruct (nth_error vs (r - n)) as [v|] eqn:V; [|discriminate]. injection GO as <-. cbn. exists k.
      split; [unfold get_cls; cbn; apply nth_last|]. split; [apply T, G; now apply nth_error_In in V|].
      split; [|discriminate]. split; [|reflexivity]. intros _. cbn. apply in_seq.
      assert (r - n < List.length vs)%nat by (apply nth_error_Some; rewrite V; discriminate). lia.
Qed.

Lemma find_some : forall w b ms m, find_member w b ms = Some m ->
  In m ms /\ exists o, get_obj w m = Some o /\ o_native o = o_native b /\ (match o_kind b with Enum _ => o_corrected b = false | _ => True end).
Proof.
  intros w b. induction ms as [|x l IH]; intros m H; cbn in H; [discriminate|].
  destruct (get_obj w x) as [o|] eqn:X.
  - destruct (o_kind b) as [|d|] eqn:K.
    + destruct (native_eqb (o_native o) (o_native b)) eqn:E.
      * injection H as <-. split; [now left|]. exists o. apply native_eqb_eq in E. auto.
      * destruct (IH m H). split; [now right|assumption].
    + destruct (o_corrected b) eqn:Z.
      * destruct (IH m H). split; [now right|assumption].
      * destruct (native_eqb (o_native b) (o_native o)) eqn:E.
        -- injection H as <-. split; [now left|]. exists o. apply native_eqb_eq in E. auto.
        -- destruct (IH m H). split; [now right|assumption].
    + destruct (native_eqb (o_native o) (o_native b)) eqn:E.
      * injection H as <-. split; [now left|]. exists o. apply native_eqb_eq in E. auto.
      * destruct (IH m H). split; [now right|assumption].
  - destruct (IH m H). split; [now right|assumption].
Qed.
Lemma find_none : forall w b ms, find_member w b ms = None ->
  (match o_kind b with Enum _ => o_corrected b = false | _ => True end) ->
  forall m o, In m ms -> get_obj w m = Some o -> o_native o <> o_native b.
Proof.
  intros w b. induction ms as [|x l IH]; intros H Z m o I G; [destruct I|]. cbn in H.
  assert (find_member w b l = None /\ (forall p, get_obj w x = Some p -> o_native p <> o_native b)) as [A B].
  { destruct (get_obj w x) as [p|]; [|split; [exact H|discriminate]].
    destruct (o_kind b).
    - destruct (native_eqb (o_native p) (o_native b)) eqn:E; [discriminate|]. split; [exact H|].
      intros q Q F. injection Q as <-. rewrite F, native_eqb_refl in E. discriminate.
    - rewrite Z in H. destruct (native_eqb (o_native b) (o_native p)) eqn:E; [discriminate|]. split; [exact H|].
      intros q Q F. injection Q as <-. rewrite F, native_eqb_refl in E. discriminate.
    - destruct (native_eqb (o_native p) (o_native b)) eqn:E; [discriminate|]. split; [exact H|].
      intros q Q F. injection Q as <-. rewrite F, native_eqb_refl in E. discriminate. }
  destruct I as [<-|I]; [now apply B|]. now apply (IH A Z m o I G).
Qed.

Lemma call_ok : forall c s w, world_ok w -> world_ok (fst (call c s w)).
Proof.
  intros c s w W. unfold call. destruct (get_cls w c) as [k|] eqn:K; [|exact W]. destruct (get_obj w s) as [b|]; [|exact W].
  destruct (c_members k) as [|m0 ms] eqn:M; [exact W|]. destruct (kind_is (o_kind b) c); [exact W|].
  destruct (find_member w b (m0 :: ms)); [exact W|]. destruct (has_type (c_str k) (o_native b)) eqn:T; [|exact W].
  apply (alloc_ok w (mkObj (Enum c) (o_native b) true false) W). cbn. exists k. auto.
Qed.

Lemma step_ok : forall o w, world_ok w -> world_ok (fst (step o w)).
Proof.
  intros [k v|str values|c s|c v|c s] w W; cbn [step].
  - destruct k as [|d|]; [|exact W|].
    + apply (alloc_ok w (mkObj Plain v false false) W). cbn. auto.
    + apply (alloc_ok w (mkObj Subclass v false false) W). cbn. auto.
  - now apply define_ok.
  - now apply call_ok.
  - unfold corrected. destruct (get_cls w c) as [k|] eqn:K; [|exact W]. destruct (has_type (c_str k) v) eqn:T; [|exact W].
    apply (alloc_ok w (mkObj (Enum c) v true true) W). cbn. exists k. auto.
  - unfold unpickled. destruct (get_obj w s) as [b|]; [|exact W]. cbn [alloc].
    apply call_ok. apply (alloc_ok w (mkObj Plain (o_native b) false false) W). cbn. auto.
Qed.
Lemma run_ok : forall l w, world_ok w -> world_ok (run l w).
Proof. induction l as [|o l IH]; intros w W; cbn; [exact W|]. apply IH. now apply step_ok. Qed.
Lemma empty_ok : world_ok empty_world.
Proof. split; intros [|n] x H; discriminate. Qed.
Lemma reach_ok : forall l, world_ok (run l empty_world).
Proof. intros l. apply run_ok, empty_ok. Qed.

(** Objects stay what they are. *)
Lemma step_keeps : forall o w r x, get_obj w r = Some x -> get_obj (fst (step o w)) r = Some x.
Proof.
  assert (forall c s w r x, get_obj w r = Some x -> get_obj (fst (call c s w)) r = Some x) as H.
  { intros c s w r x G. unfold call. destruct (get_cls w c) as [k|]; [|exact G]. destruct (get_obj w s) as [b|]; [|exact G].
    destruct (c_members k) as [|m0 ms]; [exact G|]. destruct (kind_is (o_kind b) c); [exact G|].
    destruct (find_member w b (m0 :: ms)); [exact G|]. destruct (has_type (c_str k) (o_native b)); [|exact G].
    unfold get_obj. cbn. now apply nth_old. }
  intros [k v|str values|c s|c v|c s] w r x G; cbn [step].
  - destruct k; [unfold get_obj; cbn; now apply nth_old|exact G|unfold get_obj; cbn; now apply nth_old].
  - unfold define. destruct (forallb (has_type str) values); [|exact G].
    destruct (make_members (List.length (classes w)) values [] w) as [w1 ms] eqn:M. cbn [fst].
    destruct (make_members_spec _ _ _ _ _ _ M) as (vs & A & _). unfold get_obj. cbn. rewrite A. now apply nth_old.
  - now apply H.
  - unfold corrected. destruct (get_cls w c) as [k|]; [|exact G]. destruct (has_type (c_str k) v); [|exact G].
    unfold get_obj. cbn. now apply nth_old.
  - unfold unpickled. destruct (get_obj w s) as [b|]; [|exact G]. cbn [alloc]. apply H. unfold get_obj. cbn. now apply nth_old.
Qed.
Lemma run_keeps : forall l w r x, get_obj w r = Some x -> get_obj (run l w) r = Some x.
Proof. induction l as [|o l IH]; intros w r x G; cbn; [exact G|]. apply IH. now apply step_keeps. Qed.
