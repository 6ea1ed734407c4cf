(** C99: values of enumerations. *)
From Verif Require Import Base Base_Proofs UnknownEnum_Model UnknownEnum_Spec UnknownEnum_Proofs.

Lemma reachable_ok : forall w, reachable w -> world_ok w.
Proof. intros w [l ->]. apply reach_ok. Qed.

(** Two enumerations, the first with an alias, and some texts and numbers. *)
Definition ex_ops : list op :=
  [Define true [NStr (lit "red"); NStr (lit "blue"); NStr (lit "red")];  (* class 0: objects 0, 1 *)
   Define false [NInt 1; NInt (-1)];                                     (* class 1: objects 2, 3 *)
   Literal Plain (NStr (lit "red"));                                     (* 4 *)
   Literal Plain (NStr (lit "green"));                                   (* 5 *)
   Call 0 5;                                                             (* 6: unknown, green *)
   Corrected 0 (NStr []);                                                (* 7: placeholder *)
   Literal Plain (NStr []);                                              (* 8 *)
   Corrected 1 (NInt (-1));                                              (* 9: placeholder of a declared value *)
   Literal Subclass (NStr []);                                           (* 10 *)
   Literal Plain (NInt 5);                                               (* 11 *)
   Define true [];                                                       (* class 2 *)
   Define true [NStr []]]%Z.                                             (* class 3: object 12 *)
Definition ex_world : world := run ex_ops empty_world.
Lemma ex_reachable : reachable ex_world.
Proof. now exists ex_ops. Qed.

(** A value the enumeration declares gives its member, and creates nothing. *)
Theorem C99_declared : forall w c k s b, reachable w -> get_cls w c = Some k -> get_obj w s = Some b -> raw b ->
  In (o_native b) (c_values k) ->
  exists m o, call c s w = (w, Ok m) /\ In m (c_members k) /\ get_obj w m = Some o /\ o_kind o = Enum c
    /\ o_native o = o_native b /\ is_unknown o = false /\ o_corrected o = false.
Proof.
  intros w c k s b R K S B I. destruct (reachable_ok w R) as [C _]. destruct (C c k K) as (M & D & U & T).
  destruct (D _ I) as (m & o & Im & Om & V).
  assert (exists m', find_member w b (c_members k) = Some m') as [m' F].
  { destruct (find_member w b (c_members k)) as [x|] eqn:F; [now exists x|]. exfalso.
    apply (find_none w b _ F) with (m := m) (o := o); auto. destruct B as [-> | ->]; exact Logic.I. }
  destruct (find_some _ _ _ _ F) as (Im' & o' & Om' & V' & _). destruct (M m' Im') as (q & Q & Kq & Uq & Cq & _).
  rewrite Om' in Q. injection Q as <-. exists m', o'. split; [|auto 8].
  unfold call. rewrite K, S. destruct (c_members k) as [|x l]; [destruct Im|].
  replace (kind_is (o_kind b) c) with false by (destruct B as [-> | ->]; reflexivity). now rewrite F.
Qed.
Print Assumptions C99_declared.
Example C99_declared_met : call 0 4 ex_world = (ex_world, Ok 0%nat) /\ option_map o_native (get_obj ex_world 4) = Some (NStr (lit "red")).
Proof. split; reflexivity. Qed.

Lemma step_classes : forall o w c k, get_cls w c = Some k -> get_cls (fst (step o w)) c = Some k.
Proof.
  assert (forall c s w d k, get_cls w d = Some k -> get_cls (fst (call c s w)) d = Some k) as H.
  { intros c s w d k G. unfold call. destruct (get_cls w c) as [j|]; [|exact G]. destruct (get_obj w s) as [b|]; [|exact G].
    destruct (c_members j) as [|m0 ms]; [exact G|]. destruct (kind_is (o_kind b) c); [exact G|].
    destruct (find_member w b (m0 :: ms)); [exact G|]. destruct (has_type (c_str j) (o_native b)); exact G. }
  intros [x v|str values|d s|d v|d s] w c k G; cbn [step].
  - destruct x; exact G.
  - unfold define. destruct (forallb (has_type str) values); [|exact G].
    destruct (make_members (List.length (classes w)) values [] w) as [w1 ms] eqn:M. cbn [fst].
    destruct (make_members_spec _ _ _ _ _ _ M) as (vs & _ & B & _). unfold get_cls. cbn. rewrite B. now apply nth_old.
  - now apply H.
  - unfold corrected. destruct (get_cls w d) as [j|]; [|exact G]. destruct (has_type (c_str j) v); exact G.
  - unfold unpickled. destruct (get_obj w s) as [b|]; [|exact G]. cbn [alloc]. now apply H.
Qed.
Lemma run_classes : forall l w c k, get_cls w c = Some k -> get_cls (run l w) c = Some k.
Proof. induction l as [|o l IH]; intros w c k G; cbn; [exact G|]. apply IH. now apply step_classes. Qed.
Lemma run_app : forall l r w, run (l ++ r) w = run r (run l w).
Proof. induction l as [|o l IH]; intros r w; cbn; [reflexivity|apply IH]. Qed.
Lemma later_reachable : forall w w', reachable w -> later w w' -> reachable w'.
Proof. intros w w' [l ->] [r ->]. exists (l ++ r). symmetry. apply run_app. Qed.

(** It is the same member whenever and however often the value comes. *)
Theorem C99_same_member : forall w w' c k s s' b b' m m', reachable w -> later w w' -> get_cls w c = Some k ->
  get_obj w s = Some b -> raw b -> get_obj w' s' = Some b' -> raw b' ->
  In (o_native b) (c_values k) -> o_native b' = o_native b ->
  snd (call c s w) = Ok m -> snd (call c s' w') = Ok m' -> m = m'.
Proof.
  intros w w' c k s s' b b' m m' R L K S B S' B' I V E E'. pose proof (later_reachable _ _ R L) as R'.
  destruct (C99_declared w c k s b R K S B I) as (n & o & H & In_ & On & _ & Vn & _).
  assert (get_cls w' c = Some k) as K' by (destruct L as [l ->]; now apply run_classes).
  destruct (C99_declared w' c k s' b' R' K' S' B') as (n' & o' & H' & In' & On' & _ & Vn' & _); [now rewrite V|].
  rewrite H in E. rewrite H' in E'. cbn in E, E'. injection E as <-. injection E' as <-.
  destruct (reachable_ok w' R') as [C _]. destruct (C c k K') as (_ & _ & U & _).
  apply (U n n' o o' In_ In'); [|exact On'|congruence]. destruct L as [l ->]. now apply run_keeps.
Qed.
Print Assumptions C99_same_member.
Example C99_same_member_met :
  let w' := run [Literal Plain (NStr (lit "red"))] ex_world in
  get_obj w' 13 = Some (mkObj Plain (NStr (lit "red")) false false) /\ snd (call 0 4 ex_world) = Ok 0%nat /\ snd (call 0 13 w') = Ok 0%nat.
Proof. repeat split. Qed.

(** A value it does not declare gives a new value that carries it and says that it is unknown. *)
Theorem C99_unknown : forall w c k s b, reachable w -> get_cls w c = Some k -> c_values k <> [] ->
  get_obj w s = Some b -> raw b -> ~ In (o_native b) (c_values k) -> has_type (c_str k) (o_native b) = true ->
  exists w' r o, call c s w = (w', Ok r) /\ get_obj w r = None /\ get_obj w' r = Some o /\ o_kind o = Enum c
    /\ o_native o = o_native b /\ is_unknown o = true /\ o_corrected o = false
    /\ (forall i x, get_obj w i = Some x -> get_obj w' i = Some x).
Proof.
  intros w c k s b R K N S B I T. destruct (reachable_ok w R) as [C _]. destruct (C c k K) as (M & D & _).
  destruct (c_members k) as [|m0 ms] eqn:Em.
  - exfalso. destruct (c_values k) as [|v l]; [now apply N|]. destruct (D v) as (m & o & [] & _). now left.
  - assert (find_member w b (m0 :: ms) = None) as F.
    { destruct (find_member w b (m0 :: ms)) as [x|] eqn:F; [|reflexivity]. exfalso. apply I.
      destruct (find_some _ _ _ _ F) as (Ix & o & O & V & _). destruct (M x Ix) as (q & Q & _ & _ & _ & Z).
      rewrite O in Q. injection Q as <-. now rewrite <- V. }
    exists (fst (unknown c (o_native b) w)), (List.length (objs w)), (mkObj (Enum c) (o_native b) true false).
    split. { unfold call. rewrite K, S, Em. replace (kind_is (o_kind b) c) with false by (destruct B as [-> | ->]; reflexivity).
      rewrite F, T. reflexivity. }
    split; [apply nth_error_None; lia|]. split; [apply nth_last|]. do 4 (split; [reflexivity|]).
    intros i x G. unfold get_obj. cbn. now apply nth_old.
Qed.
Print Assumptions C99_unknown.
Example C99_unknown_met : snd (call 0 5 ex_world) = Ok 13%nat
  /\ get_obj (fst (call 0 5 ex_world)) 13 = Some (mkObj (Enum 0) (NStr (lit "green")) true false).
Proof. split; reflexivity. Qed.

(** A value of another type is refused. *)
Theorem C99_refused : forall w c k s b, reachable w -> get_cls w c = Some k -> c_values k <> [] ->
  get_obj w s = Some b -> raw b -> has_type (c_str k) (o_native b) = false -> call c s w = (w, Err ValueError).
Proof.
  intros w c k s b R K N S B T. destruct (reachable_ok w R) as [C _]. destruct (C c k K) as (M & D & _ & Ty).
  unfold call. rewrite K, S. destruct (c_members k) as [|m0 ms] eqn:Em.
  - exfalso. destruct (c_values k) as [|v l]; [now apply N|]. destruct (D v) as (m & o & [] & _). now left.
  - replace (kind_is (o_kind b) c) with false by (destruct B as [-> | ->]; reflexivity).
    destruct (find_member w b (m0 :: ms)) as [x|] eqn:F; [|now rewrite T]. exfalso.
    destruct (find_some _ _ _ _ F) as (Ix & o & O & V & _). destruct (M x Ix) as (q & Q & _ & _ & _ & Z).
    rewrite O in Q. injection Q as <-. rewrite V in Z. rewrite (Ty _ Z) in T. discriminate.
Qed.
Print Assumptions C99_refused.
Example C99_refused_met : call 0 11 ex_world = (ex_world, Err ValueError).
Proof. reflexivity. Qed.

(** An enumeration that declares nothing takes no value at all. *)
Theorem C99_empty_refuted : exists w c k s b, reachable w /\ get_cls w c = Some k /\ c_str k = true /\
  get_obj w s = Some b /\ o_kind b = Plain /\ has_type (c_str k) (o_native b) = true /\ call c s w = (w, Err TypeError).
Proof.
  exists ex_world, 2%nat, (mkCls true [] []), 4%nat, (mkObj Plain (NStr (lit "red")) false false).
  split; [apply ex_reachable|]. repeat split; reflexivity.
Qed.
Print Assumptions C99_empty_refuted.

(** A value of the enumeration is given back itself. *)
Theorem C99_itself : forall w c k s b, reachable w -> get_cls w c = Some k -> c_values k <> [] ->
  get_obj w s = Some b -> o_kind b = Enum c -> call c s w = (w, Ok s).
Proof.
  intros w c k s b R K N S B. destruct (reachable_ok w R) as [C _]. destruct (C c k K) as (M & D & _).
  unfold call. rewrite K, S. destruct (c_members k) as [|m0 ms] eqn:Em.
  - exfalso. destruct (c_values k) as [|v l]; [now apply N|]. destruct (D v) as (m & o & [] & _). now left.
  - rewrite B. cbn. now rewrite Nat.eqb_refl.
Qed.
Print Assumptions C99_itself.
Example C99_itself_met : call 0 7 ex_world = (ex_world, Ok 7%nat).
Proof. reflexivity. Qed.

(** [is_unknown] is false of the declared members and true of every other value. *)
Theorem C99_is_unknown : forall w c k r o, reachable w -> get_cls w c = Some k -> get_obj w r = Some o -> o_kind o = Enum c ->
  (is_unknown o = false <-> In r (c_members k)) /\ (o_corrected o = true -> is_unknown o = true).
Proof.
  intros w c k r o R K G E. destruct (reachable_ok w R) as [_ O]. specialize (O r o G). unfold obj_ok in O. rewrite E in O.
  destruct O as (k' & K' & _ & U & X). rewrite K in K'. injection K' as <-. split; assumption.
Qed.
Print Assumptions C99_is_unknown.
Example C99_is_unknown_met : map (fun r => option_map is_unknown (get_obj ex_world r)) [0; 1; 6; 7]%nat
  = [Some false; Some false; Some true; Some true].
Proof. reflexivity. Qed.

(** ** Comparisons *)
Lemma raw_not_corrected : forall w r o, reachable w -> get_obj w r = Some o -> raw o -> o_corrected o = false.
Proof.
  intros w r o R G B. destruct (reachable_ok w R) as [_ O]. specialize (O r o G). unfold obj_ok in O.
  destruct B as [B|B]; rewrite B in O; apply O.
Qed.
Lemma eq_cases : forall w r s a b, reachable w -> get_obj w r = Some a -> get_obj w s = Some b -> ordinary a -> ordinary b ->
  py_eq r s a b = if o_corrected a || o_corrected b then Nat.eqb r s else native_eqb (o_native a) (o_native b).
Proof.
  intros w r s a b R A B Oa Ob. unfold py_eq, mixin_eq. destruct Oa as [Ka|[c Ka]], Ob as [Kb|[d Kb]]; rewrite ?Ka, ?Kb; try reflexivity.
  - now rewrite (raw_not_corrected w r a R A (or_introl Ka)), (raw_not_corrected w s b R B (or_introl Kb)).
  - rewrite orb_comm, Nat.eqb_sym, native_eqb_sym. reflexivity.
Qed.

(** A placeholder for a missing member is equal to itself and to nothing else, not even
    to a member declared with its value. *)
Theorem C99_placeholder : forall w r s a b, reachable w -> get_obj w r = Some a -> get_obj w s = Some b ->
  ordinary a -> ordinary b -> o_corrected a = true ->
  (py_eq r s a b = true <-> r = s) /\ (py_eq s r b a = true <-> r = s).
Proof.
  intros w r s a b R A B Oa Ob X.
  rewrite (eq_cases w r s a b R A B Oa Ob), (eq_cases w s r b a R B A Ob Oa), X, orb_true_r. cbn.
  split; rewrite Nat.eqb_eq; [reflexivity|]. split; congruence.
Qed.
Print Assumptions C99_placeholder.
Example C99_placeholder_met :
  get_obj ex_world 3 = Some (mkObj (Enum 1) (NInt (-1)) false false)
  /\ get_obj ex_world 9 = Some (mkObj (Enum 1) (NInt (-1)) true true)
  /\ py_eq 9 3 (mkObj (Enum 1) (NInt (-1)) true true) (mkObj (Enum 1) (NInt (-1)) false false) = false.
Proof. repeat split. Qed.

(** Everything else, unknown values with it, compares as the text or number it is. *)
Theorem C99_native : forall r s a b, o_corrected a = false -> o_corrected b = false ->
  (py_eq r s a b = true <-> o_native a = o_native b) /\ py_ne r s a b = negb (py_eq r s a b).
Proof.
  intros r s a b A B. split; [|reflexivity]. rewrite <- native_eqb_eq. unfold py_eq, mixin_eq. rewrite A, B. cbn.
  destruct (o_kind a), (o_kind b); try reflexivity. now rewrite native_eqb_sym.
Qed.
Print Assumptions C99_native.
Example C99_native_met : py_eq 6 5 (mkObj (Enum 0) (NStr (lit "green")) true false) (mkObj Plain (NStr (lit "green")) false false) = true.
Proof. reflexivity. Qed.

(** Equality is an equivalence, [!=] is its opposite, and equal values have equal hashes. *)
Theorem C99_equivalence : forall w r s t a b d, reachable w ->
  get_obj w r = Some a -> get_obj w s = Some b -> get_obj w t = Some d -> ordinary a -> ordinary b -> ordinary d ->
  py_eq r r a a = true /\ py_eq r s a b = py_eq s r b a /\
  (py_eq r s a b = true -> py_eq s t b d = true -> py_eq r t a d = true).
Proof.
  intros w r s t a b d R A B D Oa Ob Od.
  rewrite (eq_cases w r r a a R A A Oa Oa), (eq_cases w r s a b R A B Oa Ob), (eq_cases w s r b a R B A Ob Oa),
    (eq_cases w s t b d R B D Ob Od), (eq_cases w r t a d R A D Oa Od).
  split. { destruct (o_corrected a); cbn; [apply Nat.eqb_refl|apply native_eqb_refl]. }
  split. { rewrite orb_comm, Nat.eqb_sym, native_eqb_sym. reflexivity. }
  assert (forall i j x y, get_obj w i = Some x -> get_obj w j = Some y -> Nat.eqb i j = true -> x = y) as H.
  { intros i j x y X Y E. apply Nat.eqb_eq in E. subst. congruence. }
  destruct (o_corrected a || o_corrected b) eqn:E1.
  - intros P. pose proof (H _ _ _ _ A B P). apply Nat.eqb_eq in P. subst. auto.
  - destruct (o_corrected b || o_corrected d) eqn:E2.
    + intros P Q. pose proof (H _ _ _ _ B D Q). apply Nat.eqb_eq in Q. subst. rewrite E1. exact P.
    + apply orb_false_iff in E1 as [E1 _]. apply orb_false_iff in E2 as [_ E2]. rewrite E1, E2. cbn.
      rewrite !native_eqb_eq. congruence.
Qed.
Print Assumptions C99_equivalence.
Theorem C99_hash : forall (H : Type) (h : native -> H) w r s a b, reachable w -> get_obj w r = Some a -> get_obj w s = Some b ->
  py_eq r s a b = true -> py_hash h a = py_hash h b.
Proof.
  intros H h w r s a b R A B E. unfold py_hash. f_equal. unfold py_eq, mixin_eq in E.
  assert (forall i j, Nat.eqb i j = true -> (i = r /\ j = s) \/ (i = s /\ j = r) -> a = b) as Q.
  { intros i j X [[-> ->]|[-> ->]]; apply Nat.eqb_eq in X; subst; congruence. }
  destruct (o_kind a), (o_kind b); try (now apply native_eqb_eq);
    try (destruct (o_corrected a || o_corrected b); [rewrite (Q r s E); auto|now apply native_eqb_eq]).
  destruct (o_corrected b || o_corrected a); [rewrite (Q s r E); auto|symmetry; now apply native_eqb_eq].
Qed.
Print Assumptions C99_hash.
Example C99_equivalence_met : ordinary (mkObj (Enum 0) (NStr []) true true) /\ ordinary (mkObj Plain (NStr []) false false)
  /\ get_obj ex_world 7 = Some (mkObj (Enum 0) (NStr []) true true) /\ get_obj ex_world 8 = Some (mkObj Plain (NStr []) false false).
Proof. split; [right; now exists 0%nat|]. split; [now left|]. split; reflexivity. Qed.

(** With other subclasses of [str] and [int] the comparison has two answers: a
    placeholder is not equal to an empty [JsonString], which is equal to it. *)
Theorem C99_subclass_refuted : exists w r s a b, reachable w /\ get_obj w r = Some a /\ get_obj w s = Some b /\
  o_corrected a = true /\ o_kind b = Subclass /\ py_eq r s a b = false /\ py_eq s r b a = true.
Proof.
  exists ex_world, 7%nat, 10%nat, (mkObj (Enum 0) (NStr []) true true), (mkObj Subclass (NStr []) false false).
  split; [apply ex_reachable|]. repeat split; reflexivity.
Qed.
Print Assumptions C99_subclass_refuted.

(** A placeholder of another enumeration is not looked up by its value: the result says
    that it is unknown although the value is declared. *)
Theorem C99_other_enum_refuted : exists w c k s b w' r o, reachable w /\ get_cls w c = Some k /\ get_obj w s = Some b /\
  In (o_native b) (c_values k) /\ call c s w = (w', Ok r) /\ get_obj w' r = Some o /\
  is_unknown o = true /\ In (o_native o) (c_values k).
Proof.
  exists ex_world, 3%nat, (mkCls true [NStr []] [12%nat]), 7%nat, (mkObj (Enum 0) (NStr []) true true),
    (fst (call 3 7 ex_world)), 13%nat, (mkObj (Enum 3) (NStr []) true false).
  split; [apply ex_reachable|]. repeat split; try reflexivity; now left.
Qed.
Print Assumptions C99_other_enum_refuted.

(** ** Pickling *)
(** What is unpickled is equal to what was pickled, and the same object where that is a
    declared member; *)
Theorem C99_unpickled : forall w c k s b, reachable w -> get_cls w c = Some k -> c_values k <> [] ->
  get_obj w s = Some b -> o_kind b = Enum c -> o_corrected b = false ->
  exists w' r o, unpickled c s w = (w', Ok r) /\ get_obj w' r = Some o /\ o_kind o = Enum c /\ py_eq r s o b = true
    /\ (is_unknown b = false -> r = s).
Proof.
  intros w c k s b R K N S B X.
  set (w1 := fst (step (Literal Plain (o_native b)) w)).
  assert (reachable w1) as R1. { destruct R as [l ->]. exists (l ++ [Literal Plain (o_native b)]). now rewrite run_app. }
  assert (get_cls w1 c = Some k) as K1 by exact K.
  assert (get_obj w1 (List.length (objs w)) = Some (mkObj Plain (o_native b) false false)) as P by apply nth_last.
  assert (unpickled c s w = call c (List.length (objs w)) w1) as E by (unfold unpickled; now rewrite S).
  rewrite E. destruct (reachable_ok w R) as [_ O]. specialize (O s b S). unfold obj_ok in O. rewrite B in O.
  destruct O as (k' & K' & T & U & _). rewrite K in K'. injection K' as <-.
  assert (In (o_native b) (c_values k) \/ ~ In (o_native b) (c_values k)) as [I|I].
  { destruct (existsb (native_eqb (o_native b)) (c_values k)) eqn:Z.
    - left. apply existsb_exists in Z as (v & Iv & V). apply native_eqb_eq in V. now subst.
    - right. intros J. assert (existsb (native_eqb (o_native b)) (c_values k) = true) as Y; [|congruence].
      apply existsb_exists. exists (o_native b). split; [exact J|apply native_eqb_refl]. }
  - destruct (C99_declared w1 c k _ _ R1 K1 P (or_introl eq_refl) I) as (m & o & C & Im & Om & Ko & Vo & _ & Xo).
    exists w1, m, o. split; [exact C|]. split; [exact Om|]. split; [exact Ko|].
    split; [apply (C99_native m s o b Xo X); exact Vo|]. intros F. apply U in F.
    destruct (reachable_ok w1 R1) as [Cl _]. destruct (Cl c k K1) as (_ & _ & Un & _).
    apply (Un m s o b Im F Om); [|exact Vo]. unfold get_obj, w1. cbn. now apply nth_old.
  - destruct (C99_unknown w1 c k _ _ R1 K1 N P (or_introl eq_refl) I T) as (w2 & r & o & C & _ & Go & Ko & Vo & _ & Xo & _).
    exists w2, r, o. split; [exact C|]. split; [exact Go|]. split; [exact Ko|].
    split; [apply (C99_native r s o b Xo X); exact Vo|]. intros F. exfalso. apply I. apply U in F.
    destruct (reachable_ok w R) as [Cl _]. destruct (Cl c k K) as (M & _). destruct (M s F) as (q & Q & _ & _ & _ & Z).
    rewrite S in Q. injection Q as <-. exact Z.
Qed.
Print Assumptions C99_unpickled.
Example C99_unpickled_met : snd (unpickled 0 0 ex_world) = Ok 0%nat /\ snd (unpickled 0 6 ex_world) = Ok 14%nat.
Proof. split; reflexivity. Qed.

(** a placeholder comes back as something else, which a declared member may be. *)
Theorem C99_unpickled_refuted : exists w c k s b w' r o, reachable w /\ get_cls w c = Some k /\ get_obj w s = Some b /\
  o_kind b = Enum c /\ o_corrected b = true /\ unpickled c s w = (w', Ok r) /\ get_obj w' r = Some o /\
  py_eq r s o b = false /\ is_unknown b = true /\ is_unknown o = false.
Proof.
  exists ex_world, 1%nat, (mkCls false [NInt 1; NInt (-1)] [2%nat; 3%nat]), 9%nat, (mkObj (Enum 1) (NInt (-1)) true true),
    (fst (unpickled 1 9 ex_world)), 3%nat, (mkObj (Enum 1) (NInt (-1)) false false).
  split; [apply ex_reachable|]. repeat split; reflexivity.
Qed.
Print Assumptions C99_unpickled_refuted.
