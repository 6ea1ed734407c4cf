(** C48: shape identifiers.  C58: typed property maps. *)
From Verif Require Import Base Base_Proofs PyText_Model PyText_Proofs PyDict_Model PyDict_Proofs Shape_Model Shape_Spec.
Local Open Scope N_scope.

(** ** C48 *)

Lemma cut_at_some c s a b : cut_at c s = (a, Some b) <-> ~ In c a /\ s = a ++ c :: b.
Proof.
  revert a b. induction s as [|x s IH]; intros a b; cbn [cut_at].
  - split; [discriminate | intros [_ H]; destruct a; discriminate].
  - destruct (N.eqb_spec x c) as [->|Nx].
    + split; [intros [= <- <-]; split; [intros [] | reflexivity]|].
      intros [H E]. destruct a as [|y a]; cbn [app] in E; [now injection E as ->|]. injection E as -> _. elim H. now left.
    + destruct (cut_at c s) as [a' b'] eqn:E. split.
      * intros [= <- ->]. destruct (proj1 (IH a' b) eq_refl) as [H ->]. split; [|reflexivity]. intros [F|F]; [now apply Nx | now apply H].
      * intros [H F]. destruct a as [|y a]; cbn [app] in F; [injection F as -> _; now elim Nx|].
        injection F as -> ->. assert (G : (a', b') = (a, Some b)) by (apply IH; split; [intros I; apply H; now right | reflexivity]).
        now injection G as -> ->.
Qed.
Lemma cut_at_none c s a : cut_at c s = (a, None) -> ~ In c s.
Proof.
  revert a. induction s as [|x s IH]; intros a; cbn [cut_at]; [intros _ []|].
  destruct (N.eqb_spec x c) as [->|Nx]; [discriminate|]. destruct (cut_at c s) as [a' b'] eqn:E. intros [= <- ->] [F|F]; [now apply Nx | now apply (IH a')].
Qed.
Lemma cut_at_absent c s : ~ In c s -> exists a, cut_at c s = (a, None).
Proof.
  intros H. destruct (cut_at c s) as [a [b|]] eqn:E; [|eauto]. apply cut_at_some in E as [_ ->]. elim H. apply in_or_app. right. now left.
Qed.
Lemma blank_iff s : blank s = false <-> s <> [].
Proof. destruct s; cbn; split; congruence. Qed.

(** A text is accepted exactly when it has the form of an identifier, and then the
    parts are the ones of the form. *)
Theorem C48_parse id x : new_id id = Ok x <->
  id_form id (s_namespace x) (s_name x) (s_member x) /\ s_id x = id.
Proof.
  unfold new_id, id_form. split.
  - destruct (cut_at 35 id) as [ns [name|]] eqn:E; [|discriminate]. apply cut_at_some in E as [Hn ->].
    destruct (blank ns) eqn:T1; [discriminate|]. destruct (blank name) eqn:T2; [discriminate|]. cbn [orb].
    apply blank_iff in T1. apply blank_iff in T2.
    destruct (cut_at 36 name) as [n [m|]] eqn:F.
    + apply cut_at_some in F as [Hm ->].
      destruct (blank n) eqn:T3; [discriminate|]. destruct (blank m) eqn:T4; [discriminate|]. cbn [orb].
      apply blank_iff in T3. apply blank_iff in T4.
      intros [= <-]. cbn. split; [|reflexivity]. repeat (split; [congruence || assumption|]). reflexivity.
    + apply cut_at_none in F. intros [= <-]. cbn. split; [|reflexivity].
      repeat (split; [congruence || assumption|]). now rewrite app_nil_r.
  - destruct x as [i ns name mem]. cbn [s_id s_namespace s_name s_member]. intros [(A & B & C & D & F & E) ->].
    assert (G : cut_at 35 id = (ns, Some (name ++ match mem with Some m => [36] ++ m | None => [] end))) by (apply cut_at_some; split; assumption).
    rewrite G. apply blank_iff in A. rewrite A. cbn [orb].
    assert (T : blank (name ++ match mem with Some m => [36] ++ m | None => [] end) = false) by (destruct name; [now elim B | reflexivity]).
    rewrite T. destruct mem as [m|].
    + assert (Gm : cut_at 36 (name ++ [36] ++ m) = (name, Some m)) by (apply cut_at_some; split; [assumption | reflexivity]).
      rewrite Gm. apply blank_iff in B. rewrite B. cbn [orb]. destruct m; [now elim C | reflexivity].
    + rewrite app_nil_r. destruct (cut_at_absent 36 name F) as [a Ga]. rewrite Ga. reflexivity.
Qed.
Print Assumptions C48_parse.
Example C48_parse_ex : exists x, new_id (lit "com.example#Foo$bar") = Ok x
  /\ s_namespace x = lit "com.example" /\ s_name x = lit "Foo" /\ s_member x = Some (lit "bar").
Proof. eexists. split; [reflexivity|]. repeat split. Qed.

(** Every other text is refused with SmithyError. *)
Theorem C48_malformed id : (forall ns name m, ~ id_form id ns name m) -> new_id id = Err SmithyErr.
Proof.
  intros H. destruct (new_id id) as [x|e] eqn:E; [apply C48_parse in E as [E _]; now elim (H _ _ _ E)|].
  unfold new_id in E. repeat match type of E with context [match ?t with _ => _ end] => destruct t end; congruence.
Qed.
Print Assumptions C48_malformed.
Example C48_malformed_ex : map new_id [lit "Foo"; lit "#Foo"; lit "a#"; lit "a#$b"; lit "a#b$"] = repeat (Err SmithyErr) 5.
Proof. reflexivity. Qed.

(** Rebuilding an identifier from its parts gives the same identifier. *)
Theorem C48_rebuild id x : new_id id = Ok x -> from_parts (s_namespace x) (s_name x) (s_member x) = Ok x.
Proof.
  intros H. assert (H' := H). apply C48_parse in H' as [(_ & _ & _ & _ & _ & E) _]. rewrite <- H. unfold from_parts.
  destruct (s_member x); rewrite E; cbn [app]; [reflexivity | now rewrite app_nil_r].
Qed.
Print Assumptions C48_rebuild.
(** Building one from parts and taking it apart gives the parts. *)
Theorem C48_parts ns name m : ns <> [] -> name <> [] -> m <> Some [] -> ~ In 35 ns -> ~ In 36 name ->
  exists x, from_parts ns name m = Ok x /\ s_namespace x = ns /\ s_name x = name /\ s_member x = m.
Proof.
  intros A B C D E. set (id := ns ++ [35] ++ name ++ match m with Some m => [36] ++ m | None => [] end).
  exists (mkShapeId id ns name m). split; [|repeat split].
  assert (N : new_id id = Ok (mkShapeId id ns name m)) by (apply C48_parse; cbn; split; [unfold id_form; repeat (split; [assumption|]); reflexivity | reflexivity]).
  unfold from_parts. rewrite <- N. unfold id. destruct m; cbn [app]; [reflexivity | now rewrite app_nil_r].
Qed.
Print Assumptions C48_parts.
(** Without those conditions the parts may come back otherwise. *)
Theorem C48_parts_refuted : exists ns name x, ns <> [] /\ name <> [] /\ from_parts ns name None = Ok x /\ s_namespace x <> ns.
Proof. exists (lit "a#b"), (lit "c"). eexists. repeat split; discriminate. Qed.
Print Assumptions C48_parts_refuted.
(** A member of an identifier: same namespace and name, that member, whatever the
    member was before. *)
Theorem C48_with_member id x m : new_id id = Ok x -> m <> [] ->
  exists y, with_member x m = Ok y /\ s_namespace y = s_namespace x /\ s_name y = s_name x
    /\ s_member y = Some m /\ expect_member y = Ok m.
Proof.
  intros H Hm. apply C48_parse in H as [(A & B & _ & D & E & _) _].
  destruct (C48_parts (s_namespace x) (s_name x) (Some m) A B ltac:(congruence) D E) as (y & Y & Y1 & Y2 & Y3).
  exists y. unfold with_member, expect_member. rewrite Y3. repeat (split; [assumption || reflexivity|]). reflexivity.
Qed.
Print Assumptions C48_with_member.
(** Two identifiers are equal exactly when their texts are, and exactly when all
    their parts are. *)
Theorem C48_equality a b x y : new_id a = Ok x -> new_id b = Ok y ->
  (id_eqb x (s_id y) = true <-> a = b)
  /\ (id_eqb x (s_id y) = true <-> s_namespace x = s_namespace y /\ s_name x = s_name y /\ s_member x = s_member y).
Proof.
  intros A B. assert (A' := A). assert (B' := B). apply C48_parse in A as [(_ & _ & _ & _ & _ & A) A1]. apply C48_parse in B as [(_ & _ & _ & _ & _ & B) B1].
  unfold id_eqb. rewrite text_eqb_eq, A1, B1. split; [reflexivity|]. split.
  - intros E. rewrite E in A'. rewrite A' in B'. injection B' as ->. auto.
  - intros (P & Q & R). now rewrite A, B, P, Q, R.
Qed.
Print Assumptions C48_equality.
Example C48_equality_ex : exists x y, new_id (lit "a#b$c") = Ok x /\ new_id (lit "a#b") = Ok y
  /\ id_eqb x (s_id y) = false /\ with_member y (lit "c") = Ok x.
Proof. eexists _, _. repeat (split; [reflexivity|]). reflexivity. Qed.

(** ** C58 *)

Section Properties.
  Context {V : Type}.
  Definition view (d : list (text * V)) : omap V := mkMap (fun k => dict_get k d) (dict_keys d).

  Lemma get_present k d : dict_get k d <> None <-> In k (@dict_keys V d).
  Proof. destruct (dict_keys_dec k d) as [H|H]; [|apply dict_get_None in H; split; [congruence|]].
    - split; [auto|]. intros _ E. now apply dict_get_None in E.
    - intros I E. now apply dict_get_None in E.
  Qed.
  Lemma view_wf d : NoDup (dict_keys d) -> well_formed (view d).
  Proof. intros N. split; [exact N|]. intros k. cbn. symmetry. apply get_present. Qed.
  Lemma same_refl m : @same_map V m m.
  Proof. now split. Qed.
  Lemma set_puts k v d : put_in k v (view d) (view (dict_set k v d)).
  Proof.
    split; cbn.
    - apply dict_get_set_eq.
    - intros k' N. now apply dict_get_set_ne.
    - intros A. apply dict_get_None in A. rewrite dict_set_new by exact A. unfold dict_keys. now rewrite map_app.
    - intros A. apply get_present in A. now apply dict_keys_set_in.
  Qed.
  Lemma keys_split k (d : list (text * V)) : In k (dict_keys d) -> exists a b, dict_keys d = a ++ k :: b /\ dict_keys (dict_del k d) = a ++ b.
  Proof.
    induction d as [|[q v] d IH]; [intros []|]. cbn [dict_keys map fst dict_del]. intros I.
    destruct (text_eqb k q) eqn:E; [apply text_eqb_eq in E; subst; exists [], (dict_keys d); split; reflexivity|].
    destruct I as [->|I]; [rewrite text_eqb_refl in E; discriminate|]. destruct (IH I) as (a & b & A & B).
    exists (q :: a), b. cbn [map fst app]. split; f_equal; assumption.
  Qed.
  Lemma del_takes k d : NoDup (dict_keys d) -> In k (dict_keys d) -> taken k (view d) (view (dict_del k d)).
  Proof.
    intros N I. destruct (keys_split k d I) as (a & b & A & B). apply Take with a b; cbn; [| |exact A|exact B].
    - rewrite dict_get_del by exact N. now rewrite text_eqb_refl.
    - intros k' Nk. rewrite dict_get_del by exact N. apply text_eqb_neq in Nk. now rewrite Nk.
  Qed.
  Lemma del_NoDup k (d : list (text * V)) : NoDup (dict_keys d) -> NoDup (dict_keys (dict_del k d)).
  Proof. intros N. rewrite dict_keys_del by exact N. now apply NoDup_filter. Qed.

  Lemma step_does o d : NoDup (dict_keys d) ->
    does o (view d) (view (fst (step o d))) (snd (step o d)) /\ NoDup (dict_keys (fst (step o d))).
  Proof.
    intros N. destruct o as [k|k v|k|k|k df|k df| |k v|l| |]; cbn [step].
    - cbn. split; [|exact N]. unfold getitem. destruct (dict_get (key_text k) d) eqn:E; constructor; (apply same_refl || exact E).
    - cbn. split; [constructor; apply set_puts | now apply dict_set_NoDup].
    - unfold dict_has. destruct (dict_get (key_text k) d) eqn:E; cbn.
      + assert (I : In (key_text k) (dict_keys d)) by (apply get_present; congruence).
        split; [constructor; [intros Q; change (dict_get (key_text k) d = None) in Q; congruence | now apply del_takes] | now apply del_NoDup].
      + split; [constructor; [apply same_refl | exact E] | exact N].
    - cbn. split; [|exact N]. constructor; [apply same_refl|]. change (dict_has (key_text k) d = true <-> dict_get (key_text k) d <> None). unfold dict_has. destruct (dict_get (key_text k) d); split; congruence.
    - cbn. split; [|exact N]. destruct (dict_get (key_text k) d) eqn:E; [constructor; [apply same_refl | exact E]|].
      apply Do_get_default; [apply same_refl | exact E].
    - destruct (dict_get (key_text k) d) eqn:E; cbn.
      + assert (I : In (key_text k) (dict_keys d)) by (apply get_present; congruence).
        split; [constructor; [exact E | now apply del_takes] | now apply del_NoDup].
      + split; [apply Do_pop_default; [apply same_refl | exact E] | exact N].
    - destruct d as [|[k v] r]; cbn; [split; [constructor; [apply same_refl | reflexivity] | exact N]|].
      inversion N as [|? ? Nk Nr]; subst. split; [|exact Nr]. assert (X := del_takes k ((k, v) :: r) N (or_introl eq_refl)).
      cbn [dict_del] in X. rewrite text_eqb_refl in X. apply Do_popitem with (r := dict_keys r); [reflexivity | cbn; now rewrite text_eqb_refl | exact X | reflexivity].
    - destruct (dict_get (key_text k) d) eqn:E; cbn.
      + split; [constructor; [apply same_refl | exact E] | exact N].
      + split; [constructor; [exact E | apply set_puts] | now apply dict_set_NoDup].
    - cbn. assert (G : forall d, NoDup (dict_keys d) -> all_put l (view d) (view (fold_left (fun d (kv : key * V) => dict_set (key_text (fst kv)) (snd kv) d) l d))
          /\ NoDup (dict_keys (fold_left (fun d (kv : key * V) => dict_set (key_text (fst kv)) (snd kv) d) l d))).
      { clear. induction l as [|[k v] l IH]; intros d N; cbn [fold_left fst snd]; [split; [constructor; apply same_refl | exact N]|].
        destruct (IH (dict_set (key_text k) v d) (dict_set_NoDup _ _ _ N)) as [A B]. split; [|exact B]. econstructor; [apply set_puts | exact A]. }
      destruct (G d N) as [A B]. split; [now constructor | exact B].
    - cbn. split; [now constructor | constructor].
    - cbn. split; [|exact N]. change (dict_keys d) with (order (view d)). constructor. apply same_refl.
  Qed.

  (** A run of the specification. *)
  Inductive runs : list (op V) -> omap V -> omap V -> list (answer V) -> Prop :=
  | Run_nil m m' : same_map m m' -> runs [] m m' []
  | Run_cons o l m m1 m' a r : does o m m1 a -> runs l m1 m' r -> runs (o :: l) m m' (a :: r).
  Lemma run_does ops : forall d, NoDup (dict_keys d) ->
    runs ops (view d) (view (fst (run ops d))) (snd (run ops d)) /\ NoDup (dict_keys (fst (run ops d))).
  Proof.
    induction ops as [|o l IH]; intros d N; cbn [run]; [split; [constructor; apply same_refl | exact N]|].
    destruct (step_does o d N) as [A B]. destruct (step o d) as [d1 a]. cbn [fst snd] in *.
    destruct (IH d1 B) as [C D]. destruct (run l d1) as [d2 r]. cbn [fst snd] in *. split; [econstructor; eassumption | exact D].
  Qed.

  (** Whatever is done with a new map, it answers as the ordered map does, step by
      step, and holds what that holds. *)
  Theorem C58_map ops : runs ops (mkMap (fun _ => None) []) (view (fst (run ops []))) (snd (run ops []))
    /\ well_formed (view (fst (run ops []))).
  Proof. destruct (run_does ops []) as [A B]; [constructor|]. split; [exact A | now apply view_wf]. Qed.

  Lemma untouched k (o : op V) d : NoDup (dict_keys d) -> ~ touches k o -> dict_get k d <> None -> dict_get k (fst (step o d)) = dict_get k d.
  Proof.
    intros N T P. destruct o as [q|q v|q|q|q df|q df| |q v|l| |]; cbn [step touches] in *; cbn [fst]; try reflexivity; try (now elim T).
    - apply dict_get_set_ne. intros E; apply T; now symmetry.
    - unfold dict_has. destruct (dict_get (key_text q) d); cbn [fst]; [|reflexivity]. rewrite dict_get_del by exact N.
      destruct (text_eqb k (key_text q)) eqn:E; [|reflexivity]. apply text_eqb_eq in E. now elim T.
    - destruct (dict_get (key_text q) d); cbn [fst]; [|reflexivity]. rewrite dict_get_del by exact N.
      destruct (text_eqb k (key_text q)) eqn:E; [|reflexivity]. apply text_eqb_eq in E. now elim T.
    - destruct (dict_get (key_text q) d) eqn:E; cbn [fst]; [reflexivity|]. apply dict_get_set_ne. congruence.
    - clear N P. revert d. induction l as [|[q v] l IH]; intros d; cbn [fold_left fst snd]; [reflexivity|].
      rewrite IH; [|intros (q' & v' & I & E); apply T; exists q', v'; split; [now right | exact E]].
      apply dict_get_set_ne. intros E. apply T. exists q, v. split; [now left | now symmetry].
  Qed.
  Lemma run_NoDup ops d : NoDup (dict_keys d) -> NoDup (dict_keys (fst (run (V := V) ops d))).
  Proof. intros N. now apply run_does. Qed.
  Lemma run_app a : forall b d, run (V := V) (a ++ b) d = let (d1, x) := run a d in let (d2, y) := run b d1 in (d2, x ++ y).
  Proof.
    induction a as [|o a IH]; intros b d; cbn [run app]; [destruct (run b d); reflexivity|].
    destruct (step o d) as [d1 x]. rewrite IH. destruct (run a d1) as [d2 y]. destruct (run b d2) as [d3 z]. reflexivity.
  Qed.
  Lemma run_untouched k v (ops : list (op V)) : forall d, NoDup (dict_keys d) -> Forall (fun o => ~ touches k o) ops ->
    dict_get k d = Some v -> dict_get k (fst (run ops d)) = Some v.
  Proof.
    induction ops as [|o l IH]; intros d N F G; cbn [run]; [exact G|]. inversion F as [|? ? Fo Fl]; subst.
    assert (X := untouched k o d N Fo ltac:(congruence)). destruct (step_does o d N) as [_ Nd]. destruct (step o d) as [d1 a]. cbn [fst] in *.
    specialize (IH d1 Nd Fl ltac:(congruence)). destruct (run l d1) as [d2 r]. exact IH.
  Qed.
  (** A value that was set is what the key gives, and any key of the same text, until
      it is replaced or taken away. *)
  Theorem C58_kept (before : list (op V)) k v between q : Forall (fun o => ~ touches (named k) o) between -> named q = named k ->
    exists d l, run (before ++ [Set_ k v] ++ between ++ [Get q]) [] = (d, l) /\ last l ANone = AVal v.
  Proof.
    intros F E. change (key_text q = key_text k) in E. rewrite run_app. assert (N1 := run_NoDup before [] (NoDup_nil _)). destruct (run before []) as [d1 x1]. cbn [fst] in *.
    cbn [app]. cbn [run step]. rewrite run_app.
    assert (N2 : NoDup (dict_keys (dict_set (key_text k) v d1))) by now apply dict_set_NoDup.
    assert (G := run_untouched (key_text k) v between _ N2 F (dict_get_set_eq _ _ _)).
    destruct (run between _) as [d3 x3]. cbn [fst] in G. cbn [run step]. unfold getitem. rewrite E, G.
    eexists _, _. split; [reflexivity|]. rewrite app_comm_cons, app_assoc. apply last_last.
  Qed.
End Properties.
Print Assumptions C58_map.
Print Assumptions C58_kept.
Example C58_ex : snd (run [Set_ (KText (lit "a")) 1; Set_ (KTyped (lit "b") 0) 2; Set_ (KTyped (lit "a") 5) 3; Get (KText (lit "a"));
    Pop (KText (lit "c")) None; Keys; Del (KTyped (lit "a") 0); SetDefault (KText (lit "a")) 4; Keys; PopItem] [])
  = [ANone; ANone; ANone; AVal 3; ANone; AKeys [lit "a"; lit "b"]; ANone; AVal 4; AKeys [lit "b"; lit "a"]; AItem (lit "b") 2].
Proof. reflexivity. Qed.
Example C58_kept_ex : Forall (fun o => ~ touches (lit "a") o) [Set_ (KText (lit "b")) 1; Keys; SetDefault (KText (lit "a")) 2; Update [(KText (lit "c"), 3)]].
Proof. repeat constructor; cbn; try discriminate; try tauto. intros (q & v & [[= <- <-]|[]] & E). discriminate. Qed.
