(** Proofs about configuration resolution. *)
From Verif Require Import Base Base_Proofs PyText_Model PyText_Proofs PyDict_Model PyDict_Proofs ConfigFile_Model
  ConfigResolve_Model ConfigResolve_Spec.
From Coq Require Import ZArith Lia.
Local Open Scope N_scope.

Lemma truthy_spec o : truthy o = true <-> exists t, o = Some t /\ t <> [].
Proof.
  destruct o as [[|c t]|]; cbn [truthy]; split; intros H; try discriminate; try reflexivity.
  - destruct H as (t & [= <-] & H). congruence.
  - exists (c :: t). split; [reflexivity|discriminate].
  - destruct H as (t & [=] & _).
Qed.
Lemma truthy_false o : truthy o = false <-> o = None \/ o = Some [].
Proof. destruct o as [[|c t]|]; cbn [truthy]; split; intros H; auto; try discriminate; destruct H; discriminate. Qed.

Lemma first_true_some f names t : first_true (map f names) = Some t <-> first_set names f t.
Proof.
  induction names as [|n names IH]; cbn [map first_true].
  - split; [discriminate|]. intros (b & x & a & E & _). destruct b; discriminate E.
  - destruct (truthy (f n)) eqn:Et.
    + split.
      * intros E. exists [], n, names. split; [reflexivity|]. split; [exact E|].
        apply truthy_spec in Et. destruct Et as (t' & Et & Hne). split; [congruence|intros ? []].
      * intros (b & x & a & E & Ex & Hne & Hb). destruct b as [|y b].
        -- injection E as <- _. exact Ex.
        -- injection E as <- _. destruct (Hb n (or_introl eq_refl)) as [H|H]; rewrite H in Et; discriminate Et.
    + rewrite IH. split; intros (b & x & a & E & Ex & Hne & Hb).
      * exists (n :: b), x, a. split; [rewrite E; reflexivity|]. split; [exact Ex|]. split; [exact Hne|].
        intros y [<-|Hy]; [apply truthy_false, Et|exact (Hb y Hy)].
      * destruct b as [|y b].
        -- injection E as <- _. rewrite Ex in Et. destruct t; [congruence|discriminate Et].
        -- injection E as <- E. exists b, x, a. split; [exact E|]. split; [exact Ex|]. split; [exact Hne|].
           intros z Hz. apply Hb. right. exact Hz.
Qed.
Lemma first_true_none f names : first_true (map f names) = None <-> none_set names f.
Proof.
  unfold none_set. induction names as [|n names IH]; cbn [map first_true].
  - split; [intros _ x []|reflexivity].
  - destruct (truthy (f n)) eqn:Et.
    + apply truthy_spec in Et. destruct Et as (t & Et & Hne). split.
      * rewrite Et. discriminate.
      * intros H. destruct (H n (or_introl eq_refl)) as [H'|H']; rewrite H' in Et; [discriminate Et|]. injection Et as <-. destruct (Hne eq_refl).
    + rewrite IH. split.
      * intros H x [<-|Hx]; [apply truthy_false, Et|exact (H x Hx)].
      * intros H x Hx. apply H. right. exact Hx.
Qed.

(** ** What is given, as a function *)

Definition tagged (s : source) (o : option value) : option (value * source) :=
  match o with Some v => Some (v, s) | None => None end.
Definition expected (override : option value) (env profile : text -> option text) (f : setting) : option (value * source) :=
  match override with
  | Some v => Some (v, OVERRIDE)
  | None =>
    match first_true (map env (env_names f)) with
    | Some t => tagged ENV (means f t)
    | None =>
      match first_true (map profile (profile_keys f)) with
      | Some t => tagged PROFILE (means f t)
      | None => Some (default f, DEFAULT)
      end
    end
  end.
Lemma given_expected ov env prof f v s : given ov env prof f v s <-> expected ov env prof f = Some (v, s).
Proof.
  unfold expected. split.
  - intros [v' Ho|t v' Ho H E|t v' Ho Hn H E|Ho Hn H]; rewrite Ho; [reflexivity| | |].
    + apply first_true_some in H. rewrite H, E. reflexivity.
    + apply first_true_none in Hn. apply first_true_some in H. rewrite Hn, H, E. reflexivity.
    + apply first_true_none in Hn. apply first_true_none in H. rewrite Hn, H. reflexivity.
  - destruct ov as [w|].
    + intros [= <- <-]. apply by_override. reflexivity.
    + destruct (first_true (map env (env_names f))) as [t|] eqn:E1.
      * apply first_true_some in E1. unfold tagged. destruct (means f t) eqn:E2; [|discriminate]. intros [= <- <-].
        eapply by_env; eauto.
      * apply first_true_none in E1. destruct (first_true (map prof (profile_keys f))) as [t|] eqn:E2.
        -- apply first_true_some in E2. unfold tagged. destruct (means f t) eqn:E3; [|discriminate]. intros [= <- <-].
           eapply by_profile; eauto.
        -- apply first_true_none in E2. intros [= <- <-]. apply by_default; auto.
Qed.

(** ** Dictionaries *)

Lemma dict_has_get {A} n (d : list (text * A)) : dict_has n d = true <-> exists v, dict_get n d = Some v.
Proof. unfold dict_has. destruct (dict_get n d); split; intros H; try discriminate; try reflexivity; eauto. destruct H; discriminate. Qed.
Lemma dict_has_set {A} n m (v : A) d : dict_has n (dict_set m v d) = (text_eqb n m || dict_has n d)%bool.
Proof.
  unfold dict_has. destruct (text_eqb n m) eqn:E.
  - apply text_eqb_eq in E as ->. rewrite dict_get_set_eq. reflexivity.
  - apply text_eqb_neq in E. rewrite dict_get_set_ne by congruence. reflexivity.
Qed.

Section Generic.
Variable fields : list (text * fspec).
Hypothesis names_differ : NoDup (dict_keys fields).

Lemma field_get name spec : In (name, spec) fields -> dict_get name fields = Some spec.
Proof. intros H. apply dict_In_get; assumption. Qed.

(** One field, before it has a source. *)
Lemma put_new i name spec v s : dict_get name fields = Some spec -> dict_has name (i_sources i) = false ->
  put fields i name v s = Done (mkConfig (dict_set name v (i_attrs i)) (dict_set name s (i_sources i)) (i_ctx i)).
Proof. intros Hf Hs. unfold put, set_attr. rewrite Hf, Hs. reflexivity. Qed.

(** What a field gets, and the context afterwards. *)
Definition pick (overrides : list (text * value)) (c : ctx) (name : text) (spec : fspec) : ctx * outcome resolved :=
  match dict_get name overrides with
  | Some v => (c, Done (v, OVERRIDE))
  | None =>
    match f_resolver spec with
    | Some f =>
      match f c with
      | (c', Fail e) => (c', Fail e)
      | (c', Done (VUnset, _)) => (c', Done (f_default spec, DEFAULT))
      | (c', Done r) => (c', Done r)
      end
    | None => (c, Done (f_default spec, DEFAULT))
    end
  end.
Lemma resolve_field_pick ov i name spec : dict_get name fields = Some spec -> dict_has name (i_sources i) = false ->
  resolve_field fields ov i name spec
  = match pick ov (i_ctx i) name spec with
    | (c, Fail e) => Fail e
    | (c, Done (v, s)) =>
      if validates spec v
      then Done (mkConfig (dict_set name v (i_attrs i)) (dict_set name s (i_sources i)) c)
      else Fail ConfigValidationError
    end.
Proof.
  intros Hf Hs. unfold resolve_field, pick.
  assert (P : forall c v s, put fields (with_ctx i c) name v s
    = Done (mkConfig (dict_set name v (i_attrs i)) (dict_set name s (i_sources i)) c)).
  { intros c v s. rewrite (put_new _ name spec) by assumption. reflexivity. }
  assert (P0 : forall v s, put fields i name v s
    = Done (mkConfig (dict_set name v (i_attrs i)) (dict_set name s (i_sources i)) (i_ctx i))).
  { intros v s. apply (put_new _ name spec); assumption. }
  destruct (dict_get name ov) as [v|].
  - rewrite P0. cbn [i_attrs]. rewrite dict_get_set_eq. reflexivity.
  - destruct (f_resolver spec) as [f|].
    + destruct (f (i_ctx i)) as [c [[v s]|e]]; [|reflexivity].
      destruct v; rewrite P; cbn [i_attrs]; rewrite dict_get_set_eq; reflexivity.
    + rewrite P0. cbn [i_attrs]. rewrite dict_get_set_eq. reflexivity.
Qed.

(** The loop over the fields, as a run of the picks. *)
Fixpoint picks (ov : list (text * value)) (todo : list (text * fspec)) (c : ctx) : outcome (list (text * (value * source)) * ctx) :=
  match todo with
  | [] => Done ([], c)
  | (name, spec) :: r =>
    match pick ov c name spec with
    | (_, Fail e) => Fail e
    | (c', Done (v, s)) =>
      if validates spec v then
        match picks ov r c' with
        | Done (l, c'') => Done ((name, (v, s)) :: l, c'')
        | Fail e => Fail e
        end
      else Fail ConfigValidationError
    end
  end.
Definition fill (i : config) (l : list (text * (value * source))) (c : ctx) : config :=
  mkConfig (fold_left (fun d x => dict_set (fst x) (fst (snd x)) d) l (i_attrs i))
           (fold_left (fun d x => dict_set (fst x) (snd (snd x)) d) l (i_sources i)) c.
Lemma resolve_each_picks ov todo : forall i, NoDup (dict_keys todo) ->
  (forall name spec, In (name, spec) todo -> dict_get name fields = Some spec /\ dict_has name (i_sources i) = false) ->
  resolve_each fields ov todo i
  = match picks ov todo (i_ctx i) with Done (l, c) => Done (fill i l c) | Fail e => Fail e end.
Proof.
  induction todo as [|[name spec] todo IH]; intros i Hn H.
  - cbn [resolve_each picks fill fold_left]. destruct i; reflexivity.
  - cbn [dict_keys map fst] in Hn. inversion Hn as [|? ? Hx Hr]; subst.
    cbn [resolve_each picks]. destruct (H name spec (or_introl eq_refl)) as [Hf Hs].
    rewrite resolve_field_pick by assumption.
    destruct (pick ov (i_ctx i) name spec) as [c [[v s]|e]]; [|reflexivity].
    destruct (validates spec v); [|reflexivity]. rewrite IH; [|exact Hr|].
    + cbn [i_ctx]. destruct (picks ov todo c) as [[l c'']|e]; reflexivity.
    + intros n sp Hi. split; [exact (proj1 (H n sp (or_intror Hi)))|]. cbn [i_sources]. rewrite dict_has_set.
      destruct (text_eqb n name) eqn:E.
      * apply text_eqb_eq in E as ->. destruct Hx. apply (in_map fst) in Hi. exact Hi.
      * cbn [orb]. exact (proj2 (H n sp (or_intror Hi))).
Qed.

Lemma picks_names ov todo : forall c l c', picks ov todo c = Done (l, c') -> map fst l = dict_keys todo.
Proof.
  induction todo as [|[name spec] todo IH]; intros c l c' E; cbn [picks] in E.
  - injection E as <- _. reflexivity.
  - destruct (pick ov c name spec) as [c1 [[v s]|e]]; [|discriminate]. destruct (validates spec v); [|discriminate].
    destruct (picks ov todo c1) as [[l' c2]|e] eqn:E'; [|discriminate]. injection E as <- _.
    cbn [map fst dict_keys]. f_equal. eapply IH. exact E'.
Qed.
Lemma picks_In ov todo : forall c l c' name v s, picks ov todo c = Done (l, c') -> In (name, (v, s)) l ->
  exists spec c1 c2, In (name, spec) todo /\ pick ov c1 name spec = (c2, Done (v, s)) /\ validates spec v = true.
Proof.
  induction todo as [|[n spec] todo IH]; intros c l c' name v s E Hi; cbn [picks] in E.
  - injection E as <- _. destruct Hi.
  - destruct (pick ov c n spec) as [c1 [[v1 s1]|e]] eqn:Ep; [|discriminate]. destruct (validates spec v1) eqn:Ev; [|discriminate].
    destruct (picks ov todo c1) as [[l' c2]|e] eqn:E'; [|discriminate]. injection E as <- _.
    destruct Hi as [[= <- <- <-]|Hi].
    + exists spec, c, c1. split; [left; reflexivity|]. split; assumption.
    + destruct (IH _ _ _ _ _ _ E' Hi) as (sp & ca & cb & Ha & Hb & Hc). exists sp, ca, cb. split; [right; exact Ha|]. split; assumption.
Qed.

Lemma fold_set_get {A} (g : text * (value * source) -> A) l n : forall d,
  dict_get n (fold_left (fun d x => dict_set (fst x) (g x) d) l d)
  = match find (fun x : text * (value * source) => text_eqb n (fst x)) (rev l) with Some x => Some (g x) | None => dict_get n d end.
Proof.
  induction l as [|x l IH]; intros d; [reflexivity|]. cbn [fold_left rev]. rewrite IH.
  assert (F : forall a b : list (text * (value * source)), find (fun x0 : text * (value * source) => text_eqb n (fst x0)) (a ++ b)
    = match find (fun x0 : text * (value * source) => text_eqb n (fst x0)) a with Some y => Some y | None => find (fun x0 : text * (value * source) => text_eqb n (fst x0)) b end).
  { intros a b. induction a as [|[k z] a IHa]; [reflexivity|]. cbn [app find fst]. destruct (text_eqb n k); [reflexivity|exact IHa]. }
  rewrite F. destruct (find (fun x0 : text * (value * source) => text_eqb n (fst x0)) (rev l)); [reflexivity|]. destruct x as [k z]. cbn [find fst].
  destruct (text_eqb n k) eqn:E.
  - apply text_eqb_eq in E as ->. apply dict_get_set_eq.
  - apply text_eqb_neq in E. apply dict_get_set_ne. congruence.
Qed.
Lemma find_rev_In (l : list (text * (value * source))) n x : NoDup (map fst l) -> In (n, x) l ->
  find (fun y : text * (value * source) => text_eqb n (fst y)) (rev l) = Some (n, x).
Proof.
  intros Hn Hi. destruct (find (fun y : text * (value * source) => text_eqb n (fst y)) (rev l)) as [[n' x']|] eqn:E.
  - apply find_some in E. destruct E as [Hi' E]. cbn [fst] in E. apply text_eqb_eq in E as <-.
    apply in_rev in Hi'. f_equal. f_equal.
    apply (dict_In_get n x' l Hn) in Hi'. apply (dict_In_get n x l Hn) in Hi. congruence.
  - exfalso. apply in_rev in Hi. apply (find_none _ _ E) in Hi. cbn [fst] in Hi. rewrite text_eqb_refl in Hi. discriminate.
Qed.
Lemma fill_get l c i name v s : NoDup (map fst l) -> In (name, (v, s)) l ->
  get_attr (fill i l c) name = Some v /\ source_of (fill i l c) name = Some s.
Proof.
  intros Hn Hi. unfold get_attr, source_of, fill. cbn [i_attrs i_sources].
  rewrite (fold_set_get (fun x => fst (snd x))), (fold_set_get (fun x => snd (snd x))), (find_rev_In _ _ _ Hn Hi). split; reflexivity.
Qed.

(** The fields as a whole. *)
Lemma resolve_fields_picks ov c :
  resolve_fields fields ov (create_instance fields c)
  = if forallb (fun o => dict_has (fst o) fields) ov
    then match picks ov fields c with Done (l, c') => Done (fill (create_instance fields c) l c') | Fail e => Fail e end
    else Fail ConfigValidationError.
Proof.
  unfold resolve_fields. destruct (forallb _ ov); [|reflexivity]. apply resolve_each_picks; [exact names_differ|].
  intros name spec Hi. split; [apply field_get, Hi|reflexivity].
Qed.

(** ** Valid states *)

Definition all_valid (i : config) : Prop :=
  forall name spec, In (name, spec) fields ->
    exists v s, get_attr i name = Some v /\ source_of i name = Some s /\ validates spec v = true.

Lemma resolve_fields_valid ov c i : resolve_fields fields ov (create_instance fields c) = Done i -> all_valid i.
Proof.
  rewrite resolve_fields_picks. destruct (forallb _ ov); [|discriminate].
  destruct (picks ov fields c) as [[l c']|e] eqn:E; [|discriminate]. intros [= <-] name spec Hi.
  pose proof (picks_names _ _ _ _ _ E) as Hl.
  assert (Hin : In name (map fst l)) by (rewrite Hl; apply (in_map fst) in Hi; exact Hi).
  apply in_map_iff in Hin. destruct Hin as ([n [v s]] & En & Hin). cbn [fst] in En. subst n.
  assert (Hnd : NoDup (map fst l)) by (rewrite Hl; exact names_differ).
  destruct (fill_get l c' (create_instance fields c) name v s Hnd Hin) as [Ha Hs].
  exists v, s. split; [exact Ha|]. split; [exact Hs|].
  destruct (picks_In _ _ _ _ _ _ _ _ E Hin) as (spec' & c1 & c2 & Hi' & _ & Hv).
  apply field_get in Hi. apply field_get in Hi'. congruence.
Qed.

Lemma set_attr_valid i name v : all_valid i -> all_valid (fst (set_attr fields i name v)).
Proof.
  intros H. unfold set_attr. destruct (dict_get name fields) as [spec|] eqn:Ef.
  - destruct (dict_has name (i_sources i)) eqn:Eh.
    + destruct (validates spec v) eqn:Ev; [|exact H]. intros n sp Hi. unfold get_attr, source_of. cbn [fst i_attrs i_sources].
      destruct (text_eqb n name) eqn:E.
      * apply text_eqb_eq in E as ->. rewrite !dict_get_set_eq. exists v, OVERRIDE. split; [reflexivity|]. split; [reflexivity|].
        apply field_get in Hi. congruence.
      * apply text_eqb_neq in E. rewrite !dict_get_set_ne by congruence. exact (H n sp Hi).
    + exfalso. assert (Hi : In (name, spec) fields) by (apply dict_get_In, Ef).
      destruct (H name spec Hi) as (w & s & _ & Hs & _). unfold source_of in Hs. unfold dict_has in Eh. rewrite Hs in Eh. discriminate.
  - intros n sp Hi. unfold get_attr, source_of. cbn [fst i_attrs i_sources].
    destruct (text_eqb n name) eqn:E.
    + apply text_eqb_eq in E as ->. apply field_get in Hi. congruence.
    + apply text_eqb_neq in E. rewrite dict_get_set_ne by congruence. exact (H n sp Hi).
Qed.
Lemma assign_all_valid l : forall i, all_valid i -> all_valid (assign_all fields i l).
Proof. induction l as [|[n v] l IH]; intros i H; [exact H|]. cbn [assign_all]. apply IH, set_attr_valid, H. Qed.

(** An assignment to a configuration with all sources. *)
Lemma set_attr_spec i name v : all_valid i ->
  (snd (set_attr fields i name v) = None ->
     (forall spec, In (name, spec) fields -> validates spec v = true /\ source_of (fst (set_attr fields i name v)) name = Some OVERRIDE)
     /\ get_attr (fst (set_attr fields i name v)) name = Some v
     /\ (forall n, n <> name -> get_attr (fst (set_attr fields i name v)) n = get_attr i n
                                /\ source_of (fst (set_attr fields i name v)) n = source_of i n))
  /\ (snd (set_attr fields i name v) <> None ->
      fst (set_attr fields i name v) = i /\ snd (set_attr fields i name v) = Some ConfigValidationError
      /\ exists spec, In (name, spec) fields /\ validates spec v = false).
Proof.
  intros H. unfold set_attr. destruct (dict_get name fields) as [spec|] eqn:Ef.
  - assert (Hi : In (name, spec) fields) by (apply dict_get_In, Ef).
    destruct (H name spec Hi) as (w & s & _ & Hs & _). unfold source_of in Hs.
    assert (Eh : dict_has name (i_sources i) = true) by (unfold dict_has; rewrite Hs; reflexivity). rewrite Eh.
    destruct (validates spec v) eqn:Ev; cbn [fst snd].
    + split; [intros _|congruence]. unfold get_attr, source_of. cbn [i_attrs i_sources]. split; [|split].
      * intros sp Hsp. apply field_get in Hsp. rewrite dict_get_set_eq. split; [congruence|reflexivity].
      * apply dict_get_set_eq.
      * intros n Hn. rewrite !dict_get_set_ne by congruence. split; reflexivity.
    + split; [discriminate|intros _]. split; [reflexivity|]. split; [reflexivity|]. exists spec. split; assumption.
  - cbn [fst snd]. split; [intros _|congruence]. unfold get_attr, source_of. cbn [i_attrs i_sources]. split; [|split].
    + intros sp Hsp. apply field_get in Hsp. congruence.
    + apply dict_get_set_eq.
    + intros n Hn. rewrite dict_get_set_ne by congruence. split; reflexivity.
Qed.
End Generic.
