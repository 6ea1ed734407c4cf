(** Proofs about merging header collections and about building them from
    name/value pairs. *)
From Verif Require Import Base Base_Proofs PyDict_Model PyDict_Proofs Fields_Model Fields_Spec Fields_Proofs.

Definition with_values (f : field) (vs : list text) : field := mkField (f_name f) vs (f_kind f).

Lemma update_same {A} i (x : A) l : nth_error l i = Some x -> update i x l = l.
Proof.
  revert i; induction l as [|y l IH]; intros [|i]; cbn [update nth_error]; intros H; try reflexivity; [congruence|].
  rewrite (IH _ H); reflexivity.
Qed.
Lemma state_eta st : mkState (heap st) (cols st) = st.
Proof. destruct st; reflexivity. Qed.
Lemma deref_set st r f x : deref (set_heap st r f) x =
  if Nat.eqb r x then (if Nat.ltb r (List.length (heap st)) then Some f else None) else deref st x.
Proof. unfold deref, set_heap; cbn [heap]. apply nth_error_update. Qed.
Lemma deref_set_eq st r f g : deref st r = Some g -> deref (set_heap st r f) r = Some f.
Proof.
  intros H. rewrite deref_set, Nat.eqb_refl.
  assert (L : (r < List.length (heap st))%nat) by (apply nth_error_Some; unfold deref in H; congruence).
  apply Nat.ltb_lt in L; rewrite L; reflexivity.
Qed.
Lemma deref_set_ne st r f x : r <> x -> deref (set_heap st r f) x = deref st x.
Proof. intros H. rewrite deref_set. destruct (Nat.eqb_spec r x); congruence. Qed.

Lemma nth_error_skipn {A} (l : list A) k x : nth_error l k = Some x -> skipn k l = x :: skipn (S k) l.
Proof. revert k; induction l as [|y l IH]; intros [|k]; cbn [nth_error skipn]; intros H; try discriminate; [congruence|]. rewrite (IH _ H). reflexivity. Qed.
Lemma nth_error_skipn_none {A} (l : list A) k : nth_error l k = None -> skipn k l = [].
Proof. intros H. apply nth_error_None in H. apply skipn_all2; exact H. Qed.

(** The inner loop, when the two fields are different objects. *)
Lemma add_values_distinct fuel : forall st cur other fc fo k, cur <> other ->
  deref st cur = Some fc -> deref st other = Some fo ->
  (List.length (f_values fo) - k <= fuel)%nat ->
  add_values fuel st cur other k = Some (set_heap st cur (with_values fc (f_values fc ++ skipn k (f_values fo)))).
Proof.
  induction fuel as [|fuel IH]; intros st cur other fc fo k Hne Hc Ho Hf; cbn [add_values]; rewrite Hc, Ho.
  - assert (E : nth_error (f_values fo) k = None) by (apply nth_error_None; lia).
    rewrite E, (nth_error_skipn_none _ _ E), app_nil_r. f_equal. unfold set_heap.
    rewrite update_same; [symmetry; apply state_eta|]. destruct fc; exact Hc.
  - destruct (nth_error (f_values fo) k) as [v|] eqn:E.
    + rewrite (IH _ cur other (field_add v fc) fo (S k)); auto.
      * f_equal. unfold set_heap; cbn [heap cols]. rewrite update_update. f_equal. f_equal.
        unfold with_values, field_add; cbn [f_name f_values f_kind].
        rewrite (nth_error_skipn _ _ _ E), <- app_assoc. reflexivity.
      * eapply deref_set_eq; exact Hc.
      * rewrite deref_set_ne; auto.
      * lia.
    + rewrite (nth_error_skipn_none _ _ E), app_nil_r. f_equal. unfold set_heap.
      rewrite update_same; [symmetry; apply state_eta|]. destruct fc; exact Hc.
Qed.

(** The inner loop, when a field is added to itself: it never ends. *)
Lemma add_values_same fuel : forall st r f k, deref st r = Some f -> (k < List.length (f_values f))%nat ->
  add_values fuel st r r k = None.
Proof.
  induction fuel as [|fuel IH]; intros st r f k Hr Hk; cbn [add_values]; rewrite Hr;
    destruct (nth_error (f_values f) k) as [v|] eqn:E; try (apply nth_error_None in E; lia); [reflexivity|].
  apply IH with (f := field_add v f); [eapply deref_set_eq; exact Hr|].
  cbn [field_add f_values]. rewrite app_length. cbn [List.length]. lia.
Qed.

Section Merge.
  Variable lower : text -> text.

  Record KeysOk (st : state) (c : ref) : Prop := mkKeysOk {
    ko_valid : forall k r, In (k, r) (entries_of st c) -> (r < List.length (heap st))%nat /\ k = lower (name_of st r);
    ko_nodup : NoDup (dict_keys (entries_of st c)) }.
  Lemma inv_KeysOk st c : Inv lower st -> KeysOk st c.
  Proof.
    intros (hs & HR). split.
    - intros k r Hin. pose proof (rel_keys_of _ _ _ c HR) as Hk. rewrite Forall_forall in Hk. exact (Hk _ Hin).
    - eapply agrees_nodup, cols_agree; exact HR.
  Qed.
  Lemma ko_get st c n r : KeysOk st c -> get_item lower c n st = Some r ->
    (exists f, deref st r = Some f) /\ lower (name_of st r) = lower n /\ In r (iterate c st).
  Proof.
    intros HK H. pose proof (dict_get_In _ _ _ H) as Hin. destruct (ko_valid _ _ HK _ _ Hin) as [Hr Hk].
    split; [|split].
    - unfold deref. destruct (nth_error (heap st) r) eqn:E; [eauto|apply nth_error_None in E; lia].
    - congruence.
    - unfold iterate, dict_values. change r with (snd (lower n, r)). apply in_map; exact Hin.
  Qed.

  (** The first of the given fields with the name, and its values. *)
  Fixpoint vals_in (st : state) (others : list ref) (n : text) : option (list text) :=
    match others with
    | [] => None
    | o :: rest => if text_eqb (lower n) (lower (name_of st o))
                   then match deref st o with Some f => Some (f_values f) | None => None end
                   else vals_in st rest n
    end.
  Definition merge (a b : option (list text)) : option (list text) :=
    match a, b with Some x, Some y => Some (x ++ y) | Some x, None => Some x | None, y => y end.

  Lemma vals_in_ext st st' others n :
    (forall o, In o others -> deref st' o = deref st o) -> vals_in st' others n = vals_in st others n.
  Proof.
    induction others as [|o rest IH]; intros H; cbn [vals_in]; [reflexivity|].
    assert (E : deref st' o = deref st o) by (apply H; left; reflexivity).
    assert (En : name_of st' o = name_of st o) by (unfold name_of; rewrite E; reflexivity).
    rewrite En, E, IH; [reflexivity|]. intros x Hx; apply H; right; exact Hx.
  Qed.
  Lemma vals_in_notin st others n : ~ In (lower n) (map (fun o => lower (name_of st o)) others) -> vals_in st others n = None.
  Proof.
    induction others as [|o rest IH]; cbn [vals_in map]; intros H; [reflexivity|].
    destruct (text_eqb (lower n) (lower (name_of st o))) eqn:E.
    - apply text_eqb_eq in E. exfalso; apply H; left; congruence.
    - apply IH. intros Hx; apply H; right; exact Hx.
  Qed.

  Lemma extend_loop_merges others : forall st c, (c < List.length (cols st))%nat -> KeysOk st c ->
    (forall o, In o others -> exists f, deref st o = Some f) ->
    NoDup (map (fun o => lower (name_of st o)) others) ->
    (forall o, In o others -> ~ In o (iterate c st)) ->
    exists N, forall fuel, (N <= fuel)%nat -> exists st',
      extend_loop lower fuel c others st = Some st' /\
      (forall n, values_of lower st' c n = merge (values_of lower st c n) (vals_in st others n)) /\
      (forall r, (forall o, In o others -> get_item lower c (name_of st o) st <> Some r) ->
                 deref st' r = deref st r) /\
      (forall d, d <> c -> entries_of st' d = entries_of st d) /\
      iterate c st' = iterate c st ++ filter (fun o => negb (contains lower c (name_of st o) st)) others.
  Proof.
    induction others as [|o rest IH]; intros st c Hc HK Hval Hnd Hdis.
    - exists 0%nat. intros fuel _. exists st. cbn [extend_loop vals_in filter]. rewrite app_nil_r. repeat split; auto.
      intros n. destruct (values_of lower st c n); reflexivity.
    - cbn [map] in Hnd. inversion Hnd as [|? ? Hn1 Hn2]; subst.
      destruct (Hval o (or_introl eq_refl)) as (fo & Hfo).
      destruct (get_item lower c (name_of st o) st) as [cur|] eqn:Eg.
      + destruct (ko_get _ _ _ _ HK Eg) as ((fc & Hfc) & Hname & Hin).
        assert (Hne : cur <> o) by (intros ->; apply (Hdis o (or_introl eq_refl)); exact Hin).
        set (st1 := set_heap st cur (with_values fc (f_values fc ++ f_values fo))).
        assert (Hn : forall r, name_of st1 r = name_of st r).
        { intros r. unfold name_of. destruct (Nat.eq_dec cur r) as [<-|Hr].
          - unfold st1. rewrite (deref_set_eq _ _ _ _ Hfc), Hfc. reflexivity.
          - unfold st1. rewrite deref_set_ne by exact Hr. reflexivity. }
        assert (Hd : forall r, r <> cur -> deref st1 r = deref st r).
        { intros r Hr. unfold st1. apply deref_set_ne; congruence. }
        assert (He : forall x, entries_of st1 x = entries_of st x) by reflexivity.
        assert (Hdc : deref st1 cur = Some (with_values fc (f_values fc ++ f_values fo))).
        { unfold st1; eapply deref_set_eq; exact Hfc. }
        destruct (IH st1 c) as (N & HN).
        { exact Hc. }
        { split; rewrite He; [|apply HK]. intros k r Hkr. destruct (ko_valid _ _ HK _ _ Hkr) as [H1 H2].
          rewrite Hn. unfold st1, set_heap; cbn [heap]. rewrite update_length. auto. }
        { intros x Hx. destruct (Hval x (or_intror Hx)) as (fx & Hfx). exists fx. rewrite Hd; auto.
          intros ->. apply (Hdis cur (or_intror Hx)); exact Hin. }
        { erewrite map_ext; [exact Hn2|]. intros r; rewrite Hn; reflexivity. }
        { intros x Hx. apply (Hdis x (or_intror Hx)). }
        exists (N + List.length (f_values fo))%nat. intros fuel Hfuel.
        destruct (HN fuel ltac:(lia)) as (st' & E & Hv & Hr & Hcols & Hit).
        exists st'. split; [|split; [|split; [|split]]].
        * cbn [extend_loop]. rewrite Eg.
          rewrite (add_values_distinct fuel st cur o fc fo 0 Hne Hfc Hfo ltac:(lia)). cbn [skipn].
          exact E.
        * intros n. rewrite Hv. cbn [vals_in].
          assert (Ev : vals_in st1 rest n = vals_in st rest n).
          { apply vals_in_ext. intros x Hx. apply Hd. intros ->. apply (Hdis cur (or_intror Hx)); exact Hin. }
          rewrite Ev. destruct (text_eqb (lower n) (lower (name_of st o))) eqn:En.
          -- apply text_eqb_eq in En.
             assert (Hgn : get_item lower c n st = Some cur) by (unfold get_item in *; rewrite En; exact Eg).
             unfold values_of. change (get_item lower c n st1) with (get_item lower c n st). rewrite Hgn, Hdc, Hfc, Hfo.
             rewrite vals_in_notin; [reflexivity|]. rewrite En; exact Hn1.
          -- apply text_eqb_neq in En. f_equal. unfold values_of.
             change (get_item lower c n st1) with (get_item lower c n st).
             destruct (get_item lower c n st) as [r|] eqn:Egn; [|reflexivity].
             rewrite Hd; [reflexivity|]. intros ->. destruct (ko_get _ _ _ _ HK Egn) as (_ & Hrn & _). congruence.
        * intros r Hnt. rewrite Hr.
          -- apply Hd. intros ->. apply (Hnt o (or_introl eq_refl)); exact Eg.
          -- intros x Hx. rewrite Hn. apply (Hnt x (or_intror Hx)).
        * intros d Hdne. rewrite Hcols by exact Hdne. apply He.
        * rewrite Hit. cbn [filter]. unfold contains at 2, dict_has. unfold get_item in Eg. rewrite Eg. cbn [negb].
          f_equal. apply filter_ext. intros x. rewrite Hn. reflexivity.
      + set (st1 := set_entries st c (dict_set (lower (name_of st o)) o (entries_of st c))).
        assert (Hkn : ~ In (lower (name_of st o)) (dict_keys (entries_of st c))) by (apply dict_get_None; exact Eg).
        assert (He : entries_of st1 c = entries_of st c ++ [(lower (name_of st o), o)]).
        { unfold st1. rewrite entries_set by exact Hc. apply dict_set_new; exact Hkn. }
        assert (Hit1 : iterate c st1 = iterate c st ++ [o]).
        { unfold iterate, dict_values. rewrite He, map_app. reflexivity. }
        assert (Hd : forall r, deref st1 r = deref st r) by reflexivity.
        assert (Hn : forall r, name_of st1 r = name_of st r) by reflexivity.
        assert (Hgo : forall n, get_item lower c n st1 = if text_eqb (lower n) (lower (name_of st o)) then Some o else get_item lower c n st).
        { intros n. unfold get_item, st1. rewrite entries_set by exact Hc.
          destruct (text_eqb (lower n) (lower (name_of st o))) eqn:En.
          - apply text_eqb_eq in En. rewrite En. apply dict_get_set_eq.
          - apply text_eqb_neq in En. apply dict_get_set_ne; exact En. }
        destruct (IH st1 c) as (N & HN).
        { unfold st1, set_entries; cbn [cols]. rewrite update_length; exact Hc. }
        { split.
          - rewrite He. intros k r Hkr. apply in_app_or in Hkr. destruct Hkr as [Hkr|[E|[]]].
            + exact (ko_valid _ _ HK _ _ Hkr).
            + injection E as <- <-. split; [|reflexivity]. apply nth_error_Some. unfold deref in Hfo.
              change (heap st1) with (heap st). congruence.
          - unfold st1. rewrite entries_set by exact Hc. apply dict_set_NoDup, HK. }
        { intros x Hx. apply (Hval x (or_intror Hx)). }
        { exact Hn2. }
        { intros x Hx. rewrite Hit1. intros Hy. apply in_app_or in Hy. destruct Hy as [Hy|[<-|[]]].
          - apply (Hdis x (or_intror Hx)); exact Hy.
          - apply Hn1. apply in_map with (f := fun o0 => lower (name_of st o0)); exact Hx. }
        exists N. intros fuel Hfuel. destruct (HN fuel Hfuel) as (st' & E & Hv & Hr & Hcols & Hit).
        exists st'. split; [|split; [|split; [|split]]].
        * cbn [extend_loop]. rewrite Eg. unfold set_item. rewrite text_eqb_refl. exact E.
        * intros n. rewrite Hv. cbn [vals_in].
          rewrite (vals_in_ext st st1 rest n) by (intros; reflexivity).
          unfold values_of. rewrite Hgo.
          destruct (text_eqb (lower n) (lower (name_of st o))) eqn:En.
          -- apply text_eqb_eq in En.
             assert (Hgn : get_item lower c n st = None) by (unfold get_item in *; rewrite En; exact Eg).
             rewrite Hgn, Hd, Hfo. rewrite vals_in_notin; [reflexivity|]. rewrite En; exact Hn1.
          -- reflexivity.
        * intros r Hnt. rewrite Hr; [reflexivity|]. intros x Hx. rewrite Hn, Hgo.
          destruct (text_eqb (lower (name_of st x)) (lower (name_of st o))) eqn:En; [|apply (Hnt x (or_intror Hx))].
          apply text_eqb_eq in En. exfalso. apply Hn1. rewrite <- En.
          apply in_map with (f := fun o0 => lower (name_of st o0)); exact Hx.
        * intros d Hdne. rewrite Hcols by exact Hdne. unfold entries_of, st1, set_entries; cbn [cols].
          apply nth_update_ne; congruence.
        * rewrite Hit, Hit1. cbn [filter]. unfold contains at 2, dict_has. unfold get_item in Eg. rewrite Eg. cbn [negb].
          rewrite <- app_assoc. cbn [app]. do 2 f_equal. apply filter_ext_in. intros x Hx.
          f_equal. unfold contains, dict_has. rewrite Hn. specialize (Hgo (name_of st x)). unfold get_item in Hgo. rewrite Hgo.
          destruct (text_eqb (lower (name_of st x)) (lower (name_of st o))) eqn:En; [|reflexivity].
          apply text_eqb_eq in En. exfalso. apply Hn1. rewrite <- En.
          apply in_map with (f := fun o0 => lower (name_of st o0)); exact Hx.
  Qed.

  Lemma vals_in_iterate st d n : KeysOk st d -> vals_in st (iterate d st) n = values_of lower st d n.
  Proof.
    intros [Hv Hnd]. unfold values_of, get_item, iterate, dict_values. revert Hv Hnd.
    generalize (entries_of st d). intros e. induction e as [|[k r] e IH]; cbn [map vals_in dict_get]; intros Hv Hnd; [reflexivity|].
    destruct (Hv k r (or_introl eq_refl)) as [_ ->].
    destruct (text_eqb (lower n) (lower (name_of st r))) eqn:E; cbn [snd]; rewrite E; [reflexivity|].
    apply IH; [intros k' r' H; apply Hv; right; exact H|]. cbn in Hnd. inversion Hnd; assumption.
  Qed.
  Lemma iterate_names st d : KeysOk st d -> map (fun r => lower (name_of st r)) (iterate d st) = dict_keys (entries_of st d).
  Proof.
    intros [Hv _]. unfold iterate, dict_values, dict_keys. rewrite map_map. apply map_ext_in.
    intros [k r] Hin. cbn [fst snd]. symmetry; apply (Hv _ _ Hin).
  Qed.

  Theorem extend_merges st c d : Inv lower st -> (c < List.length (cols st))%nat -> unshared st c d ->
    exists N, forall fuel, (N <= fuel)%nat -> exists st', extend lower fuel c d st = Some st' /\
      (forall n, values_of lower st' c n =
         match values_of lower st c n, values_of lower st d n with
         | Some x, Some y => Some (x ++ y)
         | Some x, None => Some x
         | None, y => y
         end) /\
      (forall n, d <> c -> values_of lower st' d n = values_of lower st d n) /\
      iterate c st' = iterate c st ++ filter (fun r => negb (contains lower c (name_of st r) st)) (iterate d st).
  Proof.
    intros HI Hc Hun. pose proof (inv_KeysOk _ c HI) as HKc. pose proof (inv_KeysOk _ d HI) as HKd.
    destruct (extend_loop_merges (iterate d st) st c Hc HKc) as (N & HN).
    - intros o Ho. destruct (iterate_name lower st d o HI Ho) as (f & Hf & _); eauto.
    - rewrite iterate_names by exact HKd. apply HKd.
    - intros o Ho Hi. exact (Hun o Hi Ho).
    - exists N. intros fuel Hf. destruct (HN fuel Hf) as (st' & E & Hv & Hr & Hcols & Hit).
      exists st'. split; [exact E|]. split; [|split; [|exact Hit]].
      + intros n. rewrite Hv, vals_in_iterate by exact HKd. reflexivity.
      + intros n Hdc. unfold values_of, get_item. rewrite (Hcols d Hdc).
        fold (get_item lower d n st). destruct (get_item lower d n st) as [r|] eqn:Eg; [|reflexivity].
        rewrite Hr; [reflexivity|]. intros o Ho Hg.
        destruct (ko_get _ _ _ _ HKc Hg) as (_ & _ & Hi). destruct (ko_get _ _ _ _ HKd Eg) as (_ & _ & Hi').
        exact (Hun r Hi Hi').
  Qed.

  (** A field object shared by the two collections, with a value: the merge
      never ends. *)
  Theorem extend_shared_loops st c d r f : Inv lower st -> In r (iterate c st) -> In r (iterate d st) ->
    deref st r = Some f -> f_values f <> [] ->
    (forall x, In x (iterate d st) -> x = r) ->
    forall fuel, extend lower fuel c d st = None.
  Proof.
    intros HI Hc Hd Hf Hne Hall fuel. unfold extend.
    destruct (iterate d st) as [|x l] eqn:E; [destruct Hd|].
    assert (x = r) by (apply Hall; left; reflexivity). subst x. cbn [extend_loop].
    destruct (iterate_name lower st c r HI Hc) as (f' & Hf' & Hg).
    assert (En : name_of st r = f_name f') by (unfold name_of; rewrite Hf'; reflexivity).
    rewrite En, Hg. rewrite (add_values_same fuel st r f 0 Hf); [reflexivity|].
    destruct (f_values f); [congruence|cbn [List.length]; lia].
  Qed.

  (** Building from pairs. *)
  Lemma tuples_loop_spec kind tuples : forall d,
    NoDup (dict_keys d) -> (forall k f, In (k, f) d -> k = lower (f_name f)) ->
    let d' := tuples_loop lower kind tuples d in
    NoDup (dict_keys d') /\ (forall k f, In (k, f) d' -> k = lower (f_name f)) /\
    (forall k, match dict_get k d' with
               | Some f =>
                 f_values f = match dict_get k d with Some g => f_values g | None => [] end
                              ++ map snd (filter (fun nv => text_eqb k (lower (fst nv))) tuples)
               | None => dict_get k d = None /\ filter (fun nv => text_eqb k (lower (fst nv))) tuples = []
               end).
  Proof.
    induction tuples as [|[name value] rest IH]; intros d Hnd Hk; cbn [tuples_loop].
    - split; [exact Hnd|]. split; [exact Hk|]. intros k. cbn [filter map].
      destruct (dict_get k d); [rewrite app_nil_r; reflexivity|auto].
    - set (d1 := match dict_get (lower name) d with
                 | Some f => dict_set (lower name) (field_add value f) d
                 | None => dict_set (lower name) (mkField name [value] kind) d end).
      assert (H1 : NoDup (dict_keys d1)) by (unfold d1; destruct (dict_get (lower name) d); apply dict_set_NoDup; exact Hnd).
      assert (H2 : forall k f, In (k, f) d1 -> k = lower (f_name f)).
      { unfold d1; intros k f Hin. destruct (dict_get (lower name) d) as [g|] eqn:Eg.
        - apply dict_set_In in Hin. destruct Hin as [E|Hin]; [|apply Hk; exact Hin].
          injection E as -> ->. cbn [field_add f_name]. apply Hk. apply dict_get_In; exact Eg.
        - apply dict_set_In in Hin. destruct Hin as [E|Hin]; [|apply Hk; exact Hin].
          injection E as -> ->. reflexivity. }
      destruct (IH d1 H1 H2) as (A1 & A2 & A3). split; [exact A1|]. split; [exact A2|].
      intros k. specialize (A3 k). cbn [filter fst].
      assert (Eg : dict_get k d1 = if text_eqb k (lower name)
                    then Some (match dict_get (lower name) d with Some f => field_add value f | None => mkField name [value] kind end)
                    else dict_get k d).
      { unfold d1. destruct (text_eqb k (lower name)) eqn:E.
        - apply text_eqb_eq in E; subst k. destruct (dict_get (lower name) d); apply dict_get_set_eq.
        - apply text_eqb_neq in E. destruct (dict_get (lower name) d); apply dict_get_set_ne; exact E. }
      rewrite Eg in A3. destruct (text_eqb k (lower name)) eqn:E.
      + apply text_eqb_eq in E; subst k.
        destruct (dict_get (lower name) (tuples_loop lower kind rest d1)) as [f|] eqn:Ef; [|destruct A3; discriminate].
        rewrite A3. destruct (dict_get (lower name) d) as [g|]; cbn [field_add f_values map snd]; [rewrite <- app_assoc|]; reflexivity.
      + exact A3.
  Qed.
End Merge.
