(** Every text is a document or has a first bad line; what a document holds. *)
From Verif Require Import Base Base_Proofs PyText_Model PyText_Proofs PyDict_Model PyDict_Proofs
  ConfigFile_Model ConfigFile_Spec ConfigFile_Proofs ConfigDoc_Proofs.
Local Open Scope N_scope.

Lemma last_key_none es : last_key es = None -> es <> [] -> exists es', es = es' ++ [Skipped].
Proof.
  intros H Hne. destruct es as [|e es _] using rev_ind; [congruence|]. rewrite last_key_snoc in H.
  exists es. destruct e; cbn [key_of] in H; try discriminate H. reflexivity.
Qed.

Lemma doc_cases (d : doc) : d = [] \/ exists d' n es, d = d' ++ [(n, es)].
Proof. destruct d as [|[n es] d _] using rev_ind; [auto|]. right. eauto. Qed.
Lemma entry_cases (es : list entry) : es = [] \/ exists es' e, es = es' ++ [e].
Proof. destruct es as [|e es _] using rev_ind; [auto|]. right. eauto. Qed.

Lemma handle_sub_total n t (secs : sections) sec key (ps : props) v : dict_get sec secs = Some ps -> dict_get key ps = Some v ->
  (exists secs', handle_sub_property t secs sec key n = Parsed secs')
  \/ (exists w, handle_sub_property t secs sec key n = BadLine n w).
Proof.
  intros E1 E2. unfold handle_sub_property.
  rewrite E1, E2. destruct (cut_at 61 t) as [k [x|]]; [|eauto].
  destruct (strip k); [eauto|]. destruct (ident_re (n0 :: t0)); cbn [negb]; [|eauto].
  destruct v; [rewrite dict_get_set_eq|rewrite E2]; eauto.
Qed.
Lemma handle_sub_inv n l secs sec key secs' : indented l ->
  handle_sub_property (strip l) secs sec key n = Parsed secs' ->
  exists name value, sub_assignment l name value /\ name = strip name.
Proof.
  intros Hi. unfold handle_sub_property.
  destruct (dict_get sec secs) as [ps|]; [|discriminate]. destruct (dict_get key ps) as [v|]; [|discriminate].
  destruct (cut_at 61 (strip l)) as [k [x|]] eqn:Ec; [|discriminate].
  destruct (cut_unstrip l k x Ec) as (k0 & v0 & E & Hk & E1 & E2).
  destruct (strip k) as [|y t] eqn:Et; [discriminate|]. intros _.
  exists (y :: t), (strip x). split; [|rewrite <- Et; symmetry; apply strip_idem].
  split; [exact Hi|]. exists k0, v0. split; [exact E|]. split; [exact Hk|].
  split; [apply Trim_strip; exact E1|]. split; [discriminate|apply Trim_strip; exact E2].
Qed.

(** One more line either extends the document or is bad. *)
Lemma parse_step ls d n l : Doc ls d ->
  (exists d', Doc (ls ++ [l]) d') \/ (exists w, parse_line n l (state_of d) = BadLine n w).
Proof.
  intros HD. destruct l as [|c r].
  { left. exists d. apply D_noise; [exact HD|]. left. intros ? []. }
  destruct (strip (c :: r)) as [|y t] eqn:Es.
  { left. exists d. apply D_noise; [exact HD|]. left. apply white_strip. exact Es. }
  destruct (is_blank c) eqn:Eb.
  - assert (Hi : indented (c :: r)) by (apply indented_blank; exact Eb).
    assert (Hc : continuation (c :: r) (y :: t)).
    { split; [exact Hi|]. split; [discriminate|]. apply Trim_strip. exact Es. }
    destruct (doc_cases d) as [->|(d' & nm & es & ->)].
    { right. exists OrphanContinuation. unfold parse_line. rewrite Es, Eb. reflexivity. }
    destruct (entry_cases es) as [->|(es' & e & ->)].
    { right. exists ContinuationWithoutProperty.
      rewrite (parse_indented n (c :: r) (y :: t) _ nm Hi Es); [|discriminate|rewrite state_snoc; reflexivity].
      rewrite state_snoc. reflexivity. }
    destruct e as [k vs|k|k subs|].
    + left. eexists. eapply D_more; eassumption.
    + destruct (meaning_last d' nm es' (Empty k) k true eq_refl) as (ps & v & E1 & E2 & _).
      destruct (handle_sub_total n (strip (c :: r)) _ nm k ps v E1 E2) as [[secs' H]|[w H]].
      * left. destruct (handle_sub_inv _ _ _ _ _ _ Hi H) as (name & value & Hs & En).
        destruct (ident_re name) eqn:Ei.
        -- eexists. eapply D_sub_first; [exact HD|]. exists name. split; [exact Hs|].
           split; [rewrite En in Ei |- *; apply ident_re_strip; exact Ei|apply Lower_spec; reflexivity].
        -- eexists. eapply D_bad_sub_first; [exact HD|]. exists name, value. split; [exact Hs|].
           intros Hid. rewrite En in Ei, Hid. apply ident_re_strip in Hid. congruence.
      * right. exists w. rewrite (state_snoc2 _ _ _ _ k true) by reflexivity.
        rewrite (parse_indented n (c :: r) (strip (c :: r)) _ nm Hi eq_refl); [|rewrite Es; discriminate|reflexivity].
        cbn [p_ignore p_key p_sub p_sections]. rewrite H. reflexivity.
    + destruct (meaning_last d' nm es' (Group k subs) k true eq_refl) as (ps & v & E1 & E2 & _).
      destruct (handle_sub_total n (strip (c :: r)) _ nm k ps v E1 E2) as [[secs' H]|[w H]].
      * left. destruct (handle_sub_inv _ _ _ _ _ _ Hi H) as (name & value & Hs & En).
        destruct (ident_re name) eqn:Ei.
        -- eexists. eapply D_sub; [exact HD|]. exists name. split; [exact Hs|].
           split; [rewrite En in Ei |- *; apply ident_re_strip; exact Ei|apply Lower_spec; reflexivity].
        -- eexists. eapply D_bad_sub; [exact HD|]. exists name, value. split; [exact Hs|].
           intros Hid. rewrite En in Ei, Hid. apply ident_re_strip in Hid. congruence.
      * right. exists w. rewrite (state_snoc2 _ _ _ _ k true) by reflexivity.
        rewrite (parse_indented n (c :: r) (strip (c :: r)) _ nm Hi eq_refl); [|rewrite Es; discriminate|reflexivity].
        cbn [p_ignore p_key p_sub p_sections]. rewrite H. reflexivity.
    + left. eexists. eapply D_skipped_more; eassumption.
  - destruct (is_marker c) eqn:Em.
    { left. exists d. apply D_noise; [exact HD|]. right. exists c, r. apply is_marker_spec in Em. auto. }
    destruct (starts_with [91] (lstrip (c :: r))) eqn:Eh.
    + destruct (parse_section_line (c :: r) n) as [name|m w|e] eqn:Ep.
      * left. eexists. apply D_header; [exact HD|]. eapply parse_header; eassumption.
      * right. exists w. unfold parse_line. rewrite Es, Eb, Em, Eh, Ep. f_equal.
        unfold parse_section_line in Ep. destruct (cut_at 93 (strip (c :: r))) as [l0 [?|]];
          [destruct (strip (skipn 1 l0)); [injection Ep as <- _; reflexivity|discriminate Ep]|injection Ep as <- _; reflexivity].
      * exfalso. unfold parse_section_line in Ep. destruct (cut_at 93 (strip (c :: r))) as [l0 [?|]]; [|discriminate Ep].
        destruct (strip (skipn 1 l0)); discriminate Ep.
    + destruct (doc_cases d) as [->|(d' & nm & es & ->)].
      { right. exists OrphanProperty. unfold parse_line. rewrite Es, Eb, Em, Eh. reflexivity. }
      assert (Hs' : p_section (state_of (d' ++ [(nm, es)])) = Some nm) by (rewrite state_snoc; reflexivity).
      destruct (parse_property_line (c :: r) n) as [p|m w|e] eqn:Ep.
      * left. assert (Hne : strip (c :: r) <> []) by (rewrite Es; discriminate).
        pose proof (parse_property n c r p Hne Eb Em Eh Ep) as H.
        destruct p as [[k [|v0 v]]|]; eexists.
        -- eapply D_empty; eassumption.
        -- eapply D_plain; [eassumption|eassumption|discriminate].
        -- eapply D_skipped; eassumption.
      * right. exists w. unfold parse_line. rewrite Es, Eb, Em, Eh, Hs', Ep. f_equal.
        unfold parse_property_line in Ep. destruct (cut_at 61 (c :: r)) as [k [?|]]; [|injection Ep as <- _; reflexivity].
        destruct (strip k); [injection Ep as <- _; reflexivity|]. destruct (negb _); discriminate Ep.
      * exfalso. unfold parse_property_line in Ep. destruct (cut_at 61 (c :: r)) as [k [?|]]; [|discriminate Ep].
        destruct (strip k); [discriminate Ep|]. destruct (negb _); discriminate Ep.
Qed.

(** A document stays one when lines are dropped at its end. *)
Lemma Doc_prefix ls rest d : Doc (ls ++ rest) d -> exists d', Doc ls d'.
Proof.
  revert d. induction rest as [|l rest IH] using rev_ind; intros d H; [rewrite app_nil_r in H; eauto|].
  assert (exists d', Doc (ls ++ rest) d') as [d' H'].
  { clear IH. rewrite app_assoc in H. remember (ls ++ rest) as xs eqn:Ex. clear Ex.
    inversion H as [E|? ? ? HD _ E|? ? ? ? HD _ E|? ? ? ? ? ? ? HD _ _ E|? ? ? ? ? ? ? ? HD _ E|? ? ? ? ? ? HD _ E
                   |? ? ? ? ? ? ? ? HD _ E|? ? ? ? ? ? HD _ E|? ? ? ? ? ? ? ? ? HD _ E|? ? ? ? ? ? ? HD _ E|? ? ? ? ? HD _ E
                   |? ? ? ? ? ? HD _ E]; subst;
      [destruct xs; discriminate|..]; apply app_inj_tail in E; destruct E as [<- _]; eauto. }
  eapply IH. exact H'.
Qed.

Theorem parse_complete ls :
  (exists d, Doc ls d /\ parse_lines 1 ls start = Parsed (state_of d))
  \/ (exists n w, parse_lines 1 ls start = BadLine n w /\ (1 <= n <= List.length ls)%nat
      /\ (exists d, Doc (firstn (n - 1) ls) d) /\ (forall rest d, ~ Doc (firstn n ls ++ rest) d)).
Proof.
  induction ls as [|l ls IH] using rev_ind.
  { left. exists []. split; [constructor|reflexivity]. }
  destruct IH as [(d & HD & HP)|(n & w & HP & Hn & Hpre & Hno)].
  - destruct (parse_step ls d (1 + List.length ls) l HD) as [[d' H]|[w H]].
    + left. exists d'. split; [exact H|]. apply parse_sound, H.
    + right. exists (1 + List.length ls)%nat, w.
      assert (HB : parse_lines 1 (ls ++ [l]) start = BadLine (1 + List.length ls) w) by (rewrite parse_lines_snoc, HP; exact H).
      split; [exact HB|]. rewrite app_length. cbn [List.length]. split; [lia|]. split.
      * exists d. replace (1 + List.length ls - 1)%nat with (List.length ls) by lia.
        rewrite firstn_app_exact by reflexivity. exact HD.
      * intros rest d' H'. rewrite firstn_all2 in H' by (rewrite app_length; cbn [List.length]; lia).
        destruct (Doc_prefix _ _ _ H') as [d'' H'']. apply parse_sound in H''. congruence.
  - right. exists n, w. rewrite parse_lines_snoc, HP. split; [reflexivity|]. rewrite app_length. cbn [List.length].
    split; [lia|]. rewrite !firstn_app.
    replace (n - 1 - List.length ls)%nat with 0%nat by lia. replace (n - List.length ls)%nat with 0%nat by lia.
    cbn [firstn]. rewrite !app_nil_r. auto.
Qed.

(** ** What the document holds *)

Lemma update_sub k subs : forall acc : list (text * text),
  dict_get k (update acc subs) = match sub_of k subs with Some v => Some v | None => dict_get k acc end.
Proof.
  induction subs as [|[x v] subs IH]; intros acc; [reflexivity|].
  change (update acc ((x, v) :: subs)) with (update (dict_set x v acc) subs). rewrite IH.
  unfold sub_of. cbn [last_some fst snd]. match goal with |- match ?x with _ => _ end = _ => destruct x; [reflexivity|] end.
  destruct (text_eqb x k) eqn:E.
  - apply text_eqb_eq in E as ->. apply dict_get_set_eq.
  - apply text_eqb_neq in E. apply dict_get_set_ne. congruence.
Qed.


Lemma look_put n k v (m : sections) n' k' : dict_get n m <> None ->
  look n' k' (put n k v m) = if (text_eqb n' n && text_eqb k' k)%bool then Some v else look n' k' m.
Proof.
  intros H. unfold look, put. destruct (dict_get n m) as [ps|] eqn:E; [|congruence].
  destruct (text_eqb n' n) eqn:En; cbn [andb].
  - apply text_eqb_eq in En as ->. rewrite dict_get_set_eq. destruct (text_eqb k' k) eqn:Ek.
    + apply text_eqb_eq in Ek as ->. apply dict_get_set_eq.
    + apply text_eqb_neq in Ek. rewrite dict_get_set_ne by exact Ek.
      rewrite E. reflexivity.
  - apply text_eqb_neq in En. rewrite dict_get_set_ne by exact En. reflexivity.
Qed.
Lemma text_eqb_sym a b : text_eqb a b = text_eqb b a.
Proof.
  destruct (text_eqb a b) eqn:E, (text_eqb b a) eqn:E'; try reflexivity.
  - apply text_eqb_eq in E as ->. rewrite text_eqb_refl in E'. discriminate.
  - apply text_eqb_eq in E' as ->. rewrite text_eqb_refl in E. discriminate.
Qed.

Lemma look_add n e m n' k' acc : dict_get n m <> None -> opt_same (look n' k' m) acc ->
  opt_same (look n' k' (add n e m))
           (if text_eqb n' n then match defines k' e with Some c => Some c | None => acc end else acc).
Proof.
  intros Hm Ha.
  destruct e as [k ls|k|k subs|]; cbn [add defines]; try rewrite (look_put _ _ _ _ _ _ Hm);
    try rewrite (text_eqb_sym k k'); destruct (text_eqb n' n); cbn [andb]; try exact Ha;
    destruct (text_eqb k' k); try exact Ha; cbn [opt_same content_of same_content]; try reflexivity.
  intros x. rewrite update_sub. destruct (sub_of x subs); reflexivity.
Qed.

Lemma look_add_all n es n' k' : forall m acc, dict_get n m <> None -> opt_same (look n' k' m) acc ->
  opt_same (look n' k' (add_all n es m))
           (if text_eqb n' n then match last_some (defines k') es with Some c => Some c | None => acc end else acc).
Proof.
  induction es as [|e es IH]; intros m acc Hm Ha.
  - cbn [last_some add_all fold_left]. destruct (text_eqb n' n); exact Ha.
  - change (add_all n (e :: es) m) with (add_all n es (add n e m)).
    pose proof (IH (add n e m) _ (add_has n e m n Hm) (look_add n e m n' k' acc Hm Ha)) as H.
    cbn [last_some]. destruct (text_eqb n' n); [|exact H].
    destruct (last_some (defines k') es); exact H.
Qed.
Lemma look_open n m n' k' : look n' k' (open n m) = look n' k' m.
Proof.
  unfold open, dict_has, look. destruct (dict_get n m) eqn:E; [reflexivity|].
  destruct (text_eq_dec n' n) as [->|Hn].
  - rewrite dict_get_set_eq, E. reflexivity.
  - rewrite dict_get_set_ne by exact Hn. reflexivity.
Qed.

Lemma look_meaning d n k : opt_same (look n k (meaning d)) (property_of (text_eqb n) k d).
Proof.
  induction d as [|[n' es] d IH] using rev_ind; [exact I|].
  rewrite meaning_snoc. unfold property_of, entries_of. rewrite flat_map_app, last_some_app. cbn [flat_map fst snd].
  rewrite app_nil_r.
  pose proof (look_add_all n' es n k (open n' (meaning d)) (property_of (text_eqb n) k d) (open_has n' _)) as H.
  rewrite look_open in H. specialize (H IH). unfold property_of, entries_of in H.
  destruct (text_eqb n n'); [exact H|]. cbn [last_some]. exact H.
Qed.

(** The section names, in the order of their first occurrence. *)
Lemma keys_put n k v m : dict_keys (put n k v m) = dict_keys m.
Proof.
  unfold put. destruct (dict_get n m) eqn:E; [|reflexivity]. apply dict_keys_set_in. apply dict_get_In in E.
  apply (in_map fst) in E. exact E.
Qed.
Lemma keys_add_all n es m : dict_keys (add_all n es m) = dict_keys m.
Proof.
  revert m. induction es as [|e es IH]; intros m; [reflexivity|]. cbn [add_all fold_left].
  change (fold_left (fun m e => add n e m) es (add n e m)) with (add_all n es (add n e m)). rewrite IH.
  destruct e; cbn [add]; try apply keys_put. reflexivity.
Qed.
Lemma first_occurrences_snoc l x :
  first_occurrences (l ++ [x]) = if mem_text x l then first_occurrences l else first_occurrences l ++ [x].
Proof.
  induction l as [|y l IH]; [reflexivity|]. cbn [app first_occurrences]. rewrite IH. 
  assert (Em : mem_text x (y :: l) = (text_eqb x y || mem_text x l)%bool) by reflexivity.
  rewrite Em, (text_eqb_sym x y).
  destruct (mem_text x l); [rewrite Bool.orb_true_r; reflexivity|]. rewrite Bool.orb_false_r, filter_app. cbn [filter].
  destruct (text_eqb y x) eqn:E; cbn [negb]; [rewrite app_nil_r|]; reflexivity.
Qed.
Lemma first_occurrences_In l x : In x (first_occurrences l) <-> In x l.
Proof.
  induction l as [|y l IH]; [reflexivity|]. cbn [first_occurrences In]. rewrite filter_In, IH. split.
  - intros [H|[H _]]; auto.
  - intros [H|H]; [auto|]. destruct (text_eqb y x) eqn:E; [apply text_eqb_eq in E; auto|auto].
Qed.
Lemma first_occurrences_NoDup l : NoDup (first_occurrences l).
Proof.
  induction l as [|y l IH]; [constructor|]. cbn [first_occurrences]. constructor.
  - rewrite filter_In. intros [_ H]. rewrite text_eqb_refl in H. discriminate.
  - apply NoDup_filter, IH.
Qed.
Lemma keys_meaning d : dict_keys (meaning d) = first_occurrences (map fst d).
Proof.
  induction d as [|[n es] d IH] using rev_ind; [reflexivity|].
  rewrite meaning_snoc, keys_add_all, map_app. cbn [map fst]. rewrite first_occurrences_snoc.
  unfold open, dict_has. destruct (dict_get n (meaning d)) eqn:E.
  - rewrite IH. assert (mem_text n (map fst d) = true) as ->; [|reflexivity].
    apply mem_text_In. apply dict_get_In, (in_map fst) in E. cbn [fst] in E. apply first_occurrences_In.
    rewrite <- IH. exact E.
  - assert (Hn : ~ In n (dict_keys (meaning d))) by (apply dict_get_None; exact E).
    assert (E2 : dict_keys (dict_set n ([] : props) (meaning d)) = dict_keys (meaning d) ++ [n]).
    { rewrite dict_set_new by exact Hn. unfold dict_keys. rewrite map_app. reflexivity. }
    refine (eq_trans E2 _). rewrite IH in Hn |- *. assert (mem_text n (map fst d) = false) as ->; [|reflexivity].
    apply mem_text_notIn. intros H. apply Hn, first_occurrences_In, H.
Qed.
