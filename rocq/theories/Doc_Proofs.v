(** Documents: operations keep what they hold in step with plain values. *)
From Verif Require Import Base Base_Proofs PyDict_Model PyDict_Proofs Doc_Model Doc_Spec.
Local Open Scope Z_scope.

Lemma doc_ind2 (P : doc -> Prop) :
  (forall s r, P (Doc s INone r)) -> (forall s v r, P (Doc s (IScalar v) r)) ->
  (forall s m r, Forall (fun kv => P (snd kv)) m -> P (Doc s (IDict m) r)) ->
  (forall s l r, Forall P l -> P (Doc s (IList l) r)) -> forall d, P d.
Proof.
  intros H1 H2 H3 H4. fix IH 1. intros [s v r]. destruct v as [|x|m|l].
  - apply H1.
  - apply H2.
  - apply H3. induction m as [|[k c] m IHm]; constructor; [apply IH|exact IHm].
  - apply H4. induction l as [|c l IHl]; constructor; [apply IH|exact IHl].
Qed.

(** ** Lists and dictionaries *)
Lemma py_index_position {A} i (l : list A) : py_index i l = position i l.
Proof.
  unfold py_index, position. cbv zeta. destruct (Z.ltb_spec i 0).
  - replace ((0 <=? i) && (i <? Z.of_nat (List.length l)))%bool with false by lia.
    replace ((- Z.of_nat (List.length l) <=? i) && true)%bool with ((0 <=? i + Z.of_nat (List.length l)) && (i + Z.of_nat (List.length l) <? Z.of_nat (List.length l)))%bool by lia.
    rewrite (Z.add_comm i). reflexivity.
  - destruct ((0 <=? i) && (i <? Z.of_nat (List.length l)))%bool; [reflexivity|].
    rewrite andb_false_r. reflexivity.
Qed.
Lemma py_index_lt {A} i (l : list A) n : py_index i l = Some n -> (n < List.length l)%nat.
Proof.
  unfold py_index. cbv zeta. destruct ((0 <=? _) && _)%bool eqn:E; [|discriminate]. intros [= <-]. lia.
Qed.
Lemma py_index_len {A B} i (l : list A) (m : list B) : List.length l = List.length m -> py_index i l = py_index i m.
Proof. intros E. unfold py_index. rewrite E. reflexivity. Qed.
Lemma put_at_replace {A} n (x : A) l : (n < List.length l)%nat -> put_at n x l = replace_nth n x l.
Proof.
  unfold put_at. revert n. induction l as [|y l IH]; intros n H; [cbn in H; lia|].
  destruct n; [reflexivity|]. cbn [firstn skipn app replace_nth]. f_equal. apply IH. cbn in H. lia.
Qed.
Lemma drop_at_remove {A} n (l : list A) : (n < List.length l)%nat -> drop_at n l = remove_nth n l.
Proof.
  unfold drop_at. revert n. induction l as [|y l IH]; intros n H; [cbn in H; lia|].
  destruct n; [reflexivity|]. cbn [firstn skipn app remove_nth]. f_equal. apply IH. cbn in H. lia.
Qed.
Lemma map_replace {A B} (f : A -> B) n x l : map f (replace_nth n x l) = replace_nth n (f x) (map f l).
Proof. revert n. induction l as [|y l IH]; intros [|n]; cbn; f_equal; auto. Qed.
Lemma map_remove {A B} (f : A -> B) n l : map f (remove_nth n l) = remove_nth n (map f l).
Proof. revert n. induction l as [|y l IH]; intros [|n]; cbn; f_equal; auto. Qed.
Lemma replace_same {A} n (x : A) l : nth_error l n = Some x -> replace_nth n x l = l.
Proof. revert n. induction l as [|y l IH]; intros [|n]; cbn; intros H; [discriminate..|congruence|f_equal; auto]. Qed.
Lemma in_replace {A} n (x y : A) l : In y (replace_nth n x l) -> y = x \/ In y l.
Proof. revert n. induction l as [|z l IH]; intros [|n]; cbn; intuition. destruct (IH _ H0); auto. Qed.
Lemma in_remove {A} n (y : A) l : In y (remove_nth n l) -> In y l.
Proof. revert n. induction l as [|z l IH]; intros [|n]; cbn; intuition eauto. Qed.

Section Vals.
  Context {A B : Type} (f : A -> B).
  Let vals (m : list (text * A)) : list (text * B) := map (fun kv => (fst kv, f (snd kv))) m.
  Lemma vals_get k m : dict_get k (vals m) = option_map f (dict_get k m).
  Proof. induction m as [|[k' v] m IH]; [reflexivity|]. cbn. destruct (text_eqb k k'); [reflexivity|exact IH]. Qed.
  Lemma vals_has k m : dict_has k (vals m) = dict_has k m.
  Proof. unfold dict_has. rewrite vals_get. destruct (dict_get k m); reflexivity. Qed.
  Lemma vals_set k v m : vals (dict_set k v m) = dict_set k (f v) (vals m).
  Proof. induction m as [|[k' w] m IH]; [reflexivity|]. cbn. destruct (text_eqb k k'); cbn; [reflexivity|]. f_equal. exact IH. Qed.
  Lemma vals_del k m : vals (dict_del k m) = dict_del k (vals m).
  Proof. induction m as [|[k' w] m IH]; [reflexivity|]. cbn. destruct (text_eqb k k'); cbn; [reflexivity|]. f_equal. exact IH. Qed.
End Vals.
Lemma dict_set_same {A} k (v : A) m : dict_get k m = Some v -> dict_set k v m = m.
Proof.
  induction m as [|[k' w] m IH]; [discriminate|]. cbn. destruct (text_eqb k k'); [intros [= ->]; reflexivity|].
  intros H. f_equal. exact (IH H).
Qed.
Lemma in_dict_set {A} k (v : A) m p : In p (dict_set k v m) -> snd p = v \/ In p m.
Proof.
  induction m as [|[k' w] m IH]; cbn; [intros [<-|[]]; auto|]. destruct (text_eqb k k'); cbn; intros [<-|H]; auto.
  destruct (IH H); auto.
Qed.
Lemma in_dict_del {A} k (m : list (text * A)) p : In p (dict_del k m) -> In p m.
Proof.
  induction m as [|[k' w] m IH]; cbn; [intros []|]. destruct (text_eqb k k'); cbn; [auto|]. intros [<-|H]; auto.
Qed.
Lemma in_dict_get {A} k (v : A) m : dict_get k m = Some v -> exists k', In (k', v) m.
Proof.
  induction m as [|[k' w] m IH]; [discriminate|]. cbn. destruct (text_eqb k k').
  - intros [= ->]. eauto.
  - intros H. destruct (IH H) as [k2 K]. eauto.
Qed.

Section Proofs.
  Variable kind_of : N -> kind.
  Variable member_name : N -> option text.

  Lemma content_new s p : content (new s p) = p.
  Proof. destruct p as [| |[|? ?]|[|? ?]]; reflexivity. Qed.

  Lemma wrap_members_content ms l m : wrap_members ms l = Ok m -> map (fun kv => (fst kv, content (snd kv))) m = l.
  Proof.
    revert m. induction l as [|[k v] l IH]; cbn; intros m; [intros [= <-]; reflexivity|].
    destruct (mem ms k) as [s|]; [|discriminate]. cbn. destruct (wrap_members ms l) as [r|]; [|discriminate]. cbn.
    intros [= <-]. cbn. rewrite content_new, IH; reflexivity.
  Qed.
  Lemma new_vals_content s (l : list (text * plain)) :
    map (fun kv => (fst kv, content (snd kv))) (map (fun kv => (fst kv, new s (snd kv))) l) = l.
  Proof. induction l as [|[k v] l IH]; [reflexivity|]. cbn. rewrite content_new. f_equal. exact IH. Qed.
  Lemma wrap_map_content s l m : wrap_map kind_of s l = Ok m -> map (fun kv => (fst kv, content (snd kv))) m = l.
  Proof.
    unfold wrap_map. destruct (kind_of s); try apply wrap_members_content; intros [= <-]; apply new_vals_content.
  Qed.
  Lemma wrap_list_content s l : map content (wrap_list kind_of s l) = l.
  Proof.
    unfold wrap_list. rewrite map_map. rewrite (map_ext _ (fun p => p)); [apply map_id|]. intros p. apply content_new.
  Qed.

  (** [as_map] and [as_list] change nothing of what is held. *)
  Lemma as_map_content d d1 r : as_map kind_of d = (d1, r) ->
    content d1 = content d /\ match r with
      | Ok m => d_value d1 = IDict m /\ d_schema d1 = d_schema d /\ content d = PMap (map (fun kv => (fst kv, content (snd kv))) m)
      | Err _ => d1 = d end.
  Proof.
    destruct d as [s v raw]. destruct v as [|x|m|l]; cbn.
    - destruct raw as [[| | |p]|]; try (intros [= <- <-]; split; reflexivity).
      destruct (wrap_map kind_of s p) as [m|e] eqn:E; intros [= <- <-]; [|split; reflexivity].
      pose proof (wrap_map_content _ _ _ E) as C. cbn. rewrite C. repeat split.
    - intros [= <- <-]; split; reflexivity.
    - intros [= <- <-]. repeat split.
    - intros [= <- <-]; split; reflexivity.
  Qed.
  Lemma as_list_content d d1 r : as_list kind_of d = (d1, r) ->
    content d1 = content d /\ match r with
      | Ok l => d_value d1 = IList l /\ d_schema d1 = d_schema d /\ content d = PList (map content l)
      | Err _ => d1 = d end.
  Proof.
    destruct d as [s v raw]. destruct v as [|x|m|l]; cbn.
    - destruct raw as [[| |p|]|]; intros [= <- <-]; try (split; reflexivity).
      cbn. rewrite wrap_list_content. repeat split.
    - intros [= <- <-]; split; reflexivity.
    - intros [= <- <-]; split; reflexivity.
    - intros [= <- <-]. repeat split.
  Qed.

  Lemma as_value_content d : content (fst (as_value d)) = content d.
  Proof.
    induction d as [s r|s v r|s m r IH|s l r IH] using doc_ind2.
    - destruct r; reflexivity.
    - destruct r; reflexivity.
    - destruct r; [reflexivity|]. cbn. f_equal. rewrite !map_map. cbn. apply map_ext_in. intros kv H.
      rewrite Forall_forall in IH. rewrite (IH kv H). reflexivity.
    - destruct r; [reflexivity|]. cbn. f_equal. rewrite !map_map. apply map_ext_in. intros c H.
      rewrite Forall_forall in IH. apply (IH c H).
  Qed.

  Lemma with_schema_content s d d' : with_schema kind_of s d = Ok d' -> sensible_doc kind_of d -> content d' = content d.
  Proof.
    unfold with_schema. intros H K.
    assert (M : forall d', (do m <- snd (as_map kind_of d); Ok (Doc s (IDict m) None)) = Ok d' -> content d' = content d).
    { intros x Hx. destruct (as_map kind_of d) as [d1 [m|e]] eqn:E; [|discriminate Hx]. cbn in Hx. injection Hx as <-.
      destruct (as_map_content _ _ _ E) as (_ & _ & _ & C). rewrite C. reflexivity. }
    assert (L : forall d', (do m <- snd (as_list kind_of d); Ok (Doc s (IList m) None)) = Ok d' -> content d' = content d).
    { intros x Hx. destruct (as_list kind_of d) as [d1 [m|e]] eqn:E; [|discriminate Hx]. cbn in Hx. injection Hx as <-.
      destruct (as_list_content _ _ _ E) as (_ & _ & _ & C). rewrite C. reflexivity. }
    destruct (shape_type kind_of d) eqn:T; auto; injection H as <-; destruct d as [s0 v raw]; unfold sensible_doc in K; cbn in *;
      (destruct v; try reflexivity); (destruct raw as [[| | |]|]; try reflexivity; try contradiction);
      unfold shape_type in T; cbn in T; destruct (kind_of s0) eqn:K0; try discriminate T; exfalso; exact (K _ eq_refl).
  Qed.

  Lemma to_doc_content s a d : to_doc kind_of s a = Ok d -> match a with ADoc e => sensible_doc kind_of e | _ => True end ->
    content d = arg_content a.
  Proof.
    destruct a as [p|e]; cbn; [intros [= <-] _; apply content_new|]. intros H K. exact (with_schema_content s e d H K).
  Qed.

  Lemma content_dict s m r : content (Doc s (IDict m) r) = PMap (map (fun kv => (fst kv, content (snd kv))) m).
  Proof. reflexivity. Qed.
  Lemma content_list s l r : content (Doc s (IList l) r) = PList (map content l).
  Proof. reflexivity. Qed.

  Definition sensible (a : arg) : Prop := match a with ADoc e => sensible_doc kind_of e | _ => True end.

  Lemma setitem_content k a d d' e : setitem kind_of k a d = (d', e) -> sensible a ->
    match e with None => plain_set k (arg_content a) (content d) = Some (content d') | Some _ => content d' = content d end.
  Proof.
    unfold setitem. intros H K. destruct (slot_schema kind_of (d_schema d) k) as [s|]; [|injection H as <- <-; reflexivity].
    destruct (to_doc kind_of s a) as [x|] eqn:X; [|injection H as <- <-; reflexivity].
    pose proof (to_doc_content s a x X K) as Cx. destruct k as [t|i].
    - destruct (as_map kind_of d) as [d1 [m|]] eqn:E; destruct (as_map_content _ _ _ E) as (C1 & R); injection H as <- <-; [|exact C1].
      destruct R as (_ & _ & C). rewrite C, content_dict. cbn [plain_set]. rewrite (vals_set content), Cx. reflexivity.
    - destruct (as_list kind_of d) as [d1 [l|]] eqn:E; destruct (as_list_content _ _ _ E) as (C1 & R); [|injection H as <- <-; exact C1].
      destruct R as (_ & _ & C). destruct (py_index i l) as [n|] eqn:I; injection H as <- <-; [|exact C1].
      rewrite C, content_list. cbn [plain_set]. rewrite <- py_index_position, (py_index_len i (map content l) l) by apply map_length.
      rewrite I, put_at_replace, map_replace, Cx by exact (py_index_lt _ _ _ I). reflexivity.
  Qed.
  Lemma delitem_content k d d' e : delitem kind_of k d = (d', e) ->
    match e with None => plain_del k (content d) = Some (content d') | Some _ => content d' = content d end.
  Proof.
    unfold delitem. intros H. destruct k as [t|i].
    - destruct (as_map kind_of d) as [d1 [m|]] eqn:E; destruct (as_map_content _ _ _ E) as (C1 & R); [|injection H as <- <-; exact C1].
      destruct R as (_ & _ & C). destruct (dict_has t m) eqn:D; injection H as <- <-; [|exact C1].
      rewrite C, content_dict. cbn [plain_del]. rewrite (vals_has content), D, (vals_del content). reflexivity.
    - destruct (as_list kind_of d) as [d1 [l|]] eqn:E; destruct (as_list_content _ _ _ E) as (C1 & R); [|injection H as <- <-; exact C1].
      destruct R as (_ & _ & C). destruct (py_index i l) as [n|] eqn:I; injection H as <- <-; [|exact C1].
      rewrite C, content_list. cbn [plain_del]. rewrite <- py_index_position, (py_index_len i (map content l) l) by apply map_length.
      rewrite I, drop_at_remove, map_remove by exact (py_index_lt _ _ _ I). reflexivity.
  Qed.
  (** [d[k]], and what changing the child does. *)
  Lemma getitem_content k d d1 r : getitem kind_of k d = (d1, r) ->
    content d1 = content d /\ match r with
      | Ok c => plain_get k (content d) = Some (content c)
          /\ forall c', plain_set k (content c') (content d) = Some (content (child_changed k c' d1))
      | Err _ => True end.
  Proof.
    unfold getitem. destruct k as [t|i].
    - destruct (as_map kind_of d) as [d2 [m|]] eqn:E; destruct (as_map_content _ _ _ E) as (C1 & R); intros H; injection H as <- <-;
        (split; [exact C1|]); [|exact I].
      destruct R as (V & _ & C). destruct (dict_get t m) as [c|] eqn:G; [|exact I].
      rewrite C. cbn [plain_get plain_set]. rewrite (vals_get content), G. split; [reflexivity|].
      intros c'. destruct d2 as [s v r]. cbn in V. subst v. cbn [child_changed]. rewrite content_dict, (vals_set content). reflexivity.
    - destruct (as_list kind_of d) as [d2 [l|]] eqn:E; destruct (as_list_content _ _ _ E) as (C1 & R); intros H; injection H as <- <-;
        (split; [exact C1|]); [|exact I].
      destruct R as (V & _ & C). destruct (py_index i l) as [n|] eqn:P; [|exact I]. destruct (nth_error l n) as [c|] eqn:G; [|exact I].
      rewrite C. cbn [plain_get plain_set]. rewrite <- py_index_position, (py_index_len i (map content l) l) by apply map_length.
      rewrite P. split; [rewrite nth_error_map, G; reflexivity|]. intros c'. destruct d2 as [s v r]. cbn in V. subst v. cbn [child_changed].
      rewrite P, content_list, put_at_replace, map_replace by exact (py_index_lt _ _ _ P). reflexivity.
  Qed.
  Lemma getitem_fails k d d1 e : getitem kind_of k d = (d1, Err e) -> content d1 = content d.
  Proof. intros H. exact (proj1 (getitem_content _ _ _ _ H)). Qed.
  Lemma set_same k p c : plain_get k p = Some c -> plain_set k c p = Some p.
  Proof.
    destruct k as [t|i]; destruct p as [| |l|m]; try discriminate; cbn.
    - intros H. rewrite dict_set_same by exact H. reflexivity.
    - destruct (position i l) as [n|]; [|discriminate]. intros H. rewrite replace_same by exact H. reflexivity.
  Qed.

  (** A step [f] that follows the plain step [g]. *)
  Definition follows (f : doc -> doc * option exn) (g : plain -> option plain) : Prop :=
    forall d d' e, f d = (d', e) -> match e with None => g (content d) = Some (content d') | Some _ => content d' = content d end.
  Lemma at_path_content path f g : follows f g -> follows (at_path kind_of path f) (plain_at path g).
  Proof.
    intros F. induction path as [|k path IH]; intros d d' e H; [exact (F d d' e H)|]. cbn [at_path plain_at] in *.
    destruct (getitem kind_of k d) as [d1 [c|x]] eqn:G; destruct (getitem_content _ _ _ _ G) as (C1 & R).
    - destruct R as (R1 & R2). destruct (at_path kind_of path f c) as [c' r] eqn:A. injection H as <- <-.
      specialize (IH c c' r A). rewrite R1. destruct r as [x|].
      + pose proof (R2 c') as S. rewrite IH in S. rewrite (set_same _ _ _ R1) in S. injection S as S. symmetry. exact S.
      + rewrite IH. apply R2.
    - injection H as <- <-. exact C1.
  Qed.
  Lemma keeps_id f : (forall d, content (fst (f d)) = content d) -> follows f (fun p => Some p).
  Proof. intros H d d' e E. specialize (H d). rewrite E in H. cbn in H. destruct e; [exact H|]. rewrite H. reflexivity. Qed.
  Lemma plain_at_id path p q : plain_at path (fun p => Some p) p = Some q -> q = p.
  Proof.
    revert p q. induction path as [|k path IH]; intros p q; cbn; [congruence|].
    destruct (plain_get k p) as [c|] eqn:G; [|discriminate]. destruct (plain_at path _ c) as [c'|] eqn:A; [|discriminate].
    rewrite (IH _ _ A), (set_same _ _ _ G). congruence.
  Qed.
  Lemma contents_keep d : content (fst ((fun d => match shape_type kind_of d with
                                  | DList => let (d1, r) := as_list kind_of d in (d1, match r with Ok _ => None | Err e => Some e end)
                                  | _ => let (d1, r) := as_map kind_of d in (d1, match r with Ok _ => None | Err e => Some e end)
                                  end) d)) = content d.
  Proof.
    cbn beta. destruct (as_list kind_of d) as [dl rl] eqn:EL. destruct (as_map kind_of d) as [dm rm] eqn:EM.
    pose proof (proj1 (as_list_content _ _ _ EL)). pose proof (proj1 (as_map_content _ _ _ EM)).
    destruct (shape_type kind_of d); assumption.
  Qed.
  Lemma run_op_content o : sensible_arg kind_of o -> follows (run_op kind_of false o) (plain_op o).
  Proof.
    intros K d d' e H. unfold run_op in H. destruct o as [path k a|path k|path|path]; cbn [op_at] in H.
    - refine (at_path_content path _ _ _ d d' e H). intros x x' y E. exact (setitem_content _ _ _ _ _ E K).
    - refine (at_path_content path _ _ _ d d' e H). intros x x' y E. exact (delitem_content _ _ _ _ E).
    - pose proof (at_path_content path _ _ (keeps_id (fun d => (fst (as_value d), None)) as_value_content) d d' e H) as Q.
      destruct e; [exact Q|]. cbn. rewrite (plain_at_id _ _ _ Q). reflexivity.
    - pose proof (at_path_content path _ _ (keeps_id _ contents_keep) d d' e H) as Q.
      destruct e; [exact Q|]. cbn. rewrite (plain_at_id _ _ _ Q). reflexivity.
  Qed.

  (** ** Documents without schemas *)
  Lemma untyped_dict s m r : untyped kind_of (Doc s (IDict m) r) <->
    kind_of s = KDocument /\ collection r /\ Forall (fun kv => untyped kind_of (snd kv)) m.
  Proof.
    cbn [untyped]. assert (E : forall m, (fix all (m : list (text * doc)) : Prop := match m with [] => True | (_, c) :: r => untyped kind_of c /\ all r end) m
      <-> Forall (fun kv => untyped kind_of (snd kv)) m).
    { induction m0 as [|[k c] m0 IH]; [split; constructor|]. split.
      - intros [A B]. constructor; [exact A|]. apply IH, B.
      - intros F. inversion F; subst. split; [assumption|]. apply IH. assumption. }
    rewrite E. tauto.
  Qed.
  Lemma untyped_list s l r : untyped kind_of (Doc s (IList l) r) <->
    kind_of s = KDocument /\ collection r /\ Forall (untyped kind_of) l.
  Proof.
    cbn [untyped]. assert (E : forall l, (fix all (l : list doc) : Prop := match l with [] => True | c :: r => untyped kind_of c /\ all r end) l
      <-> Forall (untyped kind_of) l).
    { induction l0 as [|c l0 IH]; [split; constructor|]. split.
      - intros [A B]. constructor; [exact A|]. apply IH, B.
      - intros F. inversion F; subst. split; [assumption|]. apply IH. assumption. }
    rewrite E. tauto.
  Qed.
  Lemma fresh_dict s m r : up_to_date (Doc s (IDict m) r) <->
    match r with Some p => p = content (Doc s (IDict m) r) | None => True end /\ Forall (fun kv => up_to_date (snd kv)) m.
  Proof.
    cbn [up_to_date]. assert (E : forall m, (fix all (m : list (text * doc)) : Prop := match m with [] => True | (_, c) :: r => up_to_date c /\ all r end) m
      <-> Forall (fun kv => up_to_date (snd kv)) m).
    { induction m0 as [|[k c] m0 IH]; [split; constructor|]. split.
      - intros [A B]. constructor; [exact A|]. apply IH, B.
      - intros F. inversion F; subst. split; [assumption|]. apply IH. assumption. }
    rewrite E. tauto.
  Qed.
  Lemma fresh_list s l r : up_to_date (Doc s (IList l) r) <->
    match r with Some p => p = content (Doc s (IList l) r) | None => True end /\ Forall up_to_date l.
  Proof.
    cbn [up_to_date]. assert (E : forall l, (fix all (l : list doc) : Prop := match l with [] => True | c :: r => up_to_date c /\ all r end) l
      <-> Forall up_to_date l).
    { induction l0 as [|c l0 IH]; [split; constructor|]. split.
      - intros [A B]. constructor; [exact A|]. apply IH, B.
      - intros F. inversion F; subst. split; [assumption|]. apply IH. assumption. }
    rewrite E. tauto.
  Qed.
  Lemma untyped_kind d : untyped kind_of d -> kind_of (d_schema d) = KDocument.
  Proof. destruct d as [s v r]. intros [H _]. exact H. Qed.
  Lemma untyped_raw d : untyped kind_of d -> collection (d_raw d).
  Proof. destruct d as [s v r]. intros (_ & H & _). exact H. Qed.
  Lemma untyped_new s p : kind_of s = KDocument -> untyped kind_of (new s p).
  Proof. intros K. destruct p as [| |[|? ?]|[|? ?]]; cbn; auto. Qed.
  Lemma fresh_new s p : up_to_date (new s p).
  Proof. destruct p as [| |[|? ?]|[|? ?]]; cbn; auto. Qed.

  (** Both at once: [b] says whether kept values are looked at. *)
  Definition inv (b : bool) (d : doc) : Prop := untyped kind_of d /\ (b = true -> up_to_date d).
  Lemma inv_new b s p : kind_of s = KDocument -> inv b (new s p).
  Proof. intros K. split; [apply untyped_new, K|intros _; apply fresh_new]. Qed.
  Lemma inv_dict b s m r : inv b (Doc s (IDict m) r) <-> kind_of s = KDocument /\ collection r /\
    (b = true -> match r with Some p => p = content (Doc s (IDict m) r) | None => True end) /\ Forall (fun kv => inv b (snd kv)) m.
  Proof.
    unfold inv. rewrite untyped_dict, fresh_dict, !Forall_forall. split.
    - intros ((A & B & C) & D). split; [exact A|]. split; [exact B|]. split; [intros E; apply (D E)|].
      intros kv I. split; [exact (C kv I)|]. intros E. destruct (D E) as [_ F]. exact (F kv I).
    - intros (A & B & C & D). split; [split; [exact A|]; split; [exact B|]; intros kv I; apply (D kv I)|].
      intros E. split; [exact (C E)|]. intros kv I. apply (D kv I), E.
  Qed.
  Lemma inv_list b s l r : inv b (Doc s (IList l) r) <-> kind_of s = KDocument /\ collection r /\
    (b = true -> match r with Some p => p = content (Doc s (IList l) r) | None => True end) /\ Forall (inv b) l.
  Proof.
    unfold inv. rewrite untyped_list, fresh_list, !Forall_forall. split.
    - intros ((A & B & C) & D). split; [exact A|]. split; [exact B|]. split; [intros E; apply (D E)|].
      intros kv I. split; [exact (C kv I)|]. intros E. destruct (D E) as [_ F]. exact (F kv I).
    - intros (A & B & C & D). split; [split; [exact A|]; split; [exact B|]; intros kv I; apply (D kv I)|].
      intros E. split; [exact (C E)|]. intros kv I. apply (D kv I), E.
  Qed.

  Lemma as_map_inv b d d1 r : inv b d -> as_map kind_of d = (d1, r) ->
    inv b d1 /\ match r with Ok m => Forall (fun kv => inv b (snd kv)) m | Err _ => forall m, content d <> PMap m end.
  Proof.
    intros H. destruct d as [s v raw]. destruct H as [U F]. destruct v as [|x|m|l].
    - destruct U as (K & C & _). destruct raw as [[|x|l|p]|]; try (now contradict C).
      + intros [= <- <-]. split; [split; [cbn; auto|exact F]|]. intros m X. discriminate X.
      + cbn [as_map]. unfold wrap_map. rewrite K.
        intros [= <- <-]. assert (A : Forall (fun kv => inv b (snd kv)) (map (fun kv => (fst kv, new s (snd kv))) p)).
        { apply Forall_forall. intros kv I. apply in_map_iff in I. destruct I as (kv0 & <- & _). apply inv_new, K. }
        split; [|exact A]. apply inv_dict. split; [exact K|]. split; [exact C|]. split; [|exact A].
        intros _. cbn [content]. f_equal. symmetry. apply new_vals_content.
      + intros [= <- <-]. split; [split; [cbn; auto|exact F]|]. intros m X. discriminate X.
    - intros [= <- <-]. split; [split; assumption|]. intros m X. destruct raw; discriminate X.
    - intros [= <- <-]. split; [split; assumption|]. pose proof (conj U F) as X. apply inv_dict in X. apply X.
    - intros [= <- <-]. split; [split; assumption|]. intros m X. destruct raw; discriminate X.
  Qed.
  Lemma as_list_inv b d d1 r : inv b d -> as_list kind_of d = (d1, r) ->
    inv b d1 /\ match r with Ok l => Forall (inv b) l | Err _ => forall l, content d <> PList l end.
  Proof.
    intros H. destruct d as [s v raw]. destruct H as [U F]. destruct v as [|x|m|l].
    - destruct U as (K & C & _). destruct raw as [[|x|p|m]|]; try (now contradict C).
      + cbn [as_list]. unfold wrap_list. rewrite K.
        intros [= <- <-]. assert (A : Forall (inv b) (map (new s) p)).
        { apply Forall_forall. intros kv I. apply in_map_iff in I. destruct I as (kv0 & <- & _). apply inv_new, K. }
        split; [|exact A]. apply inv_list. split; [exact K|]. split; [exact C|]. split; [|exact A].
        intros _. cbn [content]. f_equal. pose proof (wrap_list_content s p) as W. unfold wrap_list in W. rewrite K in W. symmetry. exact W.
      + intros [= <- <-]. split; [split; [cbn; auto|exact F]|]. intros l X. discriminate X.
      + intros [= <- <-]. split; [split; [cbn; auto|exact F]|]. intros l X. discriminate X.
    - intros [= <- <-]. split; [split; assumption|]. intros l X. destruct raw; discriminate X.
    - intros [= <- <-]. split; [split; assumption|]. intros l X. destruct raw; discriminate X.
    - intros [= <- <-]. split; [split; assumption|]. pose proof (conj U F) as X. apply inv_list in X. apply X.
  Qed.

  Lemma untyped_sensible d : untyped kind_of d -> sensible_doc kind_of d.
  Proof.
    intros U. unfold sensible_doc. pose proof (untyped_raw d U) as C. pose proof (untyped_kind d U) as K.
    destruct (d_raw d) as [[| | |]|]; try exact C; try exact I; intros t X; congruence.
  Qed.

  Lemma with_schema_inv b s d : kind_of s = KDocument -> inv b d ->
    exists d', with_schema kind_of s d = Ok d' /\ inv b d'.
  Proof.
    intros Ks H. unfold with_schema, shape_type. rewrite (untyped_kind d (proj1 H)).
    assert (M : forall m0, content d = PMap m0 -> exists d', (do m <- snd (as_map kind_of d); Ok (Doc s (IDict m) None)) = Ok d' /\ inv b d').
    { intros m0 C. destruct (as_map kind_of d) as [d1 [m|e]] eqn:E; destruct (as_map_inv b _ _ _ H E) as [_ X].
      - cbn. eexists. split; [reflexivity|]. apply inv_dict. cbn. auto.
      - contradiction (X m0 C). }
    assert (L : forall l0, content d = PList l0 -> exists d', (do m <- snd (as_list kind_of d); Ok (Doc s (IList m) None)) = Ok d' /\ inv b d').
    { intros l0 C. destruct (as_list kind_of d) as [d1 [m|e]] eqn:E; destruct (as_list_inv b _ _ _ H E) as [_ X].
      - cbn. eexists. split; [reflexivity|]. apply inv_list. cbn. auto.
      - contradiction (X l0 C). }
    destruct d as [s0 v raw]. destruct v as [|x|m|l]; cbn [d_value].
    - pose proof (untyped_raw _ (proj1 H)) as C. cbn in C. cbn [d_raw]. destruct raw as [[| |p|p]|]; try contradiction.
      + exact (L p eq_refl).
      + exact (M p eq_refl).
      + eexists. split; [reflexivity|]. split; cbn; auto.
    - eexists. split; [reflexivity|]. split; cbn; auto.
    - eapply M. reflexivity.
    - eapply L. reflexivity.
  Qed.

  Definition arg_inv (b : bool) (a : arg) : Prop := match a with APlain _ => True | ADoc d => inv b d end.
  Lemma to_doc_inv b s a : kind_of s = KDocument -> arg_inv b a -> exists d, to_doc kind_of s a = Ok d /\ inv b d.
  Proof.
    intros K H. destruct a as [p|d]; cbn; [|exact (with_schema_inv b s d K H)]. eexists. split; [reflexivity|]. apply inv_new, K.
  Qed.
  Lemma slot_untyped s k : kind_of s = KDocument -> slot_schema kind_of s k = Ok s.
  Proof. intros K. unfold slot_schema. rewrite K. destruct k; reflexivity. Qed.

  Lemma setitem_inv b k a d d' e : inv b d -> arg_inv b a -> setitem kind_of k a d = (d', e) ->
    inv b d' /\ match e with Some _ => plain_set k (arg_content a) (content d) = None | None => True end.
  Proof.
    intros H A. unfold setitem. pose proof (untyped_kind d (proj1 H)) as K. rewrite (slot_untyped _ k K).
    destruct (to_doc_inv b _ a K A) as (x & -> & X). destruct k as [t|i].
    - destruct (as_map kind_of d) as [d1 [m|]] eqn:E; destruct (as_map_inv b _ _ _ H E) as (H1 & R); intros Q; injection Q as <- <-.
      + split; [|exact I]. apply inv_dict. split; [exact K|]. split; [exact I|]. split; [auto|].
        rewrite Forall_forall in *. intros kv J. destruct (in_dict_set _ _ _ _ J) as [->|J']; [exact X|exact (R _ J')].
      + split; [exact H1|]. cbn. destruct (content d) as [| | |m]; try reflexivity. contradiction (R m eq_refl).
    - destruct (as_list kind_of d) as [d1 [l|]] eqn:E; destruct (as_list_inv b _ _ _ H E) as (H1 & R).
      + destruct (as_list_content _ _ _ E) as (_ & _ & _ & C). destruct (py_index i l) as [n|] eqn:P; intros Q; injection Q as <- <-.
        * split; [|exact I]. apply inv_list. split; [exact K|]. split; [exact I|]. split; [auto|].
          rewrite put_at_replace by exact (py_index_lt _ _ _ P).
          rewrite Forall_forall in *. intros y J. destruct (in_replace _ _ _ _ J) as [->|J']; [exact X|exact (R _ J')].
        * split; [exact H1|]. rewrite C. cbn. rewrite <- py_index_position, (py_index_len i (map content l) l), P by apply map_length. reflexivity.
      + intros Q; injection Q as <- <-. split; [exact H1|]. cbn. destruct (content d) as [| |l|]; try reflexivity. contradiction (R l eq_refl).
  Qed.
  Lemma delitem_inv b k d d' e : inv b d -> delitem kind_of k d = (d', e) ->
    inv b d' /\ match e with Some _ => plain_del k (content d) = None | None => True end.
  Proof.
    intros H. unfold delitem. pose proof (untyped_kind d (proj1 H)) as K. destruct k as [t|i].
    - destruct (as_map kind_of d) as [d1 [m|]] eqn:E; destruct (as_map_inv b _ _ _ H E) as (H1 & R).
      + destruct (as_map_content _ _ _ E) as (_ & _ & _ & C). destruct (dict_has t m) eqn:D; intros Q; injection Q as <- <-.
        * split; [|exact I]. apply inv_dict. split; [exact K|]. split; [exact I|]. split; [auto|].
          rewrite Forall_forall in *. intros kv J. exact (R _ (in_dict_del _ _ _ J)).
        * split; [exact H1|]. rewrite C. cbn. rewrite (vals_has content), D. reflexivity.
      + intros Q; injection Q as <- <-. split; [exact H1|]. cbn. destruct (content d) as [| | |m]; try reflexivity. contradiction (R m eq_refl).
    - destruct (as_list kind_of d) as [d1 [l|]] eqn:E; destruct (as_list_inv b _ _ _ H E) as (H1 & R).
      + destruct (as_list_content _ _ _ E) as (_ & _ & _ & C). destruct (py_index i l) as [n|] eqn:P; intros Q; injection Q as <- <-.
        * split; [|exact I]. apply inv_list. split; [exact K|]. split; [exact I|]. split; [auto|].
          rewrite drop_at_remove by exact (py_index_lt _ _ _ P).
          rewrite Forall_forall in *. intros y J. exact (R _ (in_remove _ _ _ J)).
        * split; [exact H1|]. rewrite C. cbn. rewrite <- py_index_position, (py_index_len i (map content l) l), P by apply map_length. reflexivity.
      + intros Q; injection Q as <- <-. split; [exact H1|]. cbn. destruct (content d) as [| |l|]; try reflexivity. contradiction (R l eq_refl).
  Qed.
  (** [d1] holds the child [c] under [k]; the child is changed. *)
  Lemma getitem_inv b k d d1 r : inv b d -> getitem kind_of k d = (d1, r) ->
    inv b d1 /\ match r with
      | Ok c => inv b c /\ (forall c', inv b c' -> (b = true -> content c' = content c) -> inv b (child_changed k c' d1))
          /\ (forall c', inv b c' -> exists d2, setitem kind_of k (ADoc c') (child_changed k c' d1) = (d2, None) /\ inv b d2)
      | Err _ => plain_get k (content d) = None end.
  Proof.
    intros H. unfold getitem. destruct k as [t|i].
    - destruct (as_map kind_of d) as [d2 [m|]] eqn:E; destruct (as_map_inv b _ _ _ H E) as (H1 & R); destruct (as_map_content _ _ _ E) as (C1 & Q);
        intros Z; injection Z as <- <-; (split; [exact H1|]).
      + destruct Q as (V & S & C). destruct d2 as [s v raw]. cbn in V, S. subst v. apply inv_dict in H1. destruct H1 as (K & Cr & F & A).
        destruct (dict_get t m) as [c|] eqn:G.
        * rewrite Forall_forall in R. destruct (in_dict_get _ _ _ G) as [k' J]. split; [exact (R _ J)|]. cbn [child_changed].
          assert (N : forall c', inv b c' -> Forall (fun kv => inv b (snd kv)) (dict_set t c' m)).
          { intros c' X. apply Forall_forall. intros kv I. destruct (in_dict_set _ _ _ _ I) as [->|I']; [exact X|exact (R _ I')]. }
          split.
          -- intros c' X Ec. apply inv_dict. split; [exact K|]. split; [exact Cr|]. split; [|exact (N c' X)].
             intros B. specialize (F B). destruct raw as [p|]; [|exact I]. rewrite F. rewrite !content_dict, (vals_set content), (Ec B).
             rewrite dict_set_same; [reflexivity|]. rewrite (vals_get content), G. reflexivity.
          -- intros c' X. unfold setitem. cbn [d_schema]. rewrite (slot_untyped s (KStr t) K).
             destruct (to_doc_inv b s (ADoc c') K X) as (y & -> & Y). cbn [as_map]. eexists. split; [reflexivity|].
             apply inv_dict. split; [exact K|]. split; [exact I|]. split; [auto|].
             apply Forall_forall. intros kv I. destruct (in_dict_set _ _ _ _ I) as [->|I']; [exact Y|].
             pose proof (N c' X) as Nc. rewrite Forall_forall in Nc. exact (Nc _ I').
        * rewrite C. cbn. rewrite (vals_get content), G. reflexivity.
      + cbn. destruct (content d) as [| | |m]; try reflexivity. contradiction (R m eq_refl).
    - destruct (as_list kind_of d) as [d2 [l|]] eqn:E; destruct (as_list_inv b _ _ _ H E) as (H1 & R); destruct (as_list_content _ _ _ E) as (C1 & Q);
        intros Z; injection Z as <- <-; (split; [exact H1|]).
      + destruct Q as (V & S & C). destruct d2 as [s v raw]. cbn in V, S. subst v. apply inv_list in H1. destruct H1 as (K & Cr & F & A).
        destruct (py_index i l) as [n|] eqn:P.
        * pose proof (py_index_lt _ _ _ P) as Ln. destruct (nth_error l n) as [c|] eqn:G.
          -- rewrite Forall_forall in R. split; [exact (R _ (nth_error_In _ _ G))|]. cbn [child_changed]. rewrite P.
             assert (N : forall c', inv b c' -> Forall (inv b) (replace_nth n c' l)).
             { intros c' X. apply Forall_forall. intros y I. destruct (in_replace _ _ _ _ I) as [->|I']; [exact X|exact (R _ I')]. }
             split.
             ++ intros c' X Ec. rewrite put_at_replace by exact Ln. apply inv_list. split; [exact K|]. split; [exact Cr|]. split; [|exact (N c' X)].
                intros B. specialize (F B). destruct raw as [p|]; [|exact I]. rewrite F. rewrite !content_list, map_replace, (Ec B).
                rewrite replace_same; [reflexivity|]. rewrite nth_error_map, G. reflexivity.
             ++ intros c' X. rewrite put_at_replace by exact Ln. unfold setitem. cbn [d_schema]. rewrite (slot_untyped s (KIdx i) K).
                destruct (to_doc_inv b s (ADoc c') K X) as (y & -> & Y). cbn [as_list].
                assert (Len : List.length (replace_nth n c' l) = List.length l).
                { clear. revert n. induction l as [|z l IH]; intros [|n]; cbn; auto. }
                rewrite (py_index_len i (replace_nth n c' l) l Len), P. eexists. split; [reflexivity|].
                apply inv_list. split; [exact K|]. split; [exact I|]. split; [auto|]. rewrite put_at_replace by (rewrite Len; exact Ln).
                apply Forall_forall. intros z I. destruct (in_replace _ _ _ _ I) as [->|I']; [exact Y|].
                pose proof (N c' X) as Nc. rewrite Forall_forall in Nc. exact (Nc _ I').
          -- exfalso. apply nth_error_None in G. lia.
        * rewrite C. cbn. rewrite <- py_index_position, (py_index_len i (map content l) l), P by apply map_length. reflexivity.
      + cbn. destruct (content d) as [| |l|]; try reflexivity. contradiction (R l eq_refl).
  Qed.

  Lemma at_path_inv b path f g (F : follows f g) :
    (forall d d' e, inv b d -> f d = (d', e) -> inv b d' /\ match e with Some _ => g (content d) = None | None => True end) ->
    (b = true -> forall d d' e, f d = (d', e) -> content d' = content d) ->
    forall d d' e, inv b d -> at_path kind_of path f d = (d', e) ->
      inv b d' /\ match e with Some _ => plain_at path g (content d) = None | None => True end.
  Proof.
    intros H S. induction path as [|k path IH]; intros d d' e D E; [exact (H d d' e D E)|]. cbn [at_path plain_at] in *.
    destruct (getitem kind_of k d) as [d1 [c|x]] eqn:G; destruct (getitem_inv b _ _ _ _ D G) as (D1 & R).
    - destruct (getitem_content _ _ _ _ G) as (_ & Gc & _). destruct R as (Ic & Rc & _).
      destruct (at_path kind_of path f c) as [c' r] eqn:A. injection E as <- <-. destruct (IH c c' r Ic A) as [Ic' Q].
      split.
      + apply Rc; [exact Ic'|]. intros B. specialize (S B). clear - S A F. revert c c' r A.
        induction path as [|k path IH]; intros c c' r A; [exact (S _ _ _ A)|]. cbn [at_path] in A.
        destruct (getitem kind_of k c) as [d1 [x|x]] eqn:G; destruct (getitem_content _ _ _ _ G) as (C1 & R).
        * destruct (at_path kind_of path f x) as [x' r'] eqn:A'. injection A as <- <-. destruct R as (R1 & R2).
          pose proof (R2 x') as T. rewrite (IH _ _ _ A'), (set_same _ _ _ R1) in T. injection T as T. symmetry. exact T.
        * injection A as <- <-. exact C1.
      + rewrite Gc. destruct r; [|exact I]. rewrite Q. reflexivity.
    - injection E as <- <-. split; [exact D1|]. rewrite R. reflexivity.
  Qed.

  (** With the child assigned again: what is kept stays right. *)
  Lemma plain_get_set k v p q : plain_set k v p = Some q -> plain_get k q = Some v.
  Proof.
    destruct k as [t|i]; destruct p as [| |l|m]; try discriminate; cbn.
    - intros [= <-]. cbn. apply dict_get_set_eq.
    - destruct (position i l) as [n|] eqn:P; [|discriminate]. intros [= <-]. cbn.
      assert (Len : List.length (replace_nth n v l) = List.length l).
      { clear. revert n. induction l as [|z l IH]; intros [|n]; cbn; auto. }
      replace (position i (replace_nth n v l)) with (Some n) by (unfold position in *; rewrite Len; symmetry; exact P).
      assert (n < List.length l)%nat by (rewrite <- py_index_position in P; exact (py_index_lt _ _ _ P)).
      clear - H. revert n H. induction l as [|z l IH]; intros [|n] H; cbn in *; try lia; [reflexivity|]. apply IH. lia.
  Qed.
  Lemma at_path_assigning_content b path f g (F : follows f g) :
    (forall d d' e, inv b d -> f d = (d', e) -> inv b d' /\ match e with Some _ => g (content d) = None | None => True end) ->
    forall d d' e, inv b d -> at_path_assigning kind_of path f d = (d', e) ->
      inv b d' /\ match e with
                  | Some _ => content d' = content d /\ plain_at path g (content d) = None
                  | None => plain_at path g (content d) = Some (content d') end.
  Proof.
    intros H. induction path as [|k path IH]; intros d d' e D E.
    { destruct (H d d' e D E) as [A B]. split; [exact A|]. pose proof (F d d' e E) as X. destruct e; [split; assumption|exact X]. }
    cbn [at_path_assigning plain_at] in *.
    destruct (getitem kind_of k d) as [d1 [c|x]] eqn:G; destruct (getitem_inv b _ _ _ _ D G) as (D1 & R);
      destruct (getitem_content _ _ _ _ G) as (C1 & Gc).
    - destruct Gc as (Gc & Gs). destruct R as (Ic & Rc & Rs).
      destruct (at_path_assigning kind_of path f c) as [c' r] eqn:A. destruct (IH c c' r Ic A) as [Ic' Q]. rewrite Gc.
      destruct r as [x|].
      + injection E as <- <-. destruct Q as [Qc Q]. split; [exact (Rc c' Ic' (fun _ => Qc))|]. rewrite Q. split; [|reflexivity].
        pose proof (Gs c') as T. rewrite Qc, (set_same _ _ _ Gc) in T. injection T as T. symmetry. exact T.
      + destruct (Rs c' Ic') as (d2 & E2 & I2). rewrite E2 in E. injection E as <- <-. split; [exact I2|]. rewrite Q.
        pose proof (setitem_content _ _ _ _ _ E2 (untyped_sensible _ (proj1 Ic'))) as T. cbn [arg_content] in T.
        rewrite (set_same _ _ _ (plain_get_set _ _ _ _ (Gs c'))) in T. injection T as T. rewrite <- T. apply Gs.
    - injection E as <- <-. split; [exact D1|]. split; [exact C1|]. rewrite R. reflexivity.
  Qed.

  Lemma as_value_fresh d : up_to_date d -> snd (as_value d) = content d /\ up_to_date (fst (as_value d)).
  Proof.
    induction d as [s r|s v r|s m r IH|s l r IH] using doc_ind2; intros U.
    - destruct r; cbn in *; auto.
    - destruct r; cbn in *; [|auto]. destruct U as [U _]. rewrite U. auto.
    - destruct r as [p|]; [split; [exact (proj1 U)|exact U]|]. apply fresh_dict in U. destruct U as [_ U].
      rewrite Forall_forall in IH, U.
      assert (E : map (fun kv => (fst kv, snd (snd kv))) (map (fun kv => (fst kv, as_value (snd kv))) m)
        = map (fun kv => (fst kv, content (snd kv))) m).
      { rewrite map_map. apply map_ext_in. intros kv J. cbn. rewrite (proj1 (IH kv J (U kv J))). reflexivity. }
      cbn [as_value]. cbv zeta. rewrite E. cbn [fst snd]. split; [reflexivity|]. apply fresh_dict. rewrite content_dict. split.
      + f_equal. rewrite !map_map. apply map_ext_in. intros kv J. cbn. rewrite as_value_content. reflexivity.
      + apply Forall_forall. intros kv J. rewrite map_map in J. apply in_map_iff in J. destruct J as (kv0 & <- & J).
        exact (proj2 (IH kv0 J (U kv0 J))).
    - destruct r as [p|]; [split; [exact (proj1 U)|exact U]|]. apply fresh_list in U. destruct U as [_ U].
      rewrite Forall_forall in IH, U.
      assert (E : map snd (map as_value l) = map content l).
      { rewrite map_map. apply map_ext_in. intros c J. exact (proj1 (IH c J (U c J))). }
      cbn [as_value]. cbv zeta. rewrite E. cbn [fst snd]. split; [reflexivity|]. apply fresh_list. rewrite content_list. split.
      + f_equal. rewrite !map_map. apply map_ext_in. intros c J. cbn. rewrite as_value_content. reflexivity.
      + apply Forall_forall. intros c J. rewrite map_map in J. apply in_map_iff in J. destruct J as (c0 & <- & J).
        exact (proj2 (IH c0 J (U c0 J))).
  Qed.
  Lemma as_value_untyped d : untyped kind_of d -> untyped kind_of (fst (as_value d)).
  Proof.
    induction d as [s r|s v r|s m r IH|s l r IH] using doc_ind2; intros U.
    - destruct r; exact U.
    - destruct r; exact U.
    - destruct r as [p|]; [exact U|]. apply untyped_dict in U. destruct U as (K & _ & U). cbn [as_value fst]. cbv zeta. apply untyped_dict.
      split; [exact K|]. split; [exact I|]. rewrite Forall_forall in *. intros kv J. rewrite map_map in J. apply in_map_iff in J.
      destruct J as (kv0 & <- & J). exact (IH kv0 J (U kv0 J)).
    - destruct r as [p|]; [exact U|]. apply untyped_list in U. destruct U as (K & _ & U). cbn [as_value fst]. cbv zeta. apply untyped_list.
      split; [exact K|]. split; [exact I|]. rewrite Forall_forall in *. intros c J. rewrite map_map in J. apply in_map_iff in J.
      destruct J as (c0 & <- & J). exact (IH c0 J (U c0 J)).
  Qed.

  (** One operation on a document without schemas. *)
  Lemma read_inv b path f : (forall d, content (fst (f d)) = content d) -> (forall d, inv b d -> inv b (fst (f d))) ->
    forall d d' e, inv b d -> at_path kind_of path f d = (d', e) -> inv b d' /\ content d' = content d.
  Proof.
    intros Hc Hi. induction path as [|k path IH]; intros d d' e D E.
    { cbn in E. specialize (Hc d). specialize (Hi d D). rewrite E in *. auto. }
    cbn [at_path] in E.
    destruct (getitem kind_of k d) as [d1 [c|x]] eqn:G; destruct (getitem_inv b _ _ _ _ D G) as (D1 & R);
      destruct (getitem_content _ _ _ _ G) as (C1 & Gc).
    - destruct Gc as (Gc & Gs). destruct R as (Ic & Rc & _).
      destruct (at_path kind_of path f c) as [c' r] eqn:A. destruct (IH c c' r Ic A) as [Ic' Q]. injection E as <- <-.
      split; [exact (Rc c' Ic' (fun _ => Q))|]. pose proof (Gs c') as T. rewrite Q, (set_same _ _ _ Gc) in T. injection T as T. symmetry. exact T.
    - injection E as <- <-. split; assumption.
  Qed.
  Lemma contents_inv b d : inv b d -> inv b (fst ((fun d => match shape_type kind_of d with
                                  | DList => let (d1, r) := as_list kind_of d in (d1, match r with Ok _ => None | Err e => Some e end)
                                  | _ => let (d1, r) := as_map kind_of d in (d1, match r with Ok _ => None | Err e => Some e end)
                                  end) d)).
  Proof.
    intros D. cbn beta. destruct (as_list kind_of d) as [dl rl] eqn:EL. destruct (as_map kind_of d) as [dm rm] eqn:EM.
    pose proof (proj1 (as_list_inv b _ _ _ D EL)). pose proof (proj1 (as_map_inv b _ _ _ D EM)).
    destruct (shape_type kind_of d); assumption.
  Qed.
  (** In place, or assigning ([b] says whether kept values are looked at, then
      only assigning will do). *)
  Lemma run_op_inv b assigning o d d' e : (b = true -> assigning = true) ->
    match arg_of o with Some a => arg_inv b a | None => True end -> inv b d -> run_op kind_of assigning o d = (d', e) ->
    inv b d' /\ content d' = match plain_op o (content d) with Some q => q | None => content d end
    /\ match o with OSet _ _ _ | ODel _ _ => e = None <-> plain_op o (content d) <> None | _ => True end.
  Proof.
    intros B A D H. unfold run_op in H. destruct o as [path k a|path k|path|path]; cbn [op_at] in H; cbn [plain_op arg_of] in *.
    3, 4: (assert (W : inv b d' /\ content d' = content d); [|split; [apply W|]; split; [apply W|exact I]]).
    3: { refine (read_inv b path (fun d => (fst (as_value d), None)) as_value_content _ d d' e D H). intros x [X1 X2]. split; [apply as_value_untyped, X1|].
         intros Hb. exact (proj2 (as_value_fresh x (X2 Hb))). }
    3: exact (read_inv b path _ contents_keep (contents_inv b) d d' e D H).
    - assert (F : follows (setitem kind_of k a) (plain_set k (arg_content a))).
      { intros x x' y E. refine (setitem_content _ _ _ _ _ E _). destruct a as [|da]; [exact I|]. exact (untyped_sensible _ (proj1 A)). }
      assert (S : forall x x' y, inv b x -> setitem kind_of k a x = (x', y) -> inv b x' /\ match y with Some _ => plain_set k (arg_content a) (content x) = None | None => True end).
      { intros x x' y X E. exact (setitem_inv b _ _ _ _ _ X A E). }
      destruct assigning.
      + destruct (at_path_assigning_content b path _ _ F S d d' e D H) as [I' Q]. split; [exact I'|]. destruct e as [e|].
        * destruct Q as [Q1 Q2]. rewrite Q2. split; [exact Q1|]. split; [discriminate|congruence].
        * rewrite Q. split; [reflexivity|]. split; [discriminate|reflexivity].
      + destruct b; [discriminate (B eq_refl)|].
        destruct (at_path_inv false path _ _ F S ltac:(discriminate) d d' e D H) as [I' Q]. pose proof (at_path_content path _ _ F d d' e H) as C.
        split; [exact I'|]. destruct e as [e|].
        * rewrite Q. split; [exact C|]. split; [discriminate|congruence].
        * rewrite C. split; [reflexivity|]. split; [discriminate|reflexivity].
    - assert (F : follows (delitem kind_of k) (plain_del k)).
      { intros x x' y E. exact (delitem_content _ _ _ _ E). }
      assert (S : forall x x' y, inv b x -> delitem kind_of k x = (x', y) -> inv b x' /\ match y with Some _ => plain_del k (content x) = None | None => True end).
      { intros x x' y X E. exact (delitem_inv b _ _ _ _ X E). }
      destruct assigning.
      + destruct (at_path_assigning_content b path _ _ F S d d' e D H) as [I' Q]. split; [exact I'|]. destruct e as [e|].
        * destruct Q as [Q1 Q2]. rewrite Q2. split; [exact Q1|]. split; [discriminate|congruence].
        * rewrite Q. split; [reflexivity|]. split; [discriminate|reflexivity].
      + destruct b; [discriminate (B eq_refl)|].
        destruct (at_path_inv false path _ _ F S ltac:(discriminate) d d' e D H) as [I' Q]. pose proof (at_path_content path _ _ F d d' e H) as C.
        split; [exact I'|]. destruct e as [e|].
        * rewrite Q. split; [exact C|]. split; [discriminate|congruence].
        * rewrite C. split; [reflexivity|]. split; [discriminate|reflexivity].
  Qed.
  Lemma run_inv b assigning os : (b = true -> assigning = true) ->
    Forall (fun o => match arg_of o with Some a => arg_inv b a | None => True end) os ->
    forall d, inv b d -> inv b (run kind_of assigning os d) /\ content (run kind_of assigning os d) = plain_run os (content d).
  Proof.
    intros B A. induction A as [|o os Ho A IH]; intros d D; [split; [exact D|reflexivity]|]. cbn [run plain_run].
    destruct (run_op kind_of assigning o d) as [d' e] eqn:E. destruct (run_op_inv b assigning o d d' e B Ho D E) as (D' & C & _).
    cbn [fst]. rewrite <- C. exact (IH d' D').
  Qed.

  (** ** Serialization of documents without schemas *)
  Lemma plain_ind2 (P : plain -> Prop) : P PNull -> (forall v, P (PScalar v)) -> (forall l, Forall P l -> P (PList l)) ->
    (forall m, Forall (fun kv => P (snd kv)) m -> P (PMap m)) -> forall p, P p.
  Proof.
    intros H1 H2 H3 H4. fix IH 1. intros [|v|l|m]; [exact H1|apply H2| |].
    - apply H3. induction l as [|x l IHl]; constructor; [apply IH|exact IHl].
    - apply H4. induction m as [|[k x] m IHm]; constructor; [apply IH|exact IHm].
  Qed.
  Lemma visit_new_untyped s p : kind_of s = KDocument -> visit_new kind_of member_name s p = Ok p.
  Proof.
    intros K. induction p as [|v|l IH|m IH] using plain_ind2; cbn; rewrite ?K; try reflexivity.
    - assert (E : (fix go (s' : N) (l : list plain) : result (list plain) :=
                     match l with [] => Ok [] | x :: r => do y <- visit_new kind_of member_name s' x; do ys <- go s' r; Ok (y :: ys) end) s l = Ok l).
      { induction IH as [|x l Hx IH IHl]; [reflexivity|]. cbn. rewrite Hx. cbn. rewrite IHl. reflexivity. }
      rewrite E. reflexivity.
    - assert (E : (fix go (s' : N) (l : list (text * plain)) : result (list (text * plain)) :=
                     match l with [] => Ok [] | (k, x) :: r => do y <- visit_new kind_of member_name s' x; do ys <- go s' r; Ok ((k, y) :: ys) end) s m = Ok m).
      { induction IH as [|[k x] m Hx IH IHl]; [reflexivity|]. cbn in *. rewrite Hx. cbn. rewrite IHl. reflexivity. }
      rewrite E. reflexivity.
  Qed.
  Lemma visit_untyped d : untyped kind_of d -> visit kind_of member_name d = Ok (content d).
  Proof.
    induction d as [s r|s v r|s m r IH|s l r IH] using doc_ind2; intros U.
    - destruct r as [p|]; [|reflexivity]. apply visit_new_untyped. exact (proj1 U).
    - cbn. unfold shape_type. cbn [d_schema d_value]. destruct U as (K & _). rewrite K. destruct v; reflexivity.
    - cbn. unfold shape_type. cbn [d_schema d_value]. apply untyped_dict in U. destruct U as (K & _ & U). rewrite K.
      assert (E : (fix go (l : list (text * doc)) : result (list (text * plain)) :=
                      match l with [] => Ok [] | (k, x) :: r => do y <- visit kind_of member_name x; do ys <- go r; Ok ((k, y) :: ys) end) m
        = Ok (map (fun kv => (fst kv, content (snd kv))) m)).
      { induction m as [|[k x] m IHm]; [reflexivity|]. inversion IH as [|? ? Ix IH']; subst. inversion U as [|? ? Ux U']; subst.
        cbn [snd] in Ix, Ux. rewrite (Ix Ux). cbn. rewrite (IHm IH' U'). reflexivity. }
      rewrite E. reflexivity.
    - cbn. unfold shape_type. cbn [d_schema d_value]. apply untyped_list in U. destruct U as (K & _ & U). rewrite K.
      assert (E : (fix go (l : list doc) : result (list plain) :=
                      match l with [] => Ok [] | x :: r => do y <- visit kind_of member_name x; do ys <- go r; Ok (y :: ys) end) l
        = Ok (map content l)).
      { induction l as [|x l IHl]; [reflexivity|]. inversion IH as [|? ? Ix IH']; subst. inversion U as [|? ? Ux U']; subst.
        rewrite (Ix Ux). cbn. rewrite (IHl IH' U'). reflexivity. }
      rewrite E. reflexivity.
  Qed.
End Proofs.
