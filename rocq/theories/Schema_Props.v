(** C49: schemas, their members and their traits. *)
From Verif Require Import Base Base_Proofs PyText_Model PyDict_Model PyDict_Proofs PySort_Model PySort_Proofs Shape_Model Shape_Spec Shape_Props Schema_Model.
From Coq Require Import Sorting.Sorted Sorting.Permutation.

(** ** What a schema has to be *)

(** The last trait of a list with an identifier. *)
Inductive last_with (id : text) : list trait -> option trait -> Prop :=
| LW_none l : Forall (fun t => trait_id t <> id) l -> last_with id l None
| LW_some a t b : trait_id t = id -> Forall (fun t => trait_id t <> id) b -> last_with id (a ++ t :: b) (Some t).
(** The traits a member has: its own, and those of the target that it has not. *)
Inductive effective (own : list trait) (target : list (text * trait)) (id : text) : option trait -> Prop :=
| E_own t : last_with id own (Some t) -> effective own target id (Some t)
| E_target : last_with id own None -> effective own target id (dict_get id target).
(** The same trait, or what its class made of it. *)
Definition settled (a b : option trait) : Prop :=
  a = b \/ exists id v, a = Some (Dynamic id v) /\ b = Some (Known id v).

Lemma last_with_app id l t o : last_with id l o ->
  last_with id (l ++ [t]) (if text_eqb (trait_id t) id then Some t else o).
Proof.
  intros H. destruct (text_eqb (trait_id t) id) eqn:E.
  - apply text_eqb_eq in E. now apply LW_some.
  - apply text_eqb_neq in E. inversion H; subst.
    + apply LW_none. apply Forall_app. split; [assumption|]. now repeat constructor.
    + rewrite <- app_assoc. cbn [app]. apply LW_some; [reflexivity|]. apply Forall_app. split; [assumption|]. now repeat constructor.
Qed.
Lemma trait_dict_last l id : last_with id l (dict_get id (trait_dict l)).
Proof.
  unfold trait_dict. induction l as [|t l IH] using rev_ind; [apply LW_none; constructor|].
  rewrite fold_left_app. cbn [fold_left]. set (d := fold_left _ l []) in *.
  apply last_with_app with (t := t) in IH. destruct (text_eqb (trait_id t) id) eqn:E.
  - apply text_eqb_eq in E. subst id. now rewrite dict_get_set_eq.
  - rewrite dict_get_set_ne; [exact IH|]. apply text_eqb_neq in E. congruence.
Qed.
Lemma dict_set_keys_NoDup_fold {A B} (f : B -> text) (g : B -> A) l : forall d, NoDup (dict_keys d) -> NoDup (dict_keys (fold_left (fun d x => dict_set (f x) (g x) d) l d)).
Proof. induction l as [|x l IH]; intros d N; cbn [fold_left]; [exact N|]. apply IH. now apply dict_set_NoDup. Qed.
Lemma update_get {A} (e : list (text * A)) : NoDup (dict_keys e) -> forall d id,
  dict_get id (dict_update d e) = match dict_get id e with Some v => Some v | None => dict_get id d end.
Proof.
  unfold dict_update. induction e as [|[k v] e IH]; intros N d id; cbn [fold_left fst snd]; [reflexivity|].
  inversion N as [|? ? Nk Ne]; subst. rewrite IH by exact Ne. cbn [dict_get].
  destruct (text_eqb id k) eqn:E.
  - apply text_eqb_eq in E. subst k. assert (X : dict_get id e = None) by now apply dict_get_None. rewrite X. now rewrite dict_get_set_eq.
  - destruct (dict_get id e); [reflexivity|]. apply dict_get_set_ne. now apply text_eqb_neq.
Qed.
Lemma effective_get own target id : effective own target id (dict_get id (dict_update target (trait_dict own))).
Proof.
  rewrite update_get; [|unfold trait_dict; apply (dict_set_keys_NoDup_fold trait_id (fun t => t)); constructor].
  assert (L := trait_dict_last own id). destruct (dict_get id (trait_dict own)); [now apply E_own | now apply E_target].
Qed.

(** ** Members *)

(** A member made for a target: the target's type, its dictionary of members (and
    so its members at any later time), and the effective traits. *)
Theorem C49_member id target index own h t : get_obj h target = Some t -> sc_target t = None -> s_member id <> None ->
  exists n m, member id target index own h = (mkHeap (objs h ++ [m]) (dicts h), Ok n)
    /\ get_obj (mkHeap (objs h ++ [m]) (dicts h)) n = Some m
    /\ sc_id m = id /\ sc_type m = sc_type t /\ sc_members m = sc_members t
    /\ sc_target m = Some target /\ sc_index m = Some index
    /\ forall i, effective own (sc_traits t) i (dict_get i (sc_traits m)).
Proof.
  intros G T M. unfold member, expect_member. destruct (s_member id) as [w|] eqn:W; [|now elim M]. rewrite G, T. cbn [is_some].
  unfold new_schema. rewrite W. cbn [is_some existsb forallb negb andb orb]. unfold alloc.
  eexists _, _. split; [reflexivity|]. split; [unfold get_obj; cbn [objs]; rewrite nth_error_app2 by lia; now rewrite Nat.sub_diag|].
  cbn. repeat (split; [reflexivity|]). intros i. apply effective_get.
Qed.
Print Assumptions C49_member.

(** A member with no name, or of a target that is a member itself, is refused and
    nothing is made. *)
Theorem C49_member_refused id target index own h t : get_obj h target = Some t -> s_member id = None \/ sc_target t <> None ->
  member id target index own h = (h, Err ExpectationNotMet).
Proof.
  intros G H. unfold member, expect_member. destruct (s_member id) as [w|]; [|reflexivity].
  destruct H as [H|H]; [discriminate|]. rewrite G. destruct (sc_target t); [reflexivity | now elim H].
Qed.
Print Assumptions C49_member_refused.

(** The constructor refuses a member declaration that is incomplete, and no other. *)
Theorem C49_consistent id ty traits ms target index h :
  let named := s_member id <> None in let aimed := target <> None in let placed := index <> None in
  (~ (named /\ aimed /\ placed) /\ (named \/ aimed \/ placed) -> new_schema id ty traits ms target index h = (h, Err SmithyErr))
  /\ ((named /\ aimed /\ placed) \/ (~ named /\ ~ aimed /\ ~ placed) -> (forall l, ms <> MList l) ->
      exists h' n, new_schema id ty traits ms target index h = (h', Ok n)).
Proof.
  cbn zeta. unfold new_schema, alloc, alloc_dict. destruct (s_member id), target, index; cbn [is_some existsb forallb negb andb orb]; split;
    try (intros _; reflexivity);
    try (intros H; exfalso; clear - H; intuition congruence);
    try (intros _ H; destruct ms as [|l|d]; [eauto | now elim (H l) | eauto]).
Qed.
Print Assumptions C49_consistent.

(** ** Order of members *)

Lemma map_result_ok {A B} (f : A -> result B) l ys : map_result f l = Ok ys -> Forall2 (fun x y => f x = Ok y) l ys.
Proof.
  revert ys. induction l as [|x l IH]; intros ys; cbn [map_result].
  - intros [= <-]. constructor.
  - destruct (f x) as [y|e] eqn:E; cbn [bind]; [|discriminate]. destruct (map_result f l) as [zs|e]; cbn [bind]; [|discriminate].
    intros [= <-]. constructor; auto.
Qed.
Lemma map_result_all {A B} (f : A -> result B) l : (forall x, In x l -> exists y, f x = Ok y) -> exists ys, map_result f l = Ok ys.
Proof.
  induction l as [|x l IH]; intros H; cbn [map_result]; [eauto|].
  destruct (H x (or_introl eq_refl)) as [y E]. rewrite E. cbn [bind]. destruct IH as [ys E']; [intros z I; apply H; now right|].
  rewrite E'. cbn [bind]. eauto.
Qed.
Lemma set_all_new (l : list (text * nat)) : forall d, NoDup (map fst l) -> (forall k, In k (map fst l) -> ~ In k (dict_keys d)) ->
  fold_left (fun d (kv : text * nat) => dict_set (fst kv) (Some (snd kv)) d) l d = d ++ map (fun kv => (fst kv, Some (snd kv))) l.
Proof.
  induction l as [|[k n] l IH]; intros d N D; cbn [fold_left fst snd map] in *; [now rewrite app_nil_r|].
  inversion N as [|? ? Nk Nl]; subst. rewrite dict_set_new by (apply D; now left). rewrite IH.
  - now rewrite <- app_assoc.
  - exact Nl.
  - intros q I. unfold dict_keys. rewrite map_app. intros J. apply in_app_or in J as [J|J].
    + now apply (D q (or_intror I)).
    + destruct J as [<-|[]]. now apply Nk.
Qed.

(** A schema made with a list of members has them in the order of their indices,
    whatever the order of the list, each under its name. *)
Definition index_of (h : heap) (n : nat) : option Z := match get_obj h n with Some s => sc_index s | None => None end.
Definition name_of (h : heap) (n : nat) : option text := match get_obj h n with Some s => s_member (sc_id s) | None => None end.
Definition ordered (h : heap) (l : list nat) : Prop :=
  StronglySorted (fun a b => forall i j, index_of h a = Some i -> index_of h b = Some j -> (i <= j)%Z) l.

Lemma by_index_total a b : by_index a b = true \/ by_index b a = true.
Proof. unfold by_index. rewrite !Z.leb_le. lia. Qed.
Lemma by_index_trans a b c : by_index a b = true -> by_index b c = true -> by_index a c = true.
Proof. unfold by_index. rewrite !Z.leb_le. lia. Qed.
Lemma Forall2_In_l {A B} (R : A -> B -> Prop) l l' x : Forall2 R l l' -> In x l -> exists y, In y l' /\ R x y.
Proof. induction 1 as [|a b l l' H _ IH]; [intros []|]. intros [<-|I]; [exists b; split; [now left | exact H]|]. destruct (IH I) as (y & J & K). exists y. split; [now right | exact K]. Qed.
Lemma Forall2_In_r {A B} (R : A -> B -> Prop) l l' y : Forall2 R l l' -> In y l' -> exists x, In x l /\ R x y.
Proof. induction 1 as [|a b l l' H _ IH]; [intros []|]. intros [<-|I]; [exists a; split; [now left | exact H]|]. destruct (IH I) as (x & J & K). exists x. split; [now right | exact K]. Qed.

Lemma keyed_ok h n k : keyed h n = Ok k <-> index_of h n = Some (fst k) /\ snd k = n.
Proof.
  unfold keyed, expect_index, index_of. destruct (get_obj h n) as [s|]; [destruct (sc_index s) as [i|]|]; cbn [bind]; destruct k as [j m]; cbn [fst snd]; split;
    try discriminate; try (intros [H _]; discriminate).
  - intros [= -> ->]. now split.
  - intros [[= ->] ->]. reflexivity.
Qed.
Lemma named_ok h k w : named h k = Ok w <-> name_of h (snd k) = Some (fst w) /\ snd w = snd k.
Proof.
  unfold named, expect_name, name_of, expect_member. destruct (get_obj h (snd k)) as [s|]; [destruct (s_member (sc_id s)) as [i|]|]; cbn [bind]; destruct w as [j m]; cbn [fst snd]; split;
    try discriminate; try (intros [H _]; discriminate).
  - intros [= -> ->]. now split.
  - intros [[= ->] ->]. reflexivity.
Qed.

Lemma keyed_list h l ks : Forall2 (fun x y => keyed h x = Ok y) l ks -> map snd ks = l.
Proof. induction 1 as [|x y l ks H _ IH]; [reflexivity|]. apply keyed_ok in H as [_ E]. cbn. now rewrite IH, E. Qed.
Lemma named_list h ks ns : Forall2 (fun x y => named h x = Ok y) ks ns -> map snd ns = map snd ks /\ Forall (fun w => name_of h (snd w) = Some (fst w)) ns.
Proof.
  induction 1 as [|x y ks ns H _ [IH1 IH2]]; [now split|]. apply named_ok in H as [H1 H2]. cbn. split; [now rewrite IH1, H2|]. constructor; [now rewrite H2 | exact IH2].
Qed.
Lemma sorted_keys_ordered h ks : Forall (fun k => index_of h (snd k) = Some (fst k)) ks ->
  StronglySorted (fun a b => by_index a b = true) ks -> ordered h (map snd ks).
Proof.
  intros F S. unfold ordered. induction S as [|k ks S IH G]; cbn [map]; [constructor|]. inversion F as [|? ? Fk Fks]; subst. constructor; [now apply IH|].
  apply Forall_forall. intros n I. apply in_map_iff in I as (q & <- & I).
  intros i j Hi Hj. rewrite Forall_forall in G, Fks. specialize (G q I). unfold by_index in G. apply Z.leb_le in G.
  rewrite Fk in Hi. rewrite (Fks q I) in Hj. injection Hi as <-. injection Hj as <-. exact G.
Qed.

Theorem C49_order h l d : member_dict h l = Ok d ->
  (forall a b, In a l -> In b l -> name_of h a = name_of h b -> a = b) -> NoDup l ->
  exists ms, Permutation ms l /\ ordered h ms
    /\ Forall2 (fun kv n => snd kv = Some n /\ name_of h n = Some (fst kv)) d ms
    /\ (forall n k, In n l -> name_of h n = Some k -> dict_get k d = Some (Some n)).
Proof.
  unfold member_dict. intros H U N.
  destruct (map_result (keyed h) l) as [ks|e] eqn:Ek; cbn [bind] in H; [|discriminate].
  destruct (map_result (named h) (sorted by_index ks)) as [ns|e] eqn:En; cbn [bind] in H; [|discriminate]. injection H as <-.
  apply map_result_ok in Ek. apply map_result_ok in En. assert (K := keyed_list _ _ _ Ek). destruct (named_list _ _ _ En) as [M1 M2].
  assert (P : Permutation (map snd ns) l).
  { rewrite M1, <- K. apply Permutation_map. apply sorted_perm. }
  assert (Fk : Forall (fun k => index_of h (snd k) = Some (fst k)) (sorted by_index ks)).
  { apply Forall_forall. intros k I. apply (Permutation_in _ (sorted_perm _ _)) in I. destruct (Forall2_In_r _ _ _ _ Ek I) as (n & _ & E).
    apply keyed_ok in E as [E1 E2]. now rewrite E2. }
  assert (ND : NoDup (map fst ns)).
  { assert (Nn : NoDup (map snd ns)) by (eapply Permutation_NoDup; [apply Permutation_sym; exact P | exact N]).
    assert (Inl : forall w, In w ns -> In (snd w) l) by (intros w I; eapply Permutation_in; [exact P | now apply in_map]).
    clear - M2 Nn U Inl. induction ns as [|w ns IH]; cbn [map] in *; [constructor|].
    inversion M2 as [|? ? Mw Ms]; subst. inversion Nn as [|? ? Nw Ns]; subst. constructor; [|apply IH; auto; intros x I; apply Inl; now right].
    intros I. apply in_map_iff in I as (x & E & I). rewrite Forall_forall in Ms. assert (X := Ms x I).
    apply Nw. assert (Y : snd x = snd w).
    { apply U; [apply Inl; now right | apply Inl; now left | congruence]. }
    rewrite <- Y. now apply in_map. }
  assert (D : fold_left (fun d (kv : text * nat) => dict_set (fst kv) (Some (snd kv)) d) ns [] = map (fun kv => (fst kv, Some (snd kv))) ns).
  { rewrite set_all_new; [reflexivity | exact ND | intros k _ []]. }
  rewrite D. exists (map snd ns). split; [exact P|]. split; [|split].
  - rewrite M1. apply sorted_keys_ordered; [exact Fk|]. apply sorted_sorted; [apply by_index_total | apply by_index_trans].
  - clear - M2. induction M2 as [|w ns Hw _ IH]; cbn [map]; constructor; auto.
  - intros n k I E. apply (Permutation_in _ (Permutation_sym P)) in I. apply in_map_iff in I as (w & <- & I).
    rewrite Forall_forall in M2. assert (X := M2 w I). rewrite X in E. injection E as <-.
    apply dict_In_get.
    + unfold dict_keys. rewrite map_map. cbn. exact ND.
    + apply in_map_iff. exists w. now split.
Qed.
Print Assumptions C49_order.

(** A schema for a collection: its members are the given ones, in the given order,
    each with its place as index, its name, its target and its effective traits;
    the places left open are open. *)
Definition made (h' : heap) (h : heap) (id : shape_id) (i : Z) (kv : text * member_spec) (e : text * option nat) : Prop :=
  fst e = fst kv /\
  match snd kv with
  | None => snd e = None
  | Some (target, own) => exists n m t, snd e = Some n /\ get_obj h' n = Some m /\ get_obj h target = Some t
      /\ s_namespace (sc_id m) = s_namespace id /\ s_name (sc_id m) = s_name id /\ s_member (sc_id m) = Some (fst kv)
      /\ sc_type m = sc_type t /\ sc_members m = sc_members t /\ sc_target m = Some target /\ sc_index m = Some i
      /\ forall x, effective own (sc_traits t) x (dict_get x (sc_traits m))
  end.
Definition makeable (h : heap) (kv : text * member_spec) : Prop :=
  match snd kv with
  | None => True
  | Some (target, _) => fst kv <> [] /\ exists t, get_obj h target = Some t /\ sc_target t = None
  end.
Lemma get_obj_app h x n s : get_obj h n = Some s -> nth_error (objs h ++ x) n = Some s.
Proof. unfold get_obj. intros H. rewrite nth_error_app1; [exact H|]. apply nth_error_Some. congruence. Qed.

Lemma make_members_ok id txt : new_id txt = Ok id -> forall l i d h, NoDup (dict_keys d ++ map fst l) -> Forall (makeable h) l ->
  exists x ms, make_members id i l d h = (mkHeap (objs h ++ x) (dicts h), Ok (d ++ ms)) /\ List.length ms = List.length l
    /\ forall j kv, nth_error l j = Some kv -> exists e, nth_error ms j = Some e /\ made (mkHeap (objs h ++ x) (dicts h)) h id (i + Z.of_nat j) kv e.
Proof.
  intros T. induction l as [|[k sp] l IH]; intros i d h N F; cbn [make_members].
  - exists [], []. rewrite !app_nil_r. destruct h; cbn. split; [reflexivity|]. split; [reflexivity|]. intros [|j]; discriminate.
  - inversion F as [|? ? Fk Fl]; subst. cbn [map] in N.
    assert (Nk : ~ In k (dict_keys d)) by (apply NoDup_remove_2 in N; intros I; apply N; apply in_or_app; now left).
    assert (Nn : forall o, NoDup (dict_keys (d ++ [(k, o)]) ++ map fst l)).
    { intros o. unfold dict_keys. rewrite map_app, <- app_assoc. exact N. }
    destruct sp as [[target own]|].
    + destruct Fk as (Kn & t & Gt & Tt). cbn [fst] in Kn.
      destruct (C48_with_member txt id k T Kn) as (mid & Wm & W1 & W2 & W3 & _). rewrite Wm.
      destruct (C49_member mid target i own h t Gt Tt ltac:(congruence)) as (n & m & M & Gm & M1 & M2 & M3 & M4 & M5 & M6). rewrite M.
      rewrite dict_set_new by exact Nk.
      destruct (IH (i + 1)%Z (d ++ [(k, Some n)]) (mkHeap (objs h ++ [m]) (dicts h)) (Nn _)) as (x & ms & E & L & P).
      { apply Forall_forall. intros kv I. rewrite Forall_forall in Fl. specialize (Fl kv I). unfold makeable in *. destruct (snd kv) as [[tg ow]|]; [|exact Fl].
        destruct Fl as (A & t' & B & C). split; [exact A|]. exists t'. split; [|exact C]. unfold get_obj. cbn [objs]. now apply get_obj_app. }
      exists (m :: x), ((k, Some n) :: ms). cbn [objs dicts] in *. rewrite <- app_assoc in E. cbn [app] in E. rewrite E. split; [now rewrite <- app_assoc|].
      split; [cbn; now rewrite L|]. intros [|j] kv; cbn [nth_error].
      * intros [= <-]. eexists. split; [reflexivity|]. split; [reflexivity|]. cbn [snd fst]. exists n, m, t.
        rewrite Z.add_0_r. unfold get_obj. cbn [objs]. replace (objs h ++ m :: x) with ((objs h ++ [m]) ++ x) by now rewrite <- app_assoc.
        unfold get_obj in Gm, Gt. cbn [objs] in Gm.
        assert (Gx : nth_error ((objs h ++ [m]) ++ x) n = Some m) by (rewrite nth_error_app1; [exact Gm | apply nth_error_Some; congruence]).
        repeat (split; [first [reflexivity | assumption | rewrite M1; assumption | congruence]|]). assumption.
      * intros Hj. destruct (P j kv Hj) as (e & Ne & Q). exists e. split; [exact Ne|].
        destruct Q as [Q1 Q2]. split; [exact Q1|]. rewrite <- app_assoc in Q2. cbn [app] in Q2. destruct (snd kv) as [[tg ow]|] eqn:Sk; [|exact Q2].
        destruct Q2 as (n' & m' & t' & A & B & C & D). exists n', m', t'. split; [exact A|]. split; [exact B|]. split.
        -- apply nth_error_In in Hj. rewrite Forall_forall in Fl. specialize (Fl kv Hj). unfold makeable in Fl. rewrite Sk in Fl.
           destruct Fl as (_ & t2 & G2 & _). assert (X : get_obj (mkHeap (objs h ++ [m]) (dicts h)) tg = Some t2) by (unfold get_obj; cbn [objs]; now apply get_obj_app).
           congruence.
        -- replace (i + Z.of_nat (S j))%Z with (i + 1 + Z.of_nat j)%Z by lia. exact D.
    + rewrite dict_set_new by exact Nk.
      destruct (IH (i + 1)%Z (d ++ [(k, None)]) h (Nn _) Fl) as (x & ms & E & L & P).
      exists x, ((k, None) :: ms). rewrite E. split; [now rewrite <- app_assoc|]. split; [cbn; now rewrite L|].
      intros [|j] kv; cbn [nth_error].
      * intros [= <-]. eexists. split; [reflexivity|]. now split.
      * intros Hj. destruct (P j kv Hj) as (e & Ne & Q). exists e. split; [exact Ne|].
        replace (i + Z.of_nat (S j))%Z with (i + 1 + Z.of_nat j)%Z by lia. exact Q.
Qed.

Theorem C49_collection txt id ty traits l h : new_id txt = Ok id -> s_member id = None -> NoDup (map fst l) -> Forall (makeable h) l ->
  exists h' n s, collection id ty traits l h = (h', Ok n) /\ get_obj h' n = Some s /\ sc_id s = id /\ sc_type s = ty /\ sc_target s = None
    /\ map fst (get_dict h' (sc_members s)) = map fst l
    /\ (forall i, last_with i traits (dict_get i (sc_traits s)))
    /\ forall j kv, nth_error l j = Some kv -> exists e, nth_error (get_dict h' (sc_members s)) j = Some e /\ made h' h id (Z.of_nat j) kv e.
Proof.
  intros T M N F. unfold collection. destruct (make_members_ok id txt T l 0%Z [] h N F) as (x & ms & E & L & P). rewrite E. cbn [app].
  unfold new_schema, alloc_dict, alloc. rewrite M. cbn [is_some existsb forallb negb andb orb objs dicts].
  eexists _, _, _. split; [reflexivity|]. unfold get_obj. cbn [objs]. split; [rewrite nth_error_app2 by lia; rewrite Nat.sub_diag; reflexivity|].
  cbn [sc_id sc_type sc_target sc_members sc_traits]. repeat (split; [reflexivity|]).
  unfold get_dict. cbn [dicts]. rewrite app_nth2 by lia. rewrite Nat.sub_diag. cbn [nth].
  assert (PP : forall j kv, nth_error l j = Some kv -> exists e, nth_error ms j = Some e /\
      made (mkHeap ((objs h ++ x) ++ [mkSchema id ty (trait_dict traits) (List.length (dicts h)) None None]) (dicts h ++ [ms])) h id (Z.of_nat j) kv e).
  { intros j kv Hj. destruct (P j kv Hj) as (e & Ne & Q). exists e. split; [exact Ne|]. destruct Q as [Q1 Q2]. split; [exact Q1|].
    rewrite Z.add_0_l in Q2. destruct (snd kv) as [[tg ow]|]; [|exact Q2]. destruct Q2 as (n' & m' & t' & A & B & C).
    exists n', m', t'. split; [exact A|]. split; [|exact C]. unfold get_obj in *. cbn [objs] in *.
    rewrite nth_error_app1; [exact B|]. apply nth_error_Some. congruence. }
  split; [|split; [intros i; apply trait_dict_last | exact PP]].
  apply nth_ext with (d := []) (d' := []); [now rewrite !map_length|]. intros j Hj. rewrite map_length in Hj.
  rewrite L in Hj. destruct (nth_error l j) as [kv|] eqn:Ej; [|apply nth_error_None in Ej; lia].
  destruct (P j kv Ej) as (e & Ne & Q1 & _).
  erewrite (nth_error_nth (map fst l)) by (apply map_nth_error; exact Ej).
  erewrite (nth_error_nth (map fst ms)) by (apply map_nth_error; exact Ne). exact Q1.
Qed.
Print Assumptions C49_collection.

(** ** Histories *)

Section History.
  Variable accepts : text -> N -> bool.
  Definition keeps (s s' : schema) : Prop :=
    sc_id s' = sc_id s /\ sc_type s' = sc_type s /\ sc_members s' = sc_members s /\ sc_target s' = sc_target s /\ sc_index s' = sc_index s
    /\ forall i, settled (dict_get i (sc_traits s)) (dict_get i (sc_traits s')).
  Definition grows (h h' : heap) : Prop := forall n s, get_obj h n = Some s -> exists s', get_obj h' n = Some s' /\ keeps s s'.
  Lemma keeps_refl s : keeps s s.
  Proof. repeat split. intros i. now left. Qed.
  Lemma keeps_trans a b c : keeps a b -> keeps b c -> keeps a c.
  Proof.
    intros (A1 & A2 & A3 & A4 & A5 & A6) (B1 & B2 & B3 & B4 & B5 & B6). unfold keeps. repeat (split; [congruence|]).
    intros i. destruct (A6 i) as [->|(id & v & -> & E)]; [apply B6|]. right. exists id, v. split; [reflexivity|].
    destruct (B6 i) as [<-|(id' & v' & E' & _)]; [exact E | congruence].
  Qed.
  Lemma grows_refl h : grows h h.
  Proof. intros n s G. exists s. split; [exact G | apply keeps_refl]. Qed.
  Lemma grows_trans a b c : grows a b -> grows b c -> grows a c.
  Proof. intros A B n s G. destruct (A n s G) as (s1 & G1 & K1). destruct (B n s1 G1) as (s2 & G2 & K2). exists s2. split; [exact G2 | eapply keeps_trans; eassumption]. Qed.
  Lemma grows_app h x d : grows h (mkHeap (objs h ++ x) d).
  Proof. intros n s G. exists s. split; [unfold get_obj; cbn; now apply get_obj_app | apply keeps_refl]. Qed.
  Lemma grows_dicts h d : grows h (mkHeap (objs h) d).
  Proof. intros n s G. exists s. split; [exact G | apply keeps_refl]. Qed.

  Lemma new_grows id ty tr ms tg ix h : grows h (fst (new_schema id ty tr ms tg ix h)).
  Proof.
    unfold new_schema. destruct (_ && _); [apply grows_refl|]. destruct ms as [|l|d]; unfold alloc, alloc_dict; cbn [fst objs dicts].
    - apply grows_app.
    - destruct (member_dict h l); cbn [fst objs dicts]; [apply grows_app | apply grows_refl].
    - apply grows_app.
  Qed.
  Lemma member_grows id tg ix own h : grows h (fst (member id tg ix own h)).
  Proof.
    unfold member. destruct (expect_member id); [|apply grows_refl]. destruct (get_obj h tg) as [t|]; [|apply grows_refl].
    destruct (is_some (sc_target t)); [apply grows_refl | apply new_grows].
  Qed.
  Lemma make_members_grows id l : forall i d h, grows h (fst (make_members id i l d h)).
  Proof.
    induction l as [|[k [[tg own]|]] l IH]; intros i d h; cbn [make_members].
    - apply grows_refl.
    - destruct (with_member id k) as [mid|]; [|apply grows_refl]. assert (G := member_grows mid tg i own h).
      destruct (member mid tg i own h) as [h1 [n|e]]; cbn [fst] in G; [|exact G]. eapply grows_trans; [exact G | apply IH].
    - apply IH.
  Qed.
  Lemma nth_set_nth {A} n (x : A) l m : nth_error (set_nth n x l) m = if Nat.eqb n m then (match nth_error l m with Some _ => Some x | None => None end) else nth_error l m.
  Proof.
    revert n m. induction l as [|y l IH]; intros [|n] [|m]; cbn; try reflexivity.
    - destruct (Nat.eqb n m); reflexivity.
    - apply IH.
  Qed.
  Lemma step_grows o h : grows h (fst (step accepts o h)).
  Proof.
    destruct o as [id ty tr ms tg ix|id ty tr ms|id tg ix own|n id|n k m]; cbn [step].
    - assert (G := new_grows id ty (trait_dict tr) ms tg ix h). destruct (new_schema _ _ _ _ _ _ _). exact G.
    - unfold collection. assert (G := make_members_grows id ms 0%Z [] h). destruct (make_members id 0 ms [] h) as [h1 [d|e]]; cbn [fst] in G; [|exact G].
      unfold alloc_dict. assert (G2 := new_grows id ty (trait_dict tr) (MDict (List.length (dicts h1))) None None (mkHeap (objs h1) (dicts h1 ++ [d]))).
      destruct (new_schema _ _ _ _ _ _ _). cbn [fst] in *. eapply grows_trans; [exact G|]. eapply grows_trans; [apply grows_dicts | exact G2].
    - assert (G := member_grows id tg ix own h). destruct (member _ _ _ _ _). exact G.
    - unfold get_trait. destruct (get_obj h n) as [s|] eqn:E; [|apply grows_refl].
      destruct (dict_get id (sc_traits s)) as [[i v|i v]|] eqn:Et; [|apply grows_refl|apply grows_refl].
      destruct (negb (text_eqb i id)) eqn:Ei; [apply grows_refl|]. destruct (accepts i v); [|apply grows_refl]. cbn [fst].
      apply Bool.negb_false_iff, text_eqb_eq in Ei. subst i.
      intros q s1 G. unfold get_obj. cbn [objs]. rewrite nth_set_nth. destruct (Nat.eqb_spec n q) as [->|Nq].
      + unfold get_obj in G, E. rewrite E in G. injection G as <-. rewrite E. eexists. split; [reflexivity|].
        unfold keeps. cbn. repeat (split; [reflexivity|]). intros j. destruct (text_eq_dec j id) as [->|Nj].
        * rewrite dict_get_set_eq, Et. right. eauto.
        * rewrite dict_get_set_ne by exact Nj. now left.
      + unfold get_obj in G. rewrite G. eexists. split; [reflexivity | apply keeps_refl].
    - destruct (get_obj h n); [cbn [fst]; apply grows_dicts | apply grows_refl].
  Qed.

  (** Whatever happens later, a schema keeps its identifier, type, target, index and
      dictionary of members; its traits are the same, some of them in the form of
      their class. *)
  Theorem C49_kept ops h n s : get_obj h n = Some s -> exists s', get_obj (run accepts ops h) n = Some s' /\ keeps s s'.
  Proof.
    revert h s. induction ops as [|o l IH]; intros h s G; cbn [run]; [exists s; split; [exact G | apply keeps_refl]|].
    destruct (step_grows o h n s G) as (s1 & G1 & K1). destruct (IH _ _ G1) as (s2 & G2 & K2). exists s2. split; [exact G2 | eapply keeps_trans; eassumption].
  Qed.

  (** So a member and its target have the same members at every later time, those set
      later included, and the member's traits stay the target's overridden by its own. *)
  Theorem C49_member_kept id target index own h t n h1 ops : get_obj h target = Some t -> sc_target t = None ->
    member id target index own h = (h1, Ok n) ->
    exists m' t', get_obj (run accepts ops h1) n = Some m' /\ get_obj (run accepts ops h1) target = Some t'
      /\ get_dict (run accepts ops h1) (sc_members m') = get_dict (run accepts ops h1) (sc_members t')
      /\ forall i, exists e, effective own (sc_traits t) i e /\ settled e (dict_get i (sc_traits m')).
  Proof.
    intros G T M. destruct (s_member id) as [w|] eqn:W.
    2: { rewrite (C49_member_refused id target index own h t G (or_introl W)) in M. discriminate. }
    destruct (C49_member id target index own h t G T ltac:(congruence)) as (n' & m & M' & Gm & M1 & M2 & M3 & M4 & M5 & M6).
    rewrite M' in M. injection M as <- <-.
    destruct (C49_kept ops _ _ _ Gm) as (m' & Gm' & (_ & _ & Km & _ & _ & Kt)).
    assert (Gt : get_obj (mkHeap (objs h ++ [m]) (dicts h)) target = Some t) by (unfold get_obj; cbn; now apply get_obj_app).
    destruct (C49_kept ops _ _ _ Gt) as (t' & Gt' & (_ & _ & Kt' & _)).
    exists m', t'. split; [exact Gm'|]. split; [exact Gt'|]. split; [congruence|]. intros i. eexists. split; [apply M6 | apply Kt].
  Qed.

  (** Asking for a trait by its class gives the trait of that identifier in the form
      of the class, for a member as for any schema, and asking does not change what
      is given. *)
  Theorem C49_get_trait n id h s : get_obj h n = Some s -> (forall i t, dict_get i (sc_traits s) = Some t -> trait_id t = i) ->
    (forall v, dict_get id (sc_traits s) = Some (Dynamic id v) -> accepts id v = true) ->
    exists h1 o, get_trait accepts n id h = (h1, Ok o) /\ settled (dict_get id (sc_traits s)) o
      /\ (forall i v, o <> Some (Dynamic i v)) /\ get_trait_by_id n id h1 = o /\ get_trait accepts n id h1 = (h1, Ok o).
  Proof.
    intros G K A. unfold get_trait, get_trait_by_id. rewrite G. destruct (dict_get id (sc_traits s)) as [[i v|i v]|] eqn:E.
    - assert (X := K _ _ E). cbn in X. subst i. rewrite text_eqb_refl. cbn [negb]. rewrite (A v eq_refl).
      assert (Gx : forall s1, get_obj (mkHeap (set_nth n s1 (objs h)) (dicts h)) n = Some s1).
      { intros s1. unfold get_obj in *. cbn. rewrite nth_set_nth, Nat.eqb_refl, G. reflexivity. }
      eexists _, _. split; [reflexivity|]. split; [right; eauto|]. split; [discriminate|]. rewrite Gx. cbn [sc_traits]. rewrite dict_get_set_eq. now split.
    - eexists _, _. split; [reflexivity|]. split; [now left|]. split; [discriminate|]. rewrite G, E. now split.
    - eexists _, _. split; [reflexivity|]. split; [now left|]. split; [discriminate|]. rewrite G, E. now split.
  Qed.
End History.
Print Assumptions C49_kept.
Print Assumptions C49_member_kept.
Print Assumptions C49_get_trait.

(** [in] with the identifier of a member: it is a member of this very shape. *)
Theorem C49_contains n h s a b x m : get_obj h n = Some s -> new_id a = Ok (sc_id s) -> new_id b = Ok x -> s_member x = Some m ->
  (contains n (IShape x) h = true <->
   s_namespace x = s_namespace (sc_id s) /\ s_name x = s_name (sc_id s) /\ In m (map fst (get_dict h (sc_members s)))).
Proof.
  intros G A B M. unfold contains. rewrite G, M.
  assert (Mn : m <> []) by (apply C48_parse in B as [(_ & _ & B & _) _]; rewrite M in B; intros ->; now apply B).
  destruct (C48_with_member a (sc_id s) m A Mn) as (y & Y & Y1 & Y2 & Y3 & _). rewrite Y.
  destruct (C48_equality _ b y x Y B) as [_ Q].
  assert (P : dict_has m (get_dict h (sc_members s)) = true <-> In m (map fst (get_dict h (sc_members s)))).
  { unfold dict_has. change (map fst (get_dict h (sc_members s))) with (dict_keys (get_dict h (sc_members s))). rewrite <- get_present. destruct (dict_get m _); split; congruence. }
  destruct (id_eqb y (s_id x)).
  - destruct (proj1 Q eq_refl) as (Q1 & Q2 & _). rewrite P. split; [intros I; repeat split; [congruence | congruence | exact I] | intros (_ & _ & I); exact I].
  - split; [discriminate|]. intros (E1 & E2 & _). apply Q. rewrite Y1, Y2, Y3, M. auto.
Qed.
Print Assumptions C49_contains.
(** [in] with a text: the name of a member; with a trait or the identifier of a
    shape: a trait it has. *)
Theorem C49_contains_name n h s k x : get_obj h n = Some s -> s_member x = None ->
  (contains n (IName k) h = true <-> In k (map fst (get_dict h (sc_members s)))) /\
  (contains n (ITrait k) h = true <-> In k (map fst (sc_traits s))) /\
  (contains n (IShape x) h = true <-> In (s_id x) (map fst (sc_traits s))).
Proof.
  intros G M. unfold contains. rewrite G, M.
  assert (P : forall A (d : list (text * A)) q, dict_has q d = true <-> In q (map fst d)).
  { intros A d q. unfold dict_has. change (map fst d) with (dict_keys d). rewrite <- get_present. destruct (dict_get q d); split; congruence. }
  split; [apply P|]. split; apply P.
Qed.
Print Assumptions C49_contains_name.

(** [expect_trait] with a class may give a trait that is not of the class. *)
Theorem C49_expect_trait_refuted : exists h n id v, get_obj h n <> None /\ expect_trait n id h = Ok (Dynamic id v)
  /\ snd (get_trait (fun _ _ => true) n id h) = Ok (Some (Known id v)).
Proof.
  exists (mkHeap [mkSchema (mkShapeId (lit "a#b") (lit "a") (lit "b") None) 0 [(lit "t#x", Dynamic (lit "t#x") 5)] 0 None None] [[]]), 0%nat, (lit "t#x"), 5%N.
  repeat split. discriminate.
Qed.
Print Assumptions C49_expect_trait_refuted.

(** A structure that holds itself, a string with a trait overridden by one member,
    the recursive member set afterwards. *)
Definition ex_id (s : text) : shape_id := match new_id s with Ok x => x | Err _ => mkShapeId [] [] [] None end.
Definition ex_heap : heap := Eval vm_compute in
  run (fun _ _ => true) [New (ex_id (lit "x#Str")) 3 [Dynamic (lit "t#len") 1; Known (lit "t#doc") 2] MNone None None;
    Collection (ex_id (lit "x#S")) 18 [] [(lit "a", Some (0%nat, [Known (lit "t#doc") 9])); (lit "self", None); (lit "b", Some (0%nat, []))];
    Member (ex_id (lit "x#S$self")) 3 1 []; Populate 3 (lit "self") 4; GetTrait 1 (lit "t#len")] empty_heap.
Example C49_ex : map fst (get_dict ex_heap 1) = [lit "a"; lit "self"; lit "b"]
  /\ map snd (get_dict ex_heap 1) = [Some 1%nat; Some 4%nat; Some 2%nat]
  /\ get_trait_by_id 1 (lit "t#doc") ex_heap = Some (Known (lit "t#doc") 9) /\ get_trait_by_id 2 (lit "t#doc") ex_heap = Some (Known (lit "t#doc") 2)
  /\ get_trait_by_id 1 (lit "t#len") ex_heap = Some (Known (lit "t#len") 1) /\ get_trait_by_id 0 (lit "t#len") ex_heap = Some (Dynamic (lit "t#len") 1)
  /\ contains 4 (IName (lit "b")) ex_heap = true /\ contains 3 (IShape (ex_id (lit "x#S$self"))) ex_heap = true
  /\ contains 3 (IShape (ex_id (lit "y#S$self"))) ex_heap = false.
Proof. repeat split. Qed.
(** Members given in another order than their indices. *)
Example C49_order_ex : exists d, member_dict ex_heap [2%nat; 4%nat; 1%nat] = Ok d /\ map fst d = [lit "a"; lit "self"; lit "b"].
Proof. eexists. split; vm_compute; reflexivity. Qed.
