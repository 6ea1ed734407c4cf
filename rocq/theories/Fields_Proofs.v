(** Proofs about header collections. *)
From Verif Require Import Base Base_Proofs PyDict_Model PyDict_Proofs Fields_Model Fields_Spec.

Lemma update_length {A} i (x : A) l : List.length (update i x l) = List.length l.
Proof. revert i; induction l as [|y l IH]; intros [|i]; cbn [update List.length]; congruence. Qed.
Lemma nth_error_update {A} i j (x : A) l :
  nth_error (update i x l) j = if Nat.eqb i j then (if Nat.ltb i (List.length l) then Some x else None) else nth_error l j.
Proof.
  revert i j; induction l as [|y l IH]; intros [|i] [|j]; cbn [update nth_error List.length Nat.eqb]; try reflexivity.
  - destruct (Nat.eqb i j); reflexivity.
  - rewrite (IH i j). destruct (Nat.eqb i j); reflexivity.
Qed.
Lemma nth_update_eq {A} i (x d : A) l : (i < List.length l)%nat -> nth i (update i x l) d = x.
Proof. revert i; induction l as [|y l IH]; intros [|i]; cbn [update nth List.length]; intros H; try lia; [reflexivity|apply IH; lia]. Qed.
Lemma nth_update_ne {A} i j (x d : A) l : i <> j -> nth j (update i x l) d = nth j l d.
Proof. revert i j; induction l as [|y l IH]; intros [|i] [|j]; cbn [update nth]; intros H; try reflexivity; try congruence. apply IH; congruence. Qed.
Lemma map_update {A B} (f : A -> B) i x l : (forall y, nth_error l i = Some y -> f x = f y) ->
  map f (update i x l) = map f l.
Proof.
  revert i; induction l as [|y l IH]; intros [|i] H; cbn [update map]; try reflexivity.
  - rewrite (H y eq_refl); reflexivity.
  - f_equal; apply IH; exact H.
Qed.

Lemma has_dup_NoDup l : has_dup l = false <-> NoDup l.
Proof.
  induction l as [|x l IH]; cbn [has_dup]; [split; [constructor|reflexivity]|].
  rewrite orb_false_iff, mem_text_notIn, IH. split.
  - intros [? ?]; constructor; auto.
  - intros H; inversion H; auto.
Qed.

Lemma order_NoDup h : NoDup (order h).
Proof.
  assert (Hadd : forall k l, NoDup l -> NoDup (if mem_text k l then l else l ++ [k])).
  { intros k l H. destruct (mem_text k l) eqn:E; [exact H|]. apply mem_text_notIn in E.
    apply NoDup_Add with (a := k) (l := l); [|auto]. rewrite <- (app_nil_r l) at 1. apply Add_app. }
  induction h as [|[k r|k r|k] h IH]; cbn [order]; [constructor|auto|auto|]. apply NoDup_filter; exact IH.
Qed.
Lemma order_lookup h k : In k (order h) <-> lookup h k <> None.
Proof.
  assert (Hadd : forall k' l, In k (if mem_text k' l then l else l ++ [k']) <-> k = k' \/ In k l).
  { intros k' l. destruct (mem_text k' l) eqn:E.
    - apply mem_text_In in E. split; [auto|]. intros [->|H]; auto.
    - rewrite in_app_iff. cbn [In]. split; [intros [H|[H|[]]]; auto|intros [H|H]; auto]. }
  induction h as [|[k' r|k' r|k'] h IH]; cbn [order lookup].
  - split; [intros []|congruence].
  - rewrite Hadd, IH. destruct (text_eqb k k') eqn:E.
    + apply text_eqb_eq in E. split; [discriminate|auto].
    + apply text_eqb_neq in E. split; [intros [H|H]; [congruence|exact H]|auto].
  - rewrite Hadd, IH. destruct (lookup h k); [split; [discriminate|right; discriminate]|].
    destruct (text_eqb k k') eqn:E.
    + apply text_eqb_eq in E. split; [discriminate|auto].
    + apply text_eqb_neq in E. split; [intros [H|H]; congruence|congruence].
  - rewrite filter_In, IH. destruct (text_eqb k k') eqn:E.
    + apply text_eqb_eq in E; subst. rewrite text_eqb_refl. split; [intros [_ H]; discriminate|congruence].
    + destruct (text_eqb k' k) eqn:E'.
      * apply text_eqb_eq in E'; subst. rewrite text_eqb_refl in E; discriminate.
      * split; [intros [H _]; exact H|auto].
Qed.

(** The entries of a collection agree with its history. *)
Definition agrees (e : entries) (h : list change) : Prop :=
  dict_keys e = order h /\ forall k, dict_get k e = lookup h k.
Lemma agrees_nodup e h : agrees e h -> NoDup (dict_keys e).
Proof. intros [E _]; rewrite E; apply order_NoDup. Qed.

Lemma agrees_put e h k r : agrees e h -> agrees (dict_set k r e) (Put k r :: h).
Proof.
  intros [Ek Eg]. split.
  - cbn [order]. destruct (mem_text k (order h)) eqn:E.
    + apply mem_text_In in E. rewrite <- Ek in *. apply dict_keys_set_in; exact E.
    + apply mem_text_notIn in E. rewrite <- Ek in *. rewrite dict_set_new by exact E.
      unfold dict_keys; rewrite map_app; reflexivity.
  - intros x. cbn [lookup]. destruct (text_eqb x k) eqn:E.
    + apply text_eqb_eq in E; subst. apply dict_get_set_eq.
    + apply text_eqb_neq in E. rewrite dict_get_set_ne by exact E. apply Eg.
Qed.
Lemma agrees_new_absent e h k r : agrees e h -> dict_get k e = None ->
  agrees (dict_set k r e) (PutNew k r :: h).
Proof.
  intros H Hn. destruct (agrees_put e h k r H) as [E1 E2]. split; [exact E1|].
  intros x; rewrite E2. cbn [lookup]. destruct H as [_ Eg]. rewrite Eg in Hn.
  destruct (text_eqb x k) eqn:E.
  - apply text_eqb_eq in E; subst. rewrite Hn; reflexivity.
  - destruct (lookup h x); reflexivity.
Qed.
Lemma agrees_new_present e h k r x : agrees e h -> dict_get k e = Some x -> agrees e (PutNew k r :: h).
Proof.
  intros [Ek Eg] Hs. split.
  - cbn [order]. rewrite Ek. destruct (mem_text k (order h)) eqn:E; [reflexivity|].
    apply mem_text_notIn in E. exfalso; apply E, order_lookup. rewrite <- Eg. congruence.
  - intros y. cbn [lookup]. rewrite Eg. destruct (lookup h y) eqn:Ey; [reflexivity|].
    destruct (text_eqb y k) eqn:E; [|reflexivity].
    apply text_eqb_eq in E; subst. rewrite <- Eg in Ey. congruence.
Qed.
Lemma agrees_drop e h k : agrees e h -> agrees (dict_del k e) (Drop k :: h).
Proof.
  intros H. pose proof (agrees_nodup _ _ H) as Hnd. destruct H as [Ek Eg]. split.
  - cbn [order]. rewrite <- Ek. apply dict_keys_del; exact Hnd.
  - intros x. cbn [lookup]. rewrite dict_get_del by exact Hnd. rewrite Eg; reflexivity.
Qed.
Lemma agrees_drop_absent e h k : agrees e h -> dict_get k e = None -> agrees e (Drop k :: h).
Proof.
  intros [Ek Eg] Hn. split.
  - cbn [order]. rewrite Ek. rewrite Eg in Hn.
    assert (Hni : ~ In k (order h)) by (rewrite order_lookup; congruence).
    clear - Hni. induction (order h) as [|x l IH]; [reflexivity|]. cbn [filter].
    destruct (text_eqb k x) eqn:E; cbn [negb].
    + apply text_eqb_eq in E; subst. exfalso; apply Hni; left; reflexivity.
    + f_equal. apply IH. intros Hx; apply Hni; right; exact Hx.
  - intros x. cbn [lookup]. rewrite Eg. destruct (text_eqb x k) eqn:E; [|reflexivity].
    apply text_eqb_eq in E; subst. rewrite <- Eg; exact Hn.
Qed.

Lemma dict_values_get {A} (e : list (text * A)) : NoDup (dict_keys e) ->
  map Some (dict_values e) = map (fun k => dict_get k e) (dict_keys e).
Proof.
  intros Hnd. unfold dict_values, dict_keys. rewrite !map_map. apply map_ext_in.
  intros [k v] Hin. cbn [fst snd]. symmetry. apply dict_In_get; auto.
Qed.

Section Fields.
  Variable lower : text -> text.

  (** The state agrees with the history. *)
  Record Rel (st : state) (hs : history) : Prop := mkRel {
    rel_names : h_names hs = map f_name (heap st);
    rel_cols : Forall2 agrees (cols st) (h_cols hs);
    rel_keys : Forall (Forall (fun kr => (snd kr < List.length (heap st))%nat /\
                                         fst kr = lower (name_of st (snd kr)))) (cols st) }.

  Lemma nth_map_name (l : list field) r :
    nth r (map f_name l) [] = match nth_error l r with Some f => f_name f | None => [] end.
  Proof. revert r; induction l as [|x l IH]; intros [|r]; cbn [map nth nth_error]; auto. Qed.
  Lemma name_agree st hs r : Rel st hs -> h_name hs r = name_of st r.
  Proof. intros [En _ _]. unfold h_name, name_of, deref. rewrite En. apply nth_map_name. Qed.
  Lemma cols_agree st hs c : Rel st hs -> agrees (entries_of st c) (h_changes hs c).
  Proof.
    intros [_ H _]. unfold entries_of, h_changes. revert c.
    induction H as [|e h es hss H1 H2 IH]; intros [|c]; cbn [nth]; auto; split; reflexivity.
  Qed.
  Lemma fields_agree st hs c : Rel st hs -> map Some (iterate c st) = h_fields hs c.
  Proof.
    intros HR. pose proof (cols_agree st hs c HR) as Ha. unfold iterate, h_fields.
    rewrite dict_values_get by (eapply agrees_nodup; exact Ha).
    destruct Ha as [Ek Eg]. rewrite Ek. apply map_ext. exact Eg.
  Qed.

  Lemma Forall2_update {A B} (P : A -> B -> Prop) l m i x y :
    Forall2 P l m -> P x y -> Forall2 P (update i x l) (update i y m).
  Proof.
    intros H Hp. revert i; induction H as [|a b l m Hab H IH]; intros [|i]; cbn [update]; constructor; auto.
  Qed.
  Lemma Forall_update {A} (P : A -> Prop) l i x : Forall P l -> P x -> Forall P (update i x l).
  Proof. intros H Hp. revert i; induction H; intros [|i]; cbn [update]; constructor; auto. Qed.
  Lemma Forall_nth_d {A} (P : A -> Prop) l i d : Forall P l -> P d -> P (nth i l d).
  Proof. intros H Hd. revert i; induction H; intros [|i]; cbn [nth]; auto. Qed.

  Lemma rel_entries st hs c e h : Rel st hs -> agrees e h ->
    Forall (fun kr => (snd kr < List.length (heap st))%nat /\ fst kr = lower (name_of st (snd kr))) e ->
    Rel (set_entries st c e) (mkHistory (h_names hs) (update c h (h_cols hs))).
  Proof.
    intros [En Ec Ek] Ha He. split; cbn [heap cols set_entries h_names h_cols]; auto.
    - apply Forall2_update; auto.
    - apply Forall_update; auto.
  Qed.
  Lemma rel_keys_of st hs c : Rel st hs ->
    Forall (fun kr => (snd kr < List.length (heap st))%nat /\ fst kr = lower (name_of st (snd kr))) (entries_of st c).
  Proof. intros [_ _ Ek]. unfold entries_of. apply Forall_nth_d; auto. Qed.

  (** Changing the values of a field. *)
  Lemma rel_heap st hs r f g : Rel st hs -> deref st r = Some g -> f_name f = f_name g ->
    Rel (set_heap st r f) hs.
  Proof.
    intros [En Ec Ek] Hd Hn. unfold deref in Hd.
    assert (Em : map f_name (update r f (heap st)) = map f_name (heap st)).
    { apply map_update. intros y Hy. congruence. }
    split; cbn [heap cols set_heap]; auto.
    - congruence.
    - eapply Forall_impl; [|exact Ek]. intros e He. eapply Forall_impl; [|exact He].
      intros [k x] [Hx Hk]; cbn [fst snd] in *. rewrite update_length. split; [exact Hx|].
      rewrite Hk. f_equal. unfold name_of, deref. cbn [heap set_heap].
      rewrite <- !nth_map_name, Em. reflexivity.
  Qed.
  Lemma rel_add_values fuel : forall st st' hs cur other k, Rel st hs ->
    add_values fuel st cur other k = Some st' -> Rel st' hs.
  Proof.
    induction fuel as [|fuel IH]; intros st st' hs cur other k HR; cbn [add_values];
      destruct (deref st cur) as [fc|] eqn:Ec; try (intros E; injection E as <-; exact HR);
      destruct (deref st other) as [fo|]; try (intros E; injection E as <-; exact HR);
      destruct (nth_error (f_values fo) k); try (intros E; injection E as <-; exact HR).
    - discriminate.
    - intros E. eapply IH; [|exact E]. eapply rel_heap; [exact HR|exact Ec|reflexivity].
  Qed.
  Lemma add_values_cols fuel : forall st st' cur other k,
    add_values fuel st cur other k = Some st' -> cols st' = cols st /\ map f_name (heap st') = map f_name (heap st).
  Proof.
    induction fuel as [|fuel IH]; intros st st' cur other k; cbn [add_values];
      destruct (deref st cur) as [fc|] eqn:Ec; try (intros E; injection E as <-; auto; fail);
      destruct (deref st other) as [fo|]; try (intros E; injection E as <-; auto; fail);
      destruct (nth_error (f_values fo) k); try (intros E; injection E as <-; auto; fail).
    - discriminate.
    - intros E. apply IH in E. destruct E as [E1 E2]. split; [exact E1|]. rewrite E2. cbn [heap set_heap].
      apply map_update. intros y Hy. unfold deref in Ec. rewrite Ec in Hy. injection Hy as <-. reflexivity.
  Qed.
  Lemma name_of_names st st' r : map f_name (heap st') = map f_name (heap st) -> name_of st' r = name_of st r.
  Proof. intros E. unfold name_of, deref. rewrite <- !nth_map_name, E. reflexivity. Qed.
  Lemma entries_cols st st' c : cols st' = cols st -> entries_of st' c = entries_of st c.
  Proof. intros E; unfold entries_of; rewrite E; reflexivity. Qed.
  Lemma entries_set st c e : (c < List.length (cols st))%nat -> entries_of (set_entries st c e) c = e.
  Proof. intros H; unfold entries_of, set_entries; cbn [cols]. apply nth_update_eq; exact H. Qed.

  Lemma update_update {A} i (x y : A) l : update i x (update i y l) = update i x l.
  Proof. revert i; induction l as [|z l IH]; intros [|i]; cbn [update]; congruence. Qed.
  Lemma rev_cons_app {A} (x : A) l m : rev (x :: l) ++ m = rev l ++ x :: m.
  Proof. cbn [rev]. rewrite <- app_assoc. reflexivity. Qed.

  Lemma changes_record hs c new : (c < List.length (h_cols hs))%nat ->
    h_changes (record hs c new) c = new ++ h_changes hs c.
  Proof. intros H. unfold h_changes at 1, record; cbn [h_cols]. apply nth_update_eq; exact H. Qed.
  Lemma record_record hs c a b : (c < List.length (h_cols hs))%nat ->
    record (record hs c a) c b = record hs c (b ++ a).
  Proof.
    intros H. unfold record at 1. rewrite changes_record by exact H.
    unfold record; cbn [h_names h_cols]. rewrite update_update, app_assoc. reflexivity.
  Qed.
  Lemma record_nil hs c : record hs c [] = hs.
  Proof.
    unfold record, h_changes; cbn [app]. destruct hs as [n cs]; cbn [h_names h_cols]. f_equal.
    revert c; induction cs as [|x cs IH]; intros [|c]; cbn [update nth]; congruence.
  Qed.
  Lemma rel_put st hs c k r : Rel st hs -> (c < List.length (cols st))%nat ->
    k = lower (name_of st r) -> (r < List.length (heap st))%nat ->
    Rel (set_entries st c (dict_set k r (entries_of st c))) (record hs c [Put k r]).
  Proof.
    intros HR Hc -> Hr. apply rel_entries; [exact HR| |].
    - apply agrees_put, cols_agree, HR.
    - apply Forall_forall. intros x Hx. apply dict_set_In in Hx. destruct Hx as [->|Hx].
      + cbn [fst snd]; auto.
      + pose proof (rel_keys_of _ _ c HR) as Hk. rewrite Forall_forall in Hk. apply Hk; exact Hx.
  Qed.
  Lemma rel_len st hs : Rel st hs -> List.length (h_cols hs) = List.length (cols st).
  Proof. intros [_ H _]. induction H; cbn [List.length]; congruence. Qed.

  Lemma rel_extend_loop fuel c others : forall st st' hs, Rel st hs -> (c < List.length (cols st))%nat ->
    Forall (fun r => r < List.length (heap st))%nat others ->
    extend_loop lower fuel c others st = Some st' ->
    Rel st' (record hs c (rev (map (fun r => PutNew (lower (h_name hs r)) r) others))).
  Proof.
    induction others as [|o others IH]; intros st st' hs HR Hc Ho; cbn [extend_loop map].
    - intros E; injection E as <-. cbn [rev]. rewrite record_nil. exact HR.
    - inversion Ho as [|? ? Ho1 Ho2]; subst.
      assert (Hc' : (c < List.length (h_cols hs))%nat) by (rewrite (rel_len _ _ HR); exact Hc).
      assert (Erec : forall l x, record hs c (rev (x :: l)) = record (record hs c [x]) c (rev l)).
      { intros l x. rewrite record_record by exact Hc'. reflexivity. }
      destruct (get_item lower c (name_of st o) st) as [cur|] eqn:Eg.
      + destruct (add_values fuel st cur o 0) as [st1|] eqn:Ea; [|discriminate]. intros E.
        pose proof (rel_add_values _ _ _ _ _ _ _ HR Ea) as HR1.
        destruct (add_values_cols _ _ _ _ _ _ Ea) as [Ec En].
        assert (HR2 : Rel st1 (record hs c [PutNew (lower (h_name hs o)) o])).
        { rewrite (name_agree _ _ o HR).
          destruct HR1 as [A1 A2 A3]. split; cbn [h_names record]; auto. cbn [h_cols].
          rewrite Ec in A2.
          assert (Hag : agrees (entries_of st c) (PutNew (lower (name_of st o)) o :: h_changes hs c)).
          { eapply agrees_new_present; [apply cols_agree; exact HR|exact Eg]. }
          rewrite Ec. replace (cols st) with (update c (entries_of st c) (cols st)).
          - apply Forall2_update; [exact A2|exact Hag].
          - unfold entries_of. clear. generalize (cols st). intros l. revert c.
            induction l as [|x l IHl]; intros [|c]; cbn [update nth]; congruence. }
        apply (IH _ _ _ HR2) in E; [| |].
        * rewrite Erec. replace (map (fun r => PutNew (lower (h_name hs r)) r) others)
            with (map (fun r => PutNew (lower (h_name (record hs c [PutNew (lower (h_name hs o)) o]) r)) r) others); [exact E|].
          reflexivity.
        * rewrite Ec; exact Hc.
        * assert (El : List.length (heap st1) = List.length (heap st)).
          { rewrite <- !(map_length f_name), En. reflexivity. }
          rewrite El; exact Ho2.
      + unfold set_item. rewrite text_eqb_refl. intros E.
        assert (HR2 : Rel (set_entries st c (dict_set (lower (name_of st o)) o (entries_of st c)))
                          (record hs c [PutNew (lower (h_name hs o)) o])).
        { rewrite (name_agree _ _ o HR). apply rel_entries; [exact HR| |].
          - apply agrees_new_absent; [apply cols_agree; exact HR|exact Eg].
          - apply Forall_forall. intros x Hx. apply dict_set_In in Hx. destruct Hx as [->|Hx].
            + cbn [fst snd]; auto.
            + pose proof (rel_keys_of _ _ c HR) as Hk. rewrite Forall_forall in Hk. apply Hk; exact Hx. }
        apply (IH _ _ _ HR2) in E.
        * rewrite Erec. exact E.
        * cbn [cols set_entries]. rewrite update_length. exact Hc.
        * exact Ho2.
  Qed.

  Lemma iterate_valid st hs c : Rel st hs -> Forall (fun r => r < List.length (heap st))%nat (iterate c st).
  Proof.
    intros HR. apply Forall_forall. intros r Hr. unfold iterate, dict_values in Hr.
    apply in_map_iff in Hr. destruct Hr as ([k x] & <- & Hin).
    pose proof (rel_keys_of _ _ c HR) as Hk. rewrite Forall_forall in Hk. apply (Hk (k, x)); exact Hin.
  Qed.

  (** A fresh collection. *)
  Lemma agrees_fresh ks rs : List.length ks = List.length rs -> NoDup ks ->
    agrees (combine ks rs) (rev (map (fun kr => Put (fst kr) (snd kr)) (combine ks rs))).
  Proof.
    intros Hl Hnd.
    assert (G : forall l e h, agrees e h -> (forall k, In k (dict_keys e) -> ~ In k (map fst l)) -> NoDup (map fst l) ->
      agrees (e ++ l) (rev (map (fun kr : text * ref => Put (fst kr) (snd kr)) l) ++ h)).
    { induction l as [|[k r] l IH]; intros e h Ha Hd Hn.
      - rewrite app_nil_r. exact Ha.
      - cbn [map]. rewrite rev_cons_app. cbn [fst snd map] in *. inversion Hn as [|? ? Hn1 Hn2]; subst.
        replace (e ++ (k, r) :: l) with ((e ++ [(k, r)]) ++ l) by (rewrite <- app_assoc; reflexivity).
        assert (Hk : ~ In k (dict_keys e)) by (intros Hx; apply (Hd k Hx); left; reflexivity).
        apply IH.
        + rewrite <- dict_set_new by exact Hk. apply agrees_put; exact Ha.
        + intros x Hx. unfold dict_keys in Hx. rewrite map_app in Hx. apply in_app_or in Hx.
          destruct Hx as [Hx|[<-|[]]]; [|exact Hn1]. intros Hy. apply (Hd x Hx). right; exact Hy.
        + exact Hn2. }
    specialize (G (combine ks rs) [] []). rewrite app_nil_r in G. apply G.
    - split; reflexivity.
    - intros k [].
    - replace (map fst (combine ks rs)) with ks; [exact Hnd|].
      clear - Hl. revert rs Hl; induction ks as [|k ks IH]; intros [|r rs] Hl; cbn in *; try discriminate; [reflexivity|].
      f_equal; apply IH; congruence.
  Qed.

  Lemma rel_step fuel o st st' x hs : Rel st hs -> valid_op st o = true ->
    step lower fuel o st = Some (st', x) -> Rel st' (h_step lower o hs).
  Proof.
    intros HR Hv. destruct o; cbn [step h_step valid_op] in *.
    - intros E; injection E as <- _. destruct HR as [En Ec Ek]. split; cbn [heap cols h_names h_cols]; auto.
      + rewrite map_app, En. reflexivity.
      + eapply Forall_impl; [|exact Ek]. intros e He. eapply Forall_impl; [|exact He].
        intros [k r] [Hr Hk]; cbn [fst snd] in *. rewrite app_length. split; [lia|].
        rewrite Hk. unfold name_of, deref; cbn [heap]. rewrite nth_error_app1 by exact Hr. reflexivity.
    - unfold new_fields.
      replace (map (fun r => lower (h_name hs r)) refs) with (map (fun r => lower (name_of st r)) refs)
        by (apply map_ext; intros r; rewrite (name_agree _ _ r HR); reflexivity).
      destruct (has_dup (map (fun r => lower (name_of st r)) refs)) eqn:Ed; intros E; injection E as <- _; [exact HR|].
      apply has_dup_NoDup in Ed. set (ks := map (fun r => lower (name_of st r)) refs) in *.
      assert (Hl : List.length ks = List.length refs) by (apply map_length).
      assert (Eh : map (fun r => Put (lower (h_name hs r)) r) refs = map (fun kr => Put (fst kr) (snd kr)) (combine ks refs)).
      { subst ks. clear - HR. induction refs as [|r rs IH]; cbn [map combine]; [reflexivity|].
        rewrite <- IH, (name_agree _ _ r HR). reflexivity. }
      rewrite Eh. destruct HR as [En Ec Ek]. split; cbn [heap cols h_names h_cols]; auto.
      + apply Forall2_app; [exact Ec|]. constructor; [|constructor]. apply agrees_fresh; auto.
      + apply Forall_app; split; [exact Ek|]. constructor; [|constructor].
        rewrite forallb_forall in Hv. apply Forall_forall. intros [k r] Hin. cbn [fst snd].
        pose proof (in_combine_r _ _ _ _ Hin) as Hr. apply Hv in Hr. apply Nat.ltb_lt in Hr. split; [exact Hr|].
        unfold name_of, deref; cbn [heap]. subst ks. clear - Hin. induction refs as [|y rs IH]; cbn in Hin; [destruct Hin|].
        destruct Hin as [E|Hin]; [injection E as <- <-; reflexivity|]. apply IH; exact Hin.
    - apply andb_true_iff in Hv; destruct Hv as [Hc Hr]; apply Nat.ltb_lt in Hc, Hr.
      unfold set_item. rewrite (name_agree _ _ r HR).
      destruct (text_eqb (lower name) (lower (name_of st r))) eqn:E; intros H; injection H as <- _; [|exact HR].
      apply text_eqb_eq in E. apply rel_put; auto.
    - apply andb_true_iff in Hv; destruct Hv as [Hc Hr]; apply Nat.ltb_lt in Hc, Hr.
      unfold set_field, set_item. rewrite text_eqb_refl, (name_agree _ _ r HR).
      intros H; injection H as <- _. apply rel_put; auto.
    - unfold del_item, dict_has. destruct (dict_get (lower name) (entries_of st c)) eqn:E; intros H; injection H as <- _.
      + apply rel_entries; [exact HR| |].
        * apply agrees_drop, cols_agree, HR.
        * apply Forall_forall. intros x0 Hx. apply dict_del_In in Hx.
          pose proof (rel_keys_of _ _ c HR) as Hk. rewrite Forall_forall in Hk. apply Hk; exact Hx.
      + destruct HR as [En Ec Ek]. split; cbn [record h_names h_cols]; auto.
        replace (cols st) with (update c (entries_of st c) (cols st)).
        * apply Forall2_update; [exact Ec|]. apply agrees_drop_absent; [|exact E].
          apply cols_agree with (st := st) (hs := hs). split; auto.
        * unfold entries_of. clear. generalize (cols st). intros l. revert c.
          induction l as [|y l IHl]; intros [|c]; cbn [update nth]; congruence.
    - apply andb_true_iff in Hv; destruct Hv as [Hc Hd]; apply Nat.ltb_lt in Hc, Hd.
      destruct (extend lower fuel c d st) as [st1|] eqn:E; [|discriminate]. intros H; injection H as <- _.
      unfold extend in E. apply rel_extend_loop with (hs := hs) in E; auto.
      + rewrite <- (fields_agree _ _ d HR), flat_map_concat_map, map_map.
        replace (List.concat (map (fun x0 => [PutNew (lower (h_name hs x0)) x0]) (iterate d st)))
          with (map (fun r => PutNew (lower (h_name hs r)) r) (iterate d st)); [exact E|].
        clear. induction (iterate d st) as [|y l IH]; cbn [map List.concat app]; congruence.
      + eapply iterate_valid; exact HR.
    - intros H; injection H as <- _. unfold on_field. destruct (deref st r) eqn:E; [|exact HR].
      eapply rel_heap; [exact HR|exact E|reflexivity].
    - intros H; injection H as <- _. unfold on_field. destruct (deref st r) eqn:E; [|exact HR].
      eapply rel_heap; [exact HR|exact E|reflexivity].
    - intros H; injection H as <- _. unfold on_field. destruct (deref st r) eqn:E; [|exact HR].
      eapply rel_heap; [exact HR|exact E|reflexivity].
  Qed.

  Lemma rel_run fuel ops : forall st st' hs, Rel st hs -> run lower fuel ops st = Some st' ->
    Rel st' (fold_left (fun hs o => h_step lower o hs) ops hs).
  Proof.
    induction ops as [|o ops IH]; intros st st' hs HR; cbn [run fold_left].
    - intros E; injection E as <-; exact HR.
    - destruct (valid_op st o) eqn:Hv; [|discriminate].
      destruct (step lower fuel o st) as [[st1 x]|] eqn:E; [|discriminate].
      intros H. eapply IH; [|exact H]. eapply rel_step; eauto.
  Qed.
  Lemma rel_empty : Rel empty_state no_history.
  Proof. split; cbn; constructor. Qed.

  Theorem fields_follow_history fuel ops st : run lower fuel ops empty_state = Some st ->
    forall c name,
      get_item lower c name st = lookup (h_changes (history_of lower ops) c) (lower name) /\
      map Some (iterate c st) = h_fields (history_of lower ops) c.
  Proof.
    intros H c name. pose proof (rel_run _ _ _ _ _ rel_empty H) as HR. fold (history_of lower ops) in HR.
    split; [apply cols_agree; exact HR|apply fields_agree; exact HR].
  Qed.

  (** Reachable states. *)
  Definition Inv (st : state) : Prop := exists hs, Rel st hs.
  Lemma run_Inv fuel ops st : run lower fuel ops empty_state = Some st -> Inv st.
  Proof. intros H. eexists; eapply rel_run; [apply rel_empty|exact H]. Qed.

  Lemma iterate_name st c r : Inv st -> In r (iterate c st) ->
    exists f, deref st r = Some f /\ get_item lower c (f_name f) st = Some r.
  Proof.
    intros (hs & HR) Hr. unfold iterate, dict_values in Hr. apply in_map_iff in Hr.
    destruct Hr as ([k x] & <- & Hin). cbn [snd].
    pose proof (rel_keys_of _ _ c HR) as Hk. rewrite Forall_forall in Hk. specialize (Hk _ Hin). cbn [fst snd] in Hk.
    destruct Hk as [Hx ->]. destruct (nth_error (heap st) x) as [f|] eqn:E; [|apply nth_error_None in E; lia].
    exists f; split; [exact E|]. unfold get_item.
    assert (En : name_of st x = f_name f) by (unfold name_of, deref; rewrite E; reflexivity).
    rewrite En in Hin. apply dict_In_get; [|exact Hin].
    eapply agrees_nodup, cols_agree; exact HR.
  Qed.
  Lemma iterate_NoDup st c : Inv st -> NoDup (iterate c st) /\
    NoDup (map (fun r => lower (name_of st r)) (iterate c st)).
  Proof.
    intros (hs & HR). pose proof (cols_agree _ _ c HR) as Ha. pose proof (agrees_nodup _ _ Ha) as Hnd.
    pose proof (rel_keys_of _ _ c HR) as Hk.
    assert (E : map (fun r => lower (name_of st r)) (iterate c st) = dict_keys (entries_of st c)).
    { unfold iterate, dict_values, dict_keys. rewrite map_map. apply map_ext_in.
      rewrite Forall_forall in Hk. intros x Hx. symmetry. apply Hk; exact Hx. }
    rewrite E. split; [|exact Hnd]. rewrite <- E in Hnd. eapply NoDup_map_inv; exact Hnd.
  Qed.

  (** Merging. *)
  Lemma get_iterate st c name r : Inv st -> get_item lower c name st = Some r -> In r (iterate c st).
  Proof. intros _ H. apply dict_get_In in H. unfold iterate, dict_values. change r with (snd (lower name, r)). apply in_map; exact H. Qed.
End Fields.
