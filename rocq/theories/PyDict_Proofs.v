(** Facts about dictionaries. *)
From Verif Require Import Base Base_Proofs PyDict_Model.

Section Dict.
  Context {A : Type}.
  Implicit Types d : list (text * A).

  Lemma dict_get_set_eq k v d : dict_get k (dict_set k v d) = Some v.
  Proof.
    induction d as [|[k' v'] d IH]; cbn [dict_set dict_get].
    - rewrite text_eqb_refl; reflexivity.
    - destruct (text_eqb k k') eqn:E; cbn [dict_get]; rewrite E; [reflexivity|exact IH].
  Qed.
  Lemma dict_get_set_ne k k2 v d : k2 <> k -> dict_get k2 (dict_set k v d) = dict_get k2 d.
  Proof.
    intros Hne. induction d as [|[k' v'] d IH]; cbn [dict_set dict_get].
    - apply text_eqb_neq in Hne; rewrite Hne; reflexivity.
    - destruct (text_eqb k k') eqn:E; cbn [dict_get].
      + apply text_eqb_eq in E; subst. apply text_eqb_neq in Hne; rewrite Hne; reflexivity.
      + rewrite IH; reflexivity.
  Qed.
  Lemma dict_get_None k d : dict_get k d = None <-> ~ In k (dict_keys d).
  Proof.
    induction d as [|[k' v'] d IH]; cbn [dict_get dict_keys map fst In].
    - split; [intros _ []|reflexivity].
    - destruct (text_eqb k k') eqn:E.
      + apply text_eqb_eq in E; subst. split; [discriminate|intros H; exfalso; apply H; left; reflexivity].
      + apply text_eqb_neq in E. rewrite IH. unfold dict_keys. split; intros H; [intros [->|Hx]; auto|auto].
  Qed.
  Lemma dict_get_In k v d : dict_get k d = Some v -> In (k, v) d.
  Proof.
    induction d as [|[k' v'] d IH]; cbn [dict_get]; [discriminate|].
    destruct (text_eqb k k') eqn:E; [|intros H; right; exact (IH H)].
    apply text_eqb_eq in E; subst. intros H; injection H as ->; left; reflexivity.
  Qed.
  Lemma dict_In_get k v d : NoDup (dict_keys d) -> In (k, v) d -> dict_get k d = Some v.
  Proof.
    induction d as [|[k' v'] d IH]; cbn [dict_get dict_keys map fst]; [intros _ []|].
    intros Hnd Hin; inversion Hnd as [|? ? Hni Hnd']; subst.
    destruct Hin as [E|Hin].
    - injection E as -> ->. rewrite text_eqb_refl; reflexivity.
    - destruct (text_eqb k k') eqn:E; [|apply IH; auto].
      apply text_eqb_eq in E; subst. exfalso; apply Hni.
      change k' with (fst (k', v)). apply in_map; exact Hin.
  Qed.
  Lemma dict_keys_set_in k v d : In k (dict_keys d) -> dict_keys (dict_set k v d) = dict_keys d.
  Proof.
    induction d as [|[k' v'] d IH]; cbn [dict_set dict_keys map fst]; intros H; [destruct H|].
    destruct (text_eqb k k') eqn:E; [reflexivity|]. cbn [map fst].
    f_equal. apply IH. destruct H as [->|H]; [rewrite text_eqb_refl in E; discriminate|exact H].
  Qed.
  Lemma dict_set_new k v d : ~ In k (dict_keys d) -> dict_set k v d = d ++ [(k, v)].
  Proof.
    induction d as [|[k' v'] d IH]; cbn [dict_set dict_keys map fst app]; intros H; [reflexivity|].
    destruct (text_eqb k k') eqn:E.
    - apply text_eqb_eq in E; subst. exfalso; apply H; left; reflexivity.
    - rewrite IH; [reflexivity|]. intros Hx; apply H; right; exact Hx.
  Qed.
  Lemma dict_set_In k v d x : In x (dict_set k v d) -> x = (k, v) \/ In x d.
  Proof.
    induction d as [|[k' v'] d IH]; cbn [dict_set].
    - intros [<-|[]]; auto.
    - destruct (text_eqb k k') eqn:E.
      + apply text_eqb_eq in E; subst. intros [<-|H]; [left; reflexivity|right; right; exact H].
      + intros [<-|H]; [right; left; reflexivity|]. destruct (IH H); auto. right; right; assumption.
  Qed.
  Lemma dict_keys_dec k d : In k (dict_keys d) \/ ~ In k (dict_keys d).
  Proof. destruct (dict_get k d) eqn:E; [left|right; apply dict_get_None; exact E].
    apply dict_get_In in E. change k with (fst (k, a)). apply in_map; exact E. Qed.
  Lemma dict_set_NoDup k v d : NoDup (dict_keys d) -> NoDup (dict_keys (dict_set k v d)).
  Proof.
    intros H. destruct (dict_keys_dec k d) as [Hi|Hi].
    - rewrite dict_keys_set_in; auto.
    - rewrite dict_set_new by exact Hi. unfold dict_keys. rewrite map_app. cbn [map fst].
      apply NoDup_Add with (a := k) (l := dict_keys d).
      + rewrite <- (app_nil_r (dict_keys d)) at 1. apply Add_app.
      + auto.
  Qed.
  Lemma dict_keys_del k d : NoDup (dict_keys d) ->
    dict_keys (dict_del k d) = filter (fun x => negb (text_eqb k x)) (dict_keys d).
  Proof.
    induction d as [|[k' v'] d IH]; cbn [dict_del dict_keys map fst filter]; intros H; [reflexivity|].
    inversion H as [|? ? Hni Hnd]; subst.
    destruct (text_eqb k k') eqn:E; cbn [negb].
    - apply text_eqb_eq in E; subst. clear IH H. unfold dict_keys in Hni.
      change (dict_keys d) with (map fst d). induction (map fst d) as [|y l IHl]; [reflexivity|].
      cbn [filter]. destruct (text_eqb k' y) eqn:E; cbn [negb].
      + apply text_eqb_eq in E; subst. exfalso; apply Hni; left; reflexivity.
      + f_equal. apply IHl; [intros Hx; apply Hni; right; exact Hx|]. inversion Hnd; assumption.
    - cbn [map fst]. f_equal. apply IH; exact Hnd.
  Qed.
  Lemma dict_get_del k k2 d : NoDup (dict_keys d) ->
    dict_get k2 (dict_del k d) = if text_eqb k2 k then None else dict_get k2 d.
  Proof.
    induction d as [|[k' v'] d IH]; cbn [dict_del dict_keys map fst dict_get]; intros H.
    - destruct (text_eqb k2 k); reflexivity.
    - inversion H as [|? ? Hni Hnd]; subst. destruct (text_eqb k k') eqn:E.
      + apply text_eqb_eq in E; subst. destruct (text_eqb k2 k') eqn:E2; [|reflexivity].
        apply text_eqb_eq in E2; subst. apply dict_get_None; exact Hni.
      + cbn [dict_get]. rewrite (IH Hnd). destruct (text_eqb k2 k') eqn:E2; [|reflexivity].
        apply text_eqb_eq in E2; subst. destruct (text_eqb k' k) eqn:E3; [|reflexivity].
        apply text_eqb_eq in E3; subst. rewrite text_eqb_refl in E; discriminate.
  Qed.
  Lemma dict_del_In k d x : In x (dict_del k d) -> In x d.
  Proof.
    induction d as [|[k' v'] d IH]; cbn [dict_del]; [intros []|].
    destruct (text_eqb k k'); [intros H; right; exact H|].
    intros [<-|H]; [left; reflexivity|right; exact (IH H)].
  Qed.
End Dict.
