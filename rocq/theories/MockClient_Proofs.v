From Verif Require Import Base Base_Proofs PyDict_Model PyDict_Proofs Fields_Model Fields_Proofs Fields_Props MockClient_Model MockClient_Spec.
From Coq Require Import ZArith.

Section Proofs.
  Context {D B : Type}.
  Variable lower : text -> text.
  Notation run := (@run D B lower).
  Notation world := (world D B).
  Notation op := (op D B).

  Lemma run_app a b (w : world) :
    run (a ++ b) w = (fst (run b (fst (run a w))), snd (run a w) ++ snd (run b (fst (run a w)))).
  Proof.
    revert w. induction a as [|o a IH]; intros w; cbn [app MockClient_Model.run]; [cbn [fst snd app]; apply surjective_pairing|].
    destruct (step lower o w) as [w1 x]. rewrite IH. destruct (run a w1) as [w2 xs]. cbn [fst snd].
    destruct x; reflexivity.
  Qed.
  Lemma given_app {A} (a b : list (result A)) : given (a ++ b) = given a ++ given b.
  Proof. induction a as [|[]]; cbn; congruence. Qed.
  Lemma added_app (a b : list op) : added (a ++ b) = added a ++ added b.
  Proof. induction a as [|[]]; cbn; congruence. Qed.

  Definition brief (p : response) := (p_status p, p_body p).
  Definition qbrief (d : queued) := (d_status d, d_body d).
  Definition abrief (a : Z * option nat * bytes) := (fst (fst a), snd a).

  Lemma run_queue ops : forall (w : world),
    exists taken new, w_queue w ++ new = taken ++ w_queue (fst (run ops w))
      /\ map qbrief taken = map brief (given (snd (run ops w))) /\ map qbrief new = map abrief (added ops).
  Proof.
    induction ops as [|o ops IH]; intros w; [exists [], []; now rewrite app_nil_r|].
    cbn [MockClient_Model.run added]. destruct (step lower o w) as [w1 x] eqn:S. specialize (IH w1).
    destruct (run ops w1) as [w2 xs]. cbn [fst snd] in *. destruct IH as (taken & new & Q & T & N).
    destruct o as [s h b|r|r q|f d|l t]; cbn [step] in S.
    - injection S as <- <-. cbn [w_queue add_response] in Q. rewrite <- app_assoc in Q. cbn [app] in Q.
      eexists taken, (_ :: new). split; [exact Q|]. split; [exact T|]. cbn [map]. now rewrite N.
    - unfold send in S. destruct (w_queue w) as [|d rest]; injection S as <- <-; cbn [w_queue] in Q.
      + exists taken, new. auto.
      + exists (d :: taken), new. cbn [app given map]. rewrite Q, T. auto.
    - injection S as <- <-. exists taken, new. auto.
    - injection S as <- <-. exists taken, new. auto.
    - injection S as <- <-. exists taken, new. auto.
  Qed.
  Lemma run_captured ops : forall (w : world),
    w_captured (fst (run ops w)) = w_captured w ++ sent (w_requests w) ops.
  Proof.
    induction ops as [|o ops IH]; intros w; [cbn; now rewrite app_nil_r|].
    cbn [MockClient_Model.run sent]. destruct (step lower o w) as [w1 x] eqn:S. specialize (IH w1).
    destruct (run ops w1) as [w2 xs]. cbn [fst snd] in *. rewrite IH. clear IH.
    destruct o as [s h b|r|r q|f d|l t]; cbn [step] in S.
    - injection S as <- <-. reflexivity.
    - unfold send in S. destruct (w_queue w) as [|d rest]; injection S as <- <-; cbn [w_captured w_requests];
        rewrite <- app_assoc; reflexivity.
    - injection S as <- <-. reflexivity.
    - injection S as <- <-. reflexivity.
    - injection S as <- <-. reflexivity.
  Qed.
  Lemma run_lists ops : forall (w : world) l, w_lists (fst (run ops w)) l = contents (w_lists w) ops l.
  Proof.
    induction ops as [|o ops IH]; intros w l; [reflexivity|].
    cbn [MockClient_Model.run contents]. destruct (step lower o w) as [w1 x] eqn:S. specialize (IH w1 l).
    destruct (run ops w1) as [w2 xs]. cbn [fst snd] in *. rewrite IH. clear IH.
    destruct o as [s h b|r|r q|f d|l' t]; cbn [step] in S.
    - injection S as <- <-. reflexivity.
    - unfold send in S. destruct (w_queue w) as [|d rest]; injection S as <- <-; reflexivity.
    - injection S as <- <-. reflexivity.
    - injection S as <- <-. reflexivity.
    - injection S as <- <-. reflexivity.
  Qed.
  Lemma contents_steady (ops : list op) l : forall lists, (forall t, ~ In (ChangeList l t) ops) -> contents lists ops l = lists l.
  Proof.
    induction ops as [|o ops IH]; intros lists H; [reflexivity|]. cbn [contents].
    assert (H' : forall t, ~ In (ChangeList l t) ops) by (intros t J; apply (H t); now right).
    destruct o; try (now apply IH). rewrite IH by exact H'. destruct (Nat.eqb_spec l l0); [|reflexivity].
    subst. exfalso. apply (H tuples). now left.
  Qed.
  Lemma tuples_kind tuples : forall d, Forall (fun kf => f_kind (snd kf) = Header) d ->
    Forall (fun kf : text * field => f_kind (snd kf) = Header) (tuples_loop lower Header tuples d).
  Proof.
    assert (P : forall k f d, f_kind f = Header -> Forall (fun kf : text * field => f_kind (snd kf) = Header) d ->
                  Forall (fun kf : text * field => f_kind (snd kf) = Header) (dict_set k f d)).
    { intros k f d K F. induction F as [|[a g] d G F IH]; cbn [dict_set]; [repeat constructor; exact K|].
      destruct (text_eqb k a); constructor; auto. }
    induction tuples as [|[n v] tuples IH]; intros d F; [exact F|]. cbn [tuples_loop]. apply IH.
    destruct (dict_get (lower n) d) as [f|] eqn:G; apply P; auto. cbn.
    clear -G F. induction F as [|[a g] d K F IH]; cbn [dict_get] in G; [discriminate|].
    destruct (text_eqb (lower n) a); [injection G as <-; exact K|auto].
  Qed.
  Lemma dict_get_In {A} k (d : list (text * A)) f : dict_get k d = Some f -> In (k, f) d.
  Proof.
    induction d as [|[a g] d IH]; cbn [dict_get]; [discriminate|]. destruct (text_eqb k a) eqn:E.
    - intros [= <-]. apply text_eqb_eq in E. subst. now left.
    - right. auto.
  Qed.
  Lemma loop_says tuples : headers_say lower tuples (tuples_loop lower Header tuples []).
  Proof.
    destruct (C22_tuples lower Header tuples) as (N & K & V). split; [exact N|]. intros name. specialize (V name).
    destruct (dict_get (lower name) (tuples_loop lower Header tuples [])) as [f|] eqn:G; [|now rewrite V].
    apply dict_get_In in G. split; [exact V|]. split; [|symmetry; exact (K _ _ G)].
    pose proof (tuples_kind tuples [] (Forall_nil _)) as F. rewrite Forall_forall in F. exact (F _ G).
  Qed.
End Proofs.
