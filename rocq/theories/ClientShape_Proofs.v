(** Consequences of the shape of an execution. *)
From Coq Require Import QArith.
From Verif Require Import Base Retry_Model Retry_Spec Client_Model Client_Spec Client_Proofs ClientSim_Proofs.
Local Open Scope nat_scope.

Section Mono.
  Context {S : sorts}.
  Variables (A B : Req S -> list (event S) -> octx S -> Prop).
  Hypothesis AB : forall r es c, A r es c -> B r es c.

  Lemma rounds_mono r t es res : rounds_shape A r t es res -> rounds_shape B r t es res.
  Proof.
    induction 1.
    - eapply rs_more; eauto.
    - eapply rs_success; eauto.
    - eapply rs_refused; eauto.
    - eapply rs_success_raises; eauto.
    - eapply rs_refresh_raises; eauto.
    - eapply rs_rewind_raises; eauto.
  Qed.
  Lemma retry_mono r re es res : retry_shape A r re es res -> retry_shape B r re es res.
  Proof.
    unfold retry_shape. destruct re.
    - intros [(t & rest & E1 & H)|H]; [left|right; exact H]. exists t, rest. split; [exact E1|]. apply rounds_mono, H.
    - intros (c & H & E1). eauto.
  Qed.
  Lemma execution_mono re sf es final : execution_shape A re sf es final -> execution_shape B re sf es final.
  Proof.
    intros (before & complete & loop & c & x & c' & x' & E1 & Hf & Hl & H1 & H2).
    exists before, complete, loop, c, x, c', x'. split; [exact E1|]. split; [exact Hf|]. split; [|auto].
    destruct complete; [|exact Hl]. destruct Hl as (r & res & i & r0 & e & Hr & H3 & H4).
    exists r, res, i, r0, e. split; [apply retry_mono, Hr|auto].
  Qed.
End Mono.

Definition is_completion (h : stage) {S} (e : event S) : bool :=
  match h, kind e with
  | StOutput MBeforeCompletion, StOutput MBeforeCompletion => true
  | StRead RAfterExecution, StRead RAfterExecution => true
  | _, _ => false
  end.

Lemma completion_once {S W} (E : env S W) fuel ci w final w' es :
  execute (spy_env E) fuel ci (w, []) = Some (final, (w', es)) ->
  List.length (filter (is_completion (StOutput MBeforeCompletion)) es) = 1 /\
  List.length (filter (is_completion (StRead RAfterExecution)) es) = 1.
Proof.
  intros H. destruct (execute_ok E ci _ _ _ _ _ H) as (es' & i & E1 & Hs & _). cbn [snd app] in E1. subst es'.
  destruct Hs as (before & complete & loop & c & x & c' & x' & -> & Hf & Hl & _).
  assert (Hin : Forall (fun e => outer e = false) loop).
  { destruct complete.
    - destruct Hl as (r & res & i' & r0 & e & Hr & _). eapply Forall_impl; [|eapply retry_inner, Hr].
      intros ? (Hi & _). exact Hi.
    - destruct Hl as [-> _]. constructor. }
  assert (Hb : forall h, h = StOutput MBeforeCompletion \/ h = StRead RAfterExecution ->
     filter (is_completion h) before = [] /\ filter (is_completion h) loop = []).
  { intros h Hh. split.
    - apply follows_kinds in Hf. clear - Hf Hh. induction Hf as [|e l He _ IH]; [reflexivity|]. cbn [filter].
      replace (is_completion h e) with false; [exact IH|]. unfold is_completion. revert He. generalize (kind e). intros st.
      destruct Hh as [->| ->]; cbn; intuition (subst; reflexivity).
    - clear - Hin Hh. induction Hin as [|e l He _ IH]; [reflexivity|]. cbn [filter].
      replace (is_completion h e) with false; [exact IH|]. unfold is_completion. unfold outer in He. revert He.
      generalize (kind e). intros st. destruct Hh as [->| ->]; destruct st; try reflexivity; destruct h; try reflexivity;
      discriminate. }
  destruct (Hb _ (or_introl eq_refl)) as [H1 H2], (Hb _ (or_intror eq_refl)) as [H3 H4].
  split; rewrite !filter_app, ?H1, ?H2, ?H3, ?H4; reflexivity.
Qed.
