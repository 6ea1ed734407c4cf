(** Proofs about the retry quota, delays, strategies and loop. *)
From Coq Require Import QArith Qminmax Qpower Lqa.
From Verif Require Import Base Base_Proofs Retry_Model Retry_Spec.
Local Open Scope Z_scope.

(** ** Threads *)
Lemma nth_set_thread i j t l :
  nth_error (set_thread i t l) j =
  if Nat.eqb i j then match nth_error l j with Some _ => Some t | None => None end
  else nth_error l j.
Proof.
  revert i j. induction l as [|x l IH]; intros [|i] [|j]; cbn [set_thread nth_error Nat.eqb]; auto.
  - destruct (Nat.eqb i j); reflexivity.
Qed.

Lemma set_thread_length i t l : List.length (set_thread i t l) = List.length l.
Proof. revert i. induction l as [|x l IH]; intros [|i]; cbn [set_thread List.length]; auto. Qed.

Lemma price_cost e : price e = cost_of e.
Proof. destruct e as [[s a [|]]|]; reflexivity. Qed.

(** What a thread has left to have logged. *)
Definition pending (pc : qpc) : list qcall :=
  match pc with QWant c | QHeld c | QRead c _ => [c] | _ => [] end.

Definition inside (pc : qpc) : Prop :=
  match pc with QHeld _ | QRead _ _ | QLeave => True | _ => False end.

Record qinv (cap : Z) (programs : list (list qcall)) (s : qsys) : Prop := {
  qi_max : y_max s = cap;
  qi_range : 0 <= y_avail s <= cap;
  qi_log : explained cap (y_log s) (y_avail s);
  qi_inside : forall i t, nth_error (y_threads s) i = Some t -> inside (t_pc t) -> y_lock s = Some i;
  qi_holder : forall i, y_lock s = Some i ->
      exists t, nth_error (y_threads s) i = Some t /\ inside (t_pc t);
  qi_read : forall i c v todo, nth_error (y_threads s) i = Some (mkThread (QRead c v) todo) -> v = y_avail s;
  qi_len : List.length (y_threads s) = List.length programs;
  qi_order : forall i t p, nth_error (y_threads s) i = Some t -> nth_error programs i = Some p ->
      calls_of i (y_log s) ++ pending (t_pc t) ++ t_todo t = p
}.

Lemma calls_of_snoc i log j c o :
  calls_of i (log ++ [(j, c, o)]) = calls_of i log ++ (if Nat.eqb j i then [c] else []).
Proof.
  unfold calls_of. rewrite filter_app, map_app. cbn [filter fst]. destruct (Nat.eqb j i); reflexivity.
Qed.

Lemma qinv_init cap programs : 0 <= cap -> qinv cap programs (qsys_init cap programs).
Proof.
  intros H. unfold qsys_init. constructor; cbn [y_max y_avail y_log y_threads y_lock].
  - reflexivity.
  - lia.
  - constructor.
  - intros i t Hi. rewrite nth_error_map in Hi. destruct (nth_error programs i); [|discriminate Hi].
    injection Hi as <-. intros [].
  - discriminate.
  - intros i c v todo Hi. rewrite nth_error_map in Hi. destruct (nth_error programs i); discriminate Hi.
  - apply map_length.
  - intros i t p Hi Hp. rewrite nth_error_map, Hp in Hi. injection Hi as <-. reflexivity.
Qed.

Definition thread_ok (t : qthread) : Prop := Forall release_ok (pending (t_pc t) ++ t_todo t).

Lemma order_ok cap programs s i t :
  Forall (Forall release_ok) programs -> qinv cap programs s ->
  nth_error (y_threads s) i = Some t -> Forall release_ok (pending (t_pc t) ++ t_todo t).
Proof.
  intros Hp Hs Ht. destruct Hs as [_ _ _ _ _ _ Hl Ho].
  destruct (nth_error programs i) as [p|] eqn:Ep.
  - specialize (Ho _ _ _ Ht Ep). pose proof (nth_error_In _ _ Ep) as Hin.
    rewrite Forall_forall in Hp. specialize (Hp _ Hin). rewrite <- Ho in Hp.
    apply Forall_app in Hp. exact (proj2 Hp).
  - apply nth_error_None in Ep. assert (nth_error (y_threads s) i <> None) by congruence.
    apply nth_error_Some in H. lia.
Qed.

(** Updating one thread, in the form the step uses. *)
Lemma qinv_update cap programs s i t t' avail lock log :
  qinv cap programs s -> nth_error (y_threads s) i = Some t ->
  0 <= avail <= cap ->
  explained cap log avail ->
  (* the calls logged and still to do stay the thread's program *)
  (forall j, calls_of j log = calls_of j (y_log s) \/ j = i) ->
  calls_of i log ++ pending (t_pc t') ++ t_todo t' =
    calls_of i (y_log s) ++ pending (t_pc t) ++ t_todo t ->
  (* the lock is held by those inside *)
  (inside (t_pc t') -> lock = Some i) ->
  (forall j, j <> i -> y_lock s = Some j -> lock = Some j) ->
  (forall j, lock = Some j -> (j = i /\ inside (t_pc t')) \/ (j <> i /\ y_lock s = Some j)) ->
  (* capacity read is still current *)
  (forall c v todo, t' = mkThread (QRead c v) todo -> v = avail) ->
  (avail = y_avail s \/ y_lock s = Some i) ->
  qinv cap programs (mkQSys (y_max s) avail lock (set_thread i t' (y_threads s)) log).
Proof.
  intros Hs Ht Hr Hl Hother Hord Hin Hkeep Hhold Hread Hav.
  destruct Hs as [H1 H2 H3 H4 H5 H6 H7 H8].
  constructor; cbn [y_max y_avail y_log y_threads y_lock]; auto.
  - intros j u Hj Hi. rewrite nth_set_thread in Hj. destruct (Nat.eqb_spec i j) as [<-|Hne].
    + rewrite Ht in Hj. injection Hj as <-. auto.
    + apply Hkeep; [congruence|]. eauto.
  - intros j Hj. destruct (Hhold j Hj) as [[-> Hi]|[Hne Hlk]].
    + exists t'. rewrite nth_set_thread, Nat.eqb_refl, Ht. auto.
    + destruct (H5 j Hlk) as (u & Hu & Hiu). exists u. rewrite nth_set_thread.
      destruct (Nat.eqb_spec i j) as [<-|_]; [congruence|auto].
  - intros j c v todo Hj. rewrite nth_set_thread in Hj. destruct (Nat.eqb_spec i j) as [<-|Hne].
    + rewrite Ht in Hj. injection Hj as ->. eauto.
    + destruct Hav as [->|Hlk]; [eauto|].
      assert (E : y_lock s = Some j) by (eapply H4; [exact Hj|exact I]). congruence.
  - rewrite set_thread_length. exact H7.
  - intros j u p Hj Hp. rewrite nth_set_thread in Hj. destruct (Nat.eqb_spec i j) as [<-|Hne].
    + rewrite Ht in Hj. injection Hj as <-. rewrite Hord. eauto.
    + destruct (Hother j) as [->|Hji]; [eauto|congruence].
Qed.

Lemma qstep_inv cap programs s i :
  0 <= cap -> Forall (Forall release_ok) programs ->
  qinv cap programs s -> qinv cap programs (qstep s i).
Proof.
  intros Hcap Hprog Hs. unfold qstep.
  destruct (nth_error (y_threads s) i) as [[pc todo]|] eqn:Ht; [|exact Hs].
  pose proof (order_ok _ _ _ _ _ Hprog Hs Ht) as Hok. cbn [t_pc t_todo] in Hok.
  pose proof (qi_range _ _ _ Hs) as Hrange. pose proof (qi_log _ _ _ Hs) as Hlog.
  pose proof (qi_max _ _ _ Hs) as Hmax.
  assert (Hfree : ~ inside pc -> y_lock s <> Some i).
  { intros Hn E. destruct (qi_holder _ _ _ Hs i E) as (u & Hu & Hi).
    rewrite Ht in Hu. injection Hu as <-. apply Hn, Hi. }
  assert (Hheld : inside pc -> y_lock s = Some i).
  { intros Hi. exact (qi_inside _ _ _ Hs i _ Ht Hi). }
  destruct pc as [|c|c|c v|].
  - (* between calls *)
    destruct todo as [|[e|a] r]; [exact Hs| |].
    + eapply qinv_update; eauto; cbn [t_pc t_todo pending inside]; auto; try tauto; try discriminate.
      intros j Hj. right. split; [|exact Hj]. intros ->. exact (Hfree (fun x => x) Hj).
    + destruct (Z.eqb_spec (y_avail s) (y_max s)) as [E|E].
      * eapply qinv_update; eauto; cbn [t_pc t_todo pending inside]; auto; try tauto; try discriminate.
        -- apply (ex_call cap (y_log s) (y_avail s)); [exact Hlog|]. unfold counter.
           f_equal. pose proof (Forall_inv Hok) as Ha. cbn [release_ok] in Ha.
           destruct (Z.eqb_spec a 0); lia.
        -- intros j. rewrite calls_of_snoc. destruct (Nat.eqb_spec i j) as [<-|_]; [right; reflexivity|].
           left. apply app_nil_r.
        -- rewrite calls_of_snoc, Nat.eqb_refl, <- app_assoc. reflexivity.
        -- intros j Hj. right. split; [|exact Hj]. intros ->. exact (Hfree (fun x => x) Hj).
      * eapply qinv_update; eauto; cbn [t_pc t_todo pending inside]; auto; try tauto; try discriminate.
        intros j Hj. right. split; [|exact Hj]. intros ->. exact (Hfree (fun x => x) Hj).
  - (* waiting *)
    destruct (y_lock s) as [h|] eqn:Hlk; [exact Hs|].
    eapply qinv_update; eauto; cbn [t_pc t_todo pending inside]; auto; try congruence.
    intros j Hj. injection Hj as <-. left. auto.
  - (* lock held *)
    specialize (Hheld I).
    eapply qinv_update; eauto; cbn [t_pc t_todo pending inside]; auto; try congruence.
    intros j Hj. left. split; [congruence|exact I].
  - (* capacity read *)
    specialize (Hheld I). pose proof (qi_read _ _ _ Hs _ _ _ _ Ht) as ->.
    destruct c as [e|a].
    + destruct (Z.ltb_spec (y_avail s) (cost_of e)) as [Hlt|Hge].
      * eapply qinv_update; eauto; cbn [t_pc t_todo pending inside]; auto; try congruence.
        -- apply (ex_call cap (y_log s) (y_avail s)); [exact Hlog|]. unfold counter. rewrite price_cost.
           destruct (Z.leb_spec (cost_of e) (y_avail s)); [lia|reflexivity].
        -- intros j. rewrite calls_of_snoc. destruct (Nat.eqb_spec i j) as [<-|_]; [right; reflexivity|].
           left. apply app_nil_r.
        -- rewrite calls_of_snoc, Nat.eqb_refl, <- app_assoc. reflexivity.
        -- intros j Hj. left. split; [congruence|exact I].
      * assert (0 <= cost_of e) by (destruct e as [[? ? [|]]|]; cbv; discriminate).
        eapply qinv_update; eauto; cbn [t_pc t_todo pending inside]; auto; try congruence.
        -- lia.
        -- apply (ex_call cap (y_log s) (y_avail s)); [exact Hlog|]. unfold counter. rewrite price_cost.
           destruct (Z.leb_spec (cost_of e) (y_avail s)); [reflexivity|lia].
        -- intros j. rewrite calls_of_snoc. destruct (Nat.eqb_spec i j) as [<-|_]; [right; reflexivity|].
           left. apply app_nil_r.
        -- rewrite calls_of_snoc, Nat.eqb_refl, <- app_assoc. reflexivity.
        -- intros j Hj. left. split; [congruence|exact I].
    + pose proof (Forall_inv Hok) as Ha. cbn [release_ok] in Ha.
      assert (Hinc : 0 <= increment_of a).
      { unfold increment_of, NO_RETRY_INCREMENT. destruct (Z.eqb_spec a 0); lia. }
      eapply qinv_update; eauto; cbn [t_pc t_todo pending inside]; auto; try congruence.
      * lia.
      * apply (ex_call cap (y_log s) (y_avail s)); [exact Hlog|]. unfold counter.
        rewrite Hmax, Z.min_comm. reflexivity.
      * intros j. rewrite calls_of_snoc. destruct (Nat.eqb_spec i j) as [<-|_]; [right; reflexivity|].
        left. apply app_nil_r.
      * rewrite calls_of_snoc, Nat.eqb_refl, <- app_assoc. reflexivity.
      * intros j Hj. left. split; [congruence|exact I].
  - (* dropping the lock *)
    specialize (Hheld I).
    eapply qinv_update; eauto; cbn [t_pc t_todo pending inside]; auto; try congruence; try tauto; try discriminate.
Qed.

Lemma qrun_inv cap programs schedule :
  0 <= cap -> Forall (Forall release_ok) programs ->
  qinv cap programs (qsys_run cap programs schedule).
Proof.
  intros Hc Hp. unfold qsys_run.
  assert (G : forall s, qinv cap programs s -> qinv cap programs (fold_left qstep schedule s)).
  { induction schedule as [|i l IH]; intros s Hs; cbn [fold_left]; auto.
    apply IH, qstep_inv; assumption. }
  apply G, qinv_init, Hc.
Qed.

(** Work left; every effective step reduces it. *)
Definition pc_work (pc : qpc) : nat :=
  match pc with QIdle => 0 | QLeave => 1 | QRead _ _ => 2 | QHeld _ => 3 | QWant _ => 4 end.
Definition thread_work (t : qthread) : nat := pc_work (t_pc t) + 5 * List.length (t_todo t).
Definition work (s : qsys) : nat := list_sum (map thread_work (y_threads s)).

Lemma work_set i t t' l :
  nth_error l i = Some t ->
  (list_sum (map thread_work (set_thread i t' l)) + thread_work t =
   list_sum (map thread_work l) + thread_work t')%nat.
Proof.
  revert i. induction l as [|x l IH]; intros [|i] H; cbn [nth_error] in H; try discriminate H.
  - injection H as ->. cbn [set_thread map list_sum fold_right]. lia.
  - specialize (IH _ H). cbn [set_thread map list_sum fold_right] in *. unfold list_sum in *. lia.
Qed.

(** A thread that is not waiting for a held lock and not finished makes progress. *)
Lemma qstep_progress s i t :
  nth_error (y_threads s) i = Some t -> t <> mkThread QIdle [] ->
  (forall c, t_pc t = QWant c -> y_lock s = None) ->
  (work (qstep s i) < work s)%nat.
Proof.
  intros Ht Hne Hw. unfold qstep. rewrite Ht. destruct t as [pc todo].
  unfold work.
  destruct pc as [|c|c|c v|].
  - destruct todo as [|[e|a] r]; [congruence| |].
    + cbn [y_threads]. pose proof (work_set i _ (mkThread (QWant (QAcquire e)) r) _ Ht) as E.
      unfold thread_work at 2 4 in E. cbn [t_pc t_todo pc_work List.length] in E. lia.
    + destruct (y_avail s =? y_max s); cbn [y_threads].
      * pose proof (work_set i _ (mkThread QIdle r) _ Ht) as E.
        unfold thread_work at 2 4 in E. cbn [t_pc t_todo pc_work List.length] in E. lia.
      * pose proof (work_set i _ (mkThread (QWant (QRelease a)) r) _ Ht) as E.
        unfold thread_work at 2 4 in E. cbn [t_pc t_todo pc_work List.length] in E. lia.
  - rewrite (Hw c eq_refl). cbn [y_threads].
    pose proof (work_set i _ (mkThread (QHeld c) todo) _ Ht) as E.
    unfold thread_work at 2 4 in E. cbn [t_pc t_todo pc_work List.length] in E. lia.
  - cbn [y_threads]. pose proof (work_set i _ (mkThread (QRead c (y_avail s)) todo) _ Ht) as E.
    unfold thread_work at 2 4 in E. cbn [t_pc t_todo pc_work List.length] in E. lia.
  - pose proof (work_set i _ (mkThread QLeave todo) _ Ht) as E.
    unfold thread_work at 2 4 in E. cbn [t_pc t_todo pc_work List.length] in E.
    destruct c as [e|a]; [destruct (v <? cost_of e)|]; cbn [y_threads]; lia.
  - cbn [y_threads]. pose proof (work_set i _ (mkThread QIdle todo) _ Ht) as E.
    unfold thread_work at 2 4 in E. cbn [t_pc t_todo pc_work List.length] in E. lia.
Qed.

(** From every reachable state the threads can run to their end. *)
Lemma qsys_finishes cap programs s :
  0 <= cap -> Forall (Forall release_ok) programs -> qinv cap programs s ->
  exists more, Forall ended_thread (y_threads (fold_left qstep more s)).
Proof.
  intros Hc Hp. remember (work s) as n eqn:En. revert s En.
  induction n as [n IH] using lt_wf_ind. intros s En Hs.
  assert (D : Forall ended_thread (y_threads s) \/
              exists i t, nth_error (y_threads s) i = Some t /\ t <> mkThread QIdle []).
  { clear. induction (y_threads s) as [|x l IHl].
    - left. constructor.
    - destruct x as [pc todo].
      assert (Dx : mkThread pc todo = mkThread QIdle [] \/ mkThread pc todo <> mkThread QIdle []).
      { destruct pc; try (right; discriminate). destruct todo; [left; reflexivity|right; discriminate]. }
      destruct Dx as [E|E].
      + destruct IHl as [F|(i & t & Hi & Ht)].
        * left. constructor; assumption.
        * right. exists (S i), t. auto.
      + right. exists O, (mkThread pc todo). auto. }
  destruct D as [F|(i & t & Hi & Ht)]; [exists []; exact F|].
  assert (P : exists j, (work (qstep s j) < work s)%nat).
  { destruct (y_lock s) as [h|] eqn:Hl.
    - destruct (qi_holder _ _ _ Hs h Hl) as (u & Hu & Hin). exists h.
      apply qstep_progress with u; auto.
      + intros ->. destruct Hin.
      + intros c E. rewrite E in Hin. destruct Hin.
    - exists i. apply qstep_progress with t; auto. }
  destruct P as [j Hj].
  destruct (IH _ ltac:(rewrite En; exact Hj) (qstep s j) eq_refl) as [more Hm].
  { apply qstep_inv; assumption. }
  exists (j :: more). exact Hm.
Qed.

(** ** Accounting *)
Lemma total_app a b : total (a ++ b) = total a + total b.
Proof. unfold total. induction a as [|x a IH]; cbn [app fold_right]; lia. Qed.

Lemma owed_nonneg l : 0 <= owed l.
Proof. induction l as [|c l IH]; cbn [owed]; lia. Qed.

Lemma owed_snoc l c : owed (l ++ [c]) = Z.max 0 (owed l + c).
Proof.
  induction l as [|x l IH].
  - cbn [app owed]. unfold total. cbn [fold_right]. lia.
  - cbn [app]. cbn [owed]. rewrite IH.
    change (x :: l ++ [c]) with ((x :: l) ++ [c]). rewrite total_app.
    replace (total [c]) with c by (unfold total; cbn [fold_right]; lia).
    pose proof (owed_nonneg l). lia.
Qed.

Lemma charges_snoc rb h o : charges rb (h ++ [o]) = charges rb h ++ [charge (rev h ++ rb) o].
Proof.
  revert rb. induction h as [|x h IH]; intros rb; [reflexivity|].
  cbn [app charges rev]. rewrite IH, <- app_assoc. reflexivity.
Qed.

Record ainv (cap : Z) (s : shared) : Prop := {
  ai_max : q_max (d_quota (h_strategy s)) = cap;
  ai_avail : q_avail (d_quota (h_strategy s)) = cap - owed (charges [] (h_seen s));
  ai_pos : 0 <= q_avail (d_quota (h_strategy s));
  ai_token : forall i t, h_tokens s i = Some t ->
     last_price i (rev (h_seen s)) = (if k_quota t =? 0 then None else Some (k_quota t)) /\ 0 <= k_quota t
}.

Lemma ainv_snoc cap st toks s i t' o :
  ainv cap s ->
  q_max (d_quota st) = cap ->
  q_avail (d_quota st) =
    cap - Z.max 0 (owed (charges [] (h_seen s)) + charge (rev (h_seen s)) o) ->
  0 <= q_avail (d_quota st) ->
  (forall j, j <> i -> last_price j (o :: rev (h_seen s)) = last_price j (rev (h_seen s))) ->
  toks = set_token (h_tokens s) i t' ->
  (forall t, t' = Some t ->
     last_price i (o :: rev (h_seen s)) = (if k_quota t =? 0 then None else Some (k_quota t)) /\ 0 <= k_quota t) ->
  ainv cap (mkShared st toks (h_seen s ++ [o])).
Proof.
  intros Hs Hm Ha Hp Hoth -> Hnew. constructor; cbn [h_strategy h_seen h_tokens].
  - exact Hm.
  - rewrite charges_snoc, app_nil_r, owed_snoc. exact Ha.
  - exact Hp.
  - intros j t Hj. rewrite rev_app_distr. cbn [rev app]. unfold set_token in Hj.
    destruct (Nat.eqb_spec j i) as [->|Hne]; [auto|].
    rewrite Hoth by exact Hne. exact (ai_token _ _ Hs _ _ Hj).
Qed.

(** What refreshing a token does to the quota. *)
Lemma refresh_quota s t e r res s' :
  standard_refresh s t e r = (res, s') ->
  d_max s' = d_max s /\ q_max (d_quota s') = q_max (d_quota s) /\
  match res with
  | Granted t' =>
    exists i, e = Some i /\ ri_safe i = Some true /\ k_count t' = k_count t + 1 /\ k_count t' < d_max s /\
      k_quota t' = (if ri_throttling i then 5 else 14) /\ k_quota t' <= q_avail (d_quota s) /\
      q_avail (d_quota s') = q_avail (d_quota s) - k_quota t'
  | _ => d_quota s' = d_quota s
  end.
Proof.
  unfold standard_refresh. destruct e as [i|]; [|intros H; injection H as <- <-; auto].
  destruct (ri_safe i) as [[|]|] eqn:Es; try (intros H; injection H as <- <-; auto; fail).
  destruct (Z.leb_spec (d_max s) (k_count t + 1)) as [Hle|Hlt]; [intros H; injection H as <- <-; auto|].
  destruct (compute_delay (if ri_throttling i then d_throttling s else d_backoff s) (k_count t + 1) r)
    as [[ti|x] b'] eqn:Ed; [|intros H; injection H as <- <-; auto].
  cbv zeta. set (s1 := if ri_throttling i then _ else _).
  assert (E1 : d_quota s1 = d_quota s /\ d_max s1 = d_max s) by (subst s1; destruct (ri_throttling i); auto).
  destruct E1 as [E1 E2]. unfold q_acquire. rewrite E1.
  assert (Ec : cost_of (Some i) = if ri_throttling i then 5 else 14).
  { unfold cost_of. destruct (ri_throttling i); reflexivity. }
  destruct (Z.ltb_spec (q_avail (d_quota s)) (cost_of (Some i))) as [H|H].
  - intros E; injection E as <- <-. rewrite E1. auto.
  - intros E; injection E as <- <-. cbn [d_max d_quota q_max q_avail k_count k_quota].
    split; [exact E2|]. split; [reflexivity|]. exists i. rewrite Ec in *.
    repeat split; auto; lia.
Qed.

Lemma opstep_inv cap s c : 0 <= cap -> ainv cap s -> ainv cap (opstep s c).
Proof.
  intros Hcap Hs. pose proof (ai_max _ _ Hs) as Hm. pose proof (ai_avail _ _ Hs) as Ha. pose proof (ai_pos _ _ Hs) as Hp.
  pose proof (owed_nonneg (charges [] (h_seen s))) as Hn.
  destruct c as [i|i e r|i]; cbn [opstep].
  - destruct (h_tokens s i) as [t|] eqn:Et; [exact Hs|].
    eapply ainv_snoc; eauto.
    + cbn [charge]. lia.
    + intros j Hj. cbn [last_price]. destruct (Nat.eqb_spec i j); [congruence|reflexivity].
    + intros t E. injection E as <-. cbn [last_price standard_acquire k_quota].
      rewrite Nat.eqb_refl. split; [reflexivity|lia].
  - destruct (h_tokens s i) as [t|] eqn:Et; [|exact Hs].
    destruct (standard_refresh (h_strategy s) t e r) as [res st] eqn:Er.
    pose proof (refresh_quota _ _ _ _ _ _ Er) as (_ & Hqm & Hres).
    destruct res as [t'|a|x].
    + destruct Hres as (inf & -> & Hsafe & _ & _ & Hq & Hle & Hav). cbn [throttled].
      eapply ainv_snoc; eauto.
      * congruence.
      * cbn [charge]. rewrite Hav, Ha, Hq. destruct (ri_throttling inf); lia.
      * lia.
      * intros j Hj. cbn [last_price]. destruct (Nat.eqb_spec i j); [congruence|reflexivity].
      * intros t0 E. injection E as <-. cbn [last_price]. rewrite Nat.eqb_refl, Hq.
        destruct (ri_throttling inf); split; try reflexivity; lia.
    + eapply ainv_snoc; eauto; [congruence| |congruence|discriminate].
      cbn [charge]. rewrite Hres. lia.
    + eapply ainv_snoc; eauto; [congruence| |congruence|discriminate].
      cbn [charge]. rewrite Hres. lia.
  - destruct (h_tokens s i) as [t|] eqn:Et; [|exact Hs].
    destruct (ai_token _ _ Hs _ _ Et) as [Hlp Hk].
    eapply ainv_snoc; eauto; [| | |discriminate].
    + unfold standard_success, q_release. cbn [d_quota].
      destruct (q_avail _ =? q_max _); exact Hm.
    + cbn [charge]. rewrite Hlp. unfold standard_success, q_release, increment_of, NO_RETRY_INCREMENT.
      cbn [d_quota]. rewrite Hm.
      destruct (Z.eqb_spec (q_avail (d_quota (h_strategy s))) cap) as [E|E];
        destruct (Z.eqb_spec (k_quota t) 0) as [E'|E']; cbn [q_avail]; lia.
    + unfold standard_success, q_release, increment_of, NO_RETRY_INCREMENT. cbn [d_quota].
      destruct (q_avail _ =? q_max _); [exact Hp|]. rewrite Hm. cbn [q_avail].
      destruct (Z.eqb_spec (k_quota t) 0); lia.
Qed.

Lemma run_ops_inv cap st cs :
  0 <= cap -> d_quota st = new_quota cap -> ainv cap (run_ops st cs).
Proof.
  intros Hc Hq. unfold run_ops.
  assert (G : forall s, ainv cap s -> ainv cap (fold_left opstep cs s)).
  { induction cs as [|c cs IH]; intros s Hs; cbn [fold_left]; auto. apply IH, opstep_inv; auto. }
  apply G. constructor; cbn [h_strategy h_seen h_tokens].
  - rewrite Hq. reflexivity.
  - rewrite Hq. cbn [new_quota q_avail charges owed]. lia.
  - rewrite Hq. exact Hc.
  - discriminate.
Qed.

(** ** Delays *)
Local Open Scope Q_scope.
Lemma pmin_spec a b : pmin a b == Qmin a b.
Proof.
  unfold pmin. destruct (Qlt_le_dec b a) as [H|H].
  - symmetry. apply Q.min_r. apply Qlt_le_weak, H.
  - symmetry. apply Q.min_l, H.
Qed.
Lemma pmax_spec a b : pmax a b == Qmax a b.
Proof.
  unfold pmax. destruct (Qlt_le_dec a b) as [H|H].
  - symmetry. apply Q.max_r. apply Qlt_le_weak, H.
  - symmetry. apply Q.max_l, H.
Qed.

Lemma pow2_pos n : 0 <= 2 ^ n.
Proof. apply Qpower.Qpower_pos. discriminate. Qed.

Lemma capped_nonneg scale mx n : 0 <= scale -> 0 <= mx -> 0 <= capped scale mx n.
Proof.
  intros Hs Hm. unfold capped. apply Q.min_glb; [|exact Hm].
  apply Qmult_le_0_compat; [exact Hs|]. apply pow2_pos.
Qed.

Lemma frac_le r c : 0 <= r <= 1 -> 0 <= c -> 0 <= r * c <= c.
Proof. intros [H1 H2] Hc. split; nra. Qed.

Lemma uncapped_ok b n u : uncapped b n = Ok u -> u = b_scale b * 2 ^ (n - 1) /\ (n <= 1024)%Z.
Proof. unfold uncapped. destruct (Z.leb_spec 1024 (n - 1)); [discriminate|]. intros E; injection E as <-. split; [reflexivity|lia]. Qed.

Lemma uncapped_le b n : (n <= 1024)%Z -> uncapped b n = Ok (b_scale b * 2 ^ (n - 1)).
Proof. intros H. unfold uncapped. destruct (Z.leb_spec 1024 (n - 1)); [lia|reflexivity]. Qed.

Lemma next_delay_documented b n r d :
  0 <= b_scale b -> 0 <= b_max b -> 0 <= b_prev b -> 0 <= r <= 1 ->
  next_delay b n r = Ok d ->
  documented (b_scale b) (b_max b) (b_prev b) (b_jitter b) n d /\ 0 <= d <= b_max b.
Proof.
  intros Hs Hm Hp Hr. unfold next_delay.
  pose proof (capped_nonneg (b_scale b) (b_max b) n Hs Hm) as Hc.
  assert (Hcm : capped (b_scale b) (b_max b) n <= b_max b) by apply Q.le_min_r.
  destruct (b_jitter b); cbn [documented].
  - destruct (uncapped b n) as [u|] eqn:Eu; cbn [bind]; [|discriminate].
    apply uncapped_ok in Eu as [-> _]. intros E. injection E as <-.
    rewrite pmin_spec. fold (capped (b_scale b) (b_max b) n).
    generalize dependent (capped (b_scale b) (b_max b) n). intros c Hc Hcm.
    destruct Hr as [Hr1 Hr2].
    assert (0 <= r * c) by nra. assert (r * c <= c) by nra.
    repeat split; try (setoid_replace ((r * (1 # 2) + (1 # 2)) * c) with (r * c * (1 # 2) + c * (1 # 2)) by ring);
      try (setoid_replace (c / 2) with (c * (1 # 2)) by reflexivity); lra.
  - destruct (uncapped b n) as [u|] eqn:Eu; cbn [bind]; [|discriminate].
    apply uncapped_ok in Eu as [-> _]. intros E. injection E as <-.
    rewrite pmin_spec. fold (capped (b_scale b) (b_max b) n). split; [reflexivity|]. auto.
  - destruct (uncapped b n) as [u|] eqn:Eu; cbn [bind]; [|discriminate].
    apply uncapped_ok in Eu as [-> _]. intros E. injection E as <-.
    rewrite pmin_spec. fold (capped (b_scale b) (b_max b) n).
    pose proof (frac_le r _ Hr Hc) as [H1 H2]. repeat split; auto. lra.
  - intros E. injection E as <-. rewrite pmin_spec.
    assert (0 <= r * b_prev b * 3) by (destruct Hr; assert (0 <= r * b_prev b) by nra; lra).
    assert (r * b_prev b * 3 <= 3 * b_prev b).
    { destruct (frac_le r (b_prev b) Hr Hp). lra. }
    repeat split.
    + apply Q.min_le_compat_r. lra.
    + apply Q.min_le_compat_r. lra.
    + apply Q.min_glb; lra.
    + apply Q.le_min_r.
Qed.

(** The state of a backoff strategy stays in range over any history of calls. *)
Definition backoff_ok (b : backoff) : Prop := 0 <= b_scale b /\ 0 <= b_max b /\ 0 <= b_prev b.

Lemma compute_delay_ok b n r d b' :
  backoff_ok b -> 0 <= r <= 1 -> compute_delay b n r = (d, b') ->
  backoff_ok b' /\ b_scale b' = b_scale b /\ b_max b' = b_max b /\ b_jitter b' = b_jitter b /\
  match d with
  | Ok q => 0 <= q <= b_max b /\
            (n <> 0%Z -> documented (b_scale b) (b_max b) (b_prev b) (b_jitter b) n q) /\
            (n = 0%Z -> q = 0)
  | Err e => (1024 < n)%Z /\ e = OverflowError
  end.
Proof.
  intros (Hs & Hm & Hp) Hr. unfold compute_delay.
  destruct (Z.eqb_spec n 0) as [->|Hn].
  - intros E. injection E as <- <-. repeat split; auto; try lra; try congruence.
  - destruct (next_delay b n r) as [q|e] eqn:En.
    + intros E. injection E as <- <-.
      destruct (next_delay_documented b n r q Hs Hm Hp Hr En) as [H1 H2].
      split; [repeat split; cbn [b_scale b_max b_prev]; auto; apply H2|].
      cbn [b_scale b_max b_jitter b_prev]. repeat split; auto; try apply H2. congruence.
    + intros E. injection E as <- <-. repeat split; auto.
      * unfold next_delay, uncapped in En.
        destruct (b_jitter b); try (destruct (Z.leb_spec 1024 (n - 1)); cbn [bind] in En; [lia|discriminate En]);
          discriminate En.
      * unfold next_delay, uncapped in En.
        destruct (b_jitter b); try (destruct (Z.leb_spec 1024 (n - 1)); cbn [bind] in En; congruence).
Qed.

Lemma delays_ok b calls d :
  backoff_ok b -> Forall (fun c => 0 <= snd c <= 1) calls -> In d (delays b calls) ->
  match d with Ok q => 0 <= q <= b_max b | Err e => e = OverflowError end.
Proof.
  revert b. induction calls as [|[n r] l IH]; intros b Hb Hc Hd; [destruct Hd|].
  cbn [delays] in Hd. destruct (compute_delay b n r) as [x b'] eqn:E.
  inversion Hc as [|c0 l0 H1 H2]; subst. cbn [snd] in H1.
  destruct (compute_delay_ok _ _ _ _ _ Hb H1 E) as (Hb' & _ & Hmx & _ & Hx).
  destruct Hd as [<-|Hd].
  - destruct x as [q|e]; [apply Hx|apply Hx].
  - specialize (IH b' Hb' H2 Hd). rewrite Hmx in IH. exact IH.
Qed.

Lemma clamp_range ti a : ti <= clamp_delay ti a <= ti + 5.
Proof.
  unfold clamp_delay, RETRY_AFTER_MAX_ADDITIONAL. destruct a as [a|]; [|lra].
  rewrite pmax_spec, pmin_spec. split; [apply Q.le_max_l|].
  apply Q.max_lub; [lra|]. pose proof (Q.le_min_r a (5 + ti)). lra.
Qed.

Lemma clamp_inside ti a : ti <= a <= ti + 5 -> clamp_delay ti (Some a) == a.
Proof.
  intros [H1 H2]. unfold clamp_delay, RETRY_AFTER_MAX_ADDITIONAL.
  rewrite pmax_spec, pmin_spec. rewrite Q.min_l by lra. apply Q.max_r, H1.
Qed.
Local Close Scope Q_scope.

(** ** The loop *)
Section LoopProofs.
  Context {W Out Er Tok : Type}.
  Variable delay_of : Tok -> Q.
  Variable refresh : Tok -> Er -> W -> (Tok + (option Q + Er)) * W.
  Variable success : Tok -> W -> option Er * W.
  Variable attempt : W -> Out * W.
  Variable failure : Out -> option Er.
  Variable rewind : W -> option Er * W.
  Variable long_polling : bool.
  Notation loop := (retry_loop delay_of refresh success attempt failure rewind long_polling).
  Notation rnd := (round (Out := Out) (Err := Er) delay_of).
  Notation pse := (pause (Out := Out) (Err := Er) delay_of).

  Lemma pause_eq t : (if nonzero (delay_of t) then [ASleep (delay_of t)] else []) = pse t.
  Proof. unfold nonzero, pause. destruct (Qeq_bool (delay_of t) 0); reflexivity. Qed.

  Lemma loop_shape fuel t w res tr w' :
    loop fuel t w = Some (res, tr, w') ->
    exists rounds tlast last o,
      tr = flat_map rnd rounds ++ last /\ linked refresh failure t rounds tlast /\ last_round delay_of failure long_polling tlast last res o /\
      attempts tr = map (fun x => snd (fst x)) rounds ++ [o].
  Proof.
    revert t w res tr w'. induction fuel as [|fuel IH]; intros t w res tr w' H; [discriminate H|].
    cbn [retry_loop] in H. destruct (attempt w) as [o w1] eqn:Ea.
    rewrite pause_eq in H.
    assert (Hpa : forall l, attempts (pse t ++ l) = attempts (Out:=Out) (Err:=Er) l).
    { intros l. unfold attempts, pause. destruct (Qeq_bool (delay_of t) 0); reflexivity. }
    destruct (failure o) as [e|] eqn:Ef.
    - destruct (refresh t e w1) as [r w2] eqn:Er0. destruct r as [t'|[a|e']].
      + destruct (rewind w2) as [x w3] eqn:Ew. destruct x as [e'|].
        * injection H as <- <- <-. exists [], t, (pse t ++ [AAttempt o; ARefresh t e; ARewind]), o.
          cbn [flat_map app linked map]. repeat split.
          -- apply lr_rewind_raises, Ef.
          -- rewrite Hpa. reflexivity.
        * destruct (loop fuel t' w3) as [[[res' tr'] w4]|] eqn:El; [|discriminate H].
          injection H as <- <- <-.
          destruct (IH _ _ _ _ _ El) as (rounds & tl & last & ol & -> & Hlink & Hlast & Hatt).
          exists ((t, o, e) :: rounds), tl, last, ol.
          cbn [flat_map round linked map fst snd]. repeat split; auto.
          -- rewrite <- !app_assoc. reflexivity.
          -- exists t', w1, w2. auto.
          -- rewrite Hpa. unfold attempts in *. cbn [flat_map app]. rewrite Hatt. reflexivity.
      + injection H as <- <- <-. eexists [], t, _, o. cbn [flat_map app linked map].
        split; [reflexivity|]. repeat split.
        * apply lr_refused; [exact Ef|]. destruct a as [d|]; [|left; reflexivity].
          destruct long_polling; [right; exists d; auto|left; reflexivity].
        * rewrite Hpa. destruct a as [d|]; [destruct long_polling|]; reflexivity.
      + injection H as <- <- <-. exists [], t, (pse t ++ [AAttempt o; ARefresh t e]), o.
        cbn [flat_map app linked map]. repeat split.
        * apply lr_refresh_raises, Ef.
        * rewrite Hpa. reflexivity.
    - destruct (success t w1) as [x w2] eqn:Es. destruct x as [e'|].
      + injection H as <- <- <-. exists [], t, (pse t ++ [AAttempt o; ASuccess t]), o.
        cbn [flat_map app linked map]. repeat split.
        * apply lr_success_raises, Ef.
        * rewrite Hpa. reflexivity.
      + injection H as <- <- <-. exists [], t, (pse t ++ [AAttempt o; ASuccess t]), o.
        cbn [flat_map app linked map]. repeat split.
        * apply lr_success, Ef.
        * rewrite Hpa. reflexivity.
  Qed.

  (** A strategy that only grants tokens with growing counters below a bound
      ends the loop, and only failures it deems safe are followed by a retry. *)
  Variable count : Tok -> Z.
  Variable bound : Z.
  Variable safe : Er -> Prop.
  Variable inv : W -> Prop.
  Hypothesis refresh_inv : forall t e w r w', inv w -> refresh t e w = (r, w') -> inv w'.
  Hypothesis attempt_inv : forall w o w', inv w -> attempt w = (o, w') -> inv w'.
  Hypothesis rewind_inv : forall w x w', inv w -> rewind w = (x, w') -> inv w'.
  Hypothesis grants : forall t e w t' w', inv w -> refresh t e w = (inl t', w') ->
     count t' = count t + 1 /\ count t' < bound /\ safe e.

  Lemma loop_bounded fuel t w :
    inv w -> (Z.to_nat (bound - count t) <= fuel)%nat -> (1 <= fuel)%nat ->
    exists res tr w', loop fuel t w = Some (res, tr, w') /\
      1 <= Z.of_nat (List.length (attempts tr)) <= Z.max 1 (bound - count t) /\
      Forall (fun o => exists e, failure o = Some e /\ safe e) (removelast (attempts tr)).
  Proof.
    revert t w. induction fuel as [|fuel IH]; intros t w Hw Hf H1; [lia|].
    cbn [retry_loop]. destruct (attempt w) as [o w1] eqn:Ea. rewrite pause_eq.
    assert (Hpa : forall l, attempts (pse t ++ l) = attempts (Out:=Out) (Err:=Er) l).
    { intros l. unfold attempts, pause. destruct (Qeq_bool (delay_of t) 0); reflexivity. }
    pose proof (attempt_inv _ _ _ Hw Ea) as Hw1.
    destruct (failure o) as [e|] eqn:Ef.
    - destruct (refresh t e w1) as [r w2] eqn:Er0. pose proof (refresh_inv _ _ _ _ _ Hw1 Er0) as Hw2.
      destruct r as [t'|[a|e']].
      + destruct (grants _ _ _ _ _ Hw1 Er0) as (Hc & Hb & Hs).
        destruct (rewind w2) as [x w3] eqn:Ew. pose proof (rewind_inv _ _ _ Hw2 Ew) as Hw3.
        destruct x as [e'|].
        * eexists _, _, _. split; [reflexivity|]. rewrite Hpa. cbn [attempts flat_map app List.length removelast].
          split; [lia|constructor].
        * destruct (IH t' w3 Hw3) as (res & tr & w4 & El & Hn & Hall); [lia|lia|].
          rewrite El. eexists _, _, _. split; [reflexivity|]. rewrite Hpa.
          change (attempts ([AAttempt o; ARefresh t e; ARewind] ++ tr)) with (o :: attempts tr).
          split; [cbn [List.length]; lia|].
          cbn [removelast]. destruct (attempts tr) as [|x l] eqn:El'.
          -- constructor.
          -- constructor; [exists e; auto|exact Hall].
      + eexists _, _, _. split; [reflexivity|]. rewrite Hpa.
        assert (E : attempts ([AAttempt o; ARefresh t e] ++
                    match a with Some d => if long_polling then [ASleep d] else [] | None => [] end) = [o]).
        { destruct a as [d|]; [destruct long_polling|]; reflexivity. }
        rewrite E. cbn [List.length removelast]. split; [lia|constructor].
      + eexists _, _, _. split; [reflexivity|]. rewrite Hpa.
        cbn [attempts flat_map app List.length removelast]. split; [lia|constructor].
    - destruct (success t w1) as [x w2] eqn:Es.
      destruct x as [e'|]; (eexists _, _, _; split; [reflexivity|]; rewrite Hpa;
        cbn [attempts flat_map app List.length removelast]; split; [lia|constructor]).
  Qed.

  (** If no retry is granted for an unsafe failure then the loop gives that failure. *)
End LoopProofs.

(** ** The strategies inside the loop *)
Section Strategies.
  Context {A Out Er : Type}.
  Variable info : Er -> option retry_info.
  Variable of_exn : exn -> Er.
  Variable draw : A -> Q * A.

  Lemma std_grants t e (w : standard * A) r w' :
    std_refresh info of_exn draw t e w = (r, w') ->
    d_max (fst w') = d_max (fst w) /\
    forall t', r = inl t' -> k_count t' = k_count t + 1 /\ k_count t' < d_max (fst w) /\
      exists i, info e = Some i /\ ri_safe i = Some true.
  Proof.
    unfold std_refresh. destruct w as [s a]. cbn [fst snd]. destruct (draw a) as [q a1].
    destruct (standard_refresh s t (info e) q) as [res s'] eqn:E.
    pose proof (refresh_quota _ _ _ _ _ _ E) as (H1 & _ & H3).
    destruct res as [t'|x|x]; intros H; injection H as <- <-; cbn [fst]; (split; [exact H1|]);
      intros t0 E0; try discriminate E0. injection E0 as <-.
    destruct H3 as (i & Hi & Hs & Hc & Hb & _). eauto.
  Qed.

  Lemma smp_grants t e (w : simple * A) r w' :
    smp_refresh info of_exn draw t e w = (r, w') ->
    s_max (fst w') = s_max (fst w) /\
    forall t', r = inl t' -> k_count t' = k_count t + 1 /\ k_count t' < s_max (fst w) /\
      exists i, info e = Some i /\ ri_safe i = Some true.
  Proof.
    unfold smp_refresh. destruct w as [s a]. cbn [fst snd]. destruct (draw a) as [q a1].
    unfold simple_refresh. destruct (info e) as [i|] eqn:Ei.
    2: { intros H; injection H as <- <-. split; [reflexivity|discriminate]. }
    destruct (ri_safe i) as [[|]|] eqn:Es;
      try (intros H; injection H as <- <-; split; [reflexivity|discriminate]; fail).
    destruct (Z.leb_spec (s_max s) (k_count t + 1)).
    - intros H0; injection H0 as <- <-. split; [reflexivity|discriminate].
    - destruct (compute_delay (s_backoff s) (k_count t + 1) q) as [[d|x] b].
      + intros H0; injection H0 as <- <-. split; [reflexivity|]. intros t' E. injection E as <-.
        cbn [k_count fst]. repeat split; eauto.
      + intros H0; injection H0 as <- <-. split; [reflexivity|discriminate].
  Qed.
End Strategies.

(** A run in which every attempt fails and every refresh below the bound is
    granted uses all attempts. *)
Section Exhaust.
  Context {W Out Er Tok : Type}.
  Variable delay_of : Tok -> Q.
  Variable refresh : Tok -> Er -> W -> (Tok + (option Q + Er)) * W.
  Variable success : Tok -> W -> option Er * W.
  Variable attempt : W -> Out * W.
  Variable failure : Out -> option Er.
  Variable rewind : W -> option Er * W.
  Variable long_polling : bool.
  Variable count : Tok -> Z.
  Variable bound : Z.
  Variable inv : Z -> W -> Prop.    (* by the number of the next attempt *)
  Hypothesis attempt_fails : forall n w o w', inv n w -> attempt w = (o, w') ->
     inv n w' /\ exists e, failure o = Some e.
  Hypothesis granted : forall t e w, inv (count t) w -> count t + 1 < bound ->
     exists t' w', refresh t e w = (inl t', w') /\ count t' = count t + 1 /\ inv (count t') w'.
  Hypothesis refused : forall t e w, inv (count t) w -> bound <= count t + 1 ->
     exists q w', refresh t e w = (inr (inl q), w').
  Hypothesis rewinds : forall n w, inv n w -> exists w', rewind w = (None, w') /\ inv n w'.

  Lemma loop_exhausts fuel t w :
    inv (count t) w -> (Z.to_nat (bound - count t) <= fuel)%nat -> (1 <= fuel)%nat ->
    exists e tr w', retry_loop delay_of refresh success attempt failure rewind long_polling fuel t w
                    = Some (Threw e, tr, w') /\
      Z.of_nat (List.length (attempts tr)) = Z.max 1 (bound - count t).
  Proof.
    revert t w. induction fuel as [|fuel IH]; intros t w Hw Hf H1; [lia|].
    cbn [retry_loop]. destruct (attempt w) as [o w1] eqn:Ea. rewrite pause_eq.
    destruct (attempt_fails _ _ _ _ Hw Ea) as (Hw1 & e & Ef). rewrite Ef.
    assert (Hpa : forall l, attempts (pause (Out:=Out) (Err:=Er) delay_of t ++ l) = attempts l).
    { intros l. unfold attempts, pause. destruct (Qeq_bool (delay_of t) 0); reflexivity. }
    destruct (Z.lt_ge_cases (count t + 1) bound) as [Hlt|Hge].
    - destruct (granted t e w1 Hw1 Hlt) as (t' & w2 & Er0 & Hc & Hw2). rewrite Er0.
      destruct (rewinds _ _ Hw2) as (w3 & Ew & Hw3). rewrite Ew.
      destruct (IH t' w3 Hw3) as (e' & tr & w4 & El & Hn); [lia|lia|]. rewrite El.
      eexists _, _, _. split; [reflexivity|]. rewrite Hpa.
      change (attempts ([AAttempt o; ARefresh t e; ARewind] ++ tr)) with (o :: attempts tr).
      cbn [List.length]. lia.
    - destruct (refused t e w1 Hw1 Hge) as (q & w2 & Er0). rewrite Er0.
      eexists _, _, _. split; [reflexivity|]. rewrite Hpa.
      assert (E : attempts ([AAttempt o; ARefresh t e] ++
                  match q with Some d => if long_polling then [ASleep d] else [] | None => [] end) = [o]).
      { destruct q as [d|]; [destruct long_polling|]; reflexivity. }
      rewrite E. cbn [List.length]. lia.
  Qed.
End Exhaust.

(** Delays of the standard strategy. *)
Definition strategy_ok (s : standard) : Prop :=
  backoff_ok (d_backoff s) /\ backoff_ok (d_throttling s) /\
  (b_max (d_backoff s) <= 20)%Q /\ (b_max (d_throttling s) <= 20)%Q.

Lemma standard_refresh_delay s t e r res s' :
  strategy_ok s -> (0 <= r <= 1)%Q -> standard_refresh s t e r = (res, s') ->
  strategy_ok s' /\
  match res with
  | Granted t' => (0 <= k_delay t' <= 25)%Q
  | Refused (Some d) => (0 <= d <= 25)%Q
  | Refused None => True
  | Raised e => e = OverflowError
  end.
Proof.
  intros (H1 & H2 & H3 & H4) Hr. unfold standard_refresh.
  assert (Hs : strategy_ok s) by (repeat split; auto; try apply H1; apply H2).
  destruct e as [i|]; [|intros E; injection E as <- <-; auto].
  destruct (ri_safe i) as [[|]|]; try (intros E; injection E as <- <-; auto; fail).
  destruct (d_max s <=? k_count t + 1); [intros E; injection E as <- <-; auto|].
  destruct (compute_delay (if ri_throttling i then d_throttling s else d_backoff s) (k_count t + 1) r)
    as [d b'] eqn:Ed.
  assert (Hb : backoff_ok (if ri_throttling i then d_throttling s else d_backoff s))
    by (destruct (ri_throttling i); assumption).
  assert (Hbm : (b_max (if ri_throttling i then d_throttling s else d_backoff s) <= 20)%Q)
    by (destruct (ri_throttling i); assumption).
  destruct (compute_delay_ok _ _ _ _ _ Hb Hr Ed) as (Hb' & _ & Hmx & _ & Hd).
  destruct d as [ti|x].
  2: { intros E; injection E as <- <-. split; [exact Hs|apply Hd]. }
  cbv zeta. set (s1 := if ri_throttling i then _ else _).
  assert (Hs1 : strategy_ok s1).
  { subst s1. destruct (ri_throttling i); repeat split; cbn [d_backoff d_throttling];
      try apply H1; try apply H2; try apply Hb'; auto; rewrite Hmx; auto. }
  assert (Hc : (0 <= clamp_delay ti (ri_after i) <= 25)%Q).
  { destruct Hd as [Hd _]. pose proof (clamp_range ti (ri_after i)). lra. }
  unfold q_acquire. destruct (q_avail (d_quota s1) <? cost_of (Some i)).
  - intros E; injection E as <- <-. auto.
  - intros E; injection E as <- <-. split; [exact Hs1|exact Hc].
Qed.
