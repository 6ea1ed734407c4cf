(** Progress of the byte provider with one producer and one consumer. *)
From Verif Require Import Base Base_Proofs Provider_Model Provider_Spec Provider_Proofs.

Definition is_write (c : call) : bool := match c with Write _ => true | _ => false end.
Definition is_flush (c : call) : bool := match c with Flush => true | _ => false end.
Definition is_close (c : call) : bool := match c with Close _ => true | _ => false end.

(** A waiting producer call. *)
Record prod_ok (p : provider) (w : waiter) : Prop := {
  po_prod : producer (w_call w) = true;
  po_open : closed p = false;
  po_flush : flushing p = is_flush (w_call w);
  po_close : closing p = is_close (w_call w);
  po_woken : w_woken w = true -> is_write (w_call w) = true -> List.length (data p) < max_chunks p;
  po_wait : w_woken w = false -> data p <> []
}.
Record cons_ok (p : provider) (w : waiter) : Prop := {
  co_call : w_call w = Next;
  co_wait : w_woken w = false -> data p = [] /\ closed p = false
}.

Definition two (prod cons : option waiter) (ws : list waiter) : Prop :=
  ws = opt_list prod ++ opt_list cons \/ ws = opt_list cons ++ opt_list prod.

Record live (p : provider) (prod cons : option waiter) : Prop := {
  lv_max : 1 <= max_chunks p;
  lv_len : List.length (data p) <= max_chunks p;
  lv_two : two prod cons (waiters p);
  lv_prod : forall w, prod = Some w -> prod_ok p w;
  lv_none : prod = None -> flushing p = false /\ closing p = false;
  lv_cons : forall w, cons = Some w -> cons_ok p w;
  lv_ids : forall v w, prod = Some v -> cons = Some w -> w_id v <> w_id w;
  lv_old : forall w, prod = Some w \/ cons = Some w -> w_id w < next_id p
}.

Definition wake (o : option waiter) : option waiter :=
  match o with Some w => Some (mkWaiter (w_id w) (w_call w) true) | None => None end.

Lemma notify_opt o : notify (opt_list o) = opt_list (wake o).
Proof. destruct o as [[i c k]|]; [|reflexivity]. cbn. destruct k; reflexivity. Qed.
Lemma notify_all_opt o : notify_all (opt_list o) = opt_list (wake o).
Proof. destruct o as [[i c k]|]; reflexivity. Qed.

Definition measure (p : provider) (prod cons : option waiter) : nat :=
  3 * List.length (data p)
  + (match prod with Some w => if w_woken w then 1 else 0 | None => 0 end)
  + (match cons with None => 1 | Some w => if w_woken w then 2 else 0 end).

(** A producer's call runs while only the consumer can be waiting. *)
Lemma attempt_prod i c p cons : producer c = true -> waiters p = opt_list cons ->
  1 <= max_chunks p -> List.length (data p) <= max_chunks p -> closed p = false ->
  flushing p = is_flush c -> closing p = is_close c ->
  (forall w, cons = Some w -> cons_ok p w) ->
  i < next_id p -> (forall w, cons = Some w -> w_id w < next_id p /\ w_id w <> i) ->
  (attempt i c p = emit (Returned i c Done) (fst (finish c p)) /\ live (attempt i c p) None (wake cons)) \/
  (attempt i c p = emit (Returned i c Done) (fst (finish c p)) /\ live (attempt i c p) None cons) \/
  (data p <> [] /\ (is_write c = true -> List.length (data p) = max_chunks p) /\
   live (attempt i c p) (Some (mkWaiter i c false)) cons /\ data (attempt i c p) = data p).
Proof.
  intros P W M L C F G K I J. unfold attempt. destruct (may_go c p) eqn:Go.
  - destruct c as [b | | fl |]; [| | | discriminate P]; cbn [finish].
    + rewrite C, G. cbn [orb is_close]. left. split; [reflexivity|].
      cbn [may_go] in Go. unfold can_write in Go. rewrite C, G, F in Go. cbn in Go. apply andb_true_iff in Go as [Go _].
      apply Nat.ltb_lt in Go.
      constructor; cbn [emit with_waiters set_data data closed closing flushing max_chunks waiters next_id]; try discriminate.
      * exact M.
      * rewrite app_length. cbn. lia.
      * rewrite W, notify_opt. left. reflexivity.
      * intros _. rewrite F, G. now split.
      * intros w E. destruct cons as [v|]; [|discriminate E]. injection E as <-. constructor; cbn; [exact (co_call _ _ (K v eq_refl)) | discriminate].
      * intros w [E | E]; [discriminate E|]. destruct cons as [v|]; [|discriminate E]. injection E as <-. cbn. apply (J v eq_refl).
    + right. left. split; [reflexivity|].
      constructor; cbn [emit with_waiters set_flags data closed closing flushing max_chunks waiters next_id]; try discriminate; try assumption.
      * left. exact W.
      * intros _. rewrite G. now split.
      * intros w E. destruct (K w E) as [A B]. constructor; [exact A|]. exact B.
      * intros w [E | E]; [discriminate E|]. apply (J w E).
    + left. split; [reflexivity|].
      constructor; cbn [emit with_waiters set_flags data closed closing flushing max_chunks waiters next_id]; try discriminate; try assumption.
      * rewrite W, notify_all_opt. left. reflexivity.
      * intros _. rewrite F. now split.
      * intros w E. destruct cons as [v|]; [|discriminate E]. injection E as <-. constructor; cbn; [exact (co_call _ _ (K v eq_refl)) | discriminate].
      * intros w [E | E]; [discriminate E|]. destruct cons as [v|]; [|discriminate E]. injection E as <-. cbn. apply (J v eq_refl).
  - right. right.
    assert (D : data p <> []).
    { intros D. destruct c as [b | | fl |]; [| | | discriminate P]; cbn [may_go] in Go; unfold can_write, is_empty in Go;
        rewrite D in Go; try discriminate Go.
      rewrite C, G, F in Go. cbn in Go. rewrite andb_true_r in Go. destruct (max_chunks p); [lia | discriminate Go]. }
    split; [exact D|]. split.
    { intros Q. destruct c as [b | | fl |]; try discriminate Q. cbn [may_go] in Go. unfold can_write in Go. rewrite C, G, F in Go.
      cbn in Go. rewrite andb_true_r in Go. apply Nat.ltb_ge in Go. lia. }
    split; [|reflexivity].
    constructor; cbn [with_waiters data closed closing flushing max_chunks waiters next_id]; try discriminate; try assumption.
    + rewrite W. right. reflexivity.
    + intros w E. injection E as <-. constructor; cbn; try assumption; try discriminate. intros _. exact D.
    + intros w E. destruct (K w E) as [A B]. constructor; assumption.
    + intros v w E1 E2. injection E1 as <-. cbn. intros X. symmetry in X. revert X. apply (J w E2).
    + intros w [E | E]; [injection E as <-; exact I|]. apply (J w E).
Qed.

(** A read runs while only a producer can be waiting. *)
Lemma attempt_cons i p prod : waiters p = opt_list prod ->
  1 <= max_chunks p -> List.length (data p) <= max_chunks p ->
  (forall w, prod = Some w -> prod_ok p w) -> (prod = None -> flushing p = false /\ closing p = false) ->
  i < next_id p -> (forall w, prod = Some w -> w_id w < next_id p /\ w_id w <> i) ->
  (closed p = true /\ live (attempt i Next p) prod None) \/
  (exists b r, closed p = false /\ data p = b :: r /\ log (attempt i Next p) = Returned i Next (Chunk b) :: log p /\
     data (attempt i Next p) = r /\ live (attempt i Next p) (wake prod) None) \/
  (closed p = false /\ data p = [] /\ data (attempt i Next p) = [] /\
   live (attempt i Next p) prod (Some (mkWaiter i Next false))).
Proof.
  intros W M L K N I J. unfold attempt. cbn [may_go finish]. unfold is_empty. destruct (closed p) eqn:C; cbn [orb].
  - left. split; [reflexivity|].
    constructor; cbn [emit data closed closing flushing max_chunks waiters next_id]; try discriminate; try assumption.
    + left. rewrite app_nil_r. exact W.
    + intros w E. destruct (K w E) as [A1 A2]. congruence.
    + intros w [E | E]; [apply (J w E) | discriminate E].
  - destruct (data p) as [|b r] eqn:D; cbn [negb].
    + right. right. split; [reflexivity|]. split; [reflexivity|]. split; [exact D|].
      constructor; cbn [emit with_waiters data closed closing flushing max_chunks waiters next_id]; try discriminate; try assumption.
      * rewrite D. cbn. lia.
      * rewrite W. left. reflexivity.
      * intros w E. destruct (K w E) as [A1 A2 A3 A4 A5 A6].
        constructor; cbn [with_waiters data closed closing flushing max_chunks]; try assumption.
      * intros w E. injection E as <-. constructor; [reflexivity|]. intros _. cbn. now split.
      * intros v w E1 E2. injection E2 as <-. cbn. apply (J v E1).
      * intros w [E | E]; [apply (J w E) | injection E as <-; exact I].
    + right. left. exists b, r. repeat match goal with |- _ /\ _ => split end; try reflexivity.
      cbn in L.
      constructor; cbn [emit with_waiters set_data data closed closing flushing max_chunks waiters next_id]; try discriminate; try assumption.
      * lia.
      * rewrite W, notify_opt. left. rewrite app_nil_r. reflexivity.
      * intros w E. destruct prod as [v|]; [|discriminate E]. injection E as <-. destruct (K v eq_refl) as [A1 A2 A3 A4 A5 A6].
        constructor; cbn [emit with_waiters set_data data closed closing flushing max_chunks w_call w_woken w_id]; try assumption; try discriminate.
        intros _ _. lia.
      * intros E. destruct prod; [discriminate E|]. auto.
      * intros w [E | E]; [|discriminate E]. destruct prod as [v|]; [|discriminate E]. injection E as <-. cbn. apply (J v eq_refl).
Qed.

(** Taking a woken call out of the queue. *)
Lemma two_remove_prod w cons ws : two (Some w) cons ws -> (forall v, cons = Some v -> w_id w <> w_id v) ->
  remove_waiter (w_id w) ws = opt_list cons.
Proof.
  intros T N. assert (A : Nat.eqb (w_id w) (w_id w) = true) by apply Nat.eqb_refl.
  destruct cons as [v|].
  - assert (B : Nat.eqb (w_id v) (w_id w) = false) by (apply Nat.eqb_neq; intros E; apply (N v eq_refl); congruence).
    destruct T as [-> | ->]; unfold remove_waiter; cbn; rewrite A, B; reflexivity.
  - destruct T as [-> | ->]; unfold remove_waiter; cbn; rewrite A; reflexivity.
Qed.
Lemma two_remove_cons w prod ws : two prod (Some w) ws -> (forall v, prod = Some v -> w_id v <> w_id w) ->
  remove_waiter (w_id w) ws = opt_list prod.
Proof.
  intros T N. apply (two_remove_prod w prod ws).
  - destruct T as [-> | ->]; [right | left]; reflexivity.
  - intros v E X. apply (N v E). congruence.
Qed.

Lemma two_find i prod cons ws w : two prod cons ws -> find (fun w => Nat.eqb (w_id w) i) ws = Some w ->
  w_id w = i /\ (prod = Some w \/ cons = Some w).
Proof.
  intros T F. apply find_some in F as [I E]. apply Nat.eqb_eq in E. split; [exact E|].
  destruct T as [-> | ->]; apply in_app_or in I as [I | I];
    destruct prod as [a|], cons as [b|]; cbn in I; intuition congruence.
Qed.

Lemma busy_none b prod cons p : two prod cons (waiters p) -> busy b p = false ->
  (forall w, prod = Some w -> producer (w_call w) = true) -> (forall w, cons = Some w -> w_call w = Next) ->
  if b then prod = None else cons = None.
Proof.
  intros T B P C. unfold busy in B.
  assert (X : forall w, In w (waiters p) -> Bool.eqb (producer (w_call w)) b = false).
  { intros w I. destruct (Bool.eqb (producer (w_call w)) b) eqn:E; [|reflexivity].
    assert (Y : existsb (fun w => Bool.eqb (producer (w_call w)) b) (waiters p) = true) by (apply existsb_exists; now exists w).
    congruence. }
  destruct b.
  - destruct prod as [w|]; [|reflexivity]. assert (I : In w (waiters p)) by (destruct T as [-> | ->]; apply in_or_app; [left | right]; now left).
    specialize (X w I). rewrite (P w eq_refl) in X. discriminate X.
  - destruct cons as [w|]; [|reflexivity]. assert (I : In w (waiters p)) by (destruct T as [-> | ->]; apply in_or_app; [right | left]; now left).
    specialize (X w I). rewrite (C w eq_refl) in X. discriminate X.
Qed.

Lemma two_none_l cons ws : two None cons ws -> ws = opt_list cons.
Proof. intros [-> | ->]; [reflexivity | apply app_nil_r]. Qed.
Lemma two_none_r prod ws : two prod None ws -> ws = opt_list prod.
Proof. intros [-> | ->]; [apply app_nil_r | reflexivity]. Qed.

(** Only a producer that still waits, with less to do, or a producer that has
    returned normally. *)
Definition advanced (p p' : provider) (w : waiter) (cons : option waiter) : Prop :=
  (exists k cons', live p' (Some (mkWaiter (w_id w) (w_call w) k)) cons' /\
     measure p' (Some (mkWaiter (w_id w) (w_call w) k)) cons' < measure p (Some w) cons) \/
  (exists cons', live p' None cons' /\ In (Returned (w_id w) (w_call w) Done) (log p')).

Lemma resume_step p prod cons i p' : live p prod cons -> act (Resume i) p = Some p' ->
  (exists prod' cons', live p' prod' cons') /\ (forall w, prod = Some w -> advanced p p' w cons).
Proof.
  intros V A. cbn [act] in A. destruct (find_waiter i p) as [w|] eqn:Fw; [|discriminate A].
  destruct (w_woken w) eqn:Wk; [|discriminate A]. injection A as <-.
  destruct V as [M L T P Z C D O].
  unfold find_waiter in Fw. destruct (two_find _ _ _ _ _ T Fw) as [Ei [E | E]]; subst i.
  - (* the producer *)
    subst prod. set (q := with_waiters (remove_waiter (w_id w) (waiters p)) p).
    destruct (P w eq_refl) as [P1 P2 P3 P4 P5 P6].
    assert (R : remove_waiter (w_id w) (waiters p) = opt_list cons).
    { apply two_remove_prod; [exact T|]. intros v Ev. now apply D. }
    destruct (attempt_prod (w_id w) (w_call w) q cons P1 R M L P2 P3 P4) as [[Hq V] | [[Hq V] | [H1 [H2 [V H3]]]]].
    + intros v Ev. destruct (C v Ev) as [C1 C2]. constructor; assumption.
    + apply O. now left.
    + intros v Ev. split; [apply O; now right|]. intros X. apply (D w v eq_refl Ev). congruence.
    + split; [now exists None, (wake cons)|]. intros w' Ew. injection Ew as <-. right. exists (wake cons). split; [exact V|].
      rewrite Hq. now left.
    + split; [now exists None, cons|]. intros w' Ew. injection Ew as <-. right. exists cons. split; [exact V|].
      rewrite Hq. now left.
    + split; [now exists (Some (mkWaiter (w_id w) (w_call w) false)), cons|].
      intros w' Ew. injection Ew as <-. left. exists false, cons. split; [exact V|].
      unfold measure. rewrite H3. cbn [w_woken]. rewrite Wk. cbn [data with_waiters q]. lia.
  - (* the consumer *)
    subst cons. set (q := with_waiters (remove_waiter (w_id w) (waiters p)) p).
    destruct (C w eq_refl) as [C1 C2]. rewrite C1.
    assert (R : remove_waiter (w_id w) (waiters p) = opt_list prod).
    { apply two_remove_cons; [exact T|]. intros v Ev. now apply D. }
    destruct (attempt_cons (w_id w) q prod R M L) as [[H1 V] | [[b [r [H1 [H2 [H3 [H4 V]]]]]] | [H1 [H2 [H3 V]]]]].
    + intros v Ev. destruct (P v Ev) as [P1 P2 P3 P4 P5 P6]. constructor; assumption.
    + exact Z.
    + apply O. now right.
    + intros v Ev. split; [apply O; now left|]. now apply D.
    + split; [now exists prod, None|]. intros v Ev. cbn in H1. destruct (P v Ev) as [P1 P2]. congruence.
    + split; [now exists (wake prod), None|]. intros v ->. left. exists true, None. split; [exact V|].
      cbn [q with_waiters data] in H2. unfold measure. rewrite H4, H2, Wk. cbn [w_woken List.length]. destruct (w_woken v); lia.
    + split; [now exists prod, (Some (mkWaiter (w_id w) Next false))|]. intros v ->. left.
      exists (w_woken v), (Some (mkWaiter (w_id w) Next false)). split; [destruct v; exact V|].
      cbn [q with_waiters data] in H2. unfold measure. rewrite H3, H2, Wk. cbn [w_woken List.length]. destruct (w_woken v); lia.
Qed.

Lemma next_step p prod p' : live p prod None -> act (Start Next) p = Some p' ->
  (exists prod' cons', live p' prod' cons') /\ (forall w, prod = Some w -> advanced p p' w None) /\
  (data p <> [] -> closed p = false -> exists b r, data p = b :: r /\ In (Returned (next_id p) Next (Chunk b)) (log p')).
Proof.
  intros V A. rewrite act_start in A. injection A as <-. cbn [begin_call].
  destruct V as [M L T P Z C D O].
  destruct (attempt_cons (next_id p) (enter Next p) prod) as [[H1 V] | [[b [r [H1 [H2 [H3 [H4 V]]]]]] | [H1 [H2 [H3 V]]]]];
    cbn [enter waiters max_chunks data flushing closing closed next_id] in *; try assumption.
  - now apply two_none_r.
  - intros v Ev. destruct (P v Ev) as [P1 P2 P3 P4 P5 P6]. constructor; assumption.
  - lia.
  - intros v Ev. assert (X := O v (or_introl Ev)). lia.
  - split; [now exists prod, None|]. split; [|congruence]. intros v Ev. destruct (P v Ev) as [P1 P2]. congruence.
  - split; [now exists (wake prod), None|]. split.
    + intros v ->. left. exists true, None. split; [exact V|].
      unfold measure. rewrite H4, H2. cbn [w_woken List.length]. destruct (w_woken v); lia.
    + intros _ _. exists b, r. split; [exact H2|]. rewrite H3. now left.
  - split; [now exists prod, (Some (mkWaiter (next_id p) Next false))|]. split; [|congruence].
    intros v ->. left. exists (w_woken v), (Some (mkWaiter (next_id p) Next false)). split; [destruct v; exact V|].
    unfold measure. rewrite H3, H2. cbn [w_woken List.length]. destruct (w_woken v); lia.
Qed.

Lemma prod_step p cons c p' : producer c = true -> live p None cons -> act (Start c) p = Some p' ->
  exists prod' cons', live p' prod' cons'.
Proof.
  intros Pr V A. rewrite act_start in A. injection A as <-.
  destruct V as [M L T P Z C D O]. destruct (Z eq_refl) as [Zf Zc]. apply two_none_l in T.
  assert (G : forall q, waiters q = waiters p -> max_chunks q = max_chunks p -> data q = data p -> closed q = closed p ->
     next_id q = S (next_id p) -> closed p = false -> flushing q = is_flush c -> closing q = is_close c ->
     exists prod' cons', live (attempt (next_id p) c q) prod' cons').
  { intros q Q1 Q2 Q3 Q4 Q5 Cl Q6 Q7.
    destruct (attempt_prod (next_id p) c q cons) as [[_ V] | [[_ V] | [_ [_ [V _]]]]];
      rewrite ?Q1, ?Q2, ?Q3, ?Q4, ?Q5 in *; try assumption; try lia; try (eexists; eexists; exact V).
    - intros v Ev. destruct (C v Ev) as [C1 C2]. constructor; rewrite ?Q3, ?Q4; assumption.
    - intros v Ev. assert (X := O v (or_intror Ev)). lia. }
  assert (R : forall r, live (emit (Returned (next_id p) c r) (enter c p)) None cons).
  { intros r. constructor; cbn [emit enter data closed closing flushing max_chunks waiters next_id]; try discriminate; try assumption.
    - rewrite T. left. reflexivity.
    - intros v Ev. destruct (C v Ev) as [C1 C2]. constructor; assumption.
    - intros w W. assert (X := O w W). lia. }
  destruct c as [b | | f |]; [| | | discriminate Pr]; cbn [begin_call]; cbn [enter closed].
  - destruct (closed p) eqn:Cl; [eexists; eexists; apply R|]. apply G; try reflexivity; assumption.
  - destruct (closed p) eqn:Cl; [eexists; eexists; apply R|]. apply G; try reflexivity; try assumption; symmetry; assumption.
  - destruct (closed p) eqn:Cl; [eexists; eexists; apply R|]. destruct f.
    + apply G; try reflexivity; try assumption; symmetry; assumption.
    + exists None, (wake cons). cbn [finish].
      constructor; cbn [emit enter with_waiters set_flags set_data data closed closing flushing max_chunks waiters next_id]; try discriminate; try assumption.
      * cbn. lia.
      * rewrite T, notify_all_opt. left. reflexivity.
      * intros _. now split.
      * intros w E. destruct cons as [v|]; [|discriminate E]. injection E as <-. constructor; cbn; [exact (co_call _ _ (C v eq_refl)) | discriminate].
      * intros w [E | E]; [discriminate E|]. destruct cons as [v|]; [|discriminate E]. injection E as <-. cbn.
        assert (X := O v (or_intror eq_refl)). lia.
Qed.

Lemma live_step p prod cons a p' : live p prod cons -> one_each a p = true -> act a p = Some p' ->
  exists prod' cons', live p' prod' cons'.
Proof.
  intros V O A. destruct a as [c | i | i | i]; try discriminate O.
  - cbn [one_each] in O. apply negb_true_iff in O.
    assert (B := busy_none _ prod cons p (lv_two _ _ _ V) O (fun w E => po_prod _ _ (lv_prod _ _ _ V w E)) (fun w E => co_call _ _ (lv_cons _ _ _ V w E))).
    destruct (producer c) eqn:Pc.
    + subst prod. eapply prod_step; eassumption.
    + subst cons. destruct c; try discriminate Pc. eapply next_step; eassumption.
  - eapply resume_step; eassumption.
Qed.

Lemma live_orderly acts : forall p prod cons p', live p prod cons -> orderly acts p = true -> schedule acts p = Some p' ->
  exists prod' cons', live p' prod' cons'.
Proof.
  induction acts as [|a acts IH]; intros p prod cons p' V O S; cbn [orderly schedule] in *.
  - injection S as <-. now exists prod, cons.
  - apply andb_true_iff in O as [O1 O2]. destruct (act a p) as [q|] eqn:A; [|discriminate S].
    destruct (live_step _ _ _ _ _ V O1 A) as [pr [co V']]. eapply IH; eassumption.
Qed.

Lemma live_new initial m p : new_provider initial m = Ok p -> live p None None.
Proof.
  unfold new_provider. destruct (Nat.ltb m 1) eqn:E; [discriminate|]. apply Nat.ltb_ge in E. intros H. injection H as <-.
  constructor; cbn [data closed closing flushing max_chunks waiters next_id]; try discriminate; try assumption.
  - destruct initial; cbn; lia.
  - now left.
  - now split.
  - intros w [X | X]; discriminate X.
Qed.

Lemma in_waiters p prod cons w : live p prod cons -> In w (waiters p) -> producer (w_call w) = true -> prod = Some w.
Proof.
  intros V I P. destruct V as [_ _ T _ _ C _ _].
  destruct T as [E | E]; rewrite E in I; apply in_app_or in I as [I | I];
    destruct prod as [a|], cons as [b|]; cbn in I; try (destruct I as [I | []]); try (destruct I); subst;
    try reflexivity; exfalso;
    match goal with H : forall v, Some ?b = Some v -> _ |- _ => specialize (H b eq_refl); destruct H as [X _]; rewrite X in P; discriminate P end.
Qed.

(** A waiting producer is never stuck. *)
Lemma never_stuck p prod cons w : live p prod cons -> In w (waiters p) -> producer (w_call w) = true ->
  (exists i p', act (Resume i) p = Some p') \/
  (busy false p = false /\ exists b p', act (Start Next) p = Some p' /\ In (Returned (next_id p) Next (Chunk b)) (log p')).
Proof.
  intros V I P. assert (E := in_waiters _ _ _ _ V I P). subst prod.
  destruct (lv_prod _ _ _ V w eq_refl) as [P1 P2 P3 P4 P5 P6].
  assert (Re : forall v, In v (waiters p) -> w_woken v = true -> (Some w = Some v \/ cons = Some v) -> exists i p', act (Resume i) p = Some p').
  { intros v Iv Wv Ov. exists (w_id v). cbn [act]. unfold find_waiter.
    destruct (find (fun w0 => Nat.eqb (w_id w0) (w_id v)) (waiters p)) as [u|] eqn:F.
    - assert (X : u = v).
      { destruct (two_find _ _ _ _ _ (lv_two _ _ _ V) F) as [Eu [Hu | Hu]]; destruct Ov as [Hv | Hv]; try congruence.
        - exfalso. apply (lv_ids _ _ _ V w v eq_refl Hv). congruence.
        - exfalso. apply (lv_ids _ _ _ V w u eq_refl Hu). congruence. }
      subst u. rewrite Wv. eexists. reflexivity.
    - exfalso. apply (find_none _ _ F) in Iv. rewrite Nat.eqb_refl in Iv. discriminate Iv. }
  destruct (w_woken w) eqn:Ww.
  - left. apply (Re w I Ww). now left.
  - specialize (P6 eq_refl). destruct cons as [v|].
    + destruct (lv_cons _ _ _ V v eq_refl) as [C1 C2]. destruct (w_woken v) eqn:Wv.
      * left. apply (Re v); [|exact Wv|now right]. destruct (lv_two _ _ _ V) as [-> | ->]; apply in_or_app; [right | left]; now left.
      * destruct (C2 eq_refl). contradiction.
    + right. split.
      * assert (T := two_none_r _ _ (lv_two _ _ _ V)). unfold busy. rewrite T. cbn. rewrite P1. reflexivity.
      * destruct (next_step p (Some w) _ V (act_start Next p)) as [_ [_ N]].
        destruct (N P6 P2) as [b [r [_ N']]]. exists b. eexists. split; [apply act_start | exact N'].
Qed.

(** While a producer waits, a long enough run of the reader ends its call. *)
Lemma returns acts : forall p cons w p', live p (Some w) cons -> orderly acts p = true -> forallb reader_side acts = true ->
  schedule acts p = Some p' -> measure p (Some w) cons < List.length acts ->
  In (Returned (w_id w) (w_call w) Done) (log p').
Proof.
  induction acts as [|a acts IH]; intros p cons w p' V O R S M; cbn [orderly forallb schedule List.length] in *.
  - lia.
  - apply andb_true_iff in O as [O1 O2]. apply andb_true_iff in R as [R1 R2].
    destruct (act a p) as [q|] eqn:A; [|discriminate S].
    assert (Ad : advanced p q w cons).
    { destruct a as [c | i | i | i]; try discriminate R1.
      - destruct c; try discriminate R1. cbn [one_each producer] in O1. apply negb_true_iff in O1.
        assert (B := busy_none _ (Some w) cons p (lv_two _ _ _ V) O1 (fun v E => po_prod _ _ (lv_prod _ _ _ V v E)) (fun v E => co_call _ _ (lv_cons _ _ _ V v E))).
        cbn in B. subst cons. now apply (next_step p (Some w) q V A).
      - now apply (resume_step p (Some w) cons i q V A). }
    destruct Ad as [[k [cons' [V' L]]] | [cons' [V' I]]].
    + apply (IH q cons' _ p' V' O2 R2 S). lia.
    + destruct (schedule_log acts q p' S) as [new [E _]]. rewrite E. apply in_or_app. now right.
Qed.

Lemma measure_bound p prod cons : live p prod cons -> measure p prod cons <= 3 * max_chunks p + 3.
Proof.
  intros V. assert (L := lv_len _ _ _ V). unfold measure.
  destruct prod as [[? ? []]|], cons as [[? ? []]|]; cbn [w_woken]; lia.
Qed.
