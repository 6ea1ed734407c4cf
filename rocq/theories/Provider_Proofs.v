(** Proofs about the byte provider. *)
From Verif Require Import Base Base_Proofs Provider_Model Provider_Spec.

(** ** What one step appends to the log *)

Inductive adds (p p' : provider) : list event -> Prop :=
| adds_intro new : log p' = new ++ log p -> adds p p' new.

Definition shut (p : provider) : bool := closed p || closing p.

(** The invariant relating buffer, flags and log. *)
Record inv (init : list bytes) (p : provider) : Prop := {
  inv_max : 1 <= max_chunks p;
  inv_len : List.length (data p) <= max_chunks p;
  inv_closed : closed p = true -> data p = [];
  inv_open : closed p = false -> init ++ accepted (history p) = delivered (history p) ++ data p;
  inv_lost : exists lost, init ++ accepted (history p) = delivered (history p) ++ data p ++ lost /\
                          (~ discarded (history p) -> lost = []);
  inv_shut : (exists i f, In (Called i (Close f)) (history p)) -> shut p = true
}.

Lemma history_emit e p : history (emit e p) = history p ++ [e].
Proof. reflexivity. Qed.
Lemma accepted_app a b : accepted (a ++ b) = accepted a ++ accepted b.
Proof. unfold accepted; apply flat_map_app. Qed.
Lemma delivered_app a b : delivered (a ++ b) = delivered a ++ delivered b.
Proof. unfold delivered; apply flat_map_app. Qed.

(** Same buffer, flags and log. *)
Definition same (p q : provider) : Prop :=
  data p = data q /\ closed p = closed q /\ closing p = closing q /\ max_chunks p = max_chunks q /\ log p = log q.

Lemma inv_same init p q : same p q -> inv init p -> inv init q.
Proof.
  intros [A [B [C [D E]]]] [h1 h2 h3 h4 h5 h6].
  assert (F : history p = history q) by (unfold history; rewrite E; reflexivity).
  constructor; rewrite <- ?A, <- ?B, <- ?D, <- ?F; try assumption.
  unfold shut. rewrite <- B, <- C. exact h6.
Qed.

(** An event that is neither an accepted write, a delivery nor a call of close. *)
Definition quiet (e : event) : Prop :=
  match e with
  | Returned _ (Write _) Done => False
  | Returned _ Next (Chunk _) => False
  | Called _ (Close _) => False
  | _ => True
  end.

Lemma quiet_accepted e : quiet e -> accepted [e] = [].
Proof. destruct e as [i c | i c r]; [reflexivity|]. destruct c, r; intros H; try reflexivity; destruct H. Qed.
Lemma quiet_delivered e : quiet e -> delivered [e] = [].
Proof. destruct e as [i c | i c r]; [reflexivity|]. destruct c, r; intros H; try reflexivity; destruct H. Qed.

Lemma inv_quiet init p e : quiet e -> inv init p -> inv init (emit e p).
Proof.
  intros Q [h1 h2 h3 h4 h5 h6].
  constructor; rewrite ?history_emit, ?accepted_app, ?delivered_app, ?quiet_accepted, ?quiet_delivered, ?app_nil_r by exact Q;
    try assumption.
  - destruct h5 as [lost [E L]]. exists lost. split; [exact E|]. intros N. apply L. intros [i D]. apply N. exists i.
    apply in_or_app. now left.
  - intros [i [f I]]. unfold shut. cbn. apply h6. apply in_app_or in I as [I | [I | []]]; [now exists i, f|].
    subst e. destruct Q.
Qed.

Lemma same_waiters ws p : same p (with_waiters ws p).
Proof. repeat split. Qed.
Lemma same_flushing fl p : same p (set_flags (closed p) (closing p) fl p).
Proof. repeat split. Qed.
Lemma same_closing p : closed p = true -> same p (set_flags (closed p) (closing p) (flushing p) p).
Proof. repeat split. Qed.

Lemma discarded_app h e : (forall i, e <> Called i (Close false)) -> ~ discarded (h ++ [e]) -> ~ discarded h.
Proof. intros _ N [i D]. apply N. exists i. apply in_or_app. now left. Qed.

Lemma inv_attempt init i c p : inv init p -> inv init (attempt i c p).
Proof.
  intros H. unfold attempt. destruct (may_go c p) eqn:G; [|eapply inv_same; [apply same_waiters | exact H]].
  destruct c as [b | | fl |]; cbn [finish].
  - (* write *)
    destruct (closed p || closing p) eqn:S.
    + apply inv_quiet; [exact I|]. eapply inv_same; [apply same_waiters | exact H].
    + apply orb_false_iff in S as [S1 S2]. destruct H as [h1 h2 h3 h4 h5 h6].
      cbn [may_go] in G. unfold can_write in G. rewrite S1, S2 in G. cbn in G.
      apply andb_true_iff in G as [G _]. apply Nat.ltb_lt in G.
      assert (Hx : accepted [Returned i (Write b) Done] = [b]) by reflexivity.
      assert (Hy : delivered [Returned i (Write b) Done] = []) by reflexivity.
      assert (E := h4 S1).
      constructor; rewrite ?history_emit, ?accepted_app, ?delivered_app, ?Hx, ?Hy, ?app_nil_r;
        cbn [emit with_waiters set_data data closed closing max_chunks] in *.
      * exact h1.
      * rewrite app_length. cbn. lia.
      * congruence.
      * intros _. change (history (with_waiters _ _)) with (history p). rewrite app_assoc, E, app_assoc. reflexivity.
      * exists []. change (history (with_waiters _ _)) with (history p). split; [|reflexivity].
        rewrite app_assoc, E, app_nil_r, app_assoc. reflexivity.
      * unfold shut. cbn. change (history (with_waiters _ _)) with (history p).
        intros [j [f J]]. apply h6. apply in_app_or in J as [J | [J | []]]; [now exists j, f | discriminate J].
  - apply inv_quiet; [exact I|]. eapply inv_same; [apply same_flushing | exact H].
  - (* close *)
    cbn [may_go] in G. unfold is_empty in G. destruct (data p) eqn:D; [|discriminate G].
    apply inv_quiet; [exact I|]. destruct H as [h1 h2 h3 h4 h5 h6].
    constructor; cbn [with_waiters set_flags data closed closing max_chunks]; rewrite ?D; try assumption.
    + cbn. lia.
    + reflexivity.
    + discriminate.
    + rewrite D in h5. exact h5.
    + reflexivity.
  - (* next *)
    destruct (closed p) eqn:C.
    + apply inv_quiet; [exact I | exact H].
    + destruct (data p) as [|b r] eqn:D.
      { apply inv_quiet; [exact I | exact H]. }
      destruct H as [h1 h2 h3 h4 h5 h6]. assert (E := h4 C). rewrite D in *.
      assert (Hx : accepted [Returned i Next (Chunk b)] = []) by reflexivity.
      assert (Hy : delivered [Returned i Next (Chunk b)] = [b]) by reflexivity.
      constructor; rewrite ?history_emit, ?accepted_app, ?delivered_app, ?Hx, ?Hy, ?app_nil_r;
        cbn [emit with_waiters set_data data closed closing max_chunks] in *;
        try change (history (with_waiters _ _)) with (history p).
      * exact h1.
      * cbn in h2. lia.
      * congruence.
      * intros _. rewrite E, <- app_assoc. reflexivity.
      * exists []. split; [|reflexivity]. rewrite E, app_nil_r, <- app_assoc. reflexivity.
      * unfold shut. cbn. 
        intros [j [f J]]. apply h6. apply in_app_or in J as [J | [J | []]]; [now exists j, f | discriminate J].
Qed.

(** The state in which a call has just been entered. *)
Definition enter (c : call) (p : provider) : provider :=
  mkProvider (data p) (closed p) (closing p) (flushing p) (max_chunks p) (waiters p) (S (next_id p))
    (Called (next_id p) c :: log p).

Lemma act_start c p : act (Start c) p = Some (begin_call (next_id p) c (enter c p)).
Proof. reflexivity. Qed.

Lemma inv_enter init c p : (forall f, c <> Close f) -> inv init p -> inv init (enter c p).
Proof.
  intros N H. apply (inv_same init (emit (Called (next_id p) c) p)); [repeat split|].
  apply inv_quiet; [|exact H]. destruct c as [b | | f |]; try exact I. now elim (N f).
Qed.

Lemma inv_close init f p : inv init p -> inv init (begin_call (next_id p) (Close f) (enter (Close f) p)).
Proof.
  intros H. cbn [begin_call]. cbn [enter closed closing flushing].
  set (ev := Called (next_id p) (Close f)).
  assert (Ha : accepted [ev] = []) by reflexivity.
  assert (Hd : delivered [ev] = []) by reflexivity.
  assert (Hh : history (enter (Close f) p) = history p ++ [ev]) by reflexivity.
  destruct (closed p) eqn:C.
  - (* already closed *)
    apply inv_quiet; [exact I|]. destruct H as [h1 h2 h3 h4 h5 h6].
    constructor; rewrite ?Hh, ?accepted_app, ?delivered_app, ?Ha, ?Hd, ?app_nil_r;
      cbn [enter data closed closing max_chunks]; try assumption.
    + destruct h5 as [lost [E L]]. exists lost. split; [exact E|]. intros N. apply L. intros [i D]. apply N. exists i.
      apply in_or_app. now left.
    + intros _. unfold shut. cbn. rewrite C. reflexivity.
  - set (q := set_flags false true (flushing p) (enter (Close f) p)).
    assert (Hq : history q = history p ++ [ev]) by reflexivity.
    destruct f.
    + apply inv_attempt. destruct H as [h1 h2 h3 h4 h5 h6].
      constructor; rewrite ?Hq, ?accepted_app, ?delivered_app, ?Ha, ?Hd, ?app_nil_r;
        cbn [q set_flags enter data closed closing max_chunks]; try assumption.
      * discriminate.
      * intros _. exact (h4 C).
      * exists []. split; [rewrite app_nil_r; exact (h4 C)|reflexivity].
      * reflexivity.
    + cbn [finish]. apply inv_quiet; [exact I|]. destruct H as [h1 h2 h3 h4 h5 h6].
      set (r := with_waiters _ _).
      assert (Hr : history r = history p ++ [ev]) by reflexivity.
      constructor; rewrite ?Hr, ?accepted_app, ?delivered_app, ?Ha, ?Hd, ?app_nil_r;
        cbn [r q set_flags set_data with_waiters enter data closed closing max_chunks]; try assumption.
      * cbn. lia.
      * reflexivity.
      * discriminate.
      * exists (data p). split; [exact (h4 C)|]. intros N. elim N. exists (next_id p). apply in_or_app. right. now left.
      * reflexivity.
Qed.

Lemma inv_act init a p p' : act a p = Some p' -> inv init p -> inv init p'.
Proof.
  intros A H. destruct a as [c | i | i | i].
  - rewrite act_start in A. injection A as <-.
    destruct c as [b | | f |]; [ | | now apply inv_close | ];
      cbn [begin_call]; cbn [enter closed];
      try (destruct (closed p) eqn:C); repeat first [apply inv_attempt | apply inv_quiet; [exact I|]];
      try (apply (inv_same init (enter Flush p)); [repeat split; exact C|]);
      apply inv_enter; try discriminate; exact H.
  - cbn [act] in A. destruct (find_waiter i p) as [w|]; [|discriminate A]. destruct (w_woken w); [|discriminate A].
    injection A as <-. apply inv_attempt. eapply inv_same; [apply same_waiters | exact H].
  - cbn [act] in A. destruct (find_waiter i p) as [w|]; [|discriminate A].
    injection A as <-. eapply inv_same; [apply same_waiters | exact H].
  - cbn [act] in A. destruct (find_waiter i p) as [w|]; [|discriminate A].
    injection A as <-. apply inv_quiet; [destruct (w_call w); exact I|]. eapply inv_same; [apply same_waiters | exact H].
Qed.

Lemma inv_schedule init acts : forall p p', schedule acts p = Some p' -> inv init p -> inv init p'.
Proof.
  induction acts as [|a acts IH]; intros p p' S H; cbn [schedule] in S.
  - injection S as <-. exact H.
  - destruct (act a p) as [q|] eqn:A; [|discriminate S]. eapply IH; [exact S|]. eapply inv_act; [exact A | exact H].
Qed.

Definition start_data (initial : option bytes) : list bytes := match initial with Some b => [b] | None => [] end.

Lemma inv_new initial m p : new_provider initial m = Ok p -> inv (start_data initial) p.
Proof.
  unfold new_provider. destruct (Nat.ltb m 1) eqn:E; [discriminate|]. apply Nat.ltb_ge in E. intros H. injection H as <-.
  constructor; cbn [data closed closing max_chunks]; try (destruct initial; cbn; lia); try assumption.
  - intros _. cbn. rewrite app_nil_r. reflexivity.
  - exists []. split; [|reflexivity]. cbn. rewrite !app_nil_r. reflexivity.
  - intros [i [f []]].
Qed.

(** ** After a close *)

(** The events a step adds. *)
Ltac log_case :=
  repeat match goal with |- _ /\ _ => split end;
  try reflexivity; try (intros; reflexivity); try (intros; assumption); try (intros; congruence);
  try (intros j k [X | []]; discriminate X).

Lemma attempt_log i c p :
  exists new, log (attempt i c p) = new ++ log p /\
    (shut p = true -> accepted (rev new) = []) /\ (closed p = true -> delivered (rev new) = []) /\
    (shut p = true -> shut (attempt i c p) = true) /\ (closed p = true -> closed (attempt i c p) = true) /\
    (forall j k, ~ In (Called j k) new).
Proof.
  unfold attempt. destruct (may_go c p); [|exists []; log_case; intros j k []].
  destruct c as [b | | fl |]; cbn [finish].
  - destruct (closed p || closing p) eqn:S.
    + exists [Returned i (Write b) (Raised SmithyErr)]. log_case.
    + exists [Returned i (Write b) Done]. unfold shut in *. rewrite S. log_case.
  - exists [Returned i Flush Done]. log_case.
  - exists [Returned i (Close fl) Done]. log_case.
  - destruct (closed p) eqn:C.
    + exists [Returned i Next Stop]. log_case.
    + destruct (data p) as [|b r].
      * exists [Returned i Next (Raised IndexError)]. log_case.
      * exists [Returned i Next (Chunk b)]. log_case.
Qed.

(** Every step appends to the log; after a shutdown no write is accepted and
    nothing reopens; once closed nothing is delivered. *)
Lemma act_log a p p' : act a p = Some p' ->
  exists new, log p' = new ++ log p /\
    (shut p = true -> accepted (rev new) = []) /\ (closed p = true -> delivered (rev new) = []) /\
    (shut p = true -> shut p' = true) /\ (closed p = true -> closed p' = true) /\
    (forall j k, In (Called j k) new -> a = Start k /\ exists rest, new = rest ++ [Called j k] /\ forall j' k', ~ In (Called j' k') rest).
Proof.
  intros A. destruct a as [c | i | i | i].
  - rewrite act_start in A. injection A as <-.
    assert (G : forall q, log q = Called (next_id p) c :: log p -> shut p = shut q \/ shut q = true -> (closed p = closed q) ->
       exists new, log (attempt (next_id p) c q) = new ++ log p /\
        (shut p = true -> accepted (rev new) = []) /\ (closed p = true -> delivered (rev new) = []) /\
        (shut p = true -> shut (attempt (next_id p) c q) = true) /\ (closed p = true -> closed (attempt (next_id p) c q) = true) /\
        (forall j k, In (Called j k) new -> Start c = Start k /\ exists rest, new = rest ++ [Called j k] /\ forall j' k', ~ In (Called j' k') rest)).
    { intros q L S C. destruct (attempt_log (next_id p) c q) as [new [E [F1 [F2 [F3 [F4 F5]]]]]].
      exists (new ++ [Called (next_id p) c]). rewrite E, L, <- app_assoc.
      assert (Sq : shut p = true -> shut q = true) by (destruct S; congruence).
      split; [reflexivity|]. rewrite !rev_app_distr. cbn [rev app].
      split; [intros Hs; apply F1; auto|]. split; [intros Hs; apply F2; congruence|].
      split; [intros Hs; apply F3; auto|]. split; [intros Hs; apply F4; congruence|].
      intros j k I. apply in_app_or in I as [I | [I | []]]; [now elim (F5 j k)|]. injection I as <- <-. split; [reflexivity|].
      exists new. split; [reflexivity | exact F5]. }
    assert (R : forall e q, log q = [e; Called (next_id p) c] ++ log p -> quiet e -> (forall j k, e <> Called j k) ->
       (shut p = true -> shut q = true) -> (closed p = true -> closed q = true) ->
       exists new, log q = new ++ log p /\
        (shut p = true -> accepted (rev new) = []) /\ (closed p = true -> delivered (rev new) = []) /\
        (shut p = true -> shut q = true) /\ (closed p = true -> closed q = true) /\
        (forall j k, In (Called j k) new -> Start c = Start k /\ exists rest, new = rest ++ [Called j k] /\ forall j' k', ~ In (Called j' k') rest)).
    { intros e q L Q N S C. exists [e; Called (next_id p) c]. split; [exact L|].
      cbn [rev app]. change [Called (next_id p) c; e] with ([Called (next_id p) c] ++ [e]).
      rewrite accepted_app, delivered_app, (quiet_accepted e), (quiet_delivered e) by exact Q.
      split; [reflexivity|]. split; [reflexivity|]. split; [exact S|]. split; [exact C|].
      intros j k H. destruct H as [I | [I | []]]; [now elim (N j k)|]. injection I as -> ->. split; [reflexivity|].
      exists [e]. split; [reflexivity|]. intros j' k' [I | []]. now elim (N j' k'). }
    destruct c as [b | | f |]; cbn [begin_call]; cbn [enter closed].
    + destruct (closed p) eqn:C.
      * eapply R; [reflexivity | exact I | discriminate | trivial..].
      * apply G; [reflexivity | now left | solve [reflexivity | symmetry; exact C | exact C]].
    + destruct (closed p) eqn:C.
      * eapply R; [reflexivity | exact I | discriminate | trivial..].
      * apply G; [reflexivity | left | solve [reflexivity | symmetry; exact C | exact C]]. unfold shut. cbn. now rewrite C.
    + destruct (closed p) eqn:C.
      * eapply R; [reflexivity | exact I | discriminate | trivial..].
      * destruct f.
        -- apply G; [reflexivity | now right | solve [reflexivity | symmetry; exact C | exact C]].
        -- eapply R; [reflexivity | exact I | discriminate | trivial | discriminate].
    + apply G; [reflexivity | now left | reflexivity].
  - cbn [act] in A. destruct (find_waiter i p) as [w|]; [|discriminate A]. destruct (w_woken w); [|discriminate A].
    injection A as <-.
    destruct (attempt_log i (w_call w) (with_waiters (remove_waiter i (waiters p)) p)) as [new [E [F1 [F2 [F3 [F4 F5]]]]]].
    exists new. repeat match goal with |- _ /\ _ => split end; try assumption. intros j k H. now elim (F5 _ _ H).
  - cbn [act] in A. destruct (find_waiter i p) as [w|]; [|discriminate A].
    injection A as <-. exists []. repeat match goal with |- _ /\ _ => split end; try trivial. intros j k [].
  - cbn [act] in A. destruct (find_waiter i p) as [w|]; [|discriminate A].
    injection A as <-. exists [Returned i (w_call w) Cancelled].
    split; [reflexivity|]. split; [intros _; destruct (w_call w); reflexivity|].
    split; [intros _; destruct (w_call w); reflexivity|]. split; [trivial|]. split; [trivial|].
    intros j k [X | []]. discriminate X.
Qed.

Lemma schedule_log acts : forall p p', schedule acts p = Some p' ->
  exists new, log p' = new ++ log p /\
    (shut p = true -> accepted (rev new) = []) /\ (closed p = true -> delivered (rev new) = []) /\
    (shut p = true -> shut p' = true) /\ (closed p = true -> closed p' = true).
Proof.
  induction acts as [|a acts IH]; intros p p' S; cbn [schedule] in S.
  - injection S as <-. exists []. repeat match goal with |- _ /\ _ => split end; trivial.
  - destruct (act a p) as [q|] eqn:A; [|discriminate S].
    destruct (act_log a p q A) as [n1 [E1 [F1 [F2 [F3 [F4 _]]]]]].
    destruct (IH q p' S) as [n2 [E2 [G1 [G2 [G3 G4]]]]].
    exists (n2 ++ n1). rewrite E2, E1, app_assoc. split; [reflexivity|].
    rewrite rev_app_distr, accepted_app, delivered_app. repeat match goal with |- _ /\ _ => split end.
    + intros H. rewrite F1, G1 by auto. reflexivity.
    + intros H. rewrite F2, G2 by auto. reflexivity.
    + auto.
    + auto.
Qed.

(** ** The shape of one step *)

Definition opt_list {A} (o : option A) : list A := match o with Some x => [x] | None => [] end.

(** What a returned event says about the state right after it. *)
Definition ret_ok (p : provider) (e : event) : Prop :=
  match e with
  | Called _ _ => False
  | Returned _ (Close _) Done => closed p = true
  | Returned _ Next Stop => closed p = true
  | _ => True
  end.

Lemma attempt_shape i c p :
  exists ret, log (attempt i c p) = opt_list ret ++ log p /\
    (forall e, ret = Some e -> ret_ok (attempt i c p) e) /\
    next_id (attempt i c p) = next_id p /\
    (forall b, c = Write b -> shut p = true -> ret = Some (Returned i c (Raised SmithyErr))).
Proof.
  unfold attempt. destruct (may_go c p) eqn:G.
  2:{ exists None. repeat split; try discriminate. intros b -> S. cbn in G. unfold can_write in G. unfold shut in S.
      rewrite S in G. discriminate G. }
  destruct c as [b | | fl |]; cbn [finish].
  - destruct (closed p || closing p) eqn:S.
    + exists (Some (Returned i (Write b) (Raised SmithyErr))). repeat split. intros e E. injection E as <-. exact I.
    + exists (Some (Returned i (Write b) Done)). repeat split.
      * intros e E. injection E as <-. exact I.
      * intros b' _ S'. unfold shut in S'. congruence.
  - exists (Some (Returned i Flush Done)). repeat split; try discriminate. intros e E. injection E as <-. exact I.
  - exists (Some (Returned i (Close fl) Done)). repeat split; try discriminate. intros e E. injection E as <-. reflexivity.
  - destruct (closed p) eqn:C.
    + exists (Some (Returned i Next Stop)). repeat split; try discriminate. intros e E. injection E as <-. exact C.
    + destruct (data p) as [|b r].
      * exists (Some (Returned i Next (Raised IndexError))). repeat split; try discriminate. intros e E. injection E as <-. exact I.
      * exists (Some (Returned i Next (Chunk b))). repeat split; try discriminate. intros e E. injection E as <-. exact I.
Qed.

Lemma act_shape a p p' : act a p = Some p' ->
  exists ret call, log p' = opt_list ret ++ opt_list call ++ log p /\
    (forall e, ret = Some e -> ret_ok p' e) /\
    (forall e, call = Some e -> exists c, a = Start c /\ e = Called (next_id p) c) /\
    (forall f, a = Start (Close f) -> shut p' = true /\
       (f = false -> closed p' = true) /\
       (ret = None \/ ret = Some (Returned (next_id p) (Close f) Done))) /\
    (forall b, a = Start (Write b) -> shut p = true ->
       ret = Some (Returned (next_id p) (Write b) (Raised SmithyErr))).
Proof.
  intros A. destruct a as [c | i | i | i].
  - rewrite act_start in A. injection A as <-.
    assert (G : forall q, log q = Called (next_id p) c :: log p -> next_id q = S (next_id p) ->
      (forall f, c = Close f -> shut q = true) -> (forall b, c = Write b -> shut q = shut p) -> c <> Close false ->
      exists ret call, log (attempt (next_id p) c q) = opt_list ret ++ opt_list call ++ log p /\
       (forall e, ret = Some e -> ret_ok (attempt (next_id p) c q) e) /\
       (forall e, call = Some e -> exists c', Start c = Start c' /\ e = Called (next_id p) c') /\
       (forall f, Start c = Start (Close f) -> shut (attempt (next_id p) c q) = true /\
         (f = false -> closed (attempt (next_id p) c q) = true) /\
         (ret = None \/ ret = Some (Returned (next_id p) (Close f) Done))) /\
       (forall b, Start c = Start (Write b) -> shut p = true ->
         ret = Some (Returned (next_id p) (Write b) (Raised SmithyErr)))).
    { intros q L N S W NC. destruct (attempt_shape (next_id p) c q) as [ret [E [F1 [F2 F3]]]].
      exists ret, (Some (Called (next_id p) c)). rewrite E, L. split; [reflexivity|]. split; [exact F1|].
      split. { intros e X. injection X as <-. exists c. now split. }
      split.
      - intros f X. injection X as ->. specialize (S f eq_refl).
        destruct (attempt_log (next_id p) (Close f) q) as [new [_ [_ [_ [G3 _]]]]].
        split; [apply G3; exact S|]. split; [intros ->; now elim NC|].
        revert E F1. unfold attempt. cbn [may_go finish]. destruct (is_empty q); intros E _.
        + right. cbn [emit log with_waiters set_flags] in E. change (Returned (next_id p) (Close f) Done :: log q)
            with ([Returned (next_id p) (Close f) Done] ++ log q) in E. apply app_inv_tail in E.
          destruct ret; cbn in E; [injection E as <-; reflexivity | discriminate E].
        + left. cbn [with_waiters log] in E. destruct ret as [e|]; [|reflexivity].
          apply (f_equal (@List.length event)) in E. cbn in E. exfalso. lia.
      - intros b X. injection X as ->. intros SP. apply (F3 b eq_refl). rewrite (W b eq_refl). exact SP. }
    assert (R : forall (r : outcome) q, closed p = true -> log q = [Returned (next_id p) c r; Called (next_id p) c] ++ log p ->
      closed q = true -> (forall f, c = Close f -> r = Done) -> (forall b, c = Write b -> r = Raised SmithyErr) ->
      exists ret call, log q = opt_list ret ++ opt_list call ++ log p /\
       (forall e, ret = Some e -> ret_ok q e) /\
       (forall e, call = Some e -> exists c', Start c = Start c' /\ e = Called (next_id p) c') /\
       (forall f, Start c = Start (Close f) -> shut q = true /\
         (f = false -> closed q = true) /\
         (ret = None \/ ret = Some (Returned (next_id p) (Close f) Done))) /\
       (forall b, Start c = Start (Write b) -> shut p = true ->
         ret = Some (Returned (next_id p) (Write b) (Raised SmithyErr)))).
    { intros r q C L CQ RC RW. exists (Some (Returned (next_id p) c r)), (Some (Called (next_id p) c)).
      split; [exact L|].
      split. { intros e X. injection X as <-. destruct c, r; cbn; trivial. }
      split. { intros e X. injection X as <-. exists c. now split. }
      split.
      - intros f X. injection X as ->. unfold shut. rewrite CQ. split; [reflexivity|]. split; [trivial|]. right.
        rewrite (RC f eq_refl). reflexivity.
      - intros b X. injection X as ->. intros _. rewrite (RW b eq_refl). reflexivity. }
    destruct c as [b | | f |]; cbn [begin_call]; cbn [enter closed].
    + destruct (closed p) eqn:C.
      * apply (R (Raised SmithyErr)); try discriminate; try reflexivity. exact C.
      * apply G; try reflexivity; discriminate.
    + destruct (closed p) eqn:C.
      * apply (R Done); try discriminate; try reflexivity. exact C.
      * apply G; try reflexivity; discriminate.
    + destruct (closed p) eqn:C.
      * apply (R Done); try discriminate; try reflexivity. exact C.
      * destruct f.
        -- apply G; try reflexivity; try discriminate.
        -- cbn [finish]. exists (Some (Returned (next_id p) (Close false) Done)), (Some (Called (next_id p) (Close false))).
           split; [reflexivity|].
           split. { intros e X. injection X as <-. reflexivity. }
           split. { intros e X. injection X as <-. exists (Close false). now split. }
           split. { intros f X. injection X as <-. split; [reflexivity|]. split; [reflexivity|]. now right. }
           intros b X. discriminate X.
    + apply G; try reflexivity; discriminate.
  - cbn [act] in A. destruct (find_waiter i p) as [w|]; [|discriminate A]. destruct (w_woken w); [|discriminate A].
    injection A as <-. destruct (attempt_shape i (w_call w) (with_waiters (remove_waiter i (waiters p)) p)) as [ret [E [F1 [F2 F3]]]].
    exists ret, None. repeat match goal with |- _ /\ _ => split end; try discriminate; assumption.
  - cbn [act] in A. destruct (find_waiter i p) as [w|]; [|discriminate A].
    injection A as <-. exists None, None. repeat match goal with |- _ /\ _ => split end; try discriminate; reflexivity.
  - cbn [act] in A. destruct (find_waiter i p) as [w|]; [|discriminate A].
    injection A as <-. exists (Some (Returned i (w_call w) Cancelled)), None.
    repeat match goal with |- _ /\ _ => split end; try discriminate; try reflexivity.
    intros e X. injection X as <-. destruct (w_call w); exact I.
Qed.

(** The step at which an event was logged. *)
Lemma locate acts e l1 : forall p0 p l2, schedule acts p0 = Some p -> log p = l2 ++ e :: l1 ->
  List.length (log p0) <= List.length l1 ->
  exists acts1 a acts2 q q' x, schedule acts1 p0 = Some q /\ act a q = Some q' /\ schedule acts2 q' = Some p /\
    log q' = x ++ e :: l1 /\ List.length (log q) <= List.length l1.
Proof.
  induction acts as [|a acts IH]; intros p0 p l2 S L N; cbn [schedule] in S.
  - injection S as <-. rewrite L, app_length in N. cbn in N. lia.
  - destruct (act a p0) as [q|] eqn:A; [|discriminate S].
    destruct (Nat.le_gt_cases (List.length (log q)) (List.length l1)) as [M | M].
    + destruct (IH q p l2 S L M) as [a1 [b [a2 [r [r' [x [E1 E2]]]]]]].
      exists (a :: a1), b, a2, r, r', x. split; [|exact E2]. cbn [schedule]. rewrite A. exact E1.
    + exists [], a, acts, p0, q. destruct (schedule_log acts q p S) as [new [E _]].
      rewrite E in L.
      assert (X : exists x, log q = x ++ e :: l1).
      { clear E. revert l2 L. induction new as [|n new IHn]; intros l2 L.
        - cbn in L. now exists l2.
        - destruct l2 as [|y l2].
          + cbn in L. exfalso. injection L as _ L. apply (f_equal (@List.length event)) in L.
            rewrite app_length in L. lia.
          + cbn in L. injection L as _ L. exact (IHn l2 L). }
      destruct X as [x X]. exists x. repeat split; assumption.
Qed.

Lemma history_split p h1 e h2 : history p = h1 ++ e :: h2 -> log p = rev h2 ++ e :: rev h1.
Proof.
  intros H. unfold history in H. rewrite <- (rev_involutive (log p)), H, rev_app_distr. cbn [rev].
  rewrite <- app_assoc. reflexivity.
Qed.

Lemma locate_history acts p0 p h1 e h2 : schedule acts p0 = Some p -> log p0 = [] -> history p = h1 ++ e :: h2 ->
  exists acts1 a acts2 q q' x, schedule acts1 p0 = Some q /\ act a q = Some q' /\ schedule acts2 q' = Some p /\
    log q' = x ++ e :: rev h1 /\ List.length (log q) <= List.length (rev h1) /\
    exists y, log p = y ++ log q' /\ h2 = rev (y ++ x).
Proof.
  intros S L H. apply history_split in H.
  destruct (locate acts e (rev h1) p0 p (rev h2) S H) as [a1 [a [a2 [q [q' [x [E1 [E2 [E3 [E4 E5]]]]]]]]]].
  { rewrite L. cbn. lia. }
  exists a1, a, a2, q, q', x. repeat match goal with |- _ /\ _ => split end; try assumption.
  destruct (schedule_log a2 q' p E3) as [y [Y _]]. exists y. split; [exact Y|].
  rewrite Y, E4, app_assoc in H. apply app_inv_tail in H. rewrite H, rev_involutive. reflexivity.
Qed.

Lemma new_log initial m p0 : new_provider initial m = Ok p0 -> log p0 = [].
Proof. unfold new_provider. destruct (Nat.ltb m 1); [discriminate|]. intros H. injection H as <-. reflexivity. Qed.

(** An event [e] logged by one step: it is what the step's call returned, or the
    call itself with at most its return after it. *)
Lemma step_event a q q' x e l : act a q = Some q' -> log q' = x ++ e :: l -> List.length (log q) <= List.length l ->
  (x = [] /\ ret_ok q' e) \/
  (exists c, a = Start c /\ e = Called (next_id q) c /\ l = log q /\ (x = [] \/ exists r, x = [r] /\ ret_ok q' r)).
Proof.
  intros A L N. destruct (act_shape a q q' A) as [ret [call [E [F1 [F2 _]]]]].
  rewrite E in L. destruct call as [k|].
  - destruct (F2 k eq_refl) as [c [Ac Kc]]. destruct ret as [r|]; cbn [opt_list app] in L.
    + destruct x as [|x1 x]; cbn in L.
      * injection L as -> L. left. split; [reflexivity | now apply F1].
      * injection L as <- L. destruct x as [|x2 x]; cbn in L.
        -- injection L as -> L. right. exists c. repeat split; try assumption; try (now symmetry).
           right. exists r. split; [reflexivity | now apply F1].
        -- injection L as _ L. exfalso. apply (f_equal (@List.length event)) in L. rewrite app_length in L. cbn in L. lia.
    + destruct x as [|x1 x]; cbn in L.
      * injection L as -> L. right. exists c. repeat split; try assumption; try (now symmetry). now left.
      * injection L as _ L. exfalso. apply (f_equal (@List.length event)) in L. rewrite app_length in L. cbn in L. lia.
  - destruct ret as [r|]; cbn [opt_list app] in L.
    + destruct x as [|x1 x]; cbn in L.
      * injection L as -> L. left. split; [reflexivity | now apply F1].
      * injection L as _ L. exfalso. apply (f_equal (@List.length event)) in L. rewrite app_length in L. cbn in L. lia.
    + exfalso. apply (f_equal (@List.length event)) in L. rewrite app_length in L. cbn in L. lia.
Qed.

Lemma no_accept_after acts q' p y : schedule acts q' = Some p -> log p = y ++ log q' -> shut q' = true ->
  accepted (rev y) = [] /\ (closed q' = true -> delivered (rev y) = []).
Proof.
  intros S L H. destruct (schedule_log acts q' p S) as [new [E [F1 [F2 _]]]].
  rewrite E in L. apply app_inv_tail in L. subst y. split; auto.
Qed.

Lemma closed_shut p : closed p = true -> shut p = true.
Proof. intros H. unfold shut. now rewrite H. Qed.

Lemma after_close_called acts p0 p h1 h2 i f :
  schedule acts p0 = Some p -> log p0 = [] -> history p = h1 ++ Called i (Close f) :: h2 ->
  accepted h2 = [] /\ (f = false -> delivered h2 = []).
Proof.
  intros S L H. destruct (locate_history _ _ _ _ _ _ S L H) as [a1 [a [a2 [q [q' [x [E1 [E2 [E3 [E4 [E5 [y [Y1 Y2]]]]]]]]]]]]].
  destruct (step_event _ _ _ _ _ _ E2 E4 E5) as [[_ R] | [c [Ac [Ec [El X]]]]]; [destruct R|].
  injection Ec as -> <-. subst a. destruct (act_shape _ _ _ E2) as [ret [call [F [F1 [F2 [F3 _]]]]]].
  destruct (F3 f eq_refl) as [Sh [Cl Re]].
  destruct (no_accept_after _ _ _ _ E3 Y1 Sh) as [N1 N2].
  rewrite Y2, rev_app_distr, accepted_app, delivered_app, N1, app_nil_r.
  assert (Hx : accepted (rev x) = [] /\ delivered (rev x) = []).
  { destruct X as [-> | [r [-> _]]]; [split; reflexivity|]. rewrite E4, El in F. cbn [app opt_list] in F.
    assert (Hr : r = Returned (next_id q) (Close f) Done).
    { destruct Re as [-> | ->].
      - destruct call as [k|]; apply (f_equal (@List.length event)) in F; cbn in F; exfalso; lia.
      - cbn [opt_list app] in F. injection F as -> _. reflexivity. }
    subst r. split; reflexivity. }
  destruct Hx as [-> ->]. split; [reflexivity|]. intros Hf. apply N2. auto.
Qed.

Lemma after_close_returned acts p0 p h1 h2 i f :
  schedule acts p0 = Some p -> log p0 = [] -> history p = h1 ++ Returned i (Close f) Done :: h2 ->
  accepted h2 = [] /\ delivered h2 = [].
Proof.
  intros S L H. destruct (locate_history _ _ _ _ _ _ S L H) as [a1 [a [a2 [q [q' [x [E1 [E2 [E3 [E4 [E5 [y [Y1 Y2]]]]]]]]]]]]].
  destruct (step_event _ _ _ _ _ _ E2 E4 E5) as [[-> R] | [c [Ac [Ec _]]]]; [|discriminate Ec].
  cbn in R. destruct (no_accept_after _ _ _ _ E3 Y1 (closed_shut _ R)) as [N1 N2].
  rewrite app_nil_r in Y2. subst h2. split; auto.
Qed.

(** A write started after a close raises before anything else happens. *)
Lemma late_write acts p0 p h1 h2 i f j b h3 :
  schedule acts p0 = Some p -> log p0 = [] ->
  history p = h1 ++ Called i (Close f) :: h2 ++ Called j (Write b) :: h3 ->
  exists h4, h3 = Returned j (Write b) (Raised SmithyErr) :: h4.
Proof.
  intros S L H.
  assert (H' : history p = (h1 ++ Called i (Close f) :: h2) ++ Called j (Write b) :: h3) by (rewrite <- app_assoc; exact H).
  destruct (locate_history _ _ _ _ _ _ S L H') as [a1 [a [a2 [q [q' [x [E1 [E2 [E3 [E4 [E5 [y [Y1 Y2]]]]]]]]]]]]].
  destruct (step_event _ _ _ _ _ _ E2 E4 E5) as [[_ R] | [c [Ac [Ec [El X]]]]]; [destruct R|].
  injection Ec as -> <-. subst a.
  (* the close was called before *)
  assert (Hq : history q = h1 ++ Called i (Close f) :: h2) by (unfold history; rewrite <- El, rev_involutive; reflexivity).
  assert (Sq : shut q = true).
  { destruct (locate_history _ _ _ _ _ _ E1 L Hq) as [b1 [b' [b2 [r [r' [z [G1 [G2 [G3 [G4 [G5 _]]]]]]]]]]].
    destruct (step_event _ _ _ _ _ _ G2 G4 G5) as [[_ R] | [c [Bc [Bc' _]]]]; [destruct R|].
    injection Bc' as -> <-. subst b'. destruct (act_shape _ _ _ G2) as [rt [cl [_ [_ [_ [F3 _]]]]]].
    destruct (F3 f eq_refl) as [Sh _]. destruct (schedule_log _ _ _ G3) as [_ [_ [_ [_ [K _]]]]]. auto. }
  destruct (act_shape _ _ _ E2) as [ret [call [F [_ [_ [_ F4]]]]]]. specialize (F4 b eq_refl Sq). subst ret.
  rewrite E4, El in F. cbn [opt_list app] in F.
  assert (Hx : x = [Returned (next_id q) (Write b) (Raised SmithyErr)]).
  { destruct X as [-> | [r [-> _]]]; cbn [app] in F.
    - discriminate F.
    - injection F as -> _. reflexivity. }
  exists (rev y). rewrite Y2, rev_app_distr, Hx. reflexivity.
Qed.

(** Readers see the end, or a close returns, only when the buffer is empty. *)
Lemma ended acts p0 p i f : schedule acts p0 = Some p -> log p0 = [] ->
  In (Returned i Next Stop) (history p) \/ In (Returned i (Close f) Done) (history p) -> closed p = true.
Proof.
  intros S L H.
  assert (G : forall e, In e (history p) -> (forall q, ret_ok q e -> closed q = true) -> (forall j c, e <> Called j c) -> closed p = true).
  { clear H. intros e I R N. apply in_split in I as [h1 [h2 I]].
    destruct (locate_history _ _ _ _ _ _ S L I) as [a1 [a [a2 [q [q' [x [E1 [E2 [E3 [E4 [E5 _]]]]]]]]]]].
    destruct (step_event _ _ _ _ _ _ E2 E4 E5) as [[_ Q] | [c [_ [Ec _]]]]; [|now elim (N _ _ Ec)].
    destruct (schedule_log _ _ _ E3) as [_ [_ [_ [_ [_ K]]]]]. apply K, R, Q. }
  destruct H as [H | H]; eapply G; try exact H; try discriminate; intros q Q; exact Q.
Qed.

Lemma max_act a p p' : act a p = Some p' -> max_chunks p' = max_chunks p.
Proof.
  assert (T : forall i c q, max_chunks (attempt i c q) = max_chunks q).
  { intros i c q. unfold attempt. destruct (may_go c q); [|reflexivity]. destruct c as [b | | fl |]; cbn [finish]; try reflexivity.
    - destruct (closed q || closing q); reflexivity.
    - destruct (closed q); [reflexivity|]. destruct (data q); reflexivity. }
  intros A. destruct a as [c | i | i | i].
  - rewrite act_start in A. injection A as <-. destruct c as [b | | f |]; cbn [begin_call]; cbn [enter closed].
    + destruct (closed p); [reflexivity|]. rewrite T. reflexivity.
    + destruct (closed p); [reflexivity|]. rewrite T. reflexivity.
    + destruct (closed p); [reflexivity|]. destruct f; [rewrite T; reflexivity|]. reflexivity.
    + rewrite T. reflexivity.
  - cbn [act] in A. destruct (find_waiter i p) as [w|]; [|discriminate A]. destruct (w_woken w); [|discriminate A].
    injection A as <-. rewrite T. reflexivity.
  - cbn [act] in A. destruct (find_waiter i p); [|discriminate A]. injection A as <-. reflexivity.
  - cbn [act] in A. destruct (find_waiter i p); [|discriminate A]. injection A as <-. reflexivity.
Qed.

Lemma max_schedule acts : forall p p', schedule acts p = Some p' -> max_chunks p' = max_chunks p.
Proof.
  induction acts as [|a acts IH]; intros p p' S; cbn [schedule] in S; [injection S as <-; reflexivity|].
  destruct (act a p) as [q|] eqn:A; [|discriminate S]. rewrite (IH _ _ S). eapply max_act; exact A.
Qed.
