(** Invariants of streaming calls. *)
From Verif Require Import Base StreamCall_Model.

Lemma steps_app ls ls' : forall s, steps (ls ++ ls') s = match steps ls s with Some s => steps ls' s | None => None end.
Proof. induction ls as [|l ls IH]; intros s; [reflexivity|]. cbn [app steps]. destruct (step l s); [apply IH|reflexivity]. Qed.
Lemma nth_set {A} i (x : A) l : forall j, nth_error (set_nth i x l) j = if Nat.eqb i j then match nth_error l j with Some _ => Some x | None => None end else nth_error l j.
Proof.
  revert i. induction l as [|y l IH]; intros [|i] [|j]; cbn [set_nth nth_error Nat.eqb]; try reflexivity.
  - now destruct (Nat.eqb i j).
  - apply IH.
Qed.

Definition someone (ls : list label) : Prop := exists i, In (CancelWaiter i) ls.
(** What holds after the history [ls]. *)
Record inv (ls : list label) (s : state) : Prop := {
  i_sent : match s_execution s with
           | XBefore => s_sent s = [] /\ s_transport s = TNone /\ (s_request s = None \/ s_request s = Some Cancelled)
           | XSending _ => exists r, s_sent s = [r] /\ s_request s = Some (Returned r) /\ s_transport s <> TNone
           | XAfter _ => exists r v, s_sent s = [r] /\ s_request s = Some (Returned r) /\ s_transport s = TEnded (Returned v)
           | XEnded _ => (exists r, s_sent s = [r] /\ s_request s = Some (Returned r) /\ exists o, s_transport s = TEnded o) \/
                         (s_sent s = [] /\ s_transport s = TNone /\ (s_request s = None \/ s_request s = Some Cancelled)) \/
                         (exists r, s_sent s = [r] /\ s_request s = Some Cancelled /\ s_transport s <> TNone)
           end;
  i_stream : forall v, s_caller s = CEnded (Returned v) -> exists r, s_request s = Some (Returned r);
  i_caller : s_request s = None -> s_caller s = CWaits false;
  i_waiters : s_waiters s <> [] -> exists v, s_caller s = CEnded (Returned v);
  i_output : forall v, s_output s = Some v -> s_execution s = XEnded (Returned v);
  i_ended : forall i o, nth_error (s_waiters s) i = Some (WEnded o) -> s_execution s = XEnded o \/ (o = Cancelled /\ In (CancelWaiter i) ls);
  i_must : forall i, nth_error (s_waiters s) i = Some (WWaits true) -> In (CancelWaiter i) ls;
  i_asked : s_execution s = XSending true \/ s_execution s = XAfter true \/ s_execution s = XEnded Cancelled \/ s_transport s = TRuns true \/ s_transport s = TEnded Cancelled -> someone ls;
  i_ccaller : s_request s = Some Cancelled \/ s_caller s = CWaits true \/ s_caller s = CEnded Cancelled -> In CancelCaller ls;
  i_request : forall e, s_request s <> Some (Raised e)
}.

Lemma inv_opened : inv [] opened.
Proof.
  split; cbn.
  - auto.
  - discriminate.
  - reflexivity.
  - congruence.
  - discriminate.
  - intros [|i]; discriminate.
  - intros [|i]; discriminate.
  - intros H. repeat destruct H as [H|H]; discriminate.
  - intros H. repeat destruct H as [H|H]; discriminate.
  - discriminate.
Qed.

Lemma someone_app ls l : someone ls -> someone (ls ++ [l]).
Proof. intros [i H]. exists i. apply in_app_iff. now left. Qed.
Lemma someone_new ls i : someone (ls ++ [CancelWaiter i]).
Proof. exists i. apply in_app_iff. right. now left. Qed.
Lemma in_app_old {A} (x : A) ls l : In x ls -> In x (ls ++ [l]).
Proof. intros H. apply in_app_iff. now left. Qed.
Lemma in_app_new {A} (x : A) ls : In x (ls ++ [x]).
Proof. apply in_app_iff. right. now left. Qed.

Ltac cases := repeat match goal with
  | H : match ?x with _ => _ end = Some _ |- _ => destruct x eqn:?; try discriminate H
  | H : (if ?x then _ else _) = Some _ |- _ => destruct x eqn:?; try discriminate H
  end.

Lemma inv_step ls l s s' : inv ls s -> step l s = Some s' -> inv (ls ++ [l]) s'.
Proof.
  intros [A B C D E F G H I J] K. destruct s as [rf ca ex tr se ou ws]. cbn in *.
  destruct l; cbn in K.
  - destruct ex; try discriminate. destruct (allowed false o) eqn:Al; [|discriminate]. destruct A as (-> & -> & R).
    destruct rf as [f|]; injection K as <-.
    + destruct R as [R|R]; [discriminate|]. injection R as ->. split; cbn.
      * right. right. exists r. repeat split; congruence.
      * exact B.
      * discriminate.
      * exact D.
      * intros v X. specialize (E v X). discriminate.
      * intros i o' X. apply F in X as [X|[X Y]]; [discriminate|]. right. split; [exact X|]. now apply in_app_old.
      * intros i X. now apply in_app_old, G.
      * intros X. destruct o; try discriminate Al; repeat destruct X as [X|X]; discriminate.
      * intros _. apply in_app_old. apply I. now left.
      * discriminate.
    + split; cbn.
      * exists r. repeat split; congruence.
      * intros v X. eauto.
      * discriminate.
      * exact D.
      * intros v X. specialize (E v X). discriminate.
      * intros i o' X. apply F in X as [X|[X Y]]; [discriminate|]. right. split; [exact X|]. now apply in_app_old.
      * intros i X. now apply in_app_old, G.
      * intros X. repeat destruct X as [X|X]; discriminate.
      * intros [X|X]; [discriminate|]. apply in_app_old. apply I. auto.
      * discriminate.
  - destruct ex; try discriminate. destruct (allowed false o) eqn:Al; [|discriminate]. destruct A as (-> & -> & R). injection K as <-. split; cbn.
    + right. left. auto.
    + exact B.
    + exact C.
    + exact D.
    + intros v X. specialize (E v X). discriminate.
    + intros i o' X. apply F in X as [X|[X Y]]; [discriminate|]. right. split; [exact X|]. now apply in_app_old.
    + intros i X. now apply in_app_old, G.
    + intros X. destruct o; try discriminate Al; repeat destruct X as [X|X]; discriminate.
    + intros X. apply in_app_old. auto.
    + exact J.
  - destruct tr as [|asked|]; try discriminate. destruct (allowed asked o) eqn:Al; [|discriminate]. injection K as <-. split; cbn.
    + destruct ex.
      * destruct A as (_ & X & _). discriminate.
      * destruct A as (r & X & Y & Z). exists r. repeat split; congruence.
      * destruct A as (r & v & X & Y & Z). discriminate.
      * destruct A as [(r & X & Y & q & Z)|[(_ & X & _)|(r & X & Y & Z)]]; [discriminate|discriminate|]. right. right. exists r. repeat split; congruence.
    + exact B.
    + exact C.
    + exact D.
    + exact E.
    + intros i o' X. apply F in X as [X|[X Y]]; [now left|]. right. split; [exact X|]. now apply in_app_old.
    + intros i X. now apply in_app_old, G.
    + intros X. apply someone_app. apply H. destruct X as [X|[X|[X|[X|X]]]]; auto; [discriminate|].
      injection X as ->. cbn in Al. subst asked. auto.
    + intros X. apply in_app_old. auto.
    + exact J.
  - destruct ex; try discriminate. destruct tr as [| |t]; try discriminate. destruct (allowed false o) eqn:Al; [|discriminate]. injection K as <-.
    destruct A as (r & -> & -> & _). split; cbn.
    + destruct must; [left; exists r; repeat split; eauto|]. destruct t as [v|e|]; [exists r, v; auto|left; exists r; repeat split; eauto|left; exists r; repeat split; eauto].
    + exact B.
    + exact C.
    + exact D.
    + intros v X. specialize (E v X). discriminate.
    + intros i o' X. apply F in X as [X|[X Y]]; [discriminate|]. right. split; [exact X|]. now apply in_app_old.
    + intros i X. now apply in_app_old, G.
    + intros X. apply someone_app. apply H. destruct must; [auto|]. destruct t as [v|e|]; auto;
        repeat destruct X as [X|X]; try discriminate X. injection X as ->. discriminate Al.
    + intros X. apply in_app_old. auto.
    + exact J.
  - destruct ex; try discriminate. destruct (allowed asked o) eqn:Al; [|discriminate]. injection K as <-. destruct A as (r & v & -> & -> & ->). split; cbn.
    + left. exists r. repeat split; eauto.
    + exact B.
    + exact C.
    + exact D.
    + intros v' X. specialize (E v' X). discriminate.
    + intros i o' X. apply F in X as [X|[X Y]]; [discriminate|]. right. split; [exact X|]. now apply in_app_old.
    + intros i X. now apply in_app_old, G.
    + intros X. apply someone_app. apply H. destruct X as [X|[X|[X|[X|X]]]]; try discriminate X. injection X as ->. cbn in Al. subst asked. auto.
    + intros X. apply in_app_old. auto.
    + exact J.
  - destruct ca as [m|]; try discriminate. destruct rf as [f|]; try discriminate. destruct (allowed false o) eqn:Al; [|discriminate]. injection K as <-. split; cbn.
    + exact A.
    + destruct m; [discriminate|]. destruct f as [r|e|]; [eauto| |discriminate]. exfalso. now apply (J e).
    + discriminate.
    + intros X. destruct (D X) as [v Y]. discriminate.
    + exact E.
    + intros i o' X. apply F in X as [X|[X Y]]; [now left|]. right. split; [exact X|]. now apply in_app_old.
    + intros i X. now apply in_app_old, G.
    + intros X. apply someone_app. auto.
    + intros X. apply in_app_old. apply I. destruct m; [auto|]. destruct f as [r|e|]; [|exfalso; now apply (J e)|auto].
      destruct X as [X|[X|X]]; try discriminate X. injection X as ->. discriminate Al.
    + exact J.
  - destruct ca as [m|]; try discriminate. destruct rf as [f|]; injection K as <-; (split; cbn;
      [| | | |exact E|intros i o' X; apply F in X as [X|[X Y]]; [now left|right; split; [exact X|now apply in_app_old]]
       |intros i X; now apply in_app_old, G|intros X; apply someone_app; auto|intros _; apply in_app_new|]).
    + exact A.
    + discriminate.
    + discriminate.
    + intros X. destruct (D X) as [v Y]. discriminate.
    + exact J.
    + destruct ex.
      * destruct A as (X & Y & _). auto.
      * destruct A as (r & X & Y & Z). discriminate.
      * destruct A as (r & v & X & Y & Z). discriminate.
      * destruct A as [(r & X & Y & q & Z)|[(X & Y & _)|(r & X & Y & Z)]]; [discriminate|right; left; auto|discriminate].
    + discriminate.
    + discriminate.
    + intros X. destruct (D X) as [v Y]. discriminate.
    + discriminate.
  - destruct ca as [|[v| |]]; try discriminate. injection K as <-.
    set (w := match ou with Some v0 => WEnded (Returned v0) | None => match ex with XEnded o => WEnded o | _ => WWaits false end end) in *.
    assert (W1 : forall o, w = WEnded o -> ex = XEnded o).
    { intros o X. unfold w in X. destruct ou as [q|]; [injection X as <-; now apply E|]. destruct ex; try discriminate X. now injection X as ->. }
    assert (W2 : w <> WWaits true) by (unfold w; destruct ou; [discriminate|]; destruct ex; discriminate).
    assert (N : forall i y, nth_error (ws ++ [w]) i = Some y -> nth_error ws i = Some y \/ y = w).
    { intros i y X. destruct (Nat.lt_ge_cases i (List.length ws)) as [L|L]; [rewrite nth_error_app1 in X by exact L; auto|].
      rewrite nth_error_app2 in X by exact L. destruct (i - List.length ws)%nat as [|[|k]]; cbn in X; try discriminate X. right. congruence. }
    split; cbn.
    + exact A.
    + exact B.
    + exact C.
    + intros _. eauto.
    + intros q X. destruct w as [m|[z|e|]] eqn:Wq; try (now apply E). injection X as <-. now apply W1.
    + intros i o' X. apply N in X as [X|X]; [|left; now apply W1]. apply F in X as [X|[X Y]]; [now left|]. right. split; [exact X|]. now apply in_app_old.
    + intros i X. apply N in X as [X|X]; [now apply in_app_old, G|]. exfalso. now apply W2.
    + intros X. apply someone_app. auto.
    + intros X. apply in_app_old. auto.
    + exact J.
  - destruct (nth_error ws i) as [[m|]|] eqn:Wi; try discriminate. destruct ex as [| | |o]; try discriminate. injection K as <-. split; cbn.
    + exact A.
    + exact B.
    + exact C.
    + intros _. apply D. intros ->. destruct i; discriminate.
    + intros v X. destruct m; [now apply E|]. destruct o as [q|e|]; [|now apply E|now apply E]. now injection X as ->.
    + intros j o' X. rewrite nth_set in X. destruct (Nat.eqb_spec i j) as [->|Ne].
      * rewrite Wi in X. injection X as <-. destruct m; [|now left]. right. split; [reflexivity|]. apply in_app_old. now apply G.
      * apply F in X as [X|[X Y]]; [now left|]. right. split; [exact X|]. now apply in_app_old.
    + intros j X. rewrite nth_set in X. destruct (Nat.eqb_spec i j) as [->|Ne]; [rewrite Wi in X; discriminate|]. now apply in_app_old, G.
    + intros X. apply someone_app. auto.
    + intros X. apply in_app_old. auto.
    + exact J.
  - destruct (nth_error ws i) as [[m|]|] eqn:Wi; try discriminate.
    assert (Dw : exists v, ca = CEnded (Returned v)) by (apply D; intros ->; destruct i; discriminate).
    assert (Bf : forall j o', nth_error ws j = Some (WEnded o') -> ex = XEnded o' \/ o' = Cancelled /\ In (CancelWaiter j) (ls ++ [CancelWaiter i])).
    { intros j o' X. apply F in X as [X|[X Y]]; [now left|]. right. split; [exact X|]. now apply in_app_old. }
    assert (NO : (forall o, ex <> XEnded o) -> forall j o', nth_error ws j = Some (WEnded o') -> o' = Cancelled /\ In (CancelWaiter j) (ls ++ [CancelWaiter i])).
    { intros X j o' Y. apply Bf in Y as [Y|Y]; [now elim (X o')|exact Y]. }
    assert (NV : (forall o, ex <> XEnded o) -> forall v, ou <> Some v) by (intros X v Y; apply E in Y; now elim (X (Returned v))).
    destruct ex as [|m'|m'|o]; [| | |injection K as <-].
    + exfalso. destruct A as (_ & _ & R). destruct Dw as [v ->]. destruct (B v eq_refl) as [r X]. destruct R; congruence.
    + unfold cancel_execution in K. cbn in K. destruct A as (r & -> & -> & T). destruct tr as [|asked|t]; [congruence| |]; injection K as <-; (split; cbn;
        [exists r; repeat split; congruence|exact B|exact C|exact D|intros v X; exfalso; revert X; apply NV; congruence|intros j o' X; right; revert X; apply NO; congruence
         |intros j X; now apply in_app_old, G|intros _; apply someone_new|intros X; apply in_app_old; auto|exact J]).
    + unfold cancel_execution in K. cbn in K. injection K as <-. split; cbn;
        [exact A|exact B|exact C|exact D|intros v X; exfalso; revert X; apply NV; congruence|intros j o' X; right; revert X; apply NO; congruence
         |intros j X; now apply in_app_old, G|intros _; apply someone_new|intros X; apply in_app_old; auto|exact J].
    + split; cbn.
      * exact A.
      * exact B.
      * exact C.
      * intros _. exact Dw.
      * exact E.
      * intros j o' X. rewrite nth_set in X. destruct (Nat.eqb_spec i j) as [->|Ne]; [rewrite Wi in X; discriminate|]. now apply Bf.
      * intros j X. rewrite nth_set in X. destruct (Nat.eqb_spec i j) as [->|Ne]; [apply in_app_new|]. now apply in_app_old, G.
      * intros _. apply someone_new.
      * intros X. apply in_app_old. auto.
      * exact J.
Qed.

Lemma inv_steps ls' : forall ls s s', inv ls s -> steps ls' s = Some s' -> inv (ls ++ ls') s'.
Proof.
  induction ls' as [|l ls' IH]; intros ls s s' V K; cbn [steps] in K; [injection K as <-; now rewrite app_nil_r|].
  destruct (step l s) as [t|] eqn:Q; [|discriminate]. assert (X := IH _ _ _ (inv_step _ _ _ _ V Q) K). now rewrite <- app_assoc in X.
Qed.
Lemma reachable ls s : steps ls opened = Some s -> inv ls s.
Proof. exact (inv_steps ls [] opened s inv_opened). Qed.

Definition lost (s : state) : Prop := (s_request s = Some Cancelled /\ exists m, s_caller s = CWaits m) \/ s_caller s = CWaits true /\ s_request s <> None \/ s_caller s = CEnded Cancelled.
Lemma set_nth_nil {A} i (x : A) l : set_nth i x l = [] -> l = [].
Proof. destruct l, i; cbn; congruence. Qed.
Lemma kept_step ls l s s' : (In CancelCaller ls -> lost s) /\ (someone ls -> s_waiters s <> []) -> step l s = Some s' ->
  (In CancelCaller (ls ++ [l]) -> lost s') /\ (someone (ls ++ [l]) -> s_waiters s' <> []).
Proof.
  intros [A B] K. destruct s as [rf ca ex tr se ou ws]. unfold lost in *. cbn in *. split.
  - intros L. apply in_app_iff in L as [L|[->|[]]].
    + specialize (A L). destruct l; cbn in K.
      * destruct ex; try discriminate. destruct (allowed _ _); try discriminate. destruct rf as [f|]; injection K as <-; cbn; [exact A|].
        destruct A as [[A _]|[[_ A]|A]]; [discriminate|congruence|auto].
      * destruct ex; try discriminate. destruct (allowed _ _); try discriminate. injection K as <-. exact A.
      * destruct tr; try discriminate. destruct (allowed _ _); try discriminate. injection K as <-. exact A.
      * destruct ex; try discriminate. destruct tr; try discriminate. destruct (allowed _ _); try discriminate. injection K as <-. exact A.
      * destruct ex; try discriminate. destruct (allowed _ _); try discriminate. injection K as <-. exact A.
      * destruct ca as [m|]; try discriminate. destruct rf as [f|]; try discriminate. destruct (allowed _ _); try discriminate. injection K as <-. cbn. right. right.
        destruct A as [[A _]|[[A _]|A]]; [injection A as ->; now destruct m|injection A as ->; reflexivity|discriminate].
      * destruct ca as [m|]; try discriminate. destruct rf as [f|]; injection K as <-; cbn; [|eauto]. right. left. split; congruence.
      * destruct ca as [|[v| |]]; try discriminate. exfalso. destruct A as [[_ [m A]]|[[A _]|A]]; discriminate.
      * destruct (nth_error ws i) as [[m|]|]; try discriminate. destruct ex; try discriminate. injection K as <-. exact A.
      * destruct (nth_error ws i) as [[m|]|]; try discriminate. destruct ex; injection K as <-; try exact A.
        unfold cancel_execution. cbn. destruct tr; exact A.
    + cbn in K. destruct ca as [m|]; try discriminate. destruct rf as [f|]; injection K as <-; cbn; [|eauto]. right. left. split; congruence.
  - intros [i L]. assert (W : ws <> []).
    { apply in_app_iff in L as [L|[->|[]]]; [apply B; now exists i|]. cbn in K. intros ->. destruct i; discriminate. }
    clear - K W. destruct l; cbn in K; repeat (match type of K with context [match ?x with _ => _ end] => destruct x eqn:?; try discriminate K end); injection K as <-; cbn;
      unfold cancel_execution; cbn; try exact W; try (intros X; apply W; now apply set_nth_nil in X); try (intros X; apply app_eq_nil in X as [_ X]; discriminate X); try (destruct tr; exact W).
Qed.
Lemma kept ls s : steps ls opened = Some s -> (In CancelCaller ls -> lost s) /\ (someone ls -> s_waiters s <> []).
Proof.
  induction ls as [|l ls IH] using rev_ind in s |- *; intros K.
  - cbn in K. injection K as <-. split; [intros []|intros [i []]].
  - rewrite steps_app in K. destruct (steps ls opened) as [t|] eqn:Q; [|discriminate]. cbn in K. destruct (step l t) as [u|] eqn:U; [|discriminate]. injection K as <-.
    exact (kept_step _ _ _ _ (IH _ eq_refl) U).
Qed.
