(** Invariants of calls with event streams in both directions. *)
From Verif Require Import Base StreamCall_Model StreamCall_Proofs DuplexCall_Model.

Lemma dsteps_app ls ls' : forall d, dsteps (ls ++ ls') d = match dsteps ls d with Some d => dsteps ls' d | None => None end.
Proof. induction ls as [|l ls IH]; intros d; [reflexivity|]. cbn [app dsteps]. destruct (dstep l d); [apply IH|reflexivity]. Qed.

Definition dsomeone (ls : list dlabel) : Prop := exists i, In (DCancel i) ls.
(** The output task and the waiter it is in the model of the call. *)
Definition linked (t : output_task) (ws : list waiter) (ex : execution) : Prop :=
  match t with
  | ONone | OStart _ => ws = []
  | OAwaits => exists m, ws = [WWaits m]
  | OEnded o => (ws = [] /\ o = Cancelled) \/ exists w, ws = [WEnded w] /\ ((o = w /\ forall v, w <> Returned v) \/ (exists v, w = Returned v) /\ o <> Cancelled)
  end.
Definition returned (t : output_task) : Prop := exists v, t = OEnded (Returned v).
(** What a task has done, given what has been closed (newest first). *)
Definition user_ok (ls : list dlabel) (t : output_task) (cs : list closing_call) (i : nat) (u : user) : Prop :=
  match u with
  | UWaits _ m => m = true -> In (DCancel i) ls
  | UInput a => returned t /\ In (ClosesInput i) cs
  | UOutput a => returned t /\ exists x y z, cs = x ++ ClosesOutput i :: y ++ ClosesInput i :: z
  | UEnded false o => t = OEnded o \/ (o = Cancelled /\ In (DCancel i) ls)
  | UEnded true o => match o with
                     | Returned _ => returned t /\ exists x y z, cs = x ++ ClosesOutput i :: y ++ ClosesInput i :: z
                     | _ => returned t \/ t = OEnded o \/ (o = Cancelled /\ In (DCancel i) ls)
                     end
  end.
Record dinv (ls : list dlabel) (d : duplex) : Prop := {
  v_base : exists bls, steps bls opened = Some (d_call d) /\ (someone bls -> dsomeone ls);
  v_linked : linked (d_task d) (s_waiters (d_call d)) (s_execution (d_call d));
  v_opened : d_task d <> ONone <-> exists v, s_caller (d_call d) = CEnded (Returned v);
  v_users : d_users d <> [] -> d_task d <> ONone;
  v_stream : forall v, d_stream d = Some v -> d_task d = OEnded (Returned v);
  v_closes : d_closes d <> [] -> returned (d_task d);
  v_user : forall i u, nth_error (d_users d) i = Some u -> user_ok ls (d_task d) (d_closes d) i u;
  v_must : d_task d = OStart true \/ d_task d = OEnded Cancelled -> dsomeone ls
}.

Lemma dinv_begun : dinv [] begun.
Proof.
  split; cbn.
  - exists []. split; [reflexivity|]. intros [i []].
  - reflexivity.
  - split; [congruence|]. intros [v H]. discriminate.
  - congruence.
  - discriminate.
  - congruence.
  - intros [|i] u; discriminate.
  - intros [H|H]; discriminate.
Qed.

Lemma dsomeone_app ls l : dsomeone ls -> dsomeone (ls ++ [l]).
Proof. intros [i H]. exists i. apply in_app_iff. now left. Qed.
Lemma dsomeone_new ls i : dsomeone (ls ++ [DCancel i]).
Proof. exists i. apply in_app_iff. right. now left. Qed.
Lemma user_ok_mono ls l t t' cs c i u : (forall o, t = OEnded o -> t' = t) -> user_ok ls t cs i u -> user_ok (ls ++ [l]) t' (c ++ cs) i u.
Proof.
  intros T. assert (TR : returned t -> returned t') by (intros [v V]; exists v; rewrite (T _ V); exact V).
  destruct u as [b m|a|a|[|] o]; cbn.
  - intros H M. now apply in_app_old, H.
  - intros [A B]. split; [auto|]. apply in_app_iff. now right.
  - intros [A (x & y & z & ->)]. split; [auto|]. exists (c ++ x), y, z. now rewrite <- app_assoc.
  - destruct o as [v|e|].
    + intros [A (x & y & z & ->)]. split; [auto|]. exists (c ++ x), y, z. now rewrite <- app_assoc.
    + intros [A|[A|[A _]]]; [auto| |discriminate]. right. left. now rewrite (T _ A).
    + intros [A|[A|[A B]]]; [auto| |]; right; [left; now rewrite (T _ A)|right; split; [exact A|now apply in_app_old]].
  - intros [A|[A B]]; [left; now rewrite (T _ A)|right; split; [exact A|now apply in_app_old]].
Qed.

(** A step of the call leaves its waiters alone. *)
Lemma call_waiters l s s' : of_call l = true -> step l s = Some s' -> s_waiters s' = s_waiters s.
Proof.
  intros O K. destruct s as [rf ca ex tr se ou ws]. destruct l; try discriminate O; cbn in K;
    repeat (match type of K with context [match ?x with _ => _ end] => destruct x eqn:?; try discriminate K end); injection K as <-; reflexivity.
Qed.
Lemma call_caller l s s' : of_call l = true -> step l s = Some s' ->
  s_caller s' = s_caller s \/ (exists m, s_caller s = CWaits m) /\ (exists o, l = Opens o) \/ (exists m m', s_caller s = CWaits m /\ s_caller s' = CWaits m').
Proof.
  intros O K. destruct s as [rf ca ex tr se ou ws]. destruct l; try discriminate O; cbn in K;
    repeat (match type of K with context [match ?x with _ => _ end] => destruct x eqn:?; try discriminate K end); injection K as <-; cbn; eauto 8.
Qed.
Lemma steps_snoc ls l s s' : steps ls opened = Some s -> step l s = Some s' -> steps (ls ++ [l]) opened = Some s'.
Proof. intros A B. rewrite steps_app, A. cbn. now rewrite B. Qed.
Lemma someone_other ls l : of_call l = true \/ l = Waits \/ (exists i, l = Wakes i) -> someone (ls ++ [l]) -> someone ls.
Proof.
  intros O [i I]. apply in_app_iff in I as [I|[->|[]]]; [now exists i|]. destruct O as [O|[O|[j O]]]; discriminate.
Qed.

Lemma nth_snoc {A} (l : list A) x i y : nth_error (l ++ [x]) i = Some y -> nth_error l i = Some y \/ (i = List.length l /\ y = x).
Proof.
  intros H. destruct (Nat.lt_ge_cases i (List.length l)) as [L|L]; [rewrite nth_error_app1 in H by exact L; auto|].
  rewrite nth_error_app2 in H by exact L. destruct (i - List.length l)%nat as [|[|k]] eqn:E; cbn in H; try discriminate H. right. split; [lia|congruence].
Qed.

(** What [goes_on] does to the invariant. *)
Lemma goes_on_ok ls l i closing (m : bool) t o st cs u v c : t = OEnded o ->
  (m = true -> In (DCancel i) (ls ++ [l])) ->
  (forall w, st = Some w -> t = OEnded (Returned w)) -> (cs <> [] -> returned t) ->
  goes_on i closing (if m then Cancelled else o) st cs = (u, v, c) ->
  (exists c', c = c' ++ cs) /\ (forall w, v = Some w -> t = OEnded (Returned w)) /\ (c <> [] -> returned t) /\ user_ok (ls ++ [l]) t c i u.
Proof.
  intros T M S C. unfold goes_on. destruct m.
  - intros [= <- <- <-]. split; [now exists []|]. split; [exact S|]. split; [exact C|]. destruct closing; cbn; [right; right; auto|right; auto].
  - destruct o as [w|e|]; [destruct closing|..]; intros [= <- <- <-].
    + split; [now exists [ClosesInput i]|]. split; [intros x [= <-]; exact T|]. split; [intros _; now exists w|]. cbn. split; [now exists w|now left].
    + split; [now exists []|]. split; [intros x [= <-]; exact T|]. split; [exact C|]. cbn. now left.
    + split; [now exists []|]. split; [exact S|]. split; [exact C|]. destruct closing; cbn; auto.
    + split; [now exists []|]. split; [exact S|]. split; [exact C|]. destruct closing; cbn; auto.
Qed.

Lemma dinv_step ls l d d' : dinv ls d -> dstep l d = Some d' -> dinv (ls ++ [l]) d'.
Proof.
  intros [(bls & Bs & So) Li Op Us St Cl Uk Mu] K. destruct d as [s t st us cs]. cbn in *.
  destruct l as [l|o| | |i|i o|i o|i]; cbn in K.
  - destruct (of_call l) eqn:O; [|discriminate]. destruct (step l s) as [s'|] eqn:Q; [|discriminate].
    set (t' := match l, s_caller s' with Opens _, CEnded (Returned _) => OStart false | _, _ => t end) in *. injection K as <-.
    assert (Tt : t' = t \/ (t = ONone /\ t' = OStart false /\ exists v, s_caller s' = CEnded (Returned v))).
    { unfold t'. destruct l; auto. destruct (s_caller s') as [m|[v|e|]] eqn:E; auto. right.
      destruct t as [| | |]; [split; [reflexivity|]; split; [reflexivity|eauto]|..];
        (exfalso; assert (X : exists w, s_caller s = CEnded (Returned w)) by (apply Op; discriminate); destruct X as [w X];
         destruct s as [rf ca ex tr se ou ws]; cbn in X, Q; subst ca; discriminate Q). }
    assert (Te : forall o, t = OEnded o -> t' = t) by (intros o ->; destruct Tt as [Tt|(Tt & _)]; [exact Tt|discriminate]).
    assert (Ws := call_waiters _ _ _ O Q). assert (Ca := call_caller _ _ _ O Q). split; cbn.
    + exists (bls ++ [l]). split; [now apply (steps_snoc _ _ s)|]. intros X. apply dsomeone_app, So. eapply someone_other; [|exact X]. auto.
    + rewrite Ws. destruct Tt as [->|(-> & -> & _)]; [|exact Li]. destruct t; exact Li.
    + destruct Tt as [E|(E1 & E2 & V)]; [|rewrite E2; split; [auto|discriminate]]. rewrite E.
      split.
      * intros N. destruct (proj1 Op N) as [v V]. destruct Ca as [C|[[[m C] _]|(m & m' & C & _)]]; [exists v; congruence|congruence|congruence].
      * intros [v V]. destruct Ca as [C|[[[m C] [o Lo]]|(m & m' & _ & C)]]; [apply Op; exists v; congruence| |congruence].
        subst l. unfold t' in E. rewrite V in E. rewrite <- E. discriminate.
    + intros N. destruct Tt as [->|(_ & -> & _)]; [auto|discriminate].
    + intros v V. apply St in V. rewrite (Te _ V). exact V.
    + intros N. destruct (Cl N) as [v V]. exists v. rewrite (Te _ V). exact V.
    + intros i u U. change cs with ([] ++ cs). apply (user_ok_mono _ _ t); auto.
    + intros X. apply dsomeone_app. destruct Tt as [Tt|(_ & Tt & _)]; rewrite Tt in X; [auto|destruct X; discriminate].
  - destruct (allowed false o) eqn:Al; [|discriminate]. assert (Nc : o <> Cancelled) by (destruct o; [discriminate|discriminate|discriminate Al]).
    destruct t as [|[|]| |]; try discriminate.
    + injection K as <-. split; cbn; auto.
      * exists bls. split; [exact Bs|]. intros X. now apply dsomeone_app, So.
      * split; [intros _|discriminate]. apply Op. discriminate.
      * discriminate.
      * intros v V. apply St in V. discriminate.
      * intros N. destruct (Cl N). discriminate.
      * intros i u U. change cs with ([] ++ cs). apply (user_ok_mono _ _ (OStart true)); [discriminate|auto].
      * intros _. apply dsomeone_app. auto.
    + destruct (s_caller s) as [|[v| |]] eqn:Ec; try discriminate.
      assert (So0 : s_output s = None).
      { destruct (s_output s) eqn:Eo; [|reflexivity]. exfalso. clear - Bs Li Eo. cbn in Li.
        assert (X := reachable _ _ Bs). assert (forall ls s, steps ls opened = Some s -> s_waiters s = [] -> s_output s = None) as G.
        { clear. intros ls. induction ls as [|l ls IH] using rev_ind; intros s H W; [cbn in H; injection H as <-; reflexivity|].
          rewrite steps_app in H. destruct (steps ls opened) as [u|] eqn:U; [|discriminate]. cbn in H. destruct (step l u) as [w|] eqn:Q; [|discriminate]. injection H as ->.
          destruct u as [rf ca ex tr se ou ws]. specialize (IH _ eq_refl). destruct l; cbn in Q;
            repeat (match type of Q with context [match ?x with _ => _ end] => destruct x eqn:?; try discriminate Q end); injection Q as <-; cbn in *;
            try (now apply IH); try (apply app_eq_nil in W as [_ W]; discriminate W); try (apply set_nth_nil in W; subst; destruct i; discriminate);
            try (unfold cancel_execution in *; cbn in *; destruct tr; cbn in *; now apply IH). }
        rewrite (G _ _ Bs Li) in Eo. discriminate. }
      destruct s as [rf ca ex tr se ou ws]. cbn in *. subst ca ou ws. cbn in K.
      assert (G : forall ot s', (exists w, s' = mkState rf (CEnded (Returned v)) ex tr se (match w with WEnded (Returned x) => Some x | _ => None end) [w]
          /\ step Waits (mkState rf (CEnded (Returned v)) ex tr se None []) = Some s'
          /\ match w with WEnded q => ot = OEnded (made q o) | WWaits m => ot = OAwaits end) ->
          (forall q, ot = OEnded q -> q = Cancelled -> ex = XEnded Cancelled) ->
          dinv (ls ++ [DTask o]) (mkDuplex s' ot st us cs)).
      { intros ot s' (w & -> & Sw & Ow) Kc. split; cbn.
        - exists (bls ++ [Waits]). split; [now apply (steps_snoc _ _ (mkState rf (CEnded (Returned v)) ex tr se None []))|].
          intros X. apply dsomeone_app, So. eapply someone_other; [|exact X]. auto.
        - destruct w as [m|q]; subst ot; cbn; [eauto|]. right. exists q. split; [reflexivity|]. destruct q as [x|e|]; cbn; [right; eauto|left; split; [reflexivity|discriminate]|left; split; [reflexivity|discriminate]].
        - split; [eauto|]. intros _. destruct w; subst ot; discriminate.
        - intros _. destruct w; subst ot; discriminate.
        - intros x X. apply St in X. discriminate.
        - intros N. destruct (Cl N). discriminate.
        - intros i u U. change cs with ([] ++ cs). apply (user_ok_mono _ _ (OStart false)); [discriminate|auto].
        - intros [X|X]; [destruct w; subst ot; discriminate|]. apply dsomeone_app, So. apply (i_asked _ _ (reachable _ _ Bs)). cbn. right. right. left. eapply Kc; [exact X|reflexivity]. }
      destruct ex as [| | |x]; cbn in K; injection K as <-; [apply G; [exists (WWaits false); repeat split|discriminate]..|].
      apply G; [exists (WEnded x); repeat split|].
      intros q [= <-] X. destruct x as [z|e|]; cbn in X; congruence.
    + destruct Li as [m Li]. destruct s as [rf ca ex tr se ou ws]. cbn in *. subst ws. cbn in K. destruct ex as [| | |x]; try discriminate. cbn in K. injection K as <-.
      set (w := if m then Cancelled else x) in *. split; cbn.
      * exists (bls ++ [Wakes 0]). split.
        -- apply (steps_snoc _ _ _ _ Bs). cbn. reflexivity.
        -- intros X. apply dsomeone_app, So. eapply someone_other; [|exact X]. eauto.
      * right. exists w. split; [reflexivity|]. destruct w as [z|e|]; cbn; [right; eauto|left; split; [reflexivity|discriminate]|left; split; [reflexivity|discriminate]].
      * split; [intros _; apply Op; discriminate|discriminate].
      * discriminate.
      * intros z X. apply St in X. discriminate.
      * intros N. destruct (Cl N). discriminate.
      * intros i u U. change cs with ([] ++ cs). apply (user_ok_mono _ _ OAwaits); [discriminate|auto].
      * intros [X|X]; [discriminate|]. apply dsomeone_app, So. assert (V := reachable _ _ Bs). destruct m.
        -- exists 0%nat. apply (i_must _ _ V). reflexivity.
        -- apply (i_asked _ _ V). cbn. right. right. left. injection X as X. unfold w in X. destruct x as [z|e|]; cbn in X; congruence.
  - destruct t as [|m| |o]; try discriminate.
    1, 2: injection K as <-; split; cbn; auto;
      [exists bls; split; [exact Bs|]; intros X; now apply dsomeone_app, So
      |discriminate
      |intros i u U; apply nth_snoc in U as [U|[-> ->]]; [change cs with ([] ++ cs); eapply user_ok_mono; [|now apply Uk]; auto|cbn; discriminate]
      |intros X; apply dsomeone_app; auto].
    destruct (goes_on (List.length us) false o st cs) as [[u v] c] eqn:Go. injection K as <-.
    destruct (goes_on_ok ls DAwaits (List.length us) false false (OEnded o) o st cs u v c eq_refl) as ((c' & ->) & A & B & C); auto; [discriminate|].
    split; cbn; auto.
    + exists bls. split; [exact Bs|]. intros X. now apply dsomeone_app, So.
    + discriminate.
    + intros i w U. apply nth_snoc in U as [U|[-> ->]]; [|exact C]. eapply user_ok_mono; [|now apply Uk]. auto.
    + intros X. apply dsomeone_app. auto.
  - assert (Base : forall u v c c', c = c' ++ cs -> t <> ONone -> (forall w, v = Some w -> t = OEnded (Returned w)) -> (c <> [] -> returned t) -> user_ok (ls ++ [DCloses]) t c (List.length us) u ->
      dinv (ls ++ [DCloses]) (mkDuplex s t v (us ++ [u]) c)).
    { intros u v c c' -> N A B C. split; cbn; auto.
      - exists bls. split; [exact Bs|]. intros X. now apply dsomeone_app, So.
      - intros i w U. apply nth_snoc in U as [U|[-> ->]]; [|exact C]. eapply user_ok_mono; [|now apply Uk]. auto.
      - intros X. apply dsomeone_app. auto. }
    destruct st as [w|].
    + destruct t as [|m| |o]; try discriminate; injection K as <-; assert (X := St w eq_refl); try discriminate X.
      eapply (Base _ _ _ [_]); [reflexivity|discriminate|exact St|intros _; now exists w|]. cbn. split; [now exists w|now left].
    + destruct t as [|m| |o]; try discriminate.
      1, 2: injection K as <-; apply (Base _ _ _ []); auto; [discriminate|cbn; discriminate].
      destruct (goes_on (List.length us) true o None cs) as [[u v] c] eqn:Go. injection K as <-.
      destruct (goes_on_ok ls DCloses (List.length us) true false (OEnded o) o None cs u v c eq_refl) as ((c' & ->) & A & B & C); auto; [discriminate|].
      apply (Base _ _ _ c' eq_refl); auto; discriminate.
  - destruct (nth_error us i) as [[closing must|a|a|b o]|] eqn:Ui; try discriminate. destruct t as [|m| |o]; try discriminate.
    destruct (goes_on i closing (if must then Cancelled else o) st cs) as [[u v] c] eqn:Go. injection K as <-.
    destruct (goes_on_ok ls (DWakes i) i closing must (OEnded o) o st cs u v c eq_refl) as ((c' & ->) & A & B & C); auto.
    { intros M. apply in_app_old. exact (Uk _ _ Ui M). }
    split; cbn; auto.
    + exists bls. split; [exact Bs|]. intros X. now apply dsomeone_app, So.
    + discriminate.
    + intros j w U. rewrite nth_set in U. destruct (Nat.eqb_spec i j) as [<-|Ne]; [rewrite Ui in U; injection U as <-; exact C|]. eapply user_ok_mono; [|now apply Uk]. auto.
    + intros X. apply dsomeone_app. auto.
  - destruct (nth_error us i) as [[closing must|a|a|b q]|] eqn:Ui; try discriminate. destruct (allowed a o) eqn:Al; [|discriminate].
    assert (Uo := Uk _ _ Ui). cbn in Uo. destruct Uo as [Rt Ci].
    assert (Base : forall u c c', c = c' ++ cs -> user_ok (ls ++ [DInput i o]) t c i u -> dinv (ls ++ [DInput i o]) (mkDuplex s t st (set_nth i u us) c)).
    { intros u c c' -> C. split; cbn; auto.
      - exists bls. split; [exact Bs|]. intros X. now apply dsomeone_app, So.
      - intros N. destruct Rt as [v ->]. discriminate.
      - intros j w U. rewrite nth_set in U. destruct (Nat.eqb_spec i j) as [<-|Ne]; [rewrite Ui in U; injection U as <-; exact C|]. eapply user_ok_mono; [|now apply Uk]. auto.
      - intros X. apply dsomeone_app. auto. }
    destruct o as [v|e|]; injection K as <-.
    + eapply (Base _ _ [_]); [reflexivity|]. cbn. split; [exact Rt|]. apply in_split in Ci as (y & z & ->). now exists [], y, z.
    + apply (Base _ _ []); [reflexivity|]. cbn. auto.
    + apply (Base _ _ []); [reflexivity|]. cbn. auto.
  - destruct (nth_error us i) as [[closing must|a|a|b q]|] eqn:Ui; try discriminate. destruct (allowed a o) eqn:Al; [|discriminate]. injection K as <-.
    assert (Uo := Uk _ _ Ui). cbn in Uo. destruct Uo as [Rt Ci]. split; cbn; auto.
    + exists bls. split; [exact Bs|]. intros X. now apply dsomeone_app, So.
    + intros N. destruct Rt as [v ->]. discriminate.
    + intros j w U. rewrite nth_set in U. destruct (Nat.eqb_spec i j) as [<-|Ne].
      * rewrite Ui in U. injection U as <-. cbn. destruct o as [v|e|]; auto.
      * change cs with ([] ++ cs). eapply user_ok_mono; [|now apply Uk]. auto.
    + intros X. apply dsomeone_app. auto.
  - destruct (nth_error us i) as [[closing must|a|a|b q]|] eqn:Ui; try discriminate.
    + assert (Nn : us <> []) by (intros ->; destruct i; discriminate). assert (Tn := Us Nn).
      assert (Old : forall t', (forall o, t = OEnded o -> t' = t) -> forall j w, nth_error us j = Some w -> user_ok (ls ++ [DCancel i]) t' cs j w).
      { intros t' Te j w U. change cs with ([] ++ cs). eapply user_ok_mono; [|now apply Uk]. exact Te. }
      destruct t as [|m| |o]; [now elim Tn|..].
      * injection K as <-. split; cbn; auto.
        -- exists bls. split; [exact Bs|]. intros X. apply dsomeone_new.
        -- split; [intros _; apply Op; discriminate|discriminate].
        -- discriminate.
        -- intros v V. apply St in V. discriminate.
        -- intros N. destruct (Cl N). discriminate.
        -- apply Old. discriminate.
        -- intros _. apply dsomeone_new.
      * destruct Li as [m Li]. destruct (match nth_error (s_waiters s) 0 with Some (WWaits _) => match s_execution s with XEnded _ => _ | _ => _ end | _ => _ end) as [s'|] eqn:Q in K; [|discriminate].
        injection K as <-. assert (Sq : step (CancelWaiter 0) s = Some s') by exact Q.
        assert (Cs : s_caller s' = s_caller s /\ exists m', s_waiters s' = [WWaits m']).
        { rewrite Li in Q. cbn in Q. destruct (s_execution s) eqn:Ex; injection Q as <-; cbn; eauto; unfold cancel_execution; rewrite Ex; eauto. destruct (s_transport s); cbn; eauto. }
        destruct Cs as [Cs [m' Ws]]. split; cbn; auto.
        -- exists (bls ++ [CancelWaiter 0]). split; [now apply (steps_snoc _ _ s)|]. intros X. apply dsomeone_new.
        -- eauto.
        -- rewrite Cs. exact Op.
        -- intros _. apply dsomeone_new.
      * injection K as <-. split; cbn; auto.
        -- exists bls. split; [exact Bs|]. intros X. apply dsomeone_new.
        -- intros j w U. rewrite nth_set in U. destruct (Nat.eqb_spec i j) as [<-|Ne]; [rewrite Ui in U; injection U as <-; cbn; intros _; apply in_app_new|]. auto.
        -- intros _. apply dsomeone_new.
    + injection K as <-. split; cbn; auto.
      * exists bls. split; [exact Bs|]. intros X. apply dsomeone_new.
      * intros N. apply Us. intros ->. destruct i; discriminate.
      * intros j w U. rewrite nth_set in U. destruct (Nat.eqb_spec i j) as [<-|Ne]; [rewrite Ui in U; injection U as <-; exact (Uk _ _ Ui)|].
        change cs with ([] ++ cs). eapply user_ok_mono; [|now apply Uk]. auto.
      * intros _. apply dsomeone_new.
    + injection K as <-. split; cbn; auto.
      * exists bls. split; [exact Bs|]. intros X. apply dsomeone_new.
      * intros N. apply Us. intros ->. destruct i; discriminate.
      * intros j w U. rewrite nth_set in U. destruct (Nat.eqb_spec i j) as [<-|Ne]; [rewrite Ui in U; injection U as <-; exact (Uk _ _ Ui)|].
        change cs with ([] ++ cs). eapply user_ok_mono; [|now apply Uk]. auto.
      * intros _. apply dsomeone_new.
Qed.

Lemma dreachable ls d : dsteps ls begun = Some d -> dinv ls d.
Proof.
  induction ls as [|l ls IH] using rev_ind in d |- *; intros K.
  - cbn in K. injection K as <-. apply dinv_begun.
  - rewrite dsteps_app in K. destruct (dsteps ls begun) as [e|] eqn:Q; [|discriminate]. cbn in K. destruct (dstep l e) as [u|] eqn:U; [|discriminate]. injection K as <-.
    exact (dinv_step _ _ _ _ (IH _ eq_refl) U).
Qed.

(** The output task does not end before the transport has, unless somebody is cancelled. *)
Lemma runs_on ls d a : dsteps ls begun = Some d -> (forall i, ~ In (DCancel i) ls) -> s_transport (d_call d) = TRuns a -> d_task d <> ONone ->
  forall o, d_task d <> OEnded o.
Proof.
  intros H N T Tn o E. destruct (dreachable _ _ H) as [(bls & Bs & So) Li Op _ _ _ _ Mu]. rewrite E in Li. cbn in Li.
  assert (Ns : ~ dsomeone ls) by (intros [i I]; exact (N i I)).
  destruct Li as [[_ ->]|(w & W & _)]; [apply Ns, Mu; now right|].
  assert (V := reachable _ _ Bs). destruct (i_ended _ _ V 0%nat w) as [X|[_ X]]; [now rewrite W| |apply Ns, So; now exists 0%nat].
  assert (A := i_sent _ _ V). rewrite X in A. destruct (proj1 Op Tn) as [v Cv].
  destruct (i_stream _ _ V v Cv) as [r R]. destruct A as [(q & _ & _ & t & Z)|[(_ & Z & _)|(q & _ & Z & _)]]; congruence.
Qed.

Lemma transport_runs ls l d d' a : dinv ls d -> dstep l d = Some d' -> s_transport (d_call d) = TRuns a -> (forall o, l <> DCall (Answers o)) -> (forall i, l <> DCancel i) ->
  s_transport (d_call d') = TRuns a.
Proof.
  intros V K T Na Nc. destruct d as [s t st us cs]. cbn in T. destruct l as [l|o| | |i|i o|i o|i].
  - cbn in K. destruct (of_call l) eqn:O; [|discriminate]. destruct (step l s) as [s'|] eqn:Q; [|discriminate]. injection K as <-. cbn.
    assert (Nb : s_execution s <> XBefore).
    { intros X. destruct (v_base _ _ V) as (bls & Bs & _). cbn in Bs. assert (A := i_sent _ _ (reachable _ _ Bs)). rewrite X in A. destruct A as (_ & Z & _). congruence. }
    destruct s as [rf ca ex tr se ou ws]. cbn in T, Nb. subst tr. destruct l; try discriminate O; try (now elim (Na o)); cbn in Q;
      repeat (match type of Q with context [match ?x with _ => _ end] => destruct x eqn:?; try discriminate Q end); try congruence; injection Q as <-; reflexivity.
  - assert (Kw : forall s', step Waits s = Some s' \/ step (Wakes 0) s = Some s' -> s_transport s' = TRuns a).
    { intros s' [Q|Q]; destruct s as [rf ca ex tr se ou ws]; cbn in Q, T; subst tr;
        repeat (match type of Q with context [match ?x with _ => _ end] => destruct x eqn:?; try discriminate Q end); injection Q as <-; reflexivity. }
    unfold dstep in K. cbn [d_task d_call d_stream d_users d_closes] in K. destruct (allowed false o); [|discriminate]. destruct t as [|[|]| |]; try discriminate.
    + injection K as <-. exact T.
    + destruct (step Waits s) as [s'|]; [|discriminate]. injection K as <-. cbn. auto.
    + destruct (step (Wakes 0) s) as [s'|]; [|discriminate]. destruct (nth_error (s_waiters s') 0) as [[|w]|]; try discriminate. injection K as <-. cbn. auto.
  - cbn in K. destruct t; try discriminate; try (injection K as <-; exact T). destruct (goes_on _ _ _ _ _) as [[u v] c]. injection K as <-. exact T.
  - cbn in K. destruct st, t; try discriminate; try (injection K as <-; exact T). destruct (goes_on _ _ _ _ _) as [[u v] c]. injection K as <-. exact T.
  - cbn in K. destruct (nth_error us i) as [[| | |]|]; try discriminate. destruct t; try discriminate. destruct (goes_on _ _ _ _ _) as [[u v] c]. injection K as <-. exact T.
  - cbn in K. destruct (nth_error us i) as [[| | |]|]; try discriminate. destruct (allowed _ _); [|discriminate]. destruct o; injection K as <-; exact T.
  - cbn in K. destruct (nth_error us i) as [[| | |]|]; try discriminate. destruct (allowed _ _); [|discriminate]. injection K as <-; exact T.
  - now elim (Nc i).
Qed.

(** Who waits goes on waiting while the output task has not ended. *)
Lemma waits_on l d d' i c m : dstep l d = Some d' -> nth_error (d_users d) i = Some (UWaits c m) -> (forall o, d_task d <> OEnded o) -> (forall i, l <> DCancel i) ->
  nth_error (d_users d') i = Some (UWaits c m).
Proof.
  intros K U T Nc. destruct d as [s t st us cs]. cbn in T, U.
  assert (Ap : forall u, nth_error (us ++ [u]) i = Some (UWaits c m)) by (intros u; rewrite nth_error_app1; [exact U|apply nth_error_Some; congruence]).
  destruct l as [l|o| | |j|j o|j o|j]; cbn in K.
  - destruct (of_call l); [|discriminate]. destruct (step l s); [|discriminate]. injection K as <-. exact U.
  - repeat (match type of K with context [match ?x with _ => _ end] => destruct x eqn:?; try discriminate K end); injection K as <-; exact U.
  - destruct t as [| | |o]; try discriminate; [..|now elim (T o)]; injection K as <-; apply Ap.
  - destruct st, t as [| | |o]; try discriminate; try (now elim (T o)); injection K as <-; apply Ap.
  - destruct (nth_error us j) as [[| | |]|]; try discriminate. destruct t as [| | |o]; try discriminate. now elim (T o).
  - destruct (nth_error us j) as [[| | |]|] eqn:Q; try discriminate. destruct (allowed _ _); [|discriminate].
    assert (Ne : (j =? i)%nat = false) by (apply Nat.eqb_neq; intros ->; congruence).
    destruct o; injection K as <-; cbn; rewrite nth_set, Ne; exact U.
  - destruct (nth_error us j) as [[| | |]|] eqn:Q; try discriminate. destruct (allowed _ _); [|discriminate].
    assert (Ne : (j =? i)%nat = false) by (apply Nat.eqb_neq; intros ->; congruence). injection K as <-; cbn; rewrite nth_set, Ne; exact U.
  - now elim (Nc j).
Qed.

(** A task that has ended stays so. *)
Lemma task_ended l d d' o : dstep l d = Some d' -> d_task d = OEnded o -> (d_task d <> ONone <-> exists v, s_caller (d_call d) = CEnded (Returned v)) -> d_task d' = OEnded o.
Proof.
  intros K E Op. destruct d as [s t st us cs]. cbn in E, Op. subst t. destruct l as [l|q| | |i|i q|i q|i]; cbn in K.
  - destruct (of_call l); [|discriminate]. destruct (step l s) as [s'|] eqn:Q; [|discriminate]. injection K as <-. cbn.
    destruct l; try reflexivity. exfalso. destruct (proj1 Op) as [v V]; [discriminate|]. destruct s as [rf ca ex tr se ou ws]. cbn in V, Q. subst ca. discriminate Q.
  - destruct (allowed _ _); discriminate.
  - destruct (goes_on _ _ _ _ _) as [[u v] c]. injection K as <-. reflexivity.
  - destruct st; [injection K as <-; reflexivity|]. destruct (goes_on _ _ _ _ _) as [[u v] c]. injection K as <-. reflexivity.
  - destruct (nth_error us i) as [[| | |]|]; try discriminate. destruct (goes_on _ _ _ _ _) as [[u v] c]. injection K as <-. reflexivity.
  - destruct (nth_error us i) as [[| | |]|]; try discriminate. destruct (allowed _ _); [|discriminate]. destruct q; injection K as <-; reflexivity.
  - destruct (nth_error us i) as [[| | |]|]; try discriminate. destruct (allowed _ _); [|discriminate]. injection K as <-; reflexivity.
  - destruct (nth_error us i) as [[| | |]|]; try discriminate; injection K as <-; reflexivity.
Qed.
Lemma task_ended_all ls' : forall ls d d' o, dsteps ls begun = Some d -> d_task d = OEnded o -> dsteps ls' d = Some d' -> d_task d' = OEnded o.
Proof.
  induction ls' as [|l ls' IH]; intros ls d d' o H E K; cbn in K; [injection K as <-; exact E|].
  destruct (dstep l d) as [u|] eqn:U; [|discriminate]. apply (IH (ls ++ [l]) u); [|exact (task_ended _ _ _ _ U E (v_opened _ _ (dreachable _ _ H)))|exact K].
  rewrite dsteps_app, H. cbn. now rewrite U.
Qed.

(** An output task that was asked to stop before it ran never waits for the execution. *)
Definition never (d : duplex) : Prop := (d_task d = OStart true \/ d_task d = OEnded Cancelled) /\ s_waiters (d_call d) = [].
Lemma never_step ls l d d' : dinv ls d -> never d -> dstep l d = Some d' -> never d'.
Proof.
  intros V [T W] K. destruct T as [T|T].
  - destruct V as [_ _ Op _ St _ _ _]. unfold never. destruct d as [s t st us cs]. cbn in *. subst t. destruct l as [l|q| | |i|i q|i q|i]; cbn in K.
    + destruct (of_call l) eqn:O; [|discriminate]. destruct (step l s) as [s'|] eqn:Q; [|discriminate]. injection K as <-. cbn. rewrite (call_waiters _ _ _ O Q). split; [|exact W].
      destruct l; auto. exfalso. destruct (proj1 Op) as [v X]; [discriminate|]. destruct s as [rf ca ex tr se ou ws]. cbn in X, Q. subst ca. discriminate Q.
    + destruct (allowed _ _); [|discriminate]. injection K as <-. cbn. auto.
    + injection K as <-. cbn. auto.
    + destruct st; injection K as <-; cbn; auto.
    + destruct (nth_error us i) as [[| | |]|]; discriminate.
    + destruct (nth_error us i) as [[| | |]|]; try discriminate. destruct (allowed _ _); [|discriminate]. destruct q; injection K as <-; cbn; auto.
    + destruct (nth_error us i) as [[| | |]|]; try discriminate. destruct (allowed _ _); [|discriminate]. injection K as <-; cbn; auto.
    + destruct (nth_error us i) as [[| | |]|]; try discriminate; injection K as <-; cbn; auto.
  - split; [right; exact (task_ended _ _ _ _ K T (v_opened _ _ V))|]. destruct d as [s t st us cs]. cbn in *. subst t. destruct l as [l|q| | |i|i q|i q|i]; cbn in K.
    + destruct (of_call l) eqn:O; [|discriminate]. destruct (step l s) as [s'|] eqn:Q; [|discriminate]. injection K as <-. cbn. now rewrite (call_waiters _ _ _ O Q).
    + destruct (allowed _ _); discriminate.
    + injection K as <-. exact W.
    + destruct st; injection K as <-; exact W.
    + destruct (nth_error us i) as [[| | |]|]; try discriminate. destruct (if must then Cancelled else Cancelled); cbn in K; try destruct closing; injection K as <-; exact W.
    + destruct (nth_error us i) as [[| | |]|]; try discriminate. destruct (allowed _ _); [|discriminate]. destruct q; injection K as <-; exact W.
    + destruct (nth_error us i) as [[| | |]|]; try discriminate. destruct (allowed _ _); [|discriminate]. injection K as <-; exact W.
    + destruct (nth_error us i) as [[| | |]|]; try discriminate; injection K as <-; exact W.
Qed.
Lemma never_all ls' : forall ls d d', dsteps ls begun = Some d -> never d -> dsteps ls' d = Some d' -> never d'.
Proof.
  induction ls' as [|l ls' IH]; intros ls d d' H E K; cbn in K; [injection K as <-; exact E|].
  destruct (dstep l d) as [u|] eqn:U; [|discriminate]. apply (IH (ls ++ [l]) u); [|exact (never_step _ _ _ _ (dreachable _ _ H) E U)|exact K].
  rewrite dsteps_app, H. cbn. now rewrite U.
Qed.

(** Without cancellations the execution can be brought to its end. *)
Definition plain (l : dlabel) : Prop := match l with DCancel _ | DCall CancelCaller => False | _ => True end.
Lemma execution_ends ls d : dsteps ls begun = Some d -> d_task d <> ONone ->
  exists ls' s o, dsteps ls' d = Some (mkDuplex s (d_task d) (d_stream d) (d_users d) (d_closes d)) /\ s_execution s = XEnded o
    /\ s_caller s = s_caller (d_call d) /\ s_waiters s = s_waiters (d_call d) /\ s_output s = s_output (d_call d) /\ Forall plain ls' /\ (List.length ls' <= 3)%nat.
Proof.
  intros H Tn. destruct (dreachable _ _ H) as [(bls & Bs & _) _ Op _ _ _ _ _]. destruct (proj1 Op Tn) as [v Cv].
  assert (A := i_sent _ _ (reachable _ _ Bs)). destruct (i_stream _ _ (reachable _ _ Bs) v Cv) as [r R]. clear H Bs Op Tn.
  destruct d as [[rf ca ex tr se ou ws] t st us cs]. cbn in *. subst ca rf.
  destruct ex as [|m|a|o].
  - exfalso. destruct A as (_ & _ & [X|X]); congruence.
  - destruct A as (q & _ & _ & T). destruct tr as [|a|o]; [now elim T|..].
    + destruct m; (exists [DCall (Answers (Raised OSError)); DCall (Receives (Raised OSError))]; eexists _, _; split; [reflexivity|]; cbn; repeat split; [repeat constructor|lia]).
    + destruct m.
      { exists [DCall (Receives (Raised OSError))]. eexists _, _. split; [reflexivity|]. cbn. repeat split; [repeat constructor|lia]. }
      destruct o as [x|e|].
      * exists [DCall (Receives (Raised OSError)); DCall (Finishes (Raised OSError))]. eexists _, _. split; [reflexivity|]. cbn. repeat split; [repeat constructor|lia].
      * exists [DCall (Receives (Raised OSError))]. eexists _, _. split; [reflexivity|]. cbn. repeat split; [repeat constructor|lia].
      * exists [DCall (Receives (Raised OSError))]. eexists _, _. split; [reflexivity|]. cbn. repeat split; [repeat constructor|lia].
  - exists [DCall (Finishes (Raised OSError))]. eexists _, _. split; [reflexivity|]. cbn. repeat split; [repeat constructor|lia].
  - exists []. eexists _, _. split; [reflexivity|]. cbn. repeat split; [constructor|lia].
Qed.
(** And so can the output task. *)
Lemma task_ends ls d : dsteps ls begun = Some d -> d_task d <> ONone ->
  exists ls' d' o, dsteps ls' d = Some d' /\ d_task d' = OEnded o /\ d_users d' = d_users d /\ Forall plain ls' /\ (List.length ls' <= 4)%nat.
Proof.
  intros H Tn. destruct (dreachable _ _ H) as [_ Li Op _ _ _ _ _]. destruct (proj1 Op Tn) as [v Cv]. destruct (d_task d) as [|[|]| |o] eqn:E.
  - congruence.
  - destruct d as [s t st us cs]. cbn in *. subst t. exists [DTask (Returned 0)]. eexists _, _. split; [reflexivity|]. cbn. repeat split; [repeat constructor|lia].
  - destruct (execution_ends _ _ H) as (ls' & s & o & K & X & C & W & Ou & P & L); [congruence|]. rewrite E in K. cbn in Li. rewrite Li in W. rewrite Cv in C.
    exists (ls' ++ [DTask (Returned 0)]). rewrite dsteps_app, K. destruct s as [rf ca ex tr se ou ws]. cbn in *. subst ca ex ws.
    destruct ou as [x|]; (eexists _, _; split; [reflexivity|]; cbn; repeat split; [apply Forall_app; split; [exact P|repeat constructor]|rewrite app_length; cbn; lia]).
  - destruct (execution_ends _ _ H) as (ls' & s & o & K & X & C & W & Ou & P & L); [congruence|]. rewrite E in K. destruct Li as [m Li]. rewrite Li in W.
    exists (ls' ++ [DTask (Returned 0)]). rewrite dsteps_app, K. destruct s as [rf ca ex tr se ou ws]. cbn in *. subst ex ws.
    eexists _, _; split; [reflexivity|]; cbn; repeat split; [apply Forall_app; split; [exact P|repeat constructor]|rewrite app_length; cbn; lia].
  - exists [], d, o. cbn. repeat split; [exact E|constructor|lia].
Qed.
