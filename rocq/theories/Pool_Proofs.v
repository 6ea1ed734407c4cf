(** Invariants of the connections. *)
From Verif Require Import Base Base_Proofs Pool_Model Pool_Spec.
From Coq Require Import Lia.
Local Open Scope Z_scope.

Lemma port_eqb_eq a b : port_eqb a b = true <-> a = b.
Proof.
  destruct a as [x|], b as [y|]; cbn; try (split; [discriminate | intros [=]]); [|split; reflexivity].
  rewrite Z.eqb_eq. split; [intros ->; reflexivity | intros [= ->]; reflexivity].
Qed.
Lemma url_eqb_eq a b : url_eqb a b = true <-> a = b.
Proof.
  unfold url_eqb. destruct a as [s h p], b as [s' h' p']. cbn [u_scheme u_host u_port]. split.
  - intros H. apply andb_prop in H as [H Hp]. apply andb_prop in H as [Hs Hh]. apply text_eqb_eq in Hs, Hh. apply port_eqb_eq in Hp. congruence.
  - intros [= -> -> ->]. rewrite !text_eqb_refl. now rewrite (proj2 (port_eqb_eq p' p') eq_refl).
Qed.
Lemma nth_update {A} (l : list A) i j x : nth_error (update i x l) j = if Nat.eqb i j then (match nth_error l i with Some _ => Some x | None => None end) else nth_error l j.
Proof.
  revert i j. induction l as [|y l IH]; intros i j.
  - destruct i, j; cbn; try reflexivity. destruct (Nat.eqb i j); destruct i; reflexivity.
  - destruct i as [|i], j as [|j]; cbn; try reflexivity. apply IH.
Qed.
Lemma length_update {A} (l : list A) i x : List.length (update i x l) = List.length l.
Proof. revert i. induction l as [|y l IH]; intros [|i]; cbn; try reflexivity. now rewrite IH. Qed.
Lemma nth_snoc {A} (l : list A) x i : nth_error (l ++ [x]) i = if Nat.eqb i (List.length l) then Some x else nth_error l i.
Proof.
  destruct (Nat.eqb_spec i (List.length l)) as [->|H].
  - rewrite nth_error_app2, Nat.sub_diag by lia. reflexivity.
  - destruct (Nat.lt_ge_cases i (List.length l)); [now apply nth_error_app1|]. rewrite nth_error_app2 by lia.
    rewrite (proj2 (nth_error_None l i)) by lia. destruct (i - List.length l)%nat as [|k] eqn:E; [lia|]. destruct k; reflexivity.
Qed.
Lemma dial_leads u port tls h2 op c : dial u = Some (port, tls) -> leads_to (mkConn (u_host u) port tls h2 op c) u.
Proof.
  unfold dial. destruct (text_eqb (u_scheme u) (lit "http")) eqn:H.
  - apply text_eqb_eq in H. intros [= <- <-]. split; [reflexivity | | now left]. cbn [k_port]. destruct (u_port u) as [p|] eqn:P; [now apply P_explicit | now apply P_http].
  - destruct (text_eqb (u_scheme u) (lit "https")) eqn:S; [|discriminate]. apply text_eqb_eq in S. intros [= <- <-].
    split; [reflexivity | | now right]. cbn [k_port]. destruct (u_port u) as [p|] eqn:P; [now apply P_explicit | now apply P_https].
Qed.

Section Inv.
  Variable force : bool.
  (** Where a call stands on a connection. *)
  Definition on (ph : phase) : option (nat * bool) := match ph with Buffering id t | Sent id t _ => Some (id, t) | _ => None end.
  Record good_conn (st : state) (u : url) (id : nat) : Prop := {
    g_conn : exists k, nth_error (conns st) id = Some k /\ leads_to k u /\ (force = true -> k_h2 k = true) }.
  Record inv (st : state) : Prop := {
    i_pool : forall u id, In (u, id) (pool st) -> good_conn st u id;
    i_calls : forall c a id t, nth_error (calls st) c = Some a -> on (c_phase a) = Some (id, t) ->
      good_conn st (c_url a) id /\ (t = true \/ (exists k, nth_error (conns st) id = Some k /\ k_call k = c));
    i_sent : forall c a id t now, nth_error (calls st) c = Some a -> c_phase a = Sent id t now ->
      (now = t) \/ (c_async a = true /\ exists k, nth_error (conns st) id = Some k /\ k_h2 k = false);
    i_buffering : forall c a id t, nth_error (calls st) c = Some a -> c_phase a = Buffering id t -> c_async a = true /\ exists k, nth_error (conns st) id = Some k /\ k_h2 k = false;
    i_made : forall id k, nth_error (conns st) id = Some k -> exists a, nth_error (calls st) (k_call k) = Some a /\ leads_to k (c_url a) /\ (forall id' t, on (c_phase a) = Some (id', t) -> id' = id) /\ c_phase a <> Connecting }.

  Lemma lookup_In u p id : lookup u p = Some id -> In (u, id) p.
  Proof.
    induction p as [|[k i] p IH]; cbn [lookup]; [discriminate|]. destruct (url_eqb k u) eqn:E; [apply url_eqb_eq in E as ->; intros [= ->]; now left | intros H; right; now apply IH].
  Qed.
  (** Connections are only added and closed. *)
  Definition extends (st st' : state) : Prop := forall id k, nth_error (conns st) id = Some k ->
    exists k', nth_error (conns st') id = Some k' /\ k_host k' = k_host k /\ k_port k' = k_port k /\ k_tls k' = k_tls k /\ k_h2 k' = k_h2 k /\ k_call k' = k_call k.
  Lemma leads_same k k' u : k_host k' = k_host k -> k_port k' = k_port k -> k_tls k' = k_tls k -> leads_to k u -> leads_to k' u.
  Proof. intros A B C [X Y Z]. split; [congruence | now rewrite B | now rewrite C]. Qed.
  Lemma good_extends st st' u id : extends st st' -> good_conn st u id -> good_conn st' u id.
  Proof.
    intros E [(k & N & L & F)]. destruct (E id k N) as (k' & N' & A & B & C & D & _). split. exists k'. split; [exact N'|]. split; [now apply (leads_same k) | rewrite D; exact F].
  Qed.
  Lemma extends_refl st st' : conns st' = conns st -> extends st st'.
  Proof. intros E id k N. exists k. rewrite E. repeat split; assumption. Qed.
  Lemma extends_snoc st st' x : conns st' = conns st ++ [x] -> extends st st'.
  Proof. intros E id k N. exists k. rewrite E. repeat (split; [|split]); try reflexivity. now rewrite nth_error_app1 by (apply nth_error_Some; congruence). Qed.
  Lemma obtained_on async id st : on (obtained async id st) = Some (id, is_open st id).
  Proof. unfold obtained. destruct (is_h2 st id || negb async)%bool; reflexivity. Qed.

  Lemma inv_init : inv init.
  Proof.
    split.
    - intros u id [].
    - intros c a id t H. destruct c; discriminate.
    - intros c a id t now H. destruct c; discriminate.
    - intros c a id t H. destruct c; discriminate.
    - intros id k H. destruct id; discriminate.
  Qed.
  Lemma inv_start u async st : inv st -> inv (start u async st).
  Proof.
    intros [Ip Ic Is Ib Im]. unfold start. set (ph := match lookup u (pool st) with Some id => _ | None => _ end).
    set (st' := mkState (conns st) (pool st) (calls st ++ [mkCall u async ph])). assert (E : extends st st') by now apply extends_refl.
    assert (Hph : (exists id, ph = obtained async id st /\ In (u, id) (pool st) /\ is_open st id = true) \/ on ph = None).
    { subst ph. destruct (lookup u (pool st)) as [id|] eqn:L.
      - destruct (is_open st id) eqn:O; [left; exists id; split; [reflexivity | split; [now apply lookup_In | exact O]] | right; destruct (dial u); reflexivity].
      - right. destruct (dial u); reflexivity. }
    split.
    - intros u' id H. apply (good_extends st); [exact E | now apply Ip].
    - intros c a id t. unfold st'; cbn [calls]. rewrite nth_snoc. destruct (Nat.eqb_spec c (List.length (calls st))) as [->|Hc].
      + intros [= <-]. cbn [c_phase c_url]. intros O. destruct Hph as [(id' & -> & I & Op)|N]; [|congruence]. rewrite obtained_on in O. injection O as <- <-.
        split; [apply (good_extends st); [exact E | now apply Ip] | now left].
      + intros H O. destruct (Ic c a id t H O) as [G K]. split; [now apply (good_extends st) | exact K].
    - intros c a id t now. unfold st'; cbn [calls conns]. rewrite nth_snoc. destruct (Nat.eqb_spec c (List.length (calls st))) as [->|Hc]; [|apply Is].
      intros [= <-]. cbn [c_phase c_async]. intros P. destruct Hph as [(id' & Ph & I & Op)|N]; [|rewrite P in N; discriminate]. rewrite Ph in P. unfold obtained in P.
      destruct (is_h2 st id' || negb async)%bool; [injection P as <- <- <-; now left | discriminate].
    - intros c a id t. unfold st'; cbn [calls conns]. rewrite nth_snoc. destruct (Nat.eqb_spec c (List.length (calls st))) as [->|Hc]; [|apply Ib].
      intros [= <-]. cbn [c_phase c_async]. intros P. destruct Hph as [(id' & Ph & I & Op)|N]; [|rewrite P in N; discriminate]. rewrite Ph in P. unfold obtained in P.
      destruct (is_h2 st id') eqn:H2; cbn [orb] in P; [discriminate|]. destruct async; [|discriminate]. injection P as <- <-. split; [reflexivity|].
      destruct (Ip _ _ I) as [(k & Nk & _)]. exists k. split; [exact Nk|]. unfold is_h2 in H2. rewrite Nk in H2. exact H2.
    - intros id k. unfold st'; cbn [conns calls]. intros H. destruct (Im id k H) as (a & Na & R). exists a. split; [|exact R].
      rewrite nth_error_app1; [exact Na|]. apply nth_error_Some. congruence.
  Qed.
  (** A call goes on, the connections stay. *)
  Lemma inv_call c u async ph ph' st : inv st -> nth_error (calls st) c = Some (mkCall u async ph) -> ph' <> Connecting ->
    ((forall id t, on ph' = Some (id, t) -> on ph = Some (id, t)) /\ (forall id t now, ph' = Sent id t now -> ph = Buffering id t) /\ (forall id t, ph' <> Buffering id t)) ->
    inv (mkState (conns st) (pool st) (update c (mkCall u async ph') (calls st))).
  Proof.
    intros [Ip Ic Is Ib Im] N NC (O & S & B). set (st' := mkState _ _ _). assert (E : extends st st') by now apply extends_refl. split.
    - intros u' id H. apply (good_extends st); [exact E | now apply Ip].
    - intros c' a id t. unfold st'; cbn [calls]. rewrite nth_update. destruct (Nat.eqb_spec c c') as [<-|Hc].
      + rewrite N. intros [= <-]. cbn [c_phase c_url]. intros Ph. apply O in Ph. destruct (Ic c _ id t N Ph) as [G K]. split; [now apply (good_extends st) | exact K].
      + intros H Ph. destruct (Ic c' a id t H Ph) as [G K]. split; [now apply (good_extends st) | exact K].
    - intros c' a id t now. unfold st'; cbn [calls conns]. rewrite nth_update. destruct (Nat.eqb_spec c c') as [<-|Hc]; [|apply Is].
      rewrite N. intros [= <-]. cbn [c_phase c_async]. intros Ph. apply S in Ph. right. exact (Ib c _ id t N Ph).
    - intros c' a id t. unfold st'; cbn [calls conns]. rewrite nth_update. destruct (Nat.eqb_spec c c') as [<-|Hc]; [|apply Ib].
      rewrite N. intros [= <-]. cbn [c_phase]. intros Ph. now apply B in Ph.
    - intros id k. unfold st'; cbn [conns calls]. intros H. destruct (Im id k H) as (a & Na & L & U & C). rewrite nth_update. destruct (Nat.eqb_spec c (k_call k)) as [->|Hc].
      + rewrite N. rewrite N in Na. injection Na as <-. eexists. split; [reflexivity|]. cbn [c_url c_phase] in *. split; [exact L|]. split; [|exact NC]. intros id' t Ph. apply (U id' t). now apply O.
      + exists a. exact (conj Na (conj L (conj U C))).
  Qed.
  Lemma inv_opened c h2 alive st : inv st -> inv (opened force c h2 alive st).
  Proof.
    intros I. pose proof I as [Ip Ic Is Ib Im]. unfold opened. destruct (nth_error (calls st) c) as [[u async ph]|] eqn:N; [|exact I]. destruct ph; try exact I.
    destruct (dial u) as [[port tls]|] eqn:D; [|exact I]. set (n := List.length (conns st)). cbv zeta.
    assert (Nk : forall id k, nth_error (conns st) id = Some k -> k_call k <> c).
    { intros id k H E0. destruct (Im id k H) as (a & Na & _ & _ & C). rewrite E0, N in Na. injection Na as <-. now apply C. }
    assert (Nn : forall id k, nth_error (conns st) id = Some k -> id <> n) by (intros id k H ->; assert (n < n)%nat by (apply nth_error_Some; congruence); lia).
    destruct (force && negb h2)%bool eqn:F.
    - set (x := mkConn (u_host u) port tls h2 false c). set (st' := mkState _ _ _). assert (E : extends st st') by (now apply (extends_snoc st st' x)). split.
      + intros u' id H. apply (good_extends st); [exact E | now apply Ip].
      + intros c' a id t. unfold st'; cbn [calls]. rewrite nth_update. destruct (Nat.eqb_spec c c') as [<-|Hc]; [rewrite N; intros [= <-]; discriminate|].
        intros H Ph. destruct (Ic c' a id t H Ph) as [G K]. split; [now apply (good_extends st)|]. destruct K as [K|(k & Hk & Kc)]; [now left | right].
        destruct (E id k Hk) as (k' & Hk' & _ & _ & _ & _ & Q). exists k'. split; [exact Hk' | congruence].
      + intros c' a id t now. unfold st'; cbn [calls]. rewrite nth_update. destruct (Nat.eqb_spec c c') as [<-|Hc]; [rewrite N; intros [= <-]; discriminate|].
        intros H Ph. destruct (Is c' a id t now H Ph) as [K|(K & k & Hk & H2)]; [now left | right]. split; [exact K|]. destruct (E id k Hk) as (k' & Hk' & _ & _ & _ & Q & _). exists k'. split; [exact Hk' | congruence].
      + intros c' a id t. unfold st'; cbn [calls]. rewrite nth_update. destruct (Nat.eqb_spec c c') as [<-|Hc]; [rewrite N; intros [= <-]; discriminate|].
        intros H Ph. destruct (Ib c' a id t H Ph) as (K & k & Hk & H2). split; [exact K|]. destruct (E id k Hk) as (k' & Hk' & _ & _ & _ & Q & _). exists k'. split; [exact Hk' | congruence].
      + intros id k. unfold st'; cbn [conns calls]. rewrite nth_snoc. fold n. destruct (Nat.eqb_spec id n) as [->|Hid].
        * intros [= <-]. cbn [k_call]. exists (mkCall u async (Failed SmithyErr)). rewrite nth_update, Nat.eqb_refl, N. split; [reflexivity|]. cbn [c_url c_phase on]. split; [now apply dial_leads | split; discriminate].
        * intros H. destruct (Im id k H) as (a & Na & R). exists a. split; [|exact R]. rewrite nth_update. destruct (Nat.eqb_spec c (k_call k)) as [Q|]; [exfalso; symmetry in Q; exact (Nk _ _ H Q) | exact Na].
    - cbn [conns pool calls]. set (x := mkConn (u_host u) port tls h2 alive c). set (st1 := mkState (conns st ++ [x]) ((u, n) :: pool st) (calls st)).
      set (st' := mkState _ _ _). assert (E : extends st st') by (now apply (extends_snoc st st' x)).
      assert (Hn : nth_error (conns st') n = Some x) by (unfold st'; cbn [conns]; rewrite nth_snoc; unfold n; now rewrite Nat.eqb_refl).
      assert (Gn : good_conn st' u n).
      { split. exists x. split; [exact Hn|]. split; [now apply dial_leads|]. intros ->. cbn [andb] in F. subst x. cbn [k_h2]. destruct h2; [reflexivity | discriminate F]. }
      split.
      + intros u' id [H|H]; [injection H as <- <-; exact Gn | apply (good_extends st); [exact E | now apply Ip]].
      + intros c' a id t. unfold st'; cbn [calls]. rewrite nth_update. destruct (Nat.eqb_spec c c') as [<-|Hc].
        * rewrite N. intros [= <-]. cbn [c_phase c_url]. rewrite obtained_on. intros [= <- <-]. split; [exact Gn|]. right. exists x. split; [exact Hn | reflexivity].
        * intros H Ph. destruct (Ic c' a id t H Ph) as [G K]. split; [now apply (good_extends st)|]. destruct K as [K|(k & Hk & Kc)]; [now left | right].
          destruct (E id k Hk) as (k' & Hk' & _ & _ & _ & _ & Q). exists k'. split; [exact Hk' | congruence].
      + intros c' a id t now. unfold st'; cbn [calls]. rewrite nth_update. destruct (Nat.eqb_spec c c') as [<-|Hc].
        * rewrite N. intros [= <-]. cbn [c_phase c_async]. unfold obtained. destruct (is_h2 st1 n || negb async)%bool; [|discriminate]. intros [= <- <- <-]. now left.
        * intros H Ph. destruct (Is c' a id t now H Ph) as [K|(K & k & Hk & H2)]; [now left | right]. split; [exact K|]. destruct (E id k Hk) as (k' & Hk' & _ & _ & _ & Q & _). exists k'. split; [exact Hk' | congruence].
      + intros c' a id t. unfold st'; cbn [calls]. rewrite nth_update. destruct (Nat.eqb_spec c c') as [<-|Hc].
        * rewrite N. intros [= <-]. cbn [c_phase c_async]. unfold obtained. assert (H2 : is_h2 st1 n = h2) by (unfold is_h2; change (conns st1) with (conns st'); rewrite Hn; reflexivity). rewrite H2.
          destruct h2; cbn [orb]; [discriminate|]. destruct async; [|discriminate]. intros [= <- <-]. split; [reflexivity|]. exists x. split; [exact Hn | reflexivity].
        * intros H Ph. destruct (Ib c' a id t H Ph) as (K & k & Hk & H2). split; [exact K|]. destruct (E id k Hk) as (k' & Hk' & _ & _ & _ & Q & _). exists k'. split; [exact Hk' | congruence].
      + intros id k. unfold st'; cbn [conns calls]. rewrite nth_snoc. fold n. destruct (Nat.eqb_spec id n) as [->|Hid].
        * intros [= <-]. cbn [k_call]. eexists. rewrite nth_update, Nat.eqb_refl, N. split; [reflexivity|]. cbn [c_url c_phase]. split; [now apply dial_leads|].
          split; [intros id' t; rewrite obtained_on; intros [= <- _]; reflexivity|]. unfold obtained. destruct (_ || _)%bool; discriminate.
        * intros H. destruct (Im id k H) as (a & Na & R). exists a. split; [|exact R]. rewrite nth_update. destruct (Nat.eqb_spec c (k_call k)) as [Q|]; [exfalso; symmetry in Q; exact (Nk _ _ H Q) | exact Na].
  Qed.
  Lemma inv_closed id st : inv st -> inv (closed id st).
  Proof.
    intros I. pose proof I as [Ip Ic Is Ib Im]. unfold closed. destruct (nth_error (conns st) id) as [k0|] eqn:N; [|exact I]. set (st' := mkState _ _ _).
    assert (E : extends st st').
    { intros i k H. cbn [conns st']. subst st'. cbn [conns]. rewrite nth_update. destruct (Nat.eqb_spec id i) as [<-|Hi]; [|exists k; repeat split; assumption].
      rewrite N. rewrite N in H. injection H as <-. eexists. split; [reflexivity|]. repeat split; reflexivity. }
    split.
    - intros u' i H. apply (good_extends st); [exact E | now apply Ip].
    - intros c a i t H Ph. destruct (Ic c a i t H Ph) as [G K]. split; [now apply (good_extends st)|]. destruct K as [K|(k & Hk & Kc)]; [now left | right].
      destruct (E i k Hk) as (k' & Hk' & _ & _ & _ & _ & Q). exists k'. split; [exact Hk' | congruence].
    - intros c a i t now H Ph. destruct (Is c a i t now H Ph) as [K|(K & k & Hk & H2)]; [now left | right]. split; [exact K|]. destruct (E i k Hk) as (k' & Hk' & _ & _ & _ & Q & _). exists k'. split; [exact Hk' | congruence].
    - intros c a i t H Ph. destruct (Ib c a i t H Ph) as (K & k & Hk & H2). split; [exact K|]. destruct (E i k Hk) as (k' & Hk' & _ & _ & _ & Q & _). exists k'. split; [exact Hk' | congruence].
    - intros i k. subst st'. cbn [conns calls]. rewrite nth_update. destruct (Nat.eqb_spec id i) as [<-|Hi]; [|apply Im]. rewrite N. intros [= <-]. cbn [k_call].
      destruct (Im id k0 N) as (a & Na & L & R). exists a. split; [exact Na|]. split; [now apply (leads_same k0) | exact R].
  Qed.
  Lemma inv_step st e : inv st -> inv (step force st e).
  Proof.
    intros I. destruct e as [u async|c h2 alive|c e|c|id]; cbn [step].
    - now apply inv_start.
    - now apply inv_opened.
    - unfold fails. destruct (nth_error (calls st) c) as [[u async ph]|] eqn:N; [|exact I]. destruct ph; try exact I;
      (eapply inv_call; [exact I | exact N | discriminate | repeat split; discriminate]).
    - unfold body_read. destruct (nth_error (calls st) c) as [[u async ph]|] eqn:N; [|exact I]. destruct ph as [|id t| |]; try exact I.
      eapply inv_call; [exact I | exact N | discriminate |]. split; [intros i t' H; exact H|]. split; [intros i t' now [= -> -> _]; reflexivity | discriminate].
    - now apply inv_closed.
  Qed.
  Lemma inv_run es : inv (run force es).
  Proof. unfold run. assert (G : forall st, inv st -> inv (fold_left (step force) es st)) by (induction es as [|e es IH]; intros st I; [exact I | cbn [fold_left]; apply IH; now apply inv_step]). apply G. apply inv_init. Qed.

  (** The pool holds just the connections made and accepted, the latest first. *)
  Definition made (st : state) (u : url) (id : nat) : Prop := exists k a, nth_error (conns st) id = Some k /\ nth_error (calls st) (k_call k) = Some a /\ c_url a = u /\ (force = true -> k_h2 k = true).
  Fixpoint falling (n : nat) (l : list (url * nat)) : Prop := match l with [] => True | (_, id) :: r => (id < n)%nat /\ falling id r end.
  Record inv2 (st : state) : Prop := { j_iff : forall u id, In (u, id) (pool st) <-> made st u id; j_falling : falling (List.length (conns st)) (pool st) }.
  Lemma inv2_same st st' : pool st' = pool st -> List.length (conns st') = List.length (conns st) ->
    (forall u id, made st' u id <-> made st u id) -> inv2 st -> inv2 st'.
  Proof. intros P C M [I F]. split; [intros u id; rewrite P, M; apply I | rewrite P, C; exact F]. Qed.
  Lemma made_update st c u async ph ph' cs pl u' id : nth_error (calls st) c = Some (mkCall u async ph) ->
    made (mkState cs pl (update c (mkCall u async ph') (calls st))) u' id <-> made (mkState cs pl (calls st)) u' id.
  Proof.
    intros N. unfold made. cbn [conns calls]. split; intros (k & a & Hk & Ha & U & H).
    - rewrite nth_update in Ha. destruct (Nat.eqb_spec c (k_call k)) as [E|E]; [|exists k, a; auto]. rewrite N in Ha. injection Ha as <-. cbn [c_url] in U. exists k, (mkCall u async ph). rewrite <- E. auto.
    - destruct (Nat.eqb_spec c (k_call k)) as [E|E].
      + rewrite <- E, N in Ha. injection Ha as <-. cbn [c_url] in U. exists k, (mkCall u async ph'). rewrite nth_update, <- E, Nat.eqb_refl, N. auto.
      + exists k, a. rewrite nth_update, (proj2 (Nat.eqb_neq _ _) E). auto.
  Qed.
  Lemma made_call st c u async ph ph' u' id : nth_error (calls st) c = Some (mkCall u async ph) ->
    made (mkState (conns st) (pool st) (update c (mkCall u async ph') (calls st))) u' id <-> made st u' id.
  Proof. intros N. rewrite (made_update st c u async ph ph' _ _ u' id N). reflexivity. Qed.
  Lemma inv2_step st e : inv st -> inv2 st -> inv2 (step force st e).
  Proof.
    intros V I. destruct e as [u async|c h2 alive|c e|c|id]; cbn [step].
    - unfold start. refine (inv2_same _ _ _ _ _ I); [reflexivity | reflexivity|]. intros u' id. unfold made. cbn [conns calls]. split; intros (k & a & Hk & Ha & R).
      + destruct (i_made st V id k Hk) as (a' & Ha' & _). exists k, a. rewrite nth_error_app1 in Ha by (apply nth_error_Some; congruence). auto.
      + exists k, a. rewrite nth_error_app1 by (apply nth_error_Some; congruence). auto.
    - unfold opened. destruct (nth_error (calls st) c) as [[u async ph]|] eqn:N; [|exact I]. destruct ph; try exact I. destruct (dial u) as [[port tls]|] eqn:D; [|exact I]. cbv zeta.
      assert (M : forall x pl u' id, k_call x = c -> made (mkState (conns st ++ [x]) pl (calls st)) u' id <-> made st u' id \/ (u' = u /\ id = List.length (conns st) /\ (force = true -> k_h2 x = true))).
      { intros x pl u' id Kx. unfold made. cbn [conns calls]. split.
        - intros (k & a & Hk & Ha & U & H). rewrite nth_snoc in Hk. destruct (Nat.eqb_spec id (List.length (conns st))) as [->|E].
          + injection Hk as <-. rewrite Kx, N in Ha. injection Ha as <-. right. auto.
          + left. exists k, a. auto.
        - intros [(k & a & Hk & R)|(-> & -> & H)].
          + exists k, a. rewrite nth_error_app1 by (apply nth_error_Some; congruence). auto.
          + exists x. eexists. rewrite nth_snoc, Nat.eqb_refl, Kx, N. auto. }
      destruct (force && negb h2)%bool eqn:F.
      + apply andb_prop in F as [F1 F2]. apply Bool.negb_true_iff in F2. subst h2. destruct I as [J Fa]. split.
        * cbn [pool]. intros u' id. rewrite (made_update st c u async Connecting _ _ _ u' id N), M by reflexivity. rewrite J. cbn [k_h2]. split; [now left | intros [H|(_ & _ & H)]; [exact H | now specialize (H F1)]].
        * cbn [pool conns]. rewrite app_length. cbn [List.length]. clear - Fa. destruct (pool st) as [|[k i] r]; [exact Fa|]. cbn [falling] in *. destruct Fa. split; [lia | assumption].
      + destruct I as [J Fa]. cbn [conns pool calls]. split.
        * cbn [pool]. intros u' id. rewrite (made_update st c u async Connecting _ _ _ u' id N), M by reflexivity. rewrite <- J. cbn [In k_h2]. split.
          -- intros [H|H]; [injection H as <- <-; right | now left]. split; [reflexivity|]. split; [reflexivity|]. intros ->. now destruct h2.
          -- intros [H|(-> & -> & _)]; [now right | now left].
        * cbn [pool conns falling]. rewrite app_length. cbn [List.length]. split; [lia | exact Fa].
    - unfold fails. destruct (nth_error (calls st) c) as [[u async ph]|] eqn:N; [|exact I]. destruct ph; try exact I;
      (refine (inv2_same _ _ _ _ _ I); [reflexivity | reflexivity | intros u' id'; now apply (made_call st c u async _ _ u' id' N)]).
    - unfold body_read. destruct (nth_error (calls st) c) as [[u async ph]|] eqn:N; [|exact I]. destruct ph; try exact I.
      refine (inv2_same _ _ _ _ _ I); [reflexivity | reflexivity | intros u' id'; now apply (made_call st c u async _ _ u' id' N)].
    - unfold closed. destruct (nth_error (conns st) id) as [k0|] eqn:N; [|exact I]. refine (inv2_same _ _ _ _ _ I); [reflexivity | apply length_update|].
      intros u' id'. unfold made. cbn [conns calls]. split; intros (k & a & Hk & R).
      + rewrite nth_update in Hk. destruct (Nat.eqb_spec id id') as [<-|E]; [|exists k, a; auto]. rewrite N in Hk. injection Hk as <-. exists k0, a. auto.
      + destruct (Nat.eqb_spec id id') as [<-|E]; [|exists k, a; rewrite nth_update, (proj2 (Nat.eqb_neq _ _) E); auto].
        rewrite N in Hk. injection Hk as <-. eexists. exists a. rewrite nth_update, Nat.eqb_refl, N. split; [reflexivity | exact R].
  Qed.
  Lemma inv2_run es : inv2 (run force es).
  Proof.
    unfold run. assert (G : forall st, inv st -> inv2 st -> inv2 (fold_left (step force) es st)).
    { induction es as [|e es IH]; intros st V I; [exact I | cbn [fold_left]; apply IH; [now apply inv_step | now apply inv2_step]]. }
    apply G; [apply inv_init|]. split; [|exact Logic.I]. intros u id. split; [intros [] | intros (k & a & H & _); destruct id; discriminate].
  Qed.
  Lemma falling_lt n l u id : falling n l -> In (u, id) l -> (id < n)%nat.
  Proof. revert n. induction l as [|[k i] l IH]; intros n F H; [destruct H|]; cbn [falling] in F; destruct F as [A B]; destruct H as [H|H]; [injection H as _ <-; exact A | specialize (IH _ B H); lia]. Qed.
  Lemma lookup_latest n l u id : falling n l -> In (u, id) l -> (forall id', In (u, id') l -> (id' <= id)%nat) -> lookup u l = Some id.
  Proof.
    revert n. induction l as [|[k i] l IH]; intros n F H M; [destruct H|]. cbn [falling] in F. destruct F as [A B]. cbn [lookup]. destruct (url_eqb k u) eqn:E.
    - apply url_eqb_eq in E as ->. f_equal. assert (i <= id)%nat by (apply M; now left). destruct H as [H|H]; [now injection H | pose proof (falling_lt _ _ _ _ B H); lia].
    - destruct H as [H|H]; [injection H as -> _; rewrite (proj2 (url_eqb_eq u u) eq_refl) in E; discriminate|]. apply (IH _ B H). intros id' H'. apply M. now right.
  Qed.
End Inv.
