(** C100: cancelled calls. *)
From Coq Require Import QArith.
From Verif Require Import Base Retry_Model Client_Model Cancel_Model Cancel_Spec Cancel_Proofs.
Local Open Scope nat_scope.

Lemma steady_any : forall (S : sorts) (W : Type) (E : env S W) stop, steady E stop (fun _ _ => True).
Proof. intros. constructor; unfold good, moves; auto. Qed.

(** A call that ends with an output or an exception ends as if nobody had tried to cancel
    it: a cancellation is never swallowed on the way. *)
Theorem C100_not_swallowed : forall (S : sorts) (W : Type) (E : env S W) stop fuel i w y w',
  c_execute E stop fuel i w = Some (Ended y, w') -> execute E fuel i w = Some (y, w').
Proof.
  intros S W E stop fuel i w y w' H.
  pose proof (execute_sim E stop (fun _ _ => True) (fun _ => I) (fun _ _ _ _ _ => I) (steady_any S W E stop) fuel i w) as X.
  now rewrite H in X.
Qed.
Print Assumptions C100_not_swallowed.

(** Without cancellations the call is that of the other client properties. *)
Theorem C100_uncancelled : forall (S : sorts) (W : Type) (E : env S W) stop fuel i w, (forall p x, stop p x = None) ->
  c_execute E stop fuel i w =
    match execute E fuel i w with Some (y, w') => Some (Ended y, w') | None => None end.
Proof.
  intros S W E stop fuel i w N.
  pose proof (execute_sim E stop (fun _ _ => True) (fun _ => I) (fun _ _ _ _ _ => I) (steady_any S W E stop) fuel i w) as X.
  destruct (c_execute E stop fuel i w) as [[[|y] w']|].
  - destruct X as [(p & x & Q) _]. rewrite N in Q. discriminate.
  - now rewrite X.
  - now rewrite X.
Qed.
Print Assumptions C100_uncancelled.

(** A call that is cancelled ends at once: the world is the one the interrupted callee left. *)
Theorem C100_at_once : forall (S : sorts) (W : Type) (E : env S W) stop fuel i w w',
  c_execute E stop fuel i w = Some (Interrupted, w') -> exists p x, stop p x = Some w'.
Proof.
  intros S W E stop fuel i w w' H.
  pose proof (execute_sim E stop (fun _ _ => True) (fun _ => I) (fun _ _ _ _ _ => I) (steady_any S W E stop) fuel i w) as X.
  rewrite H in X. exact (proj1 X).
Qed.
Print Assumptions C100_at_once.

(** A call that would end ends when it is cancelled, too, after no more attempts. *)
Theorem C100_ends : forall (S : sorts) (W : Type) (E : env S W) stop fuel i w y w',
  execute E fuel i w = Some (y, w') -> exists r x, c_execute E stop fuel i w = Some (r, x) /\
    (r = Ended y /\ x = w' \/ r = Interrupted).
Proof.
  intros S W E stop fuel i w y w' H.
  pose proof (execute_sim E stop (fun _ _ => True) (fun _ => I) (fun _ _ _ _ _ => I) (steady_any S W E stop) fuel i w) as X.
  destruct (c_execute E stop fuel i w) as [[[|z] x]|].
  - exists Interrupted, x. auto.
  - rewrite H in X. injection X as -> ->. exists (Ended z), x. auto.
  - rewrite H in X. discriminate.
Qed.
Print Assumptions C100_ends.

(** ** What was called *)
Definition extends {W : Type} (a b : W * log) : Prop := exists l, snd b = snd a ++ l.
Lemma extends_refl : forall (W : Type) (a : W * log), extends a a.
Proof. intros W a. exists []. symmetry. apply app_nil_r. Qed.
Lemma extends_trans : forall (W : Type) (a b c : W * log), extends a b -> extends b c -> extends a c.
Proof. intros W a b c [l H] [m K]. exists (l ++ m). now rewrite K, H, app_assoc. Qed.
Lemma noted_good : forall (W Y : Type) (stop : place -> W * log -> option W) p (m : W -> Y * W), p <> PSleep ->
  good (watched_stop stop) extends p (noted p m).
Proof.
  intros W Y stop p m N w. unfold noted. destruct (m (fst w)) as [y w']. split.
  - now exists [p].
  - intros x H. unfold watched_stop in H. destruct (stop p w) as [v|]; [|discriminate]. injection H as <-.
    exists []. cbn. rewrite app_nil_r. destruct p; try reflexivity. now destruct N.
Qed.
Lemma watched_steady : forall (S : sorts) (W : Type) (E : env S W) stop, steady (watched E) (watched_stop stop) extends.
Proof.
  intros S W E stop. constructor; intros; try (apply noted_good; discriminate).
  - exists []. cbn. now rewrite app_nil_r.
  - cbn in H. destruct (e_future E) as [g|]; [|discriminate]. injection H as <-. apply noted_good. discriminate.
  - intros w. exists []. cbn. destruct (e_copy E r (fst w)) as [r' w']. cbn. now rewrite app_nil_r.
  - unfold watched_stop in H. destruct (stop PSleep w) as [v|]; [|discriminate]. injection H as <-.
    exists []. cbn. now rewrite app_nil_r.
Qed.

(** What a cancelled call has called is what it would have called, up to the callee that
    was interrupted; after it nothing is called. *)
Theorem C100_prefix : forall (S : sorts) (W : Type) (E : env S W) stop fuel i w w' called,
  c_execute (watched E) (watched_stop stop) fuel i (w, []) = Some (Interrupted, (w', called)) ->
  (exists p before x, stop p (x, before) = Some w' /\ called = (if match p with PSleep => true | _ => false end then before else before ++ [p])) /\
  (forall fuel' y w2 all, execute (watched E) fuel' i (w, []) = Some (y, (w2, all)) -> exists later, all = called ++ later).
Proof.
  intros S W E stop fuel i w w' called H.
  pose proof (execute_sim (watched E) (watched_stop stop) extends (extends_refl W) (extends_trans W) (watched_steady S W E stop) fuel i (w, [])) as X.
  rewrite H in X. destruct X as [(p & x & Q) X]. split.
  - unfold watched_stop in Q. destruct (stop p x) as [v|] eqn:V; [|discriminate]. injection Q as <- <-.
    exists p, (snd x), (fst x). destruct x as [x l]. split; [exact V|]. destruct p; reflexivity.
  - intros fuel' y w2 all K. destruct (X _ _ _ K) as [later L]. now exists later.
Qed.
Print Assumptions C100_prefix.

(** ** An example: the standard retry strategy, and a service that throttles the first
    request and answers the second *)
Definition ex_sorts : sorts := mkSorts unit unit unit unit (option retry_info) unit unit unit unit unit token.
Definition ex_world : Type := (standard * nat)%type.   (* the strategy, and the requests sent *)
Definition ex_hooks : interceptor ex_sorts ex_world := @mkInterceptor ex_sorts ex_world
  (fun _ _ => ret tt) (fun i => ret i) (fun _ _ r => ret r) (fun _ _ p => ret p) (fun _ c => ret (oc_response c)).
Definition ex_throttled : option retry_info := Some (mkInfo (Some true) None true).
Definition ex_env : env ex_sorts ex_world := @mkEnv ex_sorts ex_world
  ex_hooks (fun _ => ret tt) (fun _ => ret tt) (fun _ _ => ret tt) (ret []) (fun _ => None) (fun _ w => w)
  (fun _ => ret tt) (fun _ => ret tt) (fun _ => tt) (fun _ => tt) (fun _ _ => tt) (fun _ _ => ret tt) (fun _ _ _ _ => ret tt)
  None
  (fun _ w => match snd w with O => (inr ex_throttled, (fst w, 1)) | _ => (inl tt, w) end)
  (fun _ => false) (fun e => e) (fun _ _ => ret tt) (fun r w => (r, w)) (fun _ => ret tt)
  (fun w => (inl (standard_acquire (fst w)), w)) k_delay
  (fun t e w => match standard_refresh (fst w) t e (1 # 2)%Q with
                | (Granted t', s) => (inl t', (s, snd w))
                | (Refused a, s) => (inr (inl a), (s, snd w))
                | (Raised _, s) => (inr (inr None), (s, snd w))
                end)
  (fun t w => (inl tt, (standard_success (fst w) t, snd w)))
  true false (fun _ => true) (fun e => e).
Definition ex_strategy : standard := mkStandard (new_backoff (1 # 20) 20 JFull) (new_backoff 1 20 JFull) 3%Z (new_quota 500).
(** Cancelled while the second request is under way. *)
Definition ex_stop (p : place) (w : ex_world * log) : option ex_world :=
  match p, snd (fst w) with PSend, 1 => Some (fst w) | _, _ => None end.
Definition ex_result := c_execute (watched ex_env) (watched_stop ex_stop) 5 tt ((ex_strategy, 0), []).
(** What came of it, what was called and what is left of the quota. *)
Definition ex_seen : option (bool * log * Z) :=
  match ex_result with
  | Some (Interrupted, (w, l)) => Some (true, l, q_avail (d_quota (fst w)))
  | Some (Ended _, (w, l)) => Some (false, l, q_avail (d_quota (fst w)))
  | None => None
  end.
Definition ex_attempt : list place :=
  [PRead RBeforeAttempt; PEndpoint; PSetEndpoint; PModifyRequest MBeforeSigning; PRead RBeforeSigning; PAuthOptions;
   PRead RAfterSigning; PModifyRequest MBeforeTransmit; PRead RBeforeTransmit; PSend].
Definition ex_start : list place :=
  [PRead RBeforeExecution; PModifyInput; PRead RBeforeSerialization; PSerialize; PRead RAfterSerialization;
   PModifyRequest MBeforeRetryLoop; PAcquire].
Example C100_example : ex_seen = Some (true,
  ex_start ++ ex_attempt ++ [PModifyOutput MBeforeAttemptCompletion; PRead RAfterAttempt; PRefresh; PRewind] ++ ex_attempt, 495%Z).
Proof. reflexivity. Qed.
Example C100_example_uncancelled :
  match execute ex_env 5 tt (ex_strategy, 0) with
  | Some (inl _, w) => q_avail (d_quota (fst w)) = 500%Z | _ => False end.
Proof. reflexivity. Qed.

(** Interceptors that were told that an execution and an attempt begin are not told that
    they ended. *)
Theorem C100_hooks_refuted : exists (S : sorts) (W : Type) (E : env S W) stop fuel i w w' called,
  c_execute (watched E) (watched_stop stop) fuel i (w, []) = Some (Interrupted, (w', called)) /\
  In (PRead RBeforeExecution) called /\ ~ In (PRead RAfterExecution) called /\
  count_occ Bool.bool_dec (map (fun p => match p with PRead RBeforeAttempt => true | _ => false end) called) true = 2 /\
  count_occ Bool.bool_dec (map (fun p => match p with PRead RAfterAttempt => true | _ => false end) called) true = 1.
Proof.
  pose proof C100_example as X. unfold ex_seen in X. destruct ex_result as [[[|y] [w' l]]|] eqn:Q; [| |discriminate]; [|discriminate].
  injection X as -> _.
  exists ex_sorts, ex_world, ex_env, ex_stop, 5, tt, (ex_strategy, 0), w',
    (ex_start ++ ex_attempt ++ [PModifyOutput MBeforeAttemptCompletion; PRead RAfterAttempt; PRefresh; PRewind] ++ ex_attempt).
  split; [exact Q|]. split; [now left|]. split; [|split; reflexivity].
  intros H. cbn in H. repeat (destruct H as [H|H]; [discriminate|]). exact H.
Qed.
Print Assumptions C100_hooks_refuted.

(** The quota taken for a retry is not given back when the retry is cancelled, although
    it would be had the service answered. *)
Theorem C100_quota_refuted : exists (S : sorts) (E : env S ex_world) stop fuel i y w w' w'' called,
  c_execute (watched E) (watched_stop stop) fuel i (w, []) = Some (Interrupted, (w', called)) /\
  execute E fuel i w = Some (inl y, w'') /\
  q_avail (d_quota (fst w'')) = q_avail (d_quota (fst w)) /\
  (q_avail (d_quota (fst w')) < q_avail (d_quota (fst w)))%Z.
Proof.
  pose proof C100_example as X. unfold ex_seen in X. destruct ex_result as [[[|y] [w' l]]|] eqn:Q; [| |discriminate]; [|discriminate].
  injection X as _ A. pose proof C100_example_uncancelled as Y.
  destruct (execute ex_env 5 tt (ex_strategy, 0)) as [[[y|e] w'']|] eqn:Z; [|destruct Y|destruct Y].
  exists ex_sorts, ex_env, ex_stop, 5, tt, y, (ex_strategy, 0), w', w'', l.
  split; [exact Q|]. split; [exact Z|]. split; [exact Y|]. unfold log in *. rewrite A. reflexivity.
Qed.
Print Assumptions C100_quota_refuted.
