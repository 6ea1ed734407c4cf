(** C12, continued: the number of attempts of a whole call. *)
From Coq Require Import QArith.
From Verif Require Import Base Base_Proofs Retry_Model Retry_Proofs Client_Model Client_Spec RetryPipeline_Model RetryPipeline_Spec RetryPipeline_Proofs.
Local Open Scope Z_scope.

(** A call of an operation through a client with the standard strategy, whatever
    the interceptors, the protocol, the identity resolvers, the transport and the
    other operations that share the strategy do: it ends; it makes at most
    [max_attempts] attempts (and one if [max_attempts] is not positive, or if the
    call has an input stream) and sends at most one request in each; between two sends an error that is marked safe to
    retry was reported to the strategy and the retry granted; if the hooks before the
    retry loop let it through, an attempt is made; and it does not give up early: when
    the strategy refuses to retry an error marked safe, and not for want of quota
    (then the refusal names a delay), all attempts have been made. *)
Theorem C12_call_standard : forall S W info of_exn draw m (E : env (with_tokens S) (standard * W)) fuel ci w,
  (Z.to_nat (Z.max 1 m) <= fuel)%nat ->
  exists final w' es,
    execute (spy_env (with_standard info of_exn draw m E)) fuel ci (w, []) = Some (final, (w', es)) /\
    sends_of es <= attempts_of es <= (if e_retryable E then Z.max 1 m else 1) /\
    (forall a r x b r' x' c, es = a ++ EvSend r x :: b ++ EvSend r' x' :: c ->
       exists t e t', In (EvRefresh (S := with_tokens S) t e (inl t')) b /\ safe_to_retry info e) /\
    (forall i r0 r, In (EvRequest MBeforeRetryLoop i r0 (inl r)) es ->
       exists c x, In (EvRead (S := with_tokens S) RBeforeAttempt c x) es) /\
    (forall t e, In (EvRefresh (S := with_tokens S) t e (inr (inl None))) es -> safe_to_retry info e ->
       attempts_of es = Z.max 1 m).
Proof.
  intros S W info of_exn draw m E fuel ci w Hf.
  assert (St : forall (w : standard * W) x w', std_acquire (Er := Exc S) (standard_of m (fst w), snd w) = (x, w') -> exists t, x = inl t /\ k_count t = 0).
  { intros [s v] x w' [= <- <-]. eexists. split; reflexivity. }
  assert (Gr : forall t e (w : standard * W) t' w', std_refresh info of_exn draw t e (standard_of m (fst w), snd w) = (inl t', w') ->
                k_count t' = k_count t + 1 /\ k_count t' < m /\ safe_to_retry info e).
  { intros t e v t' w' R. destruct (std_grants _ _ _ _ _ _ _ _ R) as [_ G]. exact (G _ eq_refl). }
  assert (Gu : forall t e (w : standard * W) w', std_refresh info of_exn draw t e (standard_of m (fst w), snd w) = (inr (inl None), w') ->
                safe_to_retry info e -> m <= k_count t + 1).
  { intros t e v w' R (i & Hi & Hs). unfold std_refresh in R. cbn [fst snd] in R. destruct (draw (snd v)) as [q a]. rewrite Hi in R.
    unfold standard_refresh in R. rewrite Hs in R. cbn [standard_of d_max d_backoff d_throttling d_quota] in R.
    destruct (Z.leb_spec m (k_count t + 1)); [assumption|].
    destruct (compute_delay _ _ _) as [[ti|x] b']; [|discriminate R]. destruct (q_acquire _ _) as [[y|y] q']; discriminate R. }
  destruct (ends _ _ (fun t v => std_success t (standard_of m (fst v), snd v)) m _ St Gr Gu E fuel ci w Hf) as (final & w' & H).
  destruct (spied_ends _ _ _ _ _ _ H) as (es & H').
  exists final, w', es. split; [exact H'|].
  destruct (counted _ _ _ m _ St Gr Gu E _ _ _ _ _ _ H') as (N & B & P). split; [exact N|]. split; [exact B|]. split; [exact (attempted _ _ _ m _ St Gr Gu E _ _ _ _ _ _ H')|exact P].
Qed.
Print Assumptions C12_call_standard.

(** The same with the simple strategy. *)
Theorem C12_call_simple : forall S W info of_exn draw m (E : env (with_tokens S) (simple * W)) fuel ci w,
  (Z.to_nat (Z.max 1 m) <= fuel)%nat ->
  exists final w' es,
    execute (spy_env (with_simple info of_exn draw m E)) fuel ci (w, []) = Some (final, (w', es)) /\
    sends_of es <= attempts_of es <= (if e_retryable E then Z.max 1 m else 1) /\
    (forall a r x b r' x' c, es = a ++ EvSend r x :: b ++ EvSend r' x' :: c ->
       exists t e t', In (EvRefresh (S := with_tokens S) t e (inl t')) b /\ safe_to_retry info e) /\
    (forall i r0 r, In (EvRequest MBeforeRetryLoop i r0 (inl r)) es ->
       exists c x, In (EvRead (S := with_tokens S) RBeforeAttempt c x) es) /\
    (forall t e, In (EvRefresh (S := with_tokens S) t e (inr (inl None))) es -> safe_to_retry info e ->
       attempts_of es = Z.max 1 m).
Proof.
  intros S W info of_exn draw m E fuel ci w Hf.
  assert (St : forall (w : simple * W) x w', smp_acquire (Er := Exc S) (simple_of m (fst w), snd w) = (x, w') -> exists t, x = inl t /\ k_count t = 0).
  { intros [s v] x w' [= <- <-]. eexists. split; reflexivity. }
  assert (Gr : forall t e (w : simple * W) t' w', smp_refresh info of_exn draw t e (simple_of m (fst w), snd w) = (inl t', w') ->
                k_count t' = k_count t + 1 /\ k_count t' < m /\ safe_to_retry info e).
  { intros t e v t' w' R. destruct (smp_grants _ _ _ _ _ _ _ _ R) as [_ G]. exact (G _ eq_refl). }
  assert (Gu : forall t e (w : simple * W) w', smp_refresh info of_exn draw t e (simple_of m (fst w), snd w) = (inr (inl None), w') ->
                safe_to_retry info e -> m <= k_count t + 1).
  { intros t e v w' R (i & Hi & Hs). unfold smp_refresh in R. cbn [fst snd] in R. destruct (draw (snd v)) as [q a]. rewrite Hi in R.
    unfold simple_refresh in R. rewrite Hs in R. cbn [simple_of s_max s_backoff] in R.
    destruct (Z.leb_spec m (k_count t + 1)); [assumption|]. destruct (compute_delay _ _ _) as [[d|x] b']; discriminate R. }
  destruct (ends _ _ (fun t v => smp_success t (simple_of m (fst v), snd v)) m _ St Gr Gu E fuel ci w Hf) as (final & w' & H).
  destruct (spied_ends _ _ _ _ _ _ H) as (es & H').
  exists final, w', es. split; [exact H'|].
  destruct (counted _ _ _ m _ St Gr Gu E _ _ _ _ _ _ H') as (N & B & P). split; [exact N|]. split; [exact B|]. split; [exact (attempted _ _ _ m _ St Gr Gu E _ _ _ _ _ _ H')|exact P].
Qed.
Print Assumptions C12_call_simple.

(** A transport that always times out, with an error that is safe to retry: with
    three attempts allowed three requests are sent; one if the call has an input stream. *)
Definition N0 : sorts := with_tokens (mkSorts nat nat nat nat nat nat nat nat nat nat nat).
Definition failing (retryable : bool) : env N0 (simple * unit) := {|
  e_interceptor := {| i_read := fun _ _ => ret tt; i_input := fun i => ret i; i_request := fun _ _ r => ret r;
                      i_response := fun _ _ p => ret p; i_output := fun _ c => ret (oc_response c) |};
  e_serialize := fun i => ret (S := N0) i;
  e_endpoint := fun _ => ret (S := N0) 1%nat;
  e_set_endpoint := fun r ep => ret (S := N0) r;
  e_auth_options := ret (S := N0) [];
  e_supported := fun _ => None;
  e_set_scheme := fun _ w => w;
  e_identity_props := fun _ => ret (S := N0) 0%nat;
  e_signer_props := fun _ => ret (S := N0) 0%nat;
  e_opt_identity_props := fun _ => 0%nat;
  e_opt_signer_props := fun _ => 0%nat;
  e_update := fun a b => a;
  e_identity := fun _ _ => ret (S := N0) 7%nat;
  e_sign := fun _ r _ _ => ret (S := N0) r;
  e_future := None;
  e_send := fun r => throw (S := N0) 9%nat;
  e_is_timeout := fun _ => false;
  e_timeout := fun e => e;
  e_deserialize := fun _ p => ret (S := N0) p;
  e_copy := fun r w => (r, w);
  e_rewind := fun _ => ret (S := N0) tt;
  e_acquire := throw (S := N0) 0%nat;
  e_delay := fun _ => 0%Q;
  e_refresh := fun t _ w => (inr (inl None), w);
  e_success := fun _ => ret (S := N0) tt;
  e_retryable := retryable;
  e_long_polling := false;
  e_is_smithy := fun _ => true;
  e_smithy := fun e => e
|}.
Definition plain_strategy : simple := mkSimple (new_backoff (1 # 20) 20 JNone) 0.
Definition sent {X} (x : option (X * ((simple * unit) * list (event N0)))) : option (Z * Z) :=
  match x with Some (_, (_, es)) => Some (sends_of es, attempts_of es) | None => None end.
Definition timeout_info (e : nat) : option retry_info := Some (mkInfo (Some true) None false).
Example C12_call_ex :
  let run retryable := sent (execute (spy_env (with_simple (S := mkSorts nat nat nat nat nat nat nat nat nat nat nat)
      timeout_info (fun _ => 99%nat) (fun u => (1 # 2, u)) 3 (failing retryable))) 5 1%nat ((plain_strategy, tt), [])) in
  run true = Some (3, 3) /\ run false = Some (1, 1).
Proof. split; vm_compute; reflexivity. Qed.

(** C14, continued: what a call asks of its strategy is what the histories of C14
    are made of, whatever the strategy: one initial token at most, every report
    made with the token it was last given, at most one report of success and
    nothing after it or after a refusal; a call with an input stream, or one that ends before its
    first attempt, asks nothing. *)
Theorem C14_call : forall S W (E : env S W) fuel ci w final w' es,
  execute (spy_env E) fuel ci (w, []) = Some (final, (w', es)) ->
  (filter about_strategy es = [] /\ (e_retryable E = false \/ attempts_of es = 0)) \/
  (e_retryable E = true /\ exists e, filter about_strategy es = [EvAcquire (inr e)]) \/
  (e_retryable E = true /\ exists t l, filter about_strategy es = EvAcquire (inl t) :: l /\ uses_from t l).
Proof. intros. now apply (call_uses E fuel ci w final w'). Qed.
Print Assumptions C14_call.

(** The call of C12_call_ex refreshes its token twice and is refused the third time. *)
Example C14_call_ex : exists final w' es,
  execute (spy_env (with_simple (S := mkSorts nat nat nat nat nat nat nat nat nat nat nat)
      timeout_info (fun _ => 99%nat) (fun u => (1 # 2, u)) 3 (failing true))) 5 1%nat ((plain_strategy, tt), []) = Some (final, (w', es)) /\
  map kind (filter about_strategy es) = [StAcquire; StRefresh; StRefresh; StRefresh].
Proof. eexists _, _, _. split; vm_compute; reflexivity. Qed.
