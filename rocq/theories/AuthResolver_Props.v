(** C56, continued: which scheme signs with the auth resolvers of the library. *)
From Coq Require Import QArith.
From Verif Require Import Base Base_Proofs Retry_Model Client_Model Client_Spec Client_Proofs ClientShape_Proofs Client_Props AuthResolver_Model AuthResolver_Proofs.
Local Open Scope nat_scope.

(** With [DefaultAuthResolver], in every attempt of every call: identities are asked
    for and requests signed by the first of the operation's schemes that the client
    supports, with the scheme's own properties and none of an option, and with an
    identity that this scheme was given; so that all attempts use the same scheme. *)
Theorem C56_default : forall S ID W (E : env (with_options S ID) W) supported effective empty fuel ci w final w' es,
  execute (spy_env (with_resolver (default_resolver empty effective) supported E)) fuel ci (w, []) = Some (final, (w', es)) ->
  let first s := exists pre k post, effective = pre ++ k :: post /\ supported k = Some s /\ Forall (fun k' => supported k' = None) pre in
  (forall s p x, In (EvIdentity s p x) es -> first s /\ exists ip, In (EvIdentityProps s (inl ip)) es /\ p = e_update E ip empty)
  /\ (forall s r id p x, In (EvSign s r id p x) es ->
       first s /\ (exists sp, In (EvSignerProps s (inl sp)) es /\ p = e_update E sp empty) /\ exists q, In (EvIdentity s q (inl id)) es)
  /\ forall s1 s2, first s1 -> first s2 -> s1 = s2.
Proof.
  intros S ID W E supported effective empty fuel ci w final w' es H first.
  assert (F : forall o s, chosen (default_resolver empty effective) supported o s -> first s /\ identity_properties o = empty).
  { intros o s (pre & post & Eo & Sp & N). unfold default_resolver in Eo. apply map_eq_app in Eo. destruct Eo as (l1 & l2 & -> & <- & Eo).
    destruct l2 as [|k l2]; [discriminate|]. injection Eo as <- _. split; [|reflexivity]. exists l1, k, l2. split; [reflexivity|]. split; [exact Sp|].
    apply Forall_map in N. exact N. }
  destruct (resolver_signs _ _ _ _ _ _ _ _ _ H) as [Hi Hs]. split; [|split].
  - intros s p x J. destruct (Hi _ _ _ J) as (o & ip & C & I & ->). destruct (F _ _ C) as [Fs ->]. split; [exact Fs|]. eauto.
  - intros s r id p x J. destruct (Hs _ _ _ _ _ J) as (o & sp & q & C & I & Q & ->). destruct (F _ _ C) as [Fs ->]. split; [exact Fs|]. split; eauto.
  - intros s1 s2 (p1 & k1 & q1 & E1 & S1 & N1) (p2 & k2 & q2 & E2 & S2 & N2). clear - E1 S1 N1 E2 S2 N2. revert effective p2 E1 E2 N2.
    induction p1 as [|a p1 IH]; intros l p2 -> E2 N2.
    + destruct p2 as [|b p2]; cbn in E2; [injection E2 as <- _; congruence|]. injection E2 as <- _. inversion N2. congruence.
    + inversion N1 as [|? ? Na N1']; subst. destruct p2 as [|b p2]; cbn in E2; [injection E2 as <- _; congruence|]. injection E2 as <- E2. inversion N2. subst. eapply IH; eauto.
Qed.
Print Assumptions C56_default.

(** And it is signed: in every attempt, before a request is sent it has been signed by
    that scheme in that attempt, unless the client supports none of the schemes. *)
Theorem C56_default_signed : forall S ID W (E : env (with_options S ID) W) supported effective empty fuel ci w final w' es,
  execute (spy_env (with_resolver (default_resolver empty effective) supported E)) fuel ci (w, []) = Some (final, (w', es)) ->
  let first s := exists pre k post, effective = pre ++ k :: post /\ supported k = Some s /\ Forall (fun k' => supported k' = None) pre in
  execution_shape (S := with_options S ID) (fun _ es _ =>
      forall a q x b, es = a ++ EvSend (S := with_options S ID) q x :: b ->
        (exists s r id p r', first s /\ In (EvSign (S := with_options S ID) s r id p (inl r')) a)
        \/ (Forall (fun k => supported k = None) effective /\ forall s r id p x, ~ In (EvSign s r id p x) a))
    (e_retryable E) (fun e => if e_is_smithy E e then e else e_smithy E e) es
    (match final with inl (o, _) => inl o | inr e => inr e end).
Proof.
  intros S ID W E supported effective empty fuel ci w final w' es H first.
  pose proof (C56_selection _ _ _ _ _ _ _ _ _ H) as Sh. eapply execution_mono; [|exact Sh]. clear H Sh es. intros r0 es c0 A a q x b Eq.
  destruct (A _ _ _ Eq) as (opts & J & Hs). apply in_split in J. destruct J as (a1 & a2 & ->). rewrite <- app_assoc in Eq.
  destruct (A _ _ _ Eq) as (v & v' & O). cbn in O. injection O as <- _. destruct Hs as [(o & s & r & id & p & r' & (pre & post & Eo & Sp & N) & J)|[N Q]].
  - left. exists s, r, id, p, r'. split; [|exact J]. unfold default_resolver in Eo. apply map_eq_app in Eo. destruct Eo as (l1 & l2 & -> & <- & Eo).
    destruct l2 as [|k l2]; [discriminate|]. injection Eo as <- _. exists l1, k, l2. split; [reflexivity|]. split; [exact Sp|]. apply Forall_map in N. exact N.
  - right. split; [|exact Q]. unfold default_resolver in N. apply Forall_map in N. exact N.
Qed.
Print Assumptions C56_default_signed.

(** With [NoAuthResolver] nothing is signed and nobody is asked for an identity. *)
Theorem C56_no_auth : forall S ID W (E : env (with_options S ID) W) supported fuel ci w final w' es,
  execute (spy_env (with_resolver no_auth_resolver supported E)) fuel ci (w, []) = Some (final, (w', es)) ->
  (forall s p x, ~ In (EvIdentity s p x) es) /\ (forall s r id p x, ~ In (EvSign s r id p x) es).
Proof.
  intros S ID W E supported fuel ci w final w' es H. destruct (resolver_signs _ _ _ _ _ _ _ _ _ H) as [Hi Hs]. split.
  - intros s p x J. destruct (Hi _ _ _ J) as (o & ip & (pre & post & Eo & _) & _). destruct pre; discriminate Eo.
  - intros s r id p x J. destruct (Hs _ _ _ _ _ J) as (o & sp & q & (pre & post & Eo & _) & _). destruct pre; discriminate Eo.
Qed.
Print Assumptions C56_no_auth.

(** A call that is sent twice: the first send fails. *)
Definition D' := with_options D nat.
Definition silent : interceptor D' nat := {|
  i_read := fun _ _ => ret tt;
  i_input := fun i => ret i;
  i_request := fun _ _ r => ret r;
  i_response := fun _ _ p => ret p;
  i_output := fun _ c => ret (oc_response c)
|}.
Definition small : env D' nat := {|
  e_interceptor := silent;
  e_serialize := fun i => ret (S := D') (i + 10);
  e_endpoint := fun _ => ret (S := D') 1;
  e_set_endpoint := fun r ep => ret (S := D') (r + 100);
  e_auth_options := ret (S := D') [];
  e_supported := fun _ => None;
  e_set_scheme := fun _ w => w;
  e_identity_props := fun _ => ret (S := D') 0;
  e_signer_props := fun _ => ret (S := D') 20;
  e_opt_identity_props := fun _ => 0;
  e_opt_signer_props := fun _ => 0;
  e_update := fun a b => a + b;
  e_identity := fun _ _ => ret (S := D') 7;
  e_sign := fun _ r _ _ => ret (S := D') (r + 5);
  e_future := None;
  e_send := fun r w => if Nat.eqb w 0 then (inr 9, 1) else (inl r, w + 1);
  e_is_timeout := fun _ => false;
  e_timeout := fun e => e;
  e_deserialize := fun _ p => ret (S := D') (p + 1);
  e_copy := fun r w => (r, w);
  e_rewind := fun _ => ret (S := D') tt;
  e_acquire := ret (S := D') 0;
  e_delay := fun _ => 0%Q;
  e_refresh := fun t _ w => if Nat.ltb t 2 then (inl (t + 1), w) else (inr (inl None), w);
  e_success := fun _ => ret (S := D') tt;
  e_retryable := true;
  e_long_polling := false;
  e_is_smithy := fun _ => true;
  e_smithy := fun e => e
|}.
Example C56_default_ex : exists final w' es,
  execute (spy_env (with_resolver (S := D) (default_resolver 0 [3; 4; 5]) only4 small)) 5 1 (0, []) = Some (final, (w', es)) /\
  filter (fun e => match e with EvSign _ _ _ _ _ | EvSend _ _ => true | _ => false end) es
  = [EvSign (S := D') 40 111 7 20 (inl 116); EvSend (S := D') 116 (inr 9); EvSign (S := D') 40 111 7 20 (inl 116); EvSend (S := D') 116 (inl 116)].
Proof. eexists _, _, _. split; vm_compute; reflexivity. Qed.
Example C56_no_auth_ex : exists final w' es,
  execute (spy_env (with_resolver (S := D) no_auth_resolver only4 small)) 5 1 (0, []) = Some (final, (w', es)) /\
  filter (fun e => match e with EvSign _ _ _ _ _ | EvSend _ _ => true | _ => false end) es
  = [EvSend (S := D') 111 (inr 9); EvSend (S := D') 111 (inl 111)].
Proof. eexists _, _, _. split; vm_compute; reflexivity. Qed.
