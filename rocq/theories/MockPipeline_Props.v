(** C110, continued: a call of a client that is given the HTTP client for tests. *)
From Coq Require Import QArith.
From Verif Require Import Base Base_Proofs Retry_Model Client_Model Client_Spec Client_Props MockPipeline_Model MockPipeline_Spec MockPipeline_Proofs.
Local Open Scope nat_scope.

(** Whatever the rest of the client does and however often it retries: the requests
    of its attempts are captured in order, the n-th attempt to transmit gets the n-th
    response that is queued, the ones beyond get the error for that, and the responses
    nobody asked for are still queued. *)
Theorem C110_call : forall S W (E : env S W) exhausted fuel ci w queue captured final w' m es,
  execute (spy_env (with_mock exhausted E)) fuel ci ((w, mkMock queue captured), []) = Some (final, ((w', m), es)) ->
  m_captured m = captured ++ map fst (transmitted es)
  /\ (forall n x, nth_error (map snd (transmitted es)) n = Some x ->
        x = match nth_error queue n with Some p => inl p | None => inr exhausted end)
  /\ m_queue m = skipn (List.length (transmitted es)) queue.
Proof.
  intros S W E exhausted fuel ci w queue captured final w' m es H. destruct (mock_served _ _ _ _ _ _ _ _ _ _ _ H) as (C & Q & A).
  split; [exact C|]. split; [|exact Q]. intros n x. set (t := transmitted es) in *. rewrite A. intros N.
  assert (L : n < List.length t).
  { rewrite <- A in N. rewrite <- (map_length snd). apply nth_error_Some. congruence. }
  destruct (Nat.lt_ge_cases n (List.length queue)) as [Lq|Lq].
  - rewrite nth_error_app1 in N by (rewrite map_length, firstn_length; lia). rewrite nth_error_map in N.
    assert (F : nth_error (firstn (List.length t) queue) n = nth_error queue n).
    { rewrite <- (firstn_skipn (List.length t) queue) at 2. rewrite nth_error_app1; [reflexivity|]. rewrite firstn_length. lia. }
    rewrite F in N. destruct (nth_error queue n) as [p|]; cbn in N; [now injection N as <-|discriminate].
  - rewrite nth_error_app2 in N by (rewrite map_length, firstn_length; lia). apply nth_error_In, repeat_spec in N. rewrite N.
    rewrite (proj2 (nth_error_None queue n)) by lia. reflexivity.
Qed.
Print Assumptions C110_call.

(** A call with three attempts and two responses: the errors in the first two make it
    try again, and then there is none left. *)
Definition strict : interceptor D nat :=
  mkInterceptor (S := D) (W := nat)
    (fun h c => match h, c with RAfterTransmit, CResponse _ _ p => if Nat.eqb p 500 then throw (p : Exc D) else ret tt | _, _ => ret tt end)
    (fun i => ret i) (fun _ _ r => ret r) (fun _ _ p => ret p) (fun _ c => ret (oc_response c)).
Example C110_call_ex : exists final w' es,
  execute (spy_env (with_mock (S := D) 77 (demo strict true only4))) 5 1 ((0, mkMock (S := D) [500; 500] []), [])
  = Some (final, ((w', mkMock (S := D) [] [116; 116; 116]), es))
  /\ transmitted es = [(116, inl 500); (116, inl 500); (116, inr 77)].
Proof. eexists _, _, _. split; vm_compute; reflexivity. Qed.
Example C110_call_left : exists final w' es,
  execute (spy_env (with_mock (S := D) 77 (demo strict true only4))) 5 1 ((0, mkMock (S := D) [500; 200; 201] []), [])
  = Some (final, ((w', mkMock (S := D) [201] [116; 116]), es)).
Proof. eexists _, _, _. vm_compute; reflexivity. Qed.
