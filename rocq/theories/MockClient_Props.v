(** C110: the HTTP client for tests. *)
From Verif Require Import Base Base_Proofs PyDict_Model Fields_Model MockClient_Model MockClient_Spec MockClient_Proofs.
From Coq Require Import ZArith.

(** Whatever the calls and their order, the responses given are the first of those
    queued, in the order of queueing, each once. *)
Theorem C110_fifo {D B} lower requests fields lists (ops : list (op D B)) :
  let xs := given (snd (run lower ops (start requests fields lists))) in
  map (fun p => (p_status p, p_body p)) xs = firstn (List.length xs) (map (fun a => (fst (fst a), snd a)) (added ops)).
Proof.
  cbv zeta. destruct (run_queue lower ops (start requests fields lists)) as (taken & new & Q & T & N).
  cbn [w_queue start app] in Q. fold brief. change (fun p => (p_status p, p_body p)) with brief. change (fun a : Z * option nat * bytes => (fst (fst a), snd a)) with abrief.
  rewrite <- N, <- T, Q, map_app. rewrite <- (map_length brief), <- T, firstn_app, firstn_all, Nat.sub_diag, firstn_O, app_nil_r. reflexivity.
Qed.
Print Assumptions C110_fifo.

(** A [send] gives the first response that has not been given yet, with the headers
    that were queued if the list with them has not been changed since. *)
Theorem C110_next {D B} lower requests fields lists (b1 b2 : list (op D B)) s h b r :
  let (w, xs) := run lower (b1 ++ AddResponse s h b :: b2) (start requests fields lists) in
  List.length (given xs) = List.length (added b1) ->
  exists w' d, send lower r w = (w', Ok (mkResponse s d b))
    /\ ((forall l t, h = Some l -> ~ In (ChangeList l t) b2) ->
        headers_say lower (match h with Some l => contents lists b1 l | None => [] end) d).
Proof.
  rewrite run_app. intros L. set (w1 := fst (run lower b1 (start requests fields lists))) in *.
  cbn [run step] in *. set (w2 := add_response s h b w1) in *.
  destruct (run lower b2 w2) as [w xs] eqn:R2. cbn [fst snd] in *. rewrite given_app, app_length in L.
  destruct (run_queue lower b1 (start requests fields lists)) as (t1 & n1 & Q1 & T1 & N1).
  destruct (run_queue lower b2 w2) as (t2 & n2 & Q2 & T2 & _). rewrite R2 in Q2, T2. cbn [fst snd] in Q2, T2.
  fold w1 in Q1. cbn [w_queue start app] in Q1.
  assert (L1 : List.length n1 = List.length (added b1)) by (rewrite <- (map_length qbrief), N1, map_length; reflexivity).
  assert (G1 : List.length t1 = List.length (given (snd (run lower b1 (start requests fields lists))))) by (rewrite <- (map_length qbrief), T1, map_length; reflexivity).
  assert (G2 : List.length t2 = List.length (given xs)) by (rewrite <- (map_length qbrief), T2, map_length; reflexivity).
  assert (E : List.length t2 = List.length (w_queue w1)) by (apply (f_equal (@List.length _)) in Q1; rewrite app_length in Q1; lia).
  set (held := match h with Some l => match w_lists w1 l with [] => None | _ => Some l end | None => None end).
  assert (Q : w_queue w = mkQueued s held b :: n2).
  { cbn [w_queue add_response] in Q2. subst w2. cbn [w_queue add_response] in Q2. rewrite <- app_assoc in Q2.
    apply (f_equal (skipn (List.length t2))) in Q2. rewrite E in Q2 at 1. rewrite !skipn_app, !skipn_all, !Nat.sub_diag in Q2. symmetry. exact Q2. }
  eexists _, _. unfold send. rewrite Q. split; [reflexivity|]. intros H. cbn [d_headers].
  assert (C : match held with Some l => w_lists w l | None => [] end = match h with Some l => contents lists b1 l | None => [] end).
  { unfold held. destruct h as [l|]; [|reflexivity]. pose proof (run_lists lower b1 (start requests fields lists) l) as E1. fold w1 in E1. cbn [w_lists start] in E1.
    rewrite <- E1. destruct (w_lists w1 l) eqn:W; [reflexivity|]. pose proof (run_lists lower b2 w2 l) as E2. rewrite R2 in E2. cbn [fst] in E2. rewrite E2.
    rewrite contents_steady by (intros t; now apply H). exact W. }
  rewrite C. apply loop_says.
Qed.
Print Assumptions C110_next.

(** If all have been given, a [send] raises, and there are never more given than
    queued. *)
Theorem C110_empty {D B} lower requests fields lists (ops : list (op D B)) r :
  let (w, xs) := run lower ops (start requests fields lists) in
  (List.length (given xs) <= List.length (added ops))%nat
  /\ (List.length (given xs) = List.length (added ops) -> snd (send lower r w) = Err KeyError).
Proof.
  destruct (run_queue lower ops (start requests fields lists)) as (taken & new & Q & T & N).
  destruct (run lower ops (start requests fields lists)) as [w xs]. cbn [fst snd w_queue start app] in *.
  apply (f_equal (@List.length _)) in T, N, Q. rewrite !map_length in *. rewrite app_length in Q. split; [lia|].
  intros E. unfold send. destruct (w_queue w); [reflexivity|cbn in Q; lia].
Qed.
Print Assumptions C110_empty.

(** Every request that was sent is captured, in order and with its attributes at
    that time, whether there was a response for it or not. *)
Theorem C110_captured {D B} lower requests fields lists (ops : list (op D B)) :
  let w := fst (run lower ops (start requests fields lists)) in
  map fst (captured_requests w) = sent requests ops /\ call_count w = List.length (sent requests ops).
Proof.
  cbv zeta. unfold captured_requests, call_count. rewrite map_map. cbn [fst]. rewrite map_id, run_captured. auto.
Qed.
Print Assumptions C110_captured.

(** But what the headers of a captured request show is not what they were when it
    was sent: the copy shares the collection, and a later change shows. *)
Theorem C110_shared_refuted {D B} lower requests fields lists (ops : list (op D B)) r d :
  let w := fst (run lower ops (start requests fields lists)) in
  let f := q_fields (w_requests w r) in
  let w' := fst (run lower [Send r; ChangeFields f d] w) in
  nth_error (captured_requests w') (List.length (sent requests ops)) = Some (w_requests w r, d).
Proof.
  cbv zeta. set (w := fst (run lower ops (start requests fields lists))).
  assert (C : w_captured w = sent requests ops) by (unfold w; rewrite run_captured; reflexivity).
  cbn [run step]. unfold send. destruct (w_queue w); cbn [fst]; unfold captured_requests; cbn [w_captured w_fields];
    rewrite map_app, nth_error_app2, map_length, C, Nat.sub_diag by (rewrite map_length, C; lia); cbn; unfold put; rewrite Nat.eqb_refl; reflexivity.
Qed.
Print Assumptions C110_shared_refuted.

(** Nor are the headers of a response those queued: the list of pairs is the
    caller's, and changing it changes the response, unless it was empty. *)
Theorem C110_queued_refuted {D B} lower requests fields lists s l b t r :
  let '(_, xs) := run lower [AddResponse s (Some l) b; ChangeList l t; Send r] (@start D B requests fields lists) in
  exists d, xs = [Ok (mkResponse s d b)] /\ headers_say lower (match lists l with [] => [] | _ => t end) d.
Proof.
  cbn. unfold put. destruct (lists l); [eexists; split; [reflexivity|]; apply (loop_says lower [])|].
  rewrite Nat.eqb_refl. eexists. split; [reflexivity|]. apply loop_says.
Qed.
Print Assumptions C110_queued_refuted.

(** Two responses, three requests, and a header changed after it was sent. *)
Definition ex_low (t : text) : text := map (fun c => if ((65 <=? c) && (c <=? 90))%N then (c + 32)%N else c) t.
Definition ex_start : world nat nat :=
  start (fun r => mkRequest r (lit "GET") r r) (fun f => []) (fun l => [(lit "A", lit "1"); (lit "b", lit "2"); (lit "a", lit "3")]).
Definition ex_ops : list (op nat nat) :=
  [AddResponse 500 None (lit "x"); AddResponse 200 (Some 4%nat) (lit "y"); Send 1; ChangeRequest 1 (mkRequest 7 (lit "PUT") 1 1)%nat; Send 1; Send 2; ChangeList 4 []]%nat.
Definition ex_response := mkResponse 200 [(lit "a", mkField (lit "A") [lit "1"; lit "3"] Header); (lit "b", mkField (lit "b") [lit "2"] Header)] (lit "y").
Example C110_ex :
  snd (run ex_low ex_ops ex_start) = [Ok (mkResponse 500 [] (lit "x")); Ok ex_response; Err KeyError]
  /\ map (fun c => (q_destination (fst c), q_method (fst c))) (captured_requests (fst (run ex_low ex_ops ex_start)))
     = [(1, lit "GET"); (7, lit "PUT"); (2, lit "GET")]%nat
  /\ List.length (given (snd (run ex_low (firstn 3 ex_ops) ex_start))) = List.length (added (firstn 1 ex_ops)).
Proof. vm_compute. auto. Qed.
