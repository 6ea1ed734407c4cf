(** C55: connections of the CRT client. *)
From Verif Require Import Base Base_Proofs Pool_Model Pool_Spec Pool_Proofs.
From Coq Require Import Lia.
Local Open Scope Z_scope.

(** In every history of requests, connections made, refused, closed and bodies read, a
    request goes out on a connection to its own host and port, with TLS for that host just
    if its scheme is https. *)
Theorem C55_origin force es c a id taken now :
  let st := run force es in
  nth_error (calls st) c = Some a -> c_phase a = Sent id taken now ->
  exists k, nth_error (conns st) id = Some k /\ leads_to k (c_url a) /\ (force = true -> k_h2 k = true).
Proof.
  cbv zeta. intros N P. destruct (i_calls force _ (inv_run force es) c a id taken N) as [[G] _]; [now rewrite P | exact G].
Qed.
Print Assumptions C55_origin.

(** A connection that another request has used before is open when it is taken; and if the
    request goes out without waiting for its body, it is still open then. *)
Theorem C55_open force es c a id taken now k :
  let st := run force es in
  nth_error (calls st) c = Some a -> c_phase a = Sent id taken now -> nth_error (conns st) id = Some k -> k_call k <> c ->
  taken = true /\ (c_async a = false \/ k_h2 k = true -> now = true).
Proof.
  cbv zeta. intros N P K C. destruct (i_calls force _ (inv_run force es) c a id taken N) as [_ T]; [now rewrite P|].
  destruct T as [->|(k' & K' & C')]; [|congruence]. split; [reflexivity|]. intros H.
  destruct (i_sent force _ (inv_run force es) c a id true now N P) as [->|(A & k' & K' & H2)]; [reflexivity|]. destruct H; congruence.
Qed.
Print Assumptions C55_open.

(** A connection belongs to one call only, and that call is not still waiting for another. *)
Theorem C55_own force es id k a id' taken now :
  let st := run force es in
  nth_error (conns st) id = Some k -> nth_error (calls st) (k_call k) = Some a ->
  leads_to k (c_url a) /\ (c_phase a = Sent id' taken now -> id' = id).
Proof.
  cbv zeta. intros K N. destruct (i_made force _ (inv_run force es) id k K) as (a' & N' & L & U & _). rewrite N in N'. injection N' as <-.
  split; [exact L|]. intros P. apply (U id' taken). now rewrite P.
Qed.
Print Assumptions C55_own.

(** The latest usable connection made for the same scheme, host and port is used again as
    long as it is open; no other is made. *)
Theorem C55_reused force es u async id k a :
  let st := run force es in let st' := run force (es ++ [Start u async]) in
  nth_error (conns st) id = Some k -> nth_error (calls st) (k_call k) = Some a -> c_url a = u -> (force = true -> k_h2 k = true) ->
  (forall id' k' a', (id < id')%nat -> nth_error (conns st) id' = Some k' -> nth_error (calls st) (k_call k') = Some a' -> c_url a' = u -> force = true /\ k_h2 k' = false) ->
  k_open k = true ->
  conns st' = conns st /\ exists a', nth_error (calls st') (List.length (calls st)) = Some a' /\ c_url a' = u /\
    c_phase a' = (if (k_h2 k || negb async)%bool then Sent id true true else Buffering id true).
Proof.
  cbv zeta. intros K N U H2 M O. unfold run. rewrite fold_left_app. fold (run force es). set (st := run force es) in *. cbn [fold_left step start].
  pose proof (inv2_run force es) as [J F]. fold st in J, F.
  assert (I : In (u, id) (pool st)) by (apply J; exists k, a; auto).
  assert (L : lookup u (pool st) = Some id).
  { apply (lookup_latest _ _ _ _ F I). intros id' I'. apply J in I' as (k' & a' & K' & N' & U' & H'). destruct (Nat.le_gt_cases id' id) as [|G]; [assumption|].
    destruct (M id' k' a' G K' N' U') as [X Y]. rewrite (H' X) in Y. discriminate. }
  unfold start. rewrite L. assert (Op : is_open st id = true) by (unfold is_open; now rewrite K). rewrite Op. cbn [conns calls]. split; [reflexivity|].
  eexists. split; [rewrite nth_snoc, Nat.eqb_refl; reflexivity|]. split; [reflexivity|]. cbn [c_phase]. unfold obtained. rewrite Op. unfold is_h2. rewrite K. reflexivity.
Qed.
Print Assumptions C55_reused.

(** When there is none, a new one is made for the request: a known scheme makes it wait for
    a connection, any other fails it at once. *)
Theorem C55_made force es u async :
  let st := run force es in let st' := run force (es ++ [Start u async]) in
  (forall id k a, nth_error (conns st) id = Some k -> nth_error (calls st) (k_call k) = Some a -> c_url a = u -> k_open k = false) ->
  exists a', nth_error (calls st') (List.length (calls st)) = Some a' /\ c_url a' = u /\ c_async a' = async /\
    c_phase a' = (if (text_eqb (u_scheme u) (lit "http") || text_eqb (u_scheme u) (lit "https"))%bool then Connecting else Failed SmithyErr).
Proof.
  cbv zeta. intros M. unfold run. rewrite fold_left_app. fold (run force es). set (st := run force es) in *. cbn [fold_left step start].
  pose proof (inv2_run force es) as [J F]. fold st in J, F. eexists. split; [unfold start; cbn [calls]; rewrite nth_snoc, Nat.eqb_refl; reflexivity|].
  split; [reflexivity|]. split; [reflexivity|]. cbn [c_phase].
  assert (D : match dial u with Some _ => Connecting | None => Failed SmithyErr end = (if (text_eqb (u_scheme u) (lit "http") || text_eqb (u_scheme u) (lit "https"))%bool then Connecting else Failed SmithyErr)).
  { unfold dial. destruct (text_eqb (u_scheme u) (lit "http")); [reflexivity|]. now destruct (text_eqb (u_scheme u) (lit "https")). }
  rewrite D. destruct (lookup u (pool st)) as [id|] eqn:L; [|reflexivity]. apply lookup_In in L. apply J in L as (k & a & K & N & U & _).
  unfold is_open. rewrite K, (M id k a K N U). reflexivity.
Qed.
Print Assumptions C55_made.

(** A waiting call whose connection comes takes just that connection, unless HTTP/2 is
    demanded and this is not it: then the connection is closed and the call fails. *)
Theorem C55_connected force es c a h2 alive :
  let st := run force es in let st' := run force (es ++ [Opened c h2 alive]) in let id := List.length (conns st) in
  nth_error (calls st) c = Some a -> c_phase a = Connecting -> (u_scheme (c_url a) = lit "http" \/ u_scheme (c_url a) = lit "https") ->
  (exists k, conns st' = conns st ++ [k] /\ leads_to k (c_url a) /\ k_call k = c /\ k_h2 k = h2 /\ k_open k = (if (force && negb h2)%bool then false else alive)) /\
  exists a', nth_error (calls st') c = Some a' /\ c_url a' = c_url a /\
    c_phase a' = (if (force && negb h2)%bool then Failed SmithyErr else if (h2 || negb (c_async a))%bool then Sent id alive alive else Buffering id alive).
Proof.
  cbv zeta. intros N P S. unfold run. rewrite fold_left_app. fold (run force es). set (st := run force es) in *. cbn [fold_left step].
  unfold opened. destruct a as [u async ph]. cbn [c_phase c_url c_async] in *. subst ph. rewrite N.
  assert (D : exists p t, dial u = Some (p, t)).
  { unfold dial. destruct S as [->| ->]; [rewrite text_eqb_refl; eauto|]. rewrite text_eqb_refl. destruct (text_eqb (lit "https") (lit "http")); eauto. }
  destruct D as (p & t & D). rewrite D. destruct (force && negb h2)%bool eqn:F; cbv zeta; cbn [conns calls pool].
  - split.
    + eexists. split; [reflexivity|]. split; [now apply dial_leads | auto].
    + eexists. rewrite nth_update, Nat.eqb_refl, N. auto.
  - split.
    + eexists. split; [reflexivity|]. split; [now apply dial_leads | auto].
    + eexists. rewrite nth_update, Nat.eqb_refl, N. split; [reflexivity|]. split; [reflexivity|]. cbn [c_phase].
      unfold obtained, is_h2, is_open. cbn [conns]. rewrite nth_snoc, Nat.eqb_refl. reflexivity.
Qed.
Print Assumptions C55_connected.

(** A body that has to be awaited is read after the connection is taken, on HTTP/1.1: by
    then the connection may be closed, and the request goes to it all the same. *)
Definition ex_url := mkUrl (lit "https") (lit "example.com") None.
Definition ex_late := [Start ex_url false; Opened 0 false true; Start ex_url true; Closed 0; BodyRead 1].
Theorem C55_body_refuted :
  ~ (forall force es c a id taken now k, nth_error (calls (run force es)) c = Some a -> c_phase a = Sent id taken now ->
       nth_error (conns (run force es)) id = Some k -> k_call k <> c -> now = true).
Proof.
  intros H. specialize (H false ex_late 1%nat (mkCall ex_url true (Sent 0 true false)) 0%nat true false (mkConn (lit "example.com") 443 (Some (lit "example.com")) false false 0)).
  discriminate H; try reflexivity. discriminate.
Qed.
Print Assumptions C55_body_refuted.

(** Reuse, two calls at once, an explicit port, a closed connection. *)
Definition ex_es := [Start ex_url false; Start ex_url true; Opened 1 true true; Opened 0 true true; Start ex_url false; Closed 1; Start ex_url false;
  Start (mkUrl (lit "http") (lit "example.com") (Some 8080)) true; Opened 4 false true; BodyRead 4; Start (mkUrl (lit "ftp") (lit "example.com") None) true].
Example ex_run : map c_phase (calls (run true ex_es)) = [Sent 1 true true; Sent 0 true true; Sent 1 true true; Connecting; Failed SmithyErr; Failed SmithyErr].
Proof. reflexivity. Qed.
Example ex_run_any : map c_phase (calls (run false ex_es)) = [Sent 1 true true; Sent 0 true true; Sent 1 true true; Connecting; Sent 2 true true; Failed SmithyErr]
  /\ nth_error (conns (run false ex_es)) 2 = Some (mkConn (lit "example.com") 8080 None false true 4).
Proof. split; reflexivity. Qed.
Example ex_reused : conns (run true (firstn 4 ex_es ++ [Start ex_url false])) = conns (run true (firstn 4 ex_es)).
Proof.
  apply (C55_reused true (firstn 4 ex_es) ex_url false 1 (mkConn (lit "example.com") 443 (Some (lit "example.com")) true true 0) (mkCall ex_url false (Sent 1 true true))); try reflexivity.
  intros id' k' a' L K. exfalso. assert (id' < 2)%nat by (apply (proj1 (nth_error_Some (conns (run true (firstn 4 ex_es))) id')); congruence). lia.
Qed.
