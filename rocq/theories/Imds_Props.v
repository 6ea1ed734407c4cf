(** C90: credentials from the instance metadata service. *)
From Verif Require Import Base PySort_Model Imds_Model Imds_Spec Imds_Proofs.
From Coq Require Import ZArith Lia.
Local Open Scope N_scope.

(** C90: a configuration has a token life time from 5 seconds to 6 hours, the
    endpoint that was given or the well known address, and the profile given. *)
Theorem C90_config given mode ttl profile c :
  make_config given mode ttl profile = Ok c <->
  (5 <= ttl <= 21600)%Z /\ c_ttl c = ttl /\ c_profile c = profile /\
  c_endpoint c = match given with
                 | Some e => e
                 | None => mkEndpoint (lit "http") (if list_eq_dec N.eq_dec mode (lit "IPv6") then lit "[fd00:ec2::254]" else lit "169.254.169.254") (Some 80)
                 end.
Proof.
  assert (R : resolve_endpoint given mode = match given with
                 | Some e => e
                 | None => mkEndpoint (lit "http") (if list_eq_dec N.eq_dec mode (lit "IPv6") then lit "[fd00:ec2::254]" else lit "169.254.169.254") (Some 80)
                 end).
  { unfold resolve_endpoint. destruct given; [reflexivity|]. f_equal. destruct (list_eq_dec N.eq_dec mode (lit "IPv6")) as [->|D]; [reflexivity|].
    destruct (text_eqb mode (lit "IPv6")) eqn:E; [|reflexivity]. apply Base_Proofs.text_eqb_eq in E. now elim D. }
  rewrite <- R. clear R. unfold make_config. generalize (resolve_endpoint given mode) as e. intros e.
  destruct (Z.leb_spec 5 ttl), (Z.leb_spec ttl 21600); cbn [andb].
  - destruct c as [e' t p]; cbn [c_endpoint c_ttl c_profile]. split.
    + intros [= <- <- <-]. repeat split; assumption.
    + now intros (_ & -> & -> & ->).
  - split; [discriminate | intros ([] & _); lia].
  - split; [discriminate | intros ([] & _); lia].
  - split; [discriminate | intros ([] & _); lia].
Qed.
Print Assumptions C90_config.
Example C90_config_ex : exists c, make_config None (lit "IPv6") 21600 None = Ok c /\ e_host (c_endpoint c) = lit "[fd00:ec2::254]".
Proof. eexists. split; reflexivity. Qed.

Section Histories.
Variables (clock : nat -> Z) (replies : nat -> reply) (decode : bytes -> option text) (json_loads : text -> option document)
  (fromisoformat : text -> option datetime) (given : option endpoint) (mode : text) (ttl : Z) (profile : option text).

(** C90: every request goes to the configured endpoint.  It asks for a token, or
    for metadata with a token that is not older than its life time. *)
Theorem C90_requests c us before q r after : make_config given mode ttl profile = Ok c ->
  w_log (uses clock replies decode json_loads fromisoformat c us) = before ++ Exchange q r :: after ->
  q = put_token (c_endpoint c) ttl \/
  exists path token, q = get_metadata (c_endpoint c) path token /\ token_good decode (c_endpoint c) ttl before token.
Proof.
  intros C E. apply C90_config in C. destruct C as (B & <- & _). assert (P : (0 < c_ttl c)%Z) by lia.
  destruct (uses_inv clock replies decode json_loads fromisoformat c P us) as (_ & G & _). exact (G before q r after E).
Qed.

(** C90: every call is answered with the credentials returned last, if they have
    an expiration that has not passed and were not discarded, without a request;
    or else from the answers of the service to the documented requests, in turn,
    up to the first that fails. *)
Theorem C90_call c us : make_config given mode ttl profile = Ok c ->
  let log us := w_log (uses clock replies decode json_loads fromisoformat c us) in
  exists seg r, log (us ++ [Ask]) = log us ++ Began :: seg ++ [Ended r] /\ inside seg /\
    (reused (log us) seg r \/
     (Resolved decode json_loads fromisoformat (c_endpoint c) ttl profile (exchanges seg) r /\ not_reusable (log us) seg)).
Proof.
  intros C log. apply C90_config in C. destruct C as (B & <- & <- & _). assert (P : (0 < c_ttl c)%Z) by lia.
  destruct (step_inv clock replies decode json_loads fromisoformat c P _ Ask (uses_inv clock replies decode json_loads fromisoformat c P us)) as (_ & seg & r & L & D).
  exists seg, r. unfold log. rewrite uses_snoc. split; [exact L | exact D].
Qed.
Theorem C90_discard c us : make_config given mode ttl profile = Ok c ->
  let log us := w_log (uses clock replies decode json_loads fromisoformat c us) in
  log (us ++ [Discard]) = log us ++ [Discarded].
Proof.
  intros C log. apply C90_config in C. destruct C as (B & <- & _). assert (P : (0 < c_ttl c)%Z) by lia.
  unfold log. rewrite uses_snoc. apply (step_inv clock replies decode json_loads fromisoformat c P _ Discard (uses_inv clock replies decode json_loads fromisoformat c P us)).
Qed.

(** C90: four requests at most for one call; the answer to the last one decides. *)
Theorem C90_four where_ configured xs r : Resolved decode json_loads fromisoformat where_ ttl configured xs r ->
  (1 <= List.length xs <= 4)%nat /\
  forall v, r = Ok v -> exists xs' path token a t, xs = xs' ++ [(get_metadata where_ path token, a)] /\ answers decode a (Ok t) /\
    Means json_loads fromisoformat t (Ok v).
Proof.
  assert (G : forall path ys res, Got decode where_ ttl path ys res -> (1 <= List.length ys <= 2)%nat).
  { intros path ys res H. destruct H; cbn; lia. }
  assert (Pr : forall p ys, Profile decode where_ ttl configured p ys -> (List.length ys <= 2)%nat).
  { intros p ys H. destruct H as [p _|p ys _ H]; [cbn; lia | apply G in H; lia]. }
  intros H. destruct H as [xs e N H|p xs ys e P H|p xs ys t res P H M].
  - apply G in H. split; [lia | discriminate].
  - apply G in H. apply Pr in P. rewrite app_length. split; [lia | discriminate].
  - split; [apply G in H; apply Pr in P; rewrite app_length; lia|]. intros v ->.
    inversion H as [| tk a ? A |a tk b ? A A']; subst.
    + exists xs, (profile_path p), tk, a, t. now split.
    + exists (xs ++ [(put_token where_ ttl, a)]), (profile_path p), tk, b, t. rewrite <- app_assoc. now split.
Qed.
End Histories.
Print Assumptions C90_requests.
Print Assumptions C90_call.
Print Assumptions C90_discard.
Print Assumptions C90_four.

(** A service for the examples: a token, the name of a profile, its credentials.
    The clock starts at 1000 and moves by 10. *)
Definition y_doc (t : text) : option document :=
  if text_eqb t (lit "{}") then Some (DObject (Some (lit "AKID")) (Some (lit "secret")) None None (EText (lit "soon"))) else None.
Definition y_time (t : text) : option datetime := if text_eqb t (lit "soon") then Some (mkDt 2000 None) else None.
Definition y_config : config := mkConfig (mkEndpoint (lit "http") (lit "169.254.169.254") (Some 80)) 21600 None.
Definition y_uses (status : N) (us : list use) : list occurrence :=
  w_log (uses (fun n => 1000 + 10 * Z.of_nat n)%Z
    (fun n => nth n [Response status (lit "tok"); Response status (lit "role"); Response status (lit "{}")] (Failure OSError))
    (fun b => Some b) y_doc y_time y_config us).
Example C90_call_ex : make_config None (lit "IPv4") 21600 None = Ok y_config /\
  let creds := mkCreds (lit "AKID") (lit "secret") None (Some 2000%Z) None in
  let base := "/latest/meta-data/iam/security-credentials"%string in
  let to := c_endpoint y_config in
  y_uses 200 [Ask; Ask; Discard; Ask] =
  [Began; Exchange (put_token to 21600) (Response 200 (lit "tok")); Clock 1000;
   Exchange (get_metadata to (lit base) (lit "tok")) (Response 200 (lit "role")); Clock 1010;
   Exchange (get_metadata to (lit base ++ lit "/role") (lit "tok")) (Response 200 (lit "{}")); Ended (Ok creds);
   Began; Clock 1020; Ended (Ok creds); Discarded;
   Began; Clock 1030; Exchange (get_metadata to (lit base) (lit "tok")) (Failure OSError); Ended (Err OSError)].
Proof. split; vm_compute; reflexivity. Qed.

(** The status of an answer is not looked at: the text of an error page is used
    as token and as profile, and credentials in one are returned. *)
Theorem C90_status_refuted :
  ~ (forall us before r after, y_uses 500 us = before ++ Ended (Ok r) :: after ->
       exists q body, In (Exchange q (Response 200 body)) before).
Proof.
  intros H. destruct (H [Ask] (removelast (y_uses 500 [Ask])) (mkCreds (lit "AKID") (lit "secret") None (Some 2000%Z) None) []) as [q [body I]].
  - vm_compute. reflexivity.
  - vm_compute in I. repeat destruct I as [I | I]; discriminate I || destruct I.
Qed.
Print Assumptions C90_status_refuted.
(** An expiration with an offset from UTC is read as if it had none, so that
    credentials are reused after they have expired. *)
Theorem C90_offset_refuted : exists d now,
  (forall t, y_time t = Some (mkDt 2000 None) -> t = lit "soon") /\
  let iso t := if text_eqb t (lit "soon") then Some d else None in
  (dt_local d - match dt_offset d with Some o => o | None => 0 end < now)%Z /\
  reusable (match credentials_of y_doc iso (lit "{}") with Ok v => v | Err _ => mkCreds [] [] None None None end) now = true.
Proof.
  exists (mkDt 2000 (Some 600%Z)), 1500%Z. split.
  - intros t. unfold y_time. destruct (text_eqb t (lit "soon")) eqn:E; [|discriminate]. intros _. now apply Base_Proofs.text_eqb_eq.
  - split; [cbn; lia | vm_compute; reflexivity].
Qed.
Print Assumptions C90_offset_refuted.
