(** C38, C39 and C42: identity resolvers. *)
From Verif Require Import Base Base_Proofs PyText_Model Identity_Model Identity_Spec Identity_Proofs.
From Coq Require Import ZArith.

Lemma unexpired_spec e now : negb (is_expired e now) = true <-> unexpired e now.
Proof.
  unfold is_expired, unexpired. destruct e as [x|]; [|split; auto]. rewrite Bool.negb_true_iff, Z.leb_gt. reflexivity.
Qed.
Lemma expired_spec e now : negb (is_expired e now) = false <-> ~ unexpired e now.
Proof. rewrite <- unexpired_spec. destruct (negb (is_expired e now)); split; congruence. Qed.

(** ** C38 *)

(** A call made at [now] gives at once the latest identity answered since the
    last invalidation if that has not expired, and asks the source otherwise. *)
Theorem C38_call {I} (exp : I -> option Z) es before i now after :
  seen I (caching_run exp es) = before ++ Called i now :: after ->
  (forall id, latest before = Some id -> unexpired (exp id) now -> exists rest, after = Returned i id :: rest)
  /\ ((forall id, latest before = Some id -> ~ unexpired (exp id) now) -> exists rest, after = Asked i 0 :: rest).
Proof.
  intros H. apply call_spec in H. split.
  - intros id E U. rewrite E in H. rewrite (proj2 (unexpired_spec _ _) U) in H. exact H.
  - intros N. destruct (latest before) as [id|]; [|exact H].
    rewrite (proj2 (expired_spec _ _) (N id eq_refl)) in H. exact H.
Qed.
Print Assumptions C38_call.

(** The same for a chain with at least one resolver. *)
Theorem C38_call_chained {I} (exp : I -> option Z) n es before i now after :
  (0 < n)%nat -> seen I (chained_run exp n es) = before ++ Called i now :: after ->
  (forall id, latest before = Some id -> unexpired (exp id) now -> exists rest, after = Returned i id :: rest)
  /\ ((forall id, latest before = Some id -> ~ unexpired (exp id) now) -> exists rest, after = Asked i 0 :: rest).
Proof.
  intros Hn H. apply call_spec in H. unfold asks in H. apply Nat.ltb_lt in Hn. rewrite Hn in H. split.
  - intros id E U. rewrite E in H. rewrite (proj2 (unexpired_spec _ _) U) in H. exact H.
  - intros N. destruct (latest before) as [id|]; [|exact H].
    rewrite (proj2 (expired_spec _ _) (N id eq_refl)) in H. exact H.
Qed.
Print Assumptions C38_call_chained.

(** Whatever is returned was unexpired when the call looked at it, or has just
    been fetched for this call. *)
Theorem C38_returned {I} (exp : I -> option Z) n es before i id after :
  seen I (caching_run exp es) = before ++ Returned i id :: after
  \/ seen I (chained_run exp n es) = before ++ Returned i id :: after ->
  (exists before' now, before = before' ++ [Called i now] /\ latest before' = Some id /\ unexpired (exp id) now)
  \/ (exists before', before = before' ++ [Answered i (Ok id)]).
Proof.
  intros [H|H]; apply return_spec in H; (destruct H as [(b & t & E & L & U)|H]; [left; exists b, t|right; exact H]);
    (split; [exact E|split; [exact L|]]); apply unexpired_spec, U.
Qed.
Print Assumptions C38_returned.

(** A call after an invalidation returns nothing answered before it, and, if no
    fetch was under way at the invalidation, nothing fetched before it. *)
Theorem C38_invalidate {I} (exp : I -> option Z) n es before mid i now id after :
  seen I (chained_run exp n es) = before ++ Invalidated :: mid ++ Called i now :: Returned i id :: after ->
  (exists j, In (Answered j (Ok id)) mid)
  /\ ((forall j, idle n (fun e => is_identity_error e = true) j before) ->
      exists j p m1 m2 m3, mid = m1 ++ Asked j p :: m2 ++ Answered j (Ok id) :: m3).
Proof. intros H. exact (after_invalidate _ _ _ _ _ _ _ _ _ _ _ H). Qed.
Print Assumptions C38_invalidate.

(** A fetch under way at the invalidation fills the cache afterwards: the next
    resolution does not read its source again. *)
Theorem C38_stale_refuted : exists (es : list (event nat)),
  seen nat (caching_run (fun _ => None) es)
  = [Called 1 0; Asked 1 0; Invalidated; Answered 1 (Ok 7%nat); Returned 1 7%nat; Called 2 5; Returned 2 7%nat].
Proof. exists [Get 1 0; Invalidate; Answer 1 (Ok 7%nat); Get 2 5]. reflexivity. Qed.
Print Assumptions C38_stale_refuted.

(** A history with a hit, an expiry, two fetches at once and an invalidation. *)
Example C38_ex :
  seen nat (caching_run (fun n => Some (Z.of_nat n)) [Get 1 0; Answer 1 (Ok 10%nat); Get 2 9; Get 2 10; Get 3 11; Answer 3 (Ok 20%nat);
    Answer 2 (Ok 30%nat); Get 1 25; Invalidate; Get 1 25; Answer 1 (Err OSError)])
  = [Called 1 0; Asked 1 0; Answered 1 (Ok 10%nat); Returned 1 10%nat; Called 2 9; Returned 2 10%nat; Called 2 10; Asked 2 0;
     Called 3 11; Asked 3 0; Answered 3 (Ok 20%nat); Returned 3 20%nat; Answered 2 (Ok 30%nat); Returned 2 30%nat;
     Called 1 25; Returned 1 30%nat; Invalidated; Called 1 25; Asked 1 0; Answered 1 (Err OSError); Raised 1 OSError].
Proof. reflexivity. Qed.

(** ** C39 *)

(** What one task observes of a chain of [n] resolvers is a sequence of calls,
    each ended as [Complete] says, and perhaps one that waits for a resolver after
    all those before it have failed. *)
Theorem C39_calls {I} (exp : I -> option Z) n es i :
  idle n (fun e => is_identity_error e = true) i (seen I (chained_run exp n es))
  \/ exists p, busy n (fun e => is_identity_error e = true) i p (seen I (chained_run exp n es)).
Proof.
  pose proof (run_session I (fun id now => negb (is_expired (exp id) now)) n is_identity_error es i) as H.
  unfold session in H. unfold chained_run. destruct (waiting I _ i) as [p|]; [right; exists p; exact H|left; exact H].
Qed.
Print Assumptions C39_calls.

Example C39_calls_ex :
  seen nat (chained_run (fun _ => None) 3 [Get 1 0; Answer 1 (Err IdentityErr); Get 2 0; Answer 2 (Err OSError); Answer 1 (Ok 7%nat)])
  = [Called 1 0; Asked 1 0; Answered 1 (Err IdentityErr); Asked 1 1; Called 2 0; Asked 2 0; Answered 2 (Err OSError);
     Raised 2 OSError; Answered 1 (Ok 7%nat); Returned 1 7%nat].
Proof. reflexivity. Qed.

(** ** C42 *)

Section Container.
Variable environ : text -> option text.
Variable urlparse : text -> result (text * option text * option N * text * text).
Variable host_ok : text -> bool.
Variable ip_loopback : text -> option bool.
Variable read_file : text -> token_file.
Variable decode : bytes -> option text.
Variable json_loads : text -> option document.
Variable fromisoformat : text -> option datetime.
Variable replies : nat -> reply.
Notation fetch := (fetch environ urlparse host_ok ip_loopback read_file decode json_loads fromisoformat replies).

(** A reply from which a document is read. *)
Definition usable_reply (r : reply) (d : document) : Prop :=
  exists body t, r = Response 200 body /\ decode body = Some t /\ json_loads t = Some d.

(** Every request of a fetch, and so every authorization token, goes to a
    permitted host; there are at most [retries] of them, one after each reply
    without a document; and the first reply with one decides. *)
Theorem C42_requests retries :
  (forall r, In r (fst (fetch retries)) -> permitted ip_loopback (u_host (r_to r)))
  /\ (Z.of_nat (List.length (fst (fetch retries))) <= Z.max 0 retries)%Z
  /\ (forall k d, (S k < List.length (fst (fetch retries)))%nat -> ~ usable_reply (replies k) d)
  /\ (forall k d, List.length (fst (fetch retries)) = S k -> usable_reply (replies k) d ->
        snd (fetch retries) = identity_of fromisoformat d)
  /\ (forall k, List.length (fst (fetch retries)) = S k -> (forall d, ~ usable_reply (replies k) d) ->
        Z.of_nat (S k) = retries /\ snd (fetch retries) = Err IdentityErr).
Proof.
  unfold Identity_Model.fetch. destruct (resolve_uri environ urlparse host_ok) as [u|e].
  2:{ cbn [fst snd List.length]. split; [intros r []|]. split; [lia|]. split; [intros; lia|]. split; [intros; discriminate|intros; discriminate]. }
  destruct (resolve_auth environ read_file) as [auth|e].
  2:{ cbn [fst snd List.length]. split; [intros r []|]. split; [lia|]. split; [intros; lia|]. split; [intros; discriminate|intros; discriminate]. }
  unfold get_credentials. destruct (is_loopback ip_loopback (u_host u) || is_allowed (u_host u)) eqn:P.
  2:{ cbn [fst snd List.length]. split; [intros r []|]. split; [lia|]. split; [intros; lia|]. split; [intros; discriminate|intros; discriminate]. }
  apply permitted_spec in P.
  pose proof (attempts_all decode json_loads replies (Z.to_nat retries) 0 (mkRequest u auth)) as HA.
  pose proof (attempts_spec decode json_loads replies (Z.to_nat retries) 0 (mkRequest u auth)) as HS.
  destruct (attempts decode json_loads replies (Z.to_nat retries) 0 (mkRequest u auth)) as [rs res]. cbn [fst snd] in *.
  split; [intros r Hr; rewrite (HA r Hr); exact P|]. cbn [Nat.add] in HS.
  destruct HS as [(k & d & Hk & G & B & E1 & E2)|(B & E1 & E2)]; rewrite E1, repeat_length.
  - split; [lia|]. split; [intros j d' Hj; apply B; lia|]. split.
    + intros j d' Hj (body & t & X1 & X2 & X3). injection Hj as <-. destruct G as (body' & t' & Y1 & Y2 & Y3).
      rewrite X1 in Y1. injection Y1 as <-. rewrite X2 in Y2. injection Y2 as <-. rewrite X3 in Y3. injection Y3 as <-. rewrite E2. reflexivity.
    + intros j Hj N. injection Hj as <-. exfalso. exact (N d G).
  - split; [lia|]. split; [intros j d' Hj; apply B; lia|]. split.
    + intros j d' Hj G. exfalso. apply (B j ltac:(lia) d'). exact G.
    + intros j Hj N. rewrite E2. split; [lia|reflexivity].
Qed.

(** Where the requests go and what they carry: the variables of the environment. *)
Theorem C42_environment retries r : In r (fst (fetch retries)) ->
  match environ (lit "AWS_CONTAINER_CREDENTIALS_RELATIVE_URI"), environ (lit "AWS_CONTAINER_CREDENTIALS_FULL_URI") with
  | Some p, _ => r_to r = mkUri (lit "http") (lit "169.254.170.2") None p None
  | None, Some v => exists scheme host port path query,
      urlparse v = Ok (scheme, host, port, path, query)
      /\ r_to r = mkUri scheme (match host with Some h => h | None => [] end) port path None
  | None, None => False
  end
  /\ match environ (lit "AWS_CONTAINER_AUTHORIZATION_TOKEN_FILE") with
     | Some f => exists t, read_file f = Token t /\ r_auth r = Some (strip t)
     | None => r_auth r = environ (lit "AWS_CONTAINER_AUTHORIZATION_TOKEN")
     end.
Proof.
  intros H. unfold Identity_Model.fetch in H. destruct (resolve_uri environ urlparse host_ok) as [u|e] eqn:U; [|destruct H].
  destruct (resolve_auth environ read_file) as [auth|e] eqn:A; [|destruct H].
  assert (E : r = mkRequest u auth).
  { unfold get_credentials in H. destruct (_ || _); [|destruct H].
    pose proof (attempts_all decode json_loads replies (Z.to_nat retries) 0 (mkRequest u auth)) as HA.
    destruct (attempts decode json_loads replies (Z.to_nat retries) 0 (mkRequest u auth)) as [rs res]. exact (HA r H). }
  rewrite E. cbn [r_to r_auth]. split.
  - unfold resolve_uri in U. destruct (environ (lit "AWS_CONTAINER_CREDENTIALS_RELATIVE_URI")) as [p|]; [injection U as <-; reflexivity|].
    destruct (environ (lit "AWS_CONTAINER_CREDENTIALS_FULL_URI")) as [v|]; [|discriminate U].
    destruct (urlparse v) as [[[[[sc h] po] pa] q]|]; [|discriminate U]. destruct (host_ok _); [|discriminate U].
    injection U as <-. exists sc, h, po, pa, q. split; reflexivity.
  - unfold resolve_auth in A. destruct (environ (lit "AWS_CONTAINER_AUTHORIZATION_TOKEN_FILE")) as [f|].
    + destruct (read_file f) as [t| | | |]; try discriminate A. injection A as <-. exists t. split; reflexivity.
    + injection A as <-. reflexivity.
Qed.

(** The identity of a document: both keys are needed, and an expiration without
    an offset, or in UTC, is kept. *)
Theorem C42_identity k s tok acc exp_ :
  identity_of fromisoformat (DObject (Some k) (Some s) tok acc ENone) = Ok (mkCreds k s tok None acc)
  /\ (forall t d, exp_ = EText t -> fromisoformat t = Some d -> (dt_offset d = None \/ dt_offset d = Some 0%Z) ->
        identity_of fromisoformat (DObject (Some k) (Some s) tok acc exp_) = Ok (mkCreds k s tok (Some (instant d)) acc))
  /\ (forall key secret c, identity_of fromisoformat (DObject key secret tok acc exp_) = Ok c ->
        key = Some (access_key_id c) /\ secret = Some (secret_access_key c)
        /\ session_token c = tok /\ account_id c = acc /\ (expiration c = None <-> exp_ = ENone)).
Proof.
  split; [reflexivity|]. split.
  - intros t d -> F O. cbn [identity_of]. rewrite F. unfold ensure_utc, replace_utc, instant. cbn [dt_local dt_offset].
    destruct O as [-> | ->]; [rewrite Z.sub_0_r|]; reflexivity.
  - intros key secret c H. cbn [identity_of] in H. destruct exp_ as [|t|].
    + destruct key, secret; try discriminate H. injection H as <-. repeat split; reflexivity.
    + destruct (fromisoformat t); [|discriminate H]. destruct key, secret; try discriminate H. injection H as <-.
      split; [reflexivity|]. split; [reflexivity|]. split; [reflexivity|]. split; [reflexivity|]. split; discriminate.
    + destruct key, secret; discriminate H.
Qed.
End Container.
Print Assumptions C42_requests.
Print Assumptions C42_environment.
Print Assumptions C42_identity.

(** An expiration with an offset is taken as if it were in UTC, so that with an
    offset to the east the credentials are returned after they have expired. *)
Theorem C42_offset_refuted : exists d c now,
  identity_of (fun _ => Some d) (DObject (Some []) (Some []) None None (EText [])) = Ok c
  /\ (instant d < now)%Z
  /\ seen credentials (aws_run [Get 1 0; Answer 1 (Ok c); Get 2 now])
     = [Called 1 0; Asked 1 0; Answered 1 (Ok c); Returned 1 c; Called 2 now; Returned 2 c].
Proof.
  exists (mkDt 7200 (Some 3600%Z)), (mkCreds [] [] None (Some 7200%Z) None), 5000%Z.
  split; [reflexivity|]. split; [reflexivity|]. reflexivity.
Qed.
Print Assumptions C42_offset_refuted.

(** Cached credentials are returned exactly until they expire. *)
Theorem C42_reuse es before i now after :
  seen credentials (aws_run es) = before ++ Called i now :: after ->
  (forall c e, latest before = Some c -> expiration c = Some e -> (now < e)%Z -> exists rest, after = Returned i c :: rest)
  /\ ((forall c e, latest before = Some c -> expiration c = Some e -> ~ (now < e)%Z) -> exists rest, after = Asked i 0 :: rest).
Proof.
  intros H. apply call_spec in H. split.
  - intros c e E X U. rewrite E in H. unfold reusable in H. rewrite X in H. apply Z.ltb_lt in U. rewrite U in H. exact H.
  - intros N. destruct (latest before) as [c|]; [|exact H]. unfold reusable in H. destruct (expiration c) as [e|] eqn:X; [|exact H].
    specialize (N c e eq_refl X). apply Z.ltb_nlt in N. rewrite N in H. exact H.
Qed.
Print Assumptions C42_reuse.

(** Credentials without an expiration never expire, yet are never reused. *)
Theorem C42_unexpiring_refuted : exists c, expiration c = None
  /\ seen credentials (aws_run [Get 1 0; Answer 1 (Ok c); Get 2 0])
     = [Called 1 0; Asked 1 0; Answered 1 (Ok c); Returned 1 c; Called 2 0; Asked 2 0].
Proof. exists (mkCreds [] [] None None None). split; reflexivity. Qed.
Print Assumptions C42_unexpiring_refuted.

(** A document that is not an object ends a fetch with an error that is not an
    identity error, so that a chain does not go on to its next resolver. *)
Definition env_ex (k : text) : option text :=
  if text_eqb k (lit "AWS_CONTAINER_CREDENTIALS_FULL_URI") then Some (lit "http://127.0.0.1:80/c?x=1")
  else if text_eqb k (lit "AWS_CONTAINER_AUTHORIZATION_TOKEN") then Some (lit "tok") else None.
Definition fetch_ex (doc : document) (replies : nat -> reply) :=
  fetch env_ex (fun _ => Ok (lit "http", Some (lit "127.0.0.1"), Some 80%N, lit "/c", lit "x=1")) (fun _ => true)
    (fun _ => Some true) (fun _ => NotFound) (fun b => Some b) (fun _ => Some doc) (fun _ => None) replies 3.
Theorem C42_not_an_object_refuted : exists rs e,
  fetch_ex DOther (fun _ => Response 200 []) = (rs, Err e) /\ is_identity_error e = false.
Proof. exists [mkRequest (mkUri (lit "http") (lit "127.0.0.1") (Some 80%N) (lit "/c") None) (Some (lit "tok"))], AttributeError. split; reflexivity. Qed.
Print Assumptions C42_not_an_object_refuted.

(** Two bad replies, then a document.  The query of the URI is not sent. *)
Example C42_requests_ex :
  fetch_ex (DObject (Some (lit "AK")) (Some (lit "SK")) None None ENone)
    (fun n => match n with 0%nat => Failure OSError | 1%nat => Response 500 [] | _ => Response 200 [] end)
  = (repeat (mkRequest (mkUri (lit "http") (lit "127.0.0.1") (Some 80%N) (lit "/c") None) (Some (lit "tok"))) 3,
     Ok (mkCreds (lit "AK") (lit "SK") None None None)).
Proof. reflexivity. Qed.
