(** What users of credentials from the instance metadata service rely on, in
    terms of the requests sent and their answers. *)
From Verif Require Import Base PySort_Model Imds_Model.
From Coq Require Import ZArith.

Section Spec.
Variable decode : bytes -> option text.
Variable json_loads : text -> option document.
Variable fromisoformat : text -> option datetime.
Variables (where_ : endpoint) (ttl : Z) (configured : option text).

(** The text of an answer. *)
Inductive answers : reply -> result text -> Prop :=
| Answers_text status body t : decode body = Some t -> answers (Response status body) (Ok t)
| Answers_bytes status body : decode body = None -> answers (Response status body) (Err UnicodeError)
| Answers_failure e : answers (Failure e) (Err e).

(** The two kinds of request. *)
Definition put_token : http_request :=
  mkHttp (lit "PUT") where_ (lit "/latest/api/token") (lit "x-aws-ec2-metadata-token-ttl-seconds", dec (Z.to_N ttl)).
Definition get_metadata (path token : text) : http_request :=
  mkHttp (lit "GET") where_ path (lit "x-aws-ec2-metadata-token", token).

(** The requests for one metadata value: a token first if it is needed. *)
Inductive Got (path : text) : list (http_request * reply) -> result text -> Prop :=
| Got_no_token r e : answers r (Err e) -> Got path [(put_token, r)] (Err e)
| Got_value token r res : answers r res -> Got path [(get_metadata path token, r)] res
| Got_both r token r' res : answers r (Ok token) -> answers r' res ->
    Got path [(put_token, r); (get_metadata path token, r')] res.

(** The credentials a text means.  The wall clock reading of the expiration is
    taken to be in UTC. *)
Inductive Means : text -> result credentials -> Prop :=
| Means_nothing t : json_loads t = None -> Means t (Err ValueError)
| Means_no_object t : json_loads t = Some DOther -> Means t (Err AttributeError)
| Means_bad_expiry t k s tok acc x : json_loads t = Some (DObject k s tok acc (EText x)) -> fromisoformat x = None ->
    Means t (Err ValueError)
| Means_other_expiry t k s tok acc : json_loads t = Some (DObject k s tok acc EOther) -> Means t (Err TypeError)
| Means_missing t k s tok acc e : json_loads t = Some (DObject k s tok acc e) -> k = None \/ s = None ->
    e = ENone \/ (exists x d, e = EText x /\ fromisoformat x = Some d) -> Means t (Err IdentityErr)
| Means_forever t k s tok acc : json_loads t = Some (DObject (Some k) (Some s) tok acc ENone) ->
    Means t (Ok (mkCreds k s tok None acc))
| Means_until t k s tok acc x d : json_loads t = Some (DObject (Some k) (Some s) tok acc (EText x)) -> fromisoformat x = Some d ->
    Means t (Ok (mkCreds k s tok (Some (dt_local d)) acc)).

Definition profile_path (profile : text) : text := lit "/latest/meta-data/iam/security-credentials/" ++ profile.

(** The name of the profile: the configured one, or what the service answers. *)
Inductive Profile : text -> list (http_request * reply) -> Prop :=
| Profile_configured p : configured = Some p -> Profile p []
| Profile_asked p xs : configured = None -> Got (lit "/latest/meta-data/iam/security-credentials") xs (Ok p) -> Profile p xs.

(** The requests for credentials: the name of the profile first, if none is
    configured. *)
Inductive Resolved : list (http_request * reply) -> result credentials -> Prop :=
| Resolved_no_profile xs e : configured = None ->
    Got (lit "/latest/meta-data/iam/security-credentials") xs (Err e) -> Resolved xs (Err e)
| Resolved_no_text p xs ys e : Profile p xs -> Got (profile_path p) ys (Err e) -> Resolved (xs ++ ys) (Err e)
| Resolved_text p xs ys t res : Profile p xs -> Got (profile_path p) ys (Ok t) -> Means t res -> Resolved (xs ++ ys) res.

(** The requests in a piece of a history. *)
Definition exchanges (l : list occurrence) : list (http_request * reply) :=
  flat_map (fun o => match o with Exchange q r => [(q, r)] | _ => [] end) l.
(** The credentials last returned, unless they were discarded since. *)
Definition last_returned (l : list occurrence) : option credentials :=
  fold_left (fun v o => match o with Ended (Ok x) => Some x | Discarded => None | _ => v end) l None.
(** Nothing in this piece begins or ends a call. *)
Definition inside (l : list occurrence) : Prop :=
  Forall (fun o => match o with Clock _ | Exchange _ _ => True | _ => False end) l.

(** A call that is answered without requests: what was returned last has an
    expiration that has not passed. *)
Definition reused (before seg : list occurrence) (r : result credentials) : Prop :=
  exists v e now, seg = [Clock now] /\ last_returned before = Some v /\ expiration v = Some e /\ (now < e)%Z /\ r = Ok v.
(** It does not have one, or it has passed. *)
Definition not_reusable (before seg : list occurrence) : Prop :=
  forall v e, last_returned before = Some v -> expiration v = Some e -> exists now rest, seg = Clock now :: rest /\ (e <= now)%Z.

(** The token of a request: it is the text of the last answer to a token request
    that had one, and by the last reading of the clock before, less than its life
    time had passed since the reading that followed that answer. *)
Definition token_good (before : list occurrence) (token : text) : Prop :=
  exists start r t0 mid t, before = start ++ [Exchange put_token r; Clock t0] ++ mid /\ answers r (Ok token) /\
    (forall r' t', In (Exchange put_token r') mid -> ~ answers r' (Ok t')) /\
    (exists l, before = l ++ [Clock t]) /\ (t - t0 < ttl)%Z.
End Spec.
