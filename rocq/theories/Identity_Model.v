(** Identity resolvers.
    I = packages/smithy-core/src/smithy_core/aio/identity.py
    J = packages/smithy-core/src/smithy_core/interfaces/identity.py
    U = packages/smithy-core/src/smithy_core/utils.py
    M = packages/smithy-aws-core/src/smithy_aws_core/identity/imds.py
    O = packages/smithy-aws-core/src/smithy_aws_core/identity/container.py *)
From Verif Require Import Base PyText_Model.
From Coq Require Import ZArith.
Local Open Scope N_scope.

(** ** Time *)

(** A [datetime]: the wall clock reading, in any unit from any epoch, and the
    offset from UTC if it has a time zone. *)
Record datetime := mkDt { dt_local : Z; dt_offset : option Z }.
(** U 17-29, [ensure_utc], as an instant. *)
Definition ensure_utc (d : datetime) : Z :=
  match dt_offset d with None => dt_local d | Some o => (dt_local d - o)%Z end.
(** [d.replace(tzinfo=UTC)]. *)
Definition replace_utc (d : datetime) : datetime := mkDt (dt_local d) (Some 0%Z).

(** J 23-28, [is_expired], for the expiration as an instant. *)
Definition is_expired (expiration : option Z) (now : Z) : bool :=
  match expiration with None => false | Some e => (e <=? now)%Z end.

(** ** Resolvers with a cache *)

Section Cache.
Variable I : Type.
(** Whether the cached identity is returned at a time: I 22 for
    [CachingIdentityResolver], M 200-204 and O 177-181 for the AWS resolvers. *)
Variable usable : I -> Z -> bool.
(** The number of resolvers asked in turn (I 53), and the errors after which the
    next one is asked (I 57). *)
Variable sources : nat.
Variable skips : exn -> bool.

(** What happens: the task [i] calls [get_identity] at a time, the resolver it
    waits for answers, somebody calls [invalidate]. *)
Inductive event := Get (i : nat) (now : Z) | Answer (i : nat) (r : result I) | Invalidate.

(** What is observed. *)
Inductive obs :=
| Called (i : nat) (now : Z)
| Asked (i p : nat)
| Answered (i : nat) (r : result I)
| Returned (i : nat) (id : I)
| Raised (i : nat) (e : exn)
| Invalidated.

(** [_cached], and the tasks waiting for an answer with the position of the
    resolver asked. *)
Record cache := mkCache { cached : option I; waiting : nat -> option nat; seen : list obs }.
Definition empty_cache : cache := mkCache None (fun _ => None) [].

Definition see (os : list obs) (c : cache) : cache := mkCache (cached c) (waiting c) (seen c ++ os).
Definition wait (i : nat) (w : option nat) (c : cache) : cache :=
  mkCache (cached c) (fun j => if Nat.eqb i j then w else waiting c j) (seen c).
Definition store (v : option I) (c : cache) : cache := mkCache v (waiting c) (seen c).

(** I 53-62: ask the resolver at [p], or raise when there is none. *)
Definition ask (i p : nat) (c : cache) : cache :=
  if Nat.ltb p sources then see [Asked i p] (wait i (Some p) c)
  else see [Raised i IdentityErr] (wait i None c).

(** I 21-24 up to the first suspension; I 53-62 and I 23-24 after one; I 29-31.
    A task in a call makes no other one. *)
Definition step (c : cache) (e : event) : cache :=
  match e with
  | Get i now =>
    match waiting c i with
    | Some _ => c
    | None =>
      let c := see [Called i now] c in
      match cached c with
      | Some id => if usable id now then see [Returned i id] c else ask i 0 c
      | None => ask i 0 c
      end
    end
  | Answer i r =>
    match waiting c i with
    | None => c
    | Some p =>
      let c := see [Answered i r] c in
      match r with
      | Ok id => see [Returned i id] (store (Some id) (wait i None c))
      | Err e => if skips e then ask i (S p) c else see [Raised i e] (wait i None c)
      end
    end
  | Invalidate => see [Invalidated] (store None c)
  end.
Definition run (es : list event) : cache := fold_left step es empty_cache.
End Cache.
Arguments Get {I}. Arguments Answer {I}. Arguments Invalidate {I}.
Arguments Called {I}. Arguments Asked {I}. Arguments Answered {I}. Arguments Returned {I}.
Arguments Raised {I}. Arguments Invalidated {I}.

(** exceptions.py: SmithyIdentityError. *)
Definition is_identity_error (e : exn) : bool := match e with IdentityErr => true | _ => false end.

(** I 15-31: a subclass has one source, and its errors are not caught. *)
Definition caching_run {I} (expiration : I -> option Z) : list (event I) -> cache I :=
  run I (fun id now => negb (is_expired (expiration id) now)) 1 (fun _ => false).
(** I 34-62, [ChainedIdentityResolver]. *)
Definition chained_run {I} (expiration : I -> option Z) (resolvers : nat) : list (event I) -> cache I :=
  run I (fun id now => negb (is_expired (expiration id) now)) resolvers is_identity_error.

(** ** Container credentials *)

(** components.py, [AWSCredentialsIdentity], its expiration as an instant. *)
Record credentials := mkCreds {
  access_key_id : text; secret_access_key : text; session_token : option text;
  expiration : option Z; account_id : option text }.

(** M 200-205, O 177-182: returned if it has an expiration that has not passed. *)
Definition reusable (c : credentials) (now : Z) : bool :=
  match expiration c with Some e => (now <? e)%Z | None => false end.
(** O 174-209 and M 197-234 around the fetch: one source, no error caught. *)
Definition aws_run : list (event credentials) -> cache credentials := run credentials reusable 1 (fun _ => false).

Record uri := mkUri { u_scheme : text; u_host : text; u_port : option N; u_path : text; u_query : option text }.

(** The value of [Expiration] in the document. *)
Inductive expiry := ENone | EText (t : text) | EOther.
(** What [json.loads] gives: an object, of which the values at four keys are
    strings or null, or another value. *)
Inductive document :=
| DObject (key secret token account : option text) (e : expiry)
| DOther.

(** What the HTTP client does with one request. *)
Inductive reply := Response (status : N) (body : bytes) | Failure (e : exn).
(** What reading the token file gives. *)
Inductive token_file := Token (t : text) | NotFound | NotPermitted | NotUtf8 | ReadFailure (e : exn).

Section Container.
Variable environ : text -> option text.
(** [urlparse], with [.port]. *)
Variable urlparse : text -> result (text * option text * option N * text * text).
(** smithy_core/__init__.py 58-63: whether [URI] accepts the host. *)
Variable host_ok : text -> bool.
(** [ipaddress.ip_address(h).is_loopback]; [None] is ValueError. *)
Variable ip_loopback : text -> option bool.
Variable read_file : text -> token_file.
Variable decode : bytes -> option text.
Variable json_loads : text -> option document.
Variable fromisoformat : text -> option datetime.
(** What the [n]th request gets. *)
Variable replies : nat -> reply.

(** O 24-29. *)
Definition METADATA_IP : text := lit "169.254.170.2".
Definition ALLOWED_HOSTS : list text :=
  [METADATA_IP; lit "169.254.170.23"; lit "fd00:ec2::23"; lit "localhost"].

(** O 96-100 and 102-103. *)
Definition is_loopback (host : text) : bool := match ip_loopback host with Some b => b | None => false end.
Definition is_allowed (host : text) : bool := mem_text host ALLOWED_HOSTS.

(** A request: where it goes and its Authorization. *)
Record request := mkRequest { r_to : uri; r_auth : option text }.

(** O 68-90: the turns of the loop that are left; [n] requests were sent. *)
Fixpoint attempts (left n : nat) (req : request) : list request * result document :=
  match left with
  | O => ([], Err IdentityErr)
  | S left' =>
    let again := let (rs, res) := attempts left' (S n) req in (req :: rs, res) in
    match replies n with
    | Failure _ => again
    | Response status body =>
      if negb (status =? 200) then again
      else match decode body with
           | None => again
           | Some t => match json_loads t with Some d => ([req], Ok d) | None => again end
           end
    end
  end.

(** O 61-94, [get_credentials]; 50-59, [_validate_allowed_url]. *)
Definition get_credentials (retries : Z) (u : uri) (auth : option text) : list request * result document :=
  if is_loopback (u_host u) || is_allowed (u_host u) then attempts (Z.to_nat retries) 0 (mkRequest u auth)
  else ([], Err IdentityErr).

(** O 126-145, [_resolve_uri_from_env]. *)
Definition resolve_uri : result uri :=
  match environ (lit "AWS_CONTAINER_CREDENTIALS_RELATIVE_URI") with
  | Some p => Ok (mkUri (lit "http") METADATA_IP None p None)
  | None =>
    match environ (lit "AWS_CONTAINER_CREDENTIALS_FULL_URI") with
    | Some v =>
      match urlparse v with
      | Err e => Err e
      | Ok (scheme, hostname, port, path, query) =>
        let host := match hostname with Some h => h | None => [] end in
        if host_ok host then Ok (mkUri scheme host port path None) else Err SmithyErr
      end
    | None => Err IdentityErr
    end
  end.

(** O 147-172, [_resolve_fields_from_env] and [_read_file]. *)
Definition resolve_auth : result (option text) :=
  match environ (lit "AWS_CONTAINER_AUTHORIZATION_TOKEN_FILE") with
  | Some f =>
    match read_file f with
    | Token t => Ok (Some (strip t))
    | NotFound | NotPermitted | NotUtf8 => Err IdentityErr
    | ReadFailure e => Err e
    end
  | None => Ok (environ (lit "AWS_CONTAINER_AUTHORIZATION_TOKEN"))
  end.

(** O 188-208: the identity of a document. *)
Definition identity_of (d : document) : result credentials :=
  match d with
  | DOther => Err AttributeError
  | DObject key secret token account e =>
    let build (exp : option Z) :=
      match key, secret with
      | Some k, Some s => Ok (mkCreds k s token exp account)
      | _, _ => Err IdentityErr
      end in
    match e with
    | ENone => build None
    | EText t =>
      match fromisoformat t with
      | Some d => build (Some (ensure_utc (replace_utc d)))
      | None => Err ValueError
      end
    | EOther => match key, secret with Some _, Some _ => Err AttributeError | _, _ => Err IdentityErr end
    end
  end.

(** O 184-209: one fetch. *)
Definition fetch (retries : Z) : list request * result credentials :=
  match resolve_uri with
  | Err e => ([], Err e)
  | Ok u =>
    match resolve_auth with
    | Err e => ([], Err e)
    | Ok auth =>
      let (rs, res) := get_credentials retries u auth in
      (rs, match res with Ok d => identity_of d | Err e => Err e end)
    end
  end.
End Container.
