(** Credentials from the instance metadata service.
    M = packages/smithy-aws-core/src/smithy_aws_core/identity/imds.py
    One caller at a time: Token_Model (C41) and [aws_run] of Identity_Model (C42_reuse) are about
    concurrent callers of the two caches. *)
From Verif Require Import Base PyText_Model PySort_Model.
From Verif Require Export Identity_Model.
From Coq Require Import ZArith.
Local Open Scope N_scope.

(** ** M 28-76, [Config] *)

(** The parts of a [URI] that are used: M 130-132, 170-172. *)
Record endpoint := mkEndpoint { e_scheme : text; e_host : text; e_port : option N }.
Record config := mkConfig { c_endpoint : endpoint; c_ttl : Z; c_profile : option text }.

(** M 66-76, [_resolve_endpoint], with the mapping of M 32-34. *)
Definition resolve_endpoint (given : option endpoint) (mode : text) : endpoint :=
  match given with
  | Some e => e
  | None => mkEndpoint (lit "http") (if text_eqb mode (lit "IPv6") then lit "[fd00:ec2::254]" else lit "169.254.169.254") (Some 80)
  end.
(** M 43-64, [__init__] and [_validate_token_ttl]. *)
Definition make_config (given : option endpoint) (mode : text) (ttl : Z) (profile : option text) : result config :=
  if ((5 <=? ttl)%Z && (ttl <=? 21600)%Z)%bool then Ok (mkConfig (resolve_endpoint given mode) ttl profile)
  else Err ValueError.

(** ** Requests *)

(** A request, with its one field besides the user agent. *)
Record http_request := mkHttp { h_method : text; h_to : endpoint; h_path : text; h_field : text * text }.

(** What happens: the clock is read, a request is sent and answered, a call of
    [get_identity] begins and ends, somebody calls [invalidate]. *)
Inductive occurrence :=
| Clock (t : Z)
| Exchange (q : http_request) (r : reply)
| Began
| Ended (r : result credentials)
| Discarded.

(** The resolver: its token and when it was made, its credentials; and the
    numbers of clock readings and requests so far, and all that happened. *)
Record world := mkWorld {
  w_token : option (text * Z); w_credentials : option credentials;
  w_readings : nat; w_requests : nat; w_log : list occurrence }.
Definition new_world : world := mkWorld None None 0 0 [].

(** Statements: a result, or an exception, and the state afterwards. *)
Definition Act (A : Type) : Type := world -> result A * world.
Definition ret {A} (a : A) : Act A := fun w => (Ok a, w).
Definition raise {A} (e : exn) : Act A := fun w => (Err e, w).
Definition seq {A B} (m : Act A) (k : A -> Act B) : Act B :=
  fun w => let (r, w') := m w in match r with Ok a => k a w' | Err e => (Err e, w') end.
Definition note (o : occurrence) : Act unit :=
  fun w => (Ok tt, mkWorld (w_token w) (w_credentials w) (w_readings w) (w_requests w) (w_log w ++ [o])).

Section Imds.
(** The clock, at every reading: the local clock for tokens (M 86, 89), UTC for
    credentials (M 203).  Any sequence of readings, also one that goes back. *)
Variable clock : nat -> Z.
(** What the [n]th request gets. *)
Variable replies : nat -> reply.
Variable decode : bytes -> option text.
Variable json_loads : text -> option document.
Variable fromisoformat : text -> option datetime.
Variable c : config.

Definition read_clock : Act Z := fun w =>
  let t := clock (w_readings w) in
  (Ok t, mkWorld (w_token w) (w_credentials w) (S (w_readings w)) (w_requests w) (w_log w ++ [Clock t])).
(** M 137-139 and 177-179: send, read the body, decode it.  The status of the
    response is not looked at. *)
Definition exchange (q : http_request) : Act text := fun w =>
  let r := replies (w_requests w) in
  (match r with
   | Failure e => Err e
   | Response _ body => match decode body with Some t => Ok t | None => Err UnicodeError end
   end,
   mkWorld (w_token w) (w_credentials w) (w_readings w) (S (w_requests w)) (w_log w ++ [Exchange q r])).
Definition set_token (t : option (text * Z)) : Act unit := fun w =>
  (Ok tt, mkWorld t (w_credentials w) (w_readings w) (w_requests w) (w_log w)).
Definition set_credentials (v : option credentials) : Act unit := fun w =>
  (Ok tt, mkWorld (w_token w) v (w_readings w) (w_requests w) (w_log w)).

(** M 88-89 and 111-112, [_should_refresh]. *)
Definition should_refresh : Act bool := fun w =>
  match w_token w with
  | None => (Ok true, w)
  | Some (_, created) => seq read_clock (fun now => ret (c_ttl c <=? now - created)%Z) w
  end.

Definition TOKEN_PATH : text := lit "/latest/api/token".
Definition BASE_PATH : text := lit "/latest/meta-data/iam/security-credentials".
(** [str(ttl)], of a number that is not negative. *)
Definition show_ttl (ttl : Z) : text := dec (Z.to_N ttl).

(** M 114-139, [_refresh]: nobody else holds the lock. *)
Definition refresh : Act unit :=
  seq should_refresh (fun due =>
    if due then
      seq (exchange (mkHttp (lit "PUT") (c_endpoint c) TOKEN_PATH
                       (lit "x-aws-ec2-metadata-token-ttl-seconds", show_ttl (c_ttl c)))) (fun value =>
      seq read_clock (fun now => set_token (Some (value, now))))
    else ret tt).
(** M 141-145, [get_token]. *)
Definition get_token : Act text :=
  seq should_refresh (fun due =>
  seq (if due then refresh else ret tt) (fun _ => fun w =>
    match w_token w with Some (v, _) => (Ok v, w) | None => (Err AssertionError, w) end)).

(** M 156-179, [EC2Metadata.get]. *)
Definition get (path : text) : Act text :=
  seq get_token (fun token =>
    exchange (mkHttp (lit "GET") (c_endpoint c) path (lit "x-aws-ec2-metadata-token", token))).

(** M 214-233: the credentials of a document. *)
Definition credentials_of (creds_str : text) : result credentials :=
  match json_loads creds_str with
  | None => Err ValueError
  | Some DOther => Err AttributeError
  | Some (DObject key secret token account e) =>
    do expiration <- match e with
                     | ENone => Ok None
                     | EText t => match fromisoformat t with
                                  | Some d => Ok (Some (ensure_utc (replace_utc d)))
                                  | None => Err ValueError
                                  end
                     | EOther => Err TypeError
                     end;
    match key, secret with
    | Some k, Some s => Ok (mkCreds k s token expiration account)
    | _, _ => Err IdentityErr
    end
  end.

(** M 200-205: whether the credentials are reused. *)
Definition still_good : Act (option credentials) := fun w =>
  match w_credentials w with
  | None => (Ok None, w)
  | Some v =>
    match expiration v with
    | None => (Ok None, w)
    | Some e => seq read_clock (fun now => ret (if (now <? e)%Z then Some v else None)) w
    end
  end.

(** M 197-234, [get_identity]. *)
Definition get_identity : Act credentials :=
  seq still_good (fun reused =>
    match reused with
    | Some v => ret v
    | None =>
      seq (match c_profile c with Some p => ret p | None => get BASE_PATH end) (fun profile =>
      seq (get (BASE_PATH ++ [47] ++ profile)) (fun creds_str =>
        match credentials_of creds_str with
        | Ok v => seq (set_credentials (Some v)) (fun _ => ret v)
        | Err e => raise e
        end))
    end).

(** M 236-238, [invalidate]. *)
Definition invalidate : Act unit := set_credentials None.

(** A caller that asks for the identity, and discards it, as often as it likes. *)
Inductive use := Ask | Discard.
Definition use_step (w : world) (u : use) : world :=
  match u with
  | Ask => let w0 := snd (note Began w) in
           let (r, w1) := get_identity w0 in snd (note (Ended r) w1)
  | Discard => snd (note Discarded (snd (invalidate w)))
  end.
Definition uses (us : list use) : world := fold_left use_step us new_world.
End Imds.
