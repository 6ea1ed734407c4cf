(** Model of smithy_core/retries.py, smithy_core/aio/retries.py and the retry
    loop of smithy_core/aio/client.py.

    Seconds are rational numbers: the rounding of Python floats is not modelled
    here.  Random draws are arguments. *)
From Coq Require Import QArith Qminmax.
From Verif Require Import Base.
Local Open Scope Z_scope.

(** interfaces/retries.py lines 7-35: what an error says about retrying.  An
    error without these attributes is no [ErrorRetryInfo] and is [None] here. *)
Record retry_info := mkInfo {
  ri_safe : option bool;        (* is_retry_safe *)
  ri_after : option Q;          (* retry_after *)
  ri_throttling : bool          (* is_throttling_error *)
}.

(** ** Backoff: retries.py lines 27-72 and 75-182 *)
Inductive jitter := JDefault | JNone | JFull | JDecorrelated.

Record backoff := mkBackoff {
  b_scale : Q;                  (* _backoff_scale_value *)
  b_max : Q;                    (* _max_backoff *)
  b_jitter : jitter;            (* _jitter_type *)
  b_prev : Q                    (* _previous_delay_seconds *)
}.

(** lines 76-106: the constructor. *)
Definition new_backoff (scale mx : Q) (j : jitter) : backoff := mkBackoff scale mx j scale.

(** lines 137-144: [scale * (2.0 ** (retry_attempt - 1))]; a float power of 1024
    or more raises OverflowError. *)
Definition uncapped (b : backoff) (n : Z) : result Q :=
  if 1024 <=? n - 1 then Err OverflowError else Ok (b_scale b * 2 ^ (n - 1))%Q.

(** [min(a, b)] of Python: the first unless the second is smaller. *)
Definition pmin (a b : Q) : Q := if Qlt_le_dec b a then b else a.
Definition pmax (a b : Q) : Q := if Qlt_le_dec a b then b else a.

(** lines 146-152, 154-161, 163-170, 172-182: the four formulas; [r] is the
    value returned by the random source. *)
Definition next_delay (b : backoff) (n : Z) (r : Q) : result Q :=
  match b_jitter b with
  | JNone => do u <- uncapped b n; Ok (pmin u (b_max b))
  | JDefault => do u <- uncapped b n; Ok ((r * (1 # 2) + (1 # 2)) * pmin u (b_max b))%Q
  | JFull => do u <- uncapped b n; Ok (r * pmin u (b_max b))%Q
  | JDecorrelated => Ok (pmin (b_scale b + r * b_prev b * 3) (b_max b))%Q
  end.

(** lines 108-135: [compute_next_backoff_delay]. *)
Definition compute_delay (b : backoff) (n : Z) (r : Q) : result Q * backoff :=
  if n =? 0 then (Ok 0%Q, b)
  else
    match next_delay b n r with
    | Ok s => (Ok s, mkBackoff (b_scale b) (b_max b) (b_jitter b) s)
    | Err e => (Err e, b)
    end.

(** The results of a series of calls on one backoff object. *)
Fixpoint delays (b : backoff) (calls : list (Z * Q)) : list (result Q) :=
  match calls with
  | [] => []
  | (n, r) :: l => let (d, b') := compute_delay b n r in d :: delays b' l
  end.

(** ** The quota: retries.py lines 203-260 *)
(** lines 206-209. *)
Definition RETRY_COST : Z := 14.
Definition NO_RETRY_INCREMENT : Z := 1.
Definition THROTTLING_RETRY_COST : Z := 5.
Definition INITIAL_RETRY_TOKENS : Z := 500.

Record quota := mkQuota { q_max : Z; q_avail : Z }.
Definition new_quota (cap : Z) : quota := mkQuota cap cap.

(** lines 227-233: the cost of a retry. *)
Definition cost_of (e : option retry_info) : Z :=
  match e with
  | Some i => if ri_throttling i then THROTTLING_RETRY_COST else RETRY_COST
  | None => RETRY_COST
  end.

(** lines 220-239: [acquire], as one step. *)
Definition q_acquire (q : quota) (e : option retry_info) : result Z * quota :=
  let c := cost_of e in
  if q_avail q <? c then (Err RetryErr, q)
  else (Ok c, mkQuota (q_max q) (q_avail q - c)).

(** line 247. *)
Definition increment_of (amount : Z) : Z := if amount =? 0 then NO_RETRY_INCREMENT else amount.

(** lines 241-256: [release], as one step. *)
Definition q_release (q : quota) (amount : Z) : quota :=
  if q_avail q =? q_max q then q
  else mkQuota (q_max q) (Z.min (q_avail q + increment_of amount) (q_max q)).

(** The same calls made by concurrent threads.  A thread is a list of calls; the
    shared state is the capacity and the lock.  A step of a thread is one access
    to the shared state: taking the lock, reading or writing the capacity,
    dropping the lock. *)
Inductive qcall := QAcquire (e : option retry_info) | QRelease (amount : Z).

Inductive qpc :=
| QIdle                         (* between calls *)
| QWant (c : qcall)             (* waiting for the lock *)
| QHeld (c : qcall)             (* lock held, capacity not yet read *)
| QRead (c : qcall) (v : Z)     (* capacity read *)
| QLeave.                       (* about to drop the lock *)

Inductive qout := QGot (c : Z) | QRefused | QReleased.

Record qthread := mkThread { t_pc : qpc; t_todo : list qcall }.

Record qsys := mkQSys {
  y_max : Z;
  y_avail : Z;
  y_lock : option nat;
  y_threads : list qthread;
  y_log : list (nat * qcall * qout)       (* calls in the order they took effect *)
}.

Fixpoint set_thread (i : nat) (t : qthread) (l : list qthread) : list qthread :=
  match i, l with
  | O, _ :: r => t :: r
  | S i', x :: r => x :: set_thread i' t r
  | _, [] => []
  end.

(** One step of thread [i]; a blocked or finished thread does nothing. *)
Definition qstep (s : qsys) (i : nat) : qsys :=
  match nth_error (y_threads s) i with
  | None => s
  | Some (mkThread pc todo) =>
    let upd pc' todo' := set_thread i (mkThread pc' todo') (y_threads s) in
    match pc with
    | QIdle =>
      match todo with
      | [] => s
      | QAcquire e :: r =>
        mkQSys (y_max s) (y_avail s) (y_lock s) (upd (QWant (QAcquire e)) r) (y_log s)
      | QRelease a :: r =>
        (* lines 249-250: read without the lock *)
        if y_avail s =? y_max s
        then mkQSys (y_max s) (y_avail s) (y_lock s) (upd QIdle r)
                    (y_log s ++ [(i, QRelease a, QReleased)])
        else mkQSys (y_max s) (y_avail s) (y_lock s) (upd (QWant (QRelease a)) r) (y_log s)
      end
    | QWant c =>
      match y_lock s with
      | Some _ => s
      | None => mkQSys (y_max s) (y_avail s) (Some i) (upd (QHeld c) todo) (y_log s)
      end
    | QHeld c =>
      mkQSys (y_max s) (y_avail s) (y_lock s) (upd (QRead c (y_avail s)) todo) (y_log s)
    | QRead (QAcquire e) v =>
      if v <? cost_of e
      then mkQSys (y_max s) (y_avail s) (y_lock s) (upd QLeave todo)
                  (y_log s ++ [(i, QAcquire e, QRefused)])
      else mkQSys (y_max s) (v - cost_of e) (y_lock s) (upd QLeave todo)
                  (y_log s ++ [(i, QAcquire e, QGot (cost_of e))])
    | QRead (QRelease a) v =>
      mkQSys (y_max s) (Z.min (v + increment_of a) (y_max s)) (y_lock s) (upd QLeave todo)
             (y_log s ++ [(i, QRelease a, QReleased)])
    | QLeave => mkQSys (y_max s) (y_avail s) None (upd QIdle todo) (y_log s)
    end
  end.

Definition qsys_init (cap : Z) (programs : list (list qcall)) : qsys :=
  mkQSys cap cap None (map (mkThread QIdle) programs) [].

Definition qsys_run (cap : Z) (programs : list (list qcall)) (schedule : list nat) : qsys :=
  fold_left qstep schedule (qsys_init cap programs).

(** ** Strategies: aio/retries.py *)
(** A retry token of either strategy (retries.py lines 184-200 and 263-272); the
    simple token carries no quota. *)
Record token := mkToken { k_count : Z; k_delay : Q; k_quota : Z }.

(** What refreshing a token gives: a token, RetryError (with its [retry_after]),
    or another exception. *)
Inductive refreshed := Granted (t : token) | Refused (after : option Q) | Raised (e : exn).

(** aio/retries.py lines 64-119: [SimpleRetryStrategy]. *)
Record simple := mkSimple { s_backoff : backoff; s_max : Z }.

(** lines 82-90; the first delay is [compute_next_backoff_delay(0)], which is 0. *)
Definition simple_acquire (s : simple) : token := mkToken 0 0 0.

(** lines 92-113. *)
Definition simple_refresh (s : simple) (t : token) (e : option retry_info) (r : Q)
  : refreshed * simple :=
  match e with
  | Some i =>
    match ri_safe i with
    | Some true =>
      let n := k_count t + 1 in
      if s_max s <=? n then (Refused None, s)
      else
        match compute_delay (s_backoff s) n r with
        | (Ok d, b) => (Granted (mkToken n d 0), mkSimple b (s_max s))
        | (Err x, b) => (Raised x, mkSimple b (s_max s))
        end
    | _ => (Refused None, s)
    end
  | None => (Refused None, s)
  end.

(** aio/retries.py lines 122-261: [StandardRetryStrategy]. *)
Record standard := mkStandard {
  d_backoff : backoff;
  d_throttling : backoff;
  d_max : Z;
  d_quota : quota
}.

Definition RETRY_AFTER_MAX_ADDITIONAL : Q := 5.

(** lines 135-180: the constructor with the default backoffs and a quota. *)
Definition new_standard (max_attempts : Z) (cap : Z) : result standard :=
  if max_attempts <? 0 then Err ValueError
  else Ok (mkStandard (new_backoff (1 # 20) 20 JFull) (new_backoff 1 20 JFull)
                      max_attempts (new_quota cap)).

(** lines 182-190. *)
Definition standard_acquire (s : standard) : token := mkToken 0 0 0.

(** lines 226-232: a server-directed delay is moved into [t_i, t_i + 5]. *)
Definition clamp_delay (ti : Q) (after : option Q) : Q :=
  match after with
  | Some a => pmax ti (pmin a (RETRY_AFTER_MAX_ADDITIONAL + ti))
  | None => ti
  end.

(** lines 192-247: [refresh_retry_token_for_retry] for a standard token. *)
Definition standard_refresh (s : standard) (t : token) (e : option retry_info) (r : Q)
  : refreshed * standard :=
  match e with
  | Some i =>
    match ri_safe i with
    | Some true =>
      let n := k_count t + 1 in
      if d_max s <=? n then (Refused None, s)
      else
        let b := if ri_throttling i then d_throttling s else d_backoff s in
        match compute_delay b n r with
        | (Err x, _) => (Raised x, s)
        | (Ok ti, b') =>
          let s1 := if ri_throttling i
                    then mkStandard (d_backoff s) b' (d_max s) (d_quota s)
                    else mkStandard b' (d_throttling s) (d_max s) (d_quota s) in
          let delay := clamp_delay ti (ri_after i) in
          match q_acquire (d_quota s1) (Some i) with
          | (Err _, _) => (Refused (Some delay), s1)
          | (Ok c, q) =>
            (Granted (mkToken n delay c),
             mkStandard (d_backoff s1) (d_throttling s1) (d_max s1) q)
          end
        end
    | _ => (Refused None, s)
    end
  | None => (Refused None, s)
  end.

(** lines 249-258: [record_success]. *)
Definition standard_success (s : standard) (t : token) : standard :=
  mkStandard (d_backoff s) (d_throttling s) (d_max s) (q_release (d_quota s) (k_quota t)).

(** Several operations sharing one standard strategy, each holding the token it
    was last given, as [RequestPipeline._retry] does (aio/client.py lines 332-375).
    The calls of the strategy contain no [await], so they are indivisible for
    the event loop. *)
Inductive opcall :=
| OStart (op : nat)                                      (* acquire_initial_retry_token *)
| OFail (op : nat) (e : option retry_info) (r : Q)       (* refresh_retry_token_for_retry *)
| OSucceed (op : nat).                                   (* record_success *)

(** What the callers see. *)
Inductive observed :=
| Started (op : nat)
| Retried (op : nat) (throttled : bool)     (* an attempt failed and a retry was granted *)
| GaveUp (op : nat)                         (* an attempt failed and no retry was granted *)
| Succeeded (op : nat).

Record shared := mkShared {
  h_strategy : standard;
  h_tokens : nat -> option token;
  h_seen : list observed
}.

Definition set_token (f : nat -> option token) (i : nat) (t : option token) : nat -> option token :=
  fun j => if Nat.eqb j i then t else f j.

Definition throttled (e : option retry_info) : bool :=
  match e with Some i => ri_throttling i | None => false end.

(** A call by an operation that holds no token is not made. *)
Definition opstep (s : shared) (c : opcall) : shared :=
  match c with
  | OStart i =>
    match h_tokens s i with
    | Some _ => s
    | None =>
      mkShared (h_strategy s) (set_token (h_tokens s) i (Some (standard_acquire (h_strategy s))))
               (h_seen s ++ [Started i])
    end
  | OFail i e r =>
    match h_tokens s i with
    | None => s
    | Some t =>
      match standard_refresh (h_strategy s) t e r with
      | (Granted t', st) =>
        mkShared st (set_token (h_tokens s) i (Some t')) (h_seen s ++ [Retried i (throttled e)])
      | (_, st) => mkShared st (set_token (h_tokens s) i None) (h_seen s ++ [GaveUp i])
      end
    end
  | OSucceed i =>
    match h_tokens s i with
    | None => s
    | Some t =>
      mkShared (standard_success (h_strategy s) t) (set_token (h_tokens s) i None)
               (h_seen s ++ [Succeeded i])
    end
  end.

Definition run_ops (st : standard) (cs : list opcall) : shared :=
  fold_left opstep cs (mkShared st (fun _ => None) []).

(** ** The retry loop: aio/client.py lines 323-375 *)
Section Loop.
  (** The world outside the loop, the results of attempts, the errors and the
      tokens are arbitrary; so is the retry strategy. *)
  Context {W Out Err Tok : Type}.
  Variable delay_of : Tok -> Q.                                  (* retry_token.retry_delay *)
  Variable acquire : W -> (Tok + Err) * W.                       (* acquire_initial_retry_token *)
  (** [inl]: a token; [inr (inl a)]: RetryError with retry_after [a]; [inr (inr e)]: another exception. *)
  Variable refresh : Tok -> Err -> W -> (Tok + (option Q + Err)) * W.
  Variable success : Tok -> W -> option Err * W.                 (* record_success *)
  Variable attempt : W -> Out * W.                               (* _handle_attempt on a copy of the request *)
  Variable failure : Out -> option Err.                          (* isinstance(response, Exception) *)
  Variable rewind : W -> option Err * W.                         (* seek(body, 0) *)
  Variable long_polling : bool.

  (** What the loop does, in order. *)
  Inductive action :=
  | ASleep (d : Q)
  | AAttempt (o : Out)
  | ARefresh (t : Tok) (e : Err)
  | ARewind
  | ASuccess (t : Tok).

  (** How it ends: with the outcome of an attempt, or with an exception. *)
  Inductive ended := Returned (o : Out) | Threw (e : Err).

  Definition nonzero (q : Q) : bool := negb (Qeq_bool q 0).

  (** lines 337-375: the [while True]; [None] when [fuel] rounds do not end it. *)
  Fixpoint retry_loop (fuel : nat) (t : Tok) (w : W) : option (ended * list action * W) :=
    match fuel with
    | O => None
    | S fuel' =>
      let slept := if nonzero (delay_of t) then [ASleep (delay_of t)] else [] in
      let (o, w1) := attempt w in
      match failure o with
      | Some e =>
        let (r, w2) := refresh t e w1 in
        match r with
        | inl t' =>
          let (x, w3) := rewind w2 in
          match x with
          | Some e' => Some (Threw e', slept ++ [AAttempt o; ARefresh t e; ARewind], w3)
          | None =>
            match retry_loop fuel' t' w3 with
            | Some (res, tr, w4) =>
              Some (res, slept ++ [AAttempt o; ARefresh t e; ARewind] ++ tr, w4)
            | None => None
            end
          end
        | inr (inl a) =>
          let back := match a with
                      | Some d => if long_polling then [ASleep d] else []
                      | None => []
                      end in
          Some (Threw e, slept ++ [AAttempt o; ARefresh t e] ++ back, w2)
        | inr (inr e') => Some (Threw e', slept ++ [AAttempt o; ARefresh t e], w2)
        end
      | None =>
        let (x, w2) := success t w1 in
        match x with
        | None => Some (Returned o, slept ++ [AAttempt o; ASuccess t], w2)
        | Some e' => Some (Threw e', slept ++ [AAttempt o; ASuccess t], w2)
        end
      end
    end.

  (** lines 323-336: a call that is not retryable (it has an input stream) makes
      one attempt and no use of the strategy. *)
  Definition retry (retryable : bool) (fuel : nat) (w : W) : option (ended * list action * W) :=
    if retryable then
      let (r, w1) := acquire w in
      match r with
      | inl t => retry_loop fuel t w1
      | inr e => Some (Threw e, [], w1)
      end
    else
      let (o, w1) := attempt w in Some (Returned o, [AAttempt o], w1).
End Loop.
Arguments action : clear implicits.
Arguments ended : clear implicits.

(** The loop with the two strategies of the library.  The world is the strategy
    (which other operations may also use) and everything else. *)
Section WithStrategy.
  Context {A Er : Type}.
  Variable info : Er -> option retry_info.       (* the retry attributes of an error *)
  Variable of_exn : exn -> Er.
  Variable draw : A -> Q * A.                    (* the random source *)

  Definition std_acquire (w : standard * A) : (token + Er) * (standard * A) :=
    (inl (standard_acquire (fst w)), w).
  Definition std_refresh (t : token) (e : Er) (w : standard * A)
    : (token + (option Q + Er)) * (standard * A) :=
    let (r, a) := draw (snd w) in
    match standard_refresh (fst w) t (info e) r with
    | (Granted t', s) => (inl t', (s, a))
    | (Refused q, s) => (inr (inl q), (s, a))
    | (Raised x, s) => (inr (inr (of_exn x)), (s, a))
    end.
  Definition std_success (t : token) (w : standard * A) : option Er * (standard * A) :=
    (None, (standard_success (fst w) t, snd w)).

  Definition smp_acquire (w : simple * A) : (token + Er) * (simple * A) :=
    (inl (simple_acquire (fst w)), w).
  Definition smp_refresh (t : token) (e : Er) (w : simple * A)
    : (token + (option Q + Er)) * (simple * A) :=
    let (r, a) := draw (snd w) in
    match simple_refresh (fst w) t (info e) r with
    | (Granted t', s) => (inl t', (s, a))
    | (Refused q, s) => (inr (inl q), (s, a))
    | (Raised x, s) => (inr (inr (of_exn x)), (s, a))
    end.
  (** aio/retries.py lines 115-116. *)
  Definition smp_success (t : token) (w : simple * A) : option Er * (simple * A) := (None, w).
End WithStrategy.
