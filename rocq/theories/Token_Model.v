(** The cache of instance metadata session tokens.  M = smithy_aws_core/identity/imds.py;
    L = CPython 3.12 asyncio/locks.py, class Lock. *)
From Verif Require Import Base.

(** Callers, and the readings of the clock in seconds. *)
Definition caller := nat.
Definition time := Z.

(** M 79-93, [Token]: the value and the time it was made. *)
Record token := mkToken { value : text; created_time : time }.

(** What other code and the network do: a call of [get_token], with the readings
    of the clock in its two checks; the answer to the request of a caller, with
    its status, and the reading of the clock when the body is there; the event
    loop resuming a caller that waited for the lock; the cancellation of a caller. *)
Inductive event :=
| Call (i : caller) (now now' : time)
| Answer (i : caller) (status : N) (r : result text) (now : time)
| Resume (i : caller) (now : time)
| Cancel (i : caller).

Arguments Call i%nat (now now')%Z. Arguments Answer i%nat status%N r now%Z. Arguments Resume i%nat now%Z. Arguments Cancel i%nat.

(** What can be seen. *)
Inductive obs :=
| Called (i : caller)
| Sent (i : caller) (now : time)
| Fetched (i : caller) (t : token)
| Failed (i : caller) (e : exn)
| Returned (i : caller) (t : token) (checked : option time)
| Raised (i : caller) (e : exn)
| Cancelled (i : caller).

Arguments Sent i%nat now%Z. Arguments Called i%nat.

(** The future of a caller in the queue of the lock: not done, done with a
    result, cancelled, or done with a result before the caller was cancelled. *)
Inductive future := Pending | Woken | CancelledFuture | CancelledCaller.
Definition done (f : future) : bool := match f with Pending => false | _ => true end.
Definition cancelled (f : future) : bool := match f with CancelledFuture => true | _ => false end.

(** M 104-109 and L: the token, the lock and its queue; and the callers whose
    request is in progress. *)
Record cache := mkCache {
  the_token : option token; lock : bool; queue : list (caller * future); fetching : list caller }.

Section Ttl.
(** The seconds a token lives, M 59-64. *)
Variable ttl : Z.

(** M 88-89, [Token.is_expired]. *)
Definition expired (t : token) (now : time) : bool := Z.leb ttl (now - created_time t).
(** M 111-112, [_should_refresh]. *)
Definition should_refresh (c : cache) (now : time) : bool :=
  match the_token c with None => true | Some t => expired t now end.

(** L [_wake_up_first]. *)
Definition wake_up_first (q : list (caller * future)) : list (caller * future) :=
  match q with
  | (i, f) :: r => if done f then q else (i, Woken) :: r
  | [] => []
  end.
(** L [release]. *)
Definition release (c : cache) : cache * option exn :=
  if lock c then (mkCache (the_token c) false (wake_up_first (queue c)) (fetching c), None)
  else (c, Some RuntimeError).

(** M 115, 144-145: the lock is released, then the last two lines of [get_token]. *)
Definition finish (i : caller) (checked : option time) (c : cache) : cache * list obs :=
  match release c with
  | (c', Some e) => (c', [Raised i e])
  | (c', None) =>
    (c', match the_token c' with Some t => [Returned i t checked] | None => [Raised i AssertionError] end)
  end.

(** M 116-137, the body of [_refresh] once the lock is held, up to the request. *)
Definition locked (i : caller) (now : time) (c : cache) : cache * list obs :=
  if should_refresh c now then
    (mkCache (the_token c) (lock c) (queue c) (fetching c ++ [i]), [Sent i now])
  else finish i (Some now) c.

(** M 141-145, [get_token] up to its first suspension, with L [acquire]. *)
Definition get_token (i : caller) (now now' : time) (c : cache) : cache * list obs :=
  if should_refresh c now then
    if negb (lock c) && forallb (fun w => cancelled (snd w)) (queue c) then
      locked i now' (mkCache (the_token c) true (queue c) (fetching c))
    else (mkCache (the_token c) (lock c) (queue c ++ [(i, Pending)]) (fetching c), [])
  else (c, match the_token c with Some t => [Returned i t (Some now)] | None => [Raised i AssertionError] end).

Definition remove (i : caller) (l : list caller) : list caller := filter (fun j => negb (Nat.eqb i j)) l.
Definition leave (i : caller) (q : list (caller * future)) : list (caller * future) :=
  filter (fun w => negb (Nat.eqb i (fst w))) q.

(** M 137-145: the answer arrives.  The status of the response is not looked at. *)
Definition answered (i : caller) (r : result text) (now : time) (c : cache) : cache * list obs :=
  let c := mkCache (the_token c) (lock c) (queue c) (remove i (fetching c)) in
  match r with
  | Err e =>
    match release c with
    | (c', None) => (c', [Failed i e; Raised i e])
    | (c', Some e') => (c', [Failed i e; Raised i e'])
    end
  | Ok v =>
    let t := mkToken v now in
    let (c', o) := finish i None (mkCache (Some t) (lock c) (queue c) (fetching c)) in
    (c', Fetched i t :: o)
  end.

(** L [acquire] from the await on, with the future of the caller. *)
Definition resumed (i : caller) (f : future) (now : time) (c : cache) : cache * list obs :=
  let q := leave i (queue c) in
  match f with
  | Pending => (c, [])
  | Woken => locked i now (mkCache (the_token c) true q (fetching c))
  | CancelledFuture | CancelledCaller =>
    (mkCache (the_token c) (lock c) (if lock c then q else wake_up_first q) (fetching c), [Cancelled i])
  end.

(** The cancellation of the task of a caller: its future is cancelled, unless it
    is done already; the caller runs later.  One that waits for its answer gets
    CancelledError there, at once here. *)
Definition cancel_future (f : future) : future :=
  match f with Pending => CancelledFuture | Woken => CancelledCaller | f => f end.
Definition cancel (i : caller) (c : cache) : cache * list obs :=
  if existsb (Nat.eqb i) (fetching c) then
    match release (mkCache (the_token c) (lock c) (queue c) (remove i (fetching c))) with
    | (c', None) => (c', [Cancelled i])
    | (c', Some e) => (c', [Raised i e])
    end
  else
    (mkCache (the_token c) (lock c)
       (map (fun w => if Nat.eqb i (fst w) then (fst w, cancel_future (snd w)) else w) (queue c)) (fetching c), []).

(** A step.  What cannot happen is ignored: a call by a caller that is still in a
    call, an answer without a request, resuming a caller that is not to run. *)
Definition find (i : caller) (q : list (caller * future)) : option future :=
  match List.find (fun w => Nat.eqb i (fst w)) q with Some w => Some (snd w) | None => None end.
Definition in_call (i : caller) (c : cache) : bool :=
  existsb (Nat.eqb i) (fetching c) || match find i (queue c) with Some _ => true | None => false end.
Definition step (e : event) (c : cache) : cache * list obs :=
  match e with
  | Call i now now' =>
    if in_call i c then (c, [])
    else let (c', o) := get_token i now now' c in (c', Called i :: o)
  | Answer i _ r now => if existsb (Nat.eqb i) (fetching c) then answered i r now c else (c, [])
  | Resume i now =>
    match find i (queue c) with
    | Some f => resumed i f now c
    | None => (c, [])
    end
  | Cancel i => cancel i c
  end.
Fixpoint run (es : list event) (c : cache) : cache * list obs :=
  match es with
  | [] => (c, [])
  | e :: r => let (c1, o1) := step e c in let (c2, o2) := run r c1 in (c2, o1 ++ o2)
  end.
Definition init : cache := mkCache None false [] [].
End Ttl.

(** M 35-36, 59-64, [_validate_token_ttl]. *)
Definition validate_ttl (ttl : Z) : result Z :=
  if Z.leb 5 ttl && Z.leb ttl 21600 then Ok ttl else Err ValueError.
