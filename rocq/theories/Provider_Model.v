(** Model of [AsyncBytesProvider]
    (packages/smithy-core/src/smithy_core/aio/types.py 317-461).

    Tasks run on one event loop.  Between two suspensions a method runs without
    interruption, and the only suspension of the class is [Condition.wait], which
    gives the lock back; so the lock is free whenever a task starts or resumes and
    [async with self._data_condition] never waits.  What remains is the condition's
    queue of waiters: [wait] appends to it, [notify] wakes the first waiter that
    was not woken yet, a woken task leaves it when it runs.  The schedule is
    arbitrary: a call may start, and a woken task may run, at any time.  Calls may
    also be cancelled, and waiters woken for no reason ([asyncio] wakes another
    waiter when a waiting task is cancelled). *)
From Verif Require Import Base.

Inductive call :=
| Write (b : bytes)
| Flush
| Close (flush : bool)
| Next.

Inductive outcome :=
| Done               (* returned [None] *)
| Chunk (b : bytes)  (* [__anext__] returned a chunk *)
| Stop               (* StopAsyncIteration *)
| Raised (e : exn)
| Cancelled.

Inductive event := Called (i : nat) (c : call) | Returned (i : nat) (c : call) (r : outcome).

(** A task that waits on the condition, and whether it was woken. *)
Record waiter := mkWaiter { w_id : nat; w_call : call; w_woken : bool }.

Record provider := mkProvider {
  data : list bytes; closed : bool; closing : bool; flushing : bool; max_chunks : nat;
  waiters : list waiter;       (* the condition's queue, first in first *)
  next_id : nat;               (* to name the calls *)
  log : list event             (* the latest first *)
}.

(** 324-349, [__init__]. *)
Definition new_provider (initial : option bytes) (max : nat) : result provider :=
  if Nat.ltb max 1 then Err ValueError
  else Ok (mkProvider (match initial with Some b => [b] | None => [] end) false false false max [] 0 []).

(** [Condition.notify] and [notify_all]. *)
Fixpoint notify (ws : list waiter) : list waiter :=
  match ws with
  | [] => []
  | w :: r => if w_woken w then w :: notify r else mkWaiter (w_id w) (w_call w) true :: r
  end.
Definition notify_all (ws : list waiter) : list waiter :=
  map (fun w => mkWaiter (w_id w) (w_call w) true) ws.

(** 375-380, [_can_write]. *)
Definition can_write (p : provider) : bool :=
  closed p || closing p || (Nat.ltb (List.length (data p)) (max_chunks p) && negb (flushing p)).

Definition is_empty (p : provider) : bool := match data p with [] => true | _ => false end.

(** The predicate a call waits for: 361, 400, 423 and 443-445. *)
Definition may_go (c : call) (p : provider) : bool :=
  match c with
  | Write _ => can_write p
  | Flush => is_empty p
  | Close _ => is_empty p
  | Next => closed p || negb (is_empty p)
  end.

Definition with_waiters (ws : list waiter) (p : provider) : provider :=
  mkProvider (data p) (closed p) (closing p) (flushing p) (max_chunks p) ws (next_id p) (log p).
Definition emit (e : event) (p : provider) : provider :=
  mkProvider (data p) (closed p) (closing p) (flushing p) (max_chunks p) (waiters p) (next_id p) (e :: log p).
Definition set_flags (cl cg fl : bool) (p : provider) : provider :=
  mkProvider (data p) cl cg fl (max_chunks p) (waiters p) (next_id p) (log p).
Definition set_data (d : list bytes) (p : provider) : provider :=
  mkProvider d (closed p) (closing p) (flushing p) (max_chunks p) (waiters p) (next_id p) (log p).

(** The rest of a call once its predicate holds: 365-373 ([write]), 403
    ([flush]), 428-432 ([close]) and 448-455 ([__anext__]). *)
Definition finish (c : call) (p : provider) : provider * outcome :=
  match c with
  | Write b =>
    if closed p || closing p then (with_waiters (notify (waiters p)) p, Raised SmithyErr)
    else let p := set_data (data p ++ [b]) p in (with_waiters (notify (waiters p)) p, Done)
  | Flush => (set_flags (closed p) (closing p) false p, Done)
  | Close _ =>
    let p := set_flags true false (flushing p) p in (with_waiters (notify_all (waiters p)) p, Done)
  | Next =>
    if closed p then (p, Stop)
    else match data p with
         | b :: r => let p := set_data r p in (with_waiters (notify (waiters p)) p, Chunk b)
         | [] => (p, Raised IndexError)   (* popleft on an empty deque; never reached *)
         end
  end.

(** [wait_for]: go on if the predicate holds, otherwise wait at the end of the
    queue. *)
Definition attempt (i : nat) (c : call) (p : provider) : provider :=
  if may_go c p then let (p', r) := finish c p in emit (Returned i c r) p'
  else with_waiters (waiters p ++ [mkWaiter i c false]) p.

(** The start of a call up to its first wait: 351-361, 387-400, 405-426,
    437-445. *)
Definition begin_call (i : nat) (c : call) (p : provider) : provider :=
  match c with
  | Write _ =>
    if closed p then emit (Returned i c (Raised SmithyErr)) p else attempt i c p
  | Flush =>
    if closed p then emit (Returned i c Done) p
    else attempt i c (set_flags (closed p) (closing p) true p)
  | Close fl =>
    if closed p then emit (Returned i c Done) p
    else
      let p := set_flags (closed p) true (flushing p) p in
      if fl then attempt i c p
      else let (p', r) := finish c (set_data [] p) in emit (Returned i c r) p'
  | Next => attempt i c p
  end.

Inductive action :=
| Start (c : call)      (* some task makes the call *)
| Resume (i : nat)      (* a woken call runs *)
| Wake (i : nat)        (* a waiting call is woken for no reason *)
| Cancel (i : nat).     (* a waiting or woken call is cancelled *)

Definition find_waiter (i : nat) (p : provider) : option waiter :=
  find (fun w => Nat.eqb (w_id w) i) (waiters p).
Definition remove_waiter (i : nat) (ws : list waiter) : list waiter :=
  filter (fun w => negb (Nat.eqb (w_id w) i)) ws.

(** [None]: not possible in this state. *)
Definition act (a : action) (p : provider) : option provider :=
  match a with
  | Start c =>
    let i := next_id p in
    let p := mkProvider (data p) (closed p) (closing p) (flushing p) (max_chunks p) (waiters p) (S i)
               (Called i c :: log p) in
    Some (begin_call i c p)
  | Resume i =>
    match find_waiter i p with
    | Some w => if w_woken w then Some (attempt i (w_call w) (with_waiters (remove_waiter i (waiters p)) p)) else None
    | None => None
    end
  | Wake i =>
    match find_waiter i p with
    | Some _ => Some (with_waiters (map (fun w => if Nat.eqb (w_id w) i then mkWaiter i (w_call w) true else w) (waiters p)) p)
    | None => None
    end
  | Cancel i =>
    match find_waiter i p with
    | Some w => Some (emit (Returned i (w_call w) Cancelled) (with_waiters (remove_waiter i (waiters p)) p))
    | None => None
    end
  end.

Fixpoint schedule (acts : list action) (p : provider) : option provider :=
  match acts with
  | [] => Some p
  | a :: rest => match act a p with Some p' => schedule rest p' | None => None end
  end.
