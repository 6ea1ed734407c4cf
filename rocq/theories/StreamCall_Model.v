(** The tasks of a call with an input event stream, and of those that wait for its
    output: smithy_core/aio/client.py lines 117-150, 241-261, 458-534 and
    smithy_core/aio/eventstream.py lines 118-187 ([InputEventStream]).

    Python's event loop runs one task at a time, until that task awaits something that
    is not done.  What the loop chooses to run next, and what the callees (interceptors,
    resolvers, the transport, the protocol) do, is the label of a step, so that every
    schedule is a sequence of labels.  Tasks are cancelled as in CPython's
    asyncio/tasks.py lines 210-250 and 286-360: a task that waits for a future cancels
    that future, and if that is already done, or is not there, CancelledError is raised
    when the task is next run.  [duplex_stream] (lines 178-240), which puts one more task
    between the execution and those that wait for it, is in DuplexCall_Model.v. *)
From Verif Require Import Base.

(** How a task or a future ends.  The request and the output are numbers. *)
Inductive outcome := Returned (v : nat) | Raised (e : exn) | Cancelled.

(** The caller of [input_stream]: line 135, waiting for the request; [must] is
    [_must_cancel].  When it ends, it returns its stream, or not. *)
Inductive caller := CWaits (must : bool) | CEnded (o : outcome).
(** The task of line 132, which executes the call: before transmission (up to line 466);
    waiting for the transport (line 470); after it (lines 481-534 and 253-261), where
    it awaits the protocol and [asked] tells whether that is cancelled; ended. *)
Inductive execution := XBefore | XSending (must : bool) | XAfter (asked : bool) | XEnded (o : outcome).
(** The task of line 466. *)
Inductive transport := TNone | TRuns (asked : bool) | TEnded (o : outcome).
(** A task in [await_output], eventstream.py lines 161-174. *)
Inductive waiter := WWaits (must : bool) | WEnded (o : outcome).

Record state := mkState {
  s_request : option outcome;      (* request_future, line 131 *)
  s_caller : caller;
  s_execution : execution;
  s_transport : transport;
  s_sent : list nat;               (* the requests given to the transport, newest first *)
  s_output : option nat;           (* InputEventStream.output *)
  s_waiters : list waiter }.

(** After line 134, when the caller awaits the request. *)
Definition opened : state := mkState None (CWaits false) XBefore TNone [] None [].

(** What happens next. *)
Inductive label :=
| Reaches (r : nat) (o : outcome)    (* the execution reaches transmission with a request; should it fail there, it ends with [o] *)
| Fails (o : outcome)                (* a stage before transmission fails, and the execution ends with [o] *)
| Answers (o : outcome)              (* the task of the transport ends *)
| Receives (o : outcome)             (* the execution is run after that; should the transport have raised, it ends with [o] *)
| Finishes (o : outcome)             (* the execution has its response and ends *)
| Opens (o : outcome)                (* the caller is run; [o] is what create_event_publisher does *)
| CancelCaller
| Waits                              (* a task calls await_output *)
| Wakes (i : nat)                    (* a task in await_output is run *)
| CancelWaiter (i : nat).

(** A task ends as cancelled only if it was asked to. *)
Definition allowed (asked : bool) (o : outcome) : bool :=
  match o with Cancelled => asked | _ => true end.

Fixpoint set_nth {A} (i : nat) (x : A) (l : list A) : list A :=
  match l, i with
  | [], _ => []
  | _ :: r, O => x :: r
  | y :: r, S i => y :: set_nth i x r
  end.

(** [execution.cancel()] *)
Definition cancel_execution (s : state) : state :=
  match s_execution s with
  | XBefore => s      (* nobody has the stream yet: see [step] *)
  | XSending m =>
    match s_transport s with
    | TRuns _ => mkState (s_request s) (s_caller s) (XSending m) (TRuns true) (s_sent s) (s_output s) (s_waiters s)
    | _ => mkState (s_request s) (s_caller s) (XSending true) (s_transport s) (s_sent s) (s_output s) (s_waiters s)
    end
  | XAfter _ => mkState (s_request s) (s_caller s) (XAfter true) (s_transport s) (s_sent s) (s_output s) (s_waiters s)
  | XEnded _ => s
  end.

(** [None]: this cannot happen now. *)
Definition step (l : label) (s : state) : option state :=
  match l with
  | Reaches r o =>
    match s_execution s with
    | XBefore =>
      if allowed false o then
        match s_request s with
        | None =>       (* lines 466-470 *)
          Some (mkState (Some (Returned r)) (s_caller s) (XSending false) (TRuns false) (r :: s_sent s) (s_output s) (s_waiters s))
        | Some _ =>     (* [set_result] raises InvalidStateError, which line 477 and the stages after it handle *)
          Some (mkState (s_request s) (s_caller s) (XEnded o) (TRuns false) (r :: s_sent s) (s_output s) (s_waiters s))
        end
      else None
    | _ => None
    end
  | Fails o =>
    match s_execution s with
    | XBefore =>
      if allowed false o then
        Some (mkState (s_request s) (s_caller s) (XEnded o) (s_transport s) (s_sent s) (s_output s) (s_waiters s))
      else None
    | _ => None
    end
  | Answers o =>
    match s_transport s with
    | TRuns asked =>
      if allowed asked o then
        Some (mkState (s_request s) (s_caller s) (s_execution s) (TEnded o) (s_sent s) (s_output s) (s_waiters s))
      else None
    | _ => None
    end
  | Receives o =>
    match s_execution s, s_transport s with
    | XSending m, TEnded t =>
      if allowed false o then
        let x := if m then XEnded Cancelled
                 else match t with Cancelled => XEnded Cancelled | Raised _ => XEnded o | Returned _ => XAfter false end in
        Some (mkState (s_request s) (s_caller s) x (s_transport s) (s_sent s) (s_output s) (s_waiters s))
      else None
    | _, _ => None
    end
  | Finishes o =>
    match s_execution s with
    | XAfter asked =>
      if allowed asked o then
        Some (mkState (s_request s) (s_caller s) (XEnded o) (s_transport s) (s_sent s) (s_output s) (s_waiters s))
      else None
    | _ => None
    end
  | Opens o =>      (* lines 135-143 *)
    match s_caller s, s_request s with
    | CWaits m, Some f =>
      if allowed false o then
        let o := if m then Cancelled else match f with Returned _ => o | _ => f end in
        Some (mkState (s_request s) (CEnded o) (s_execution s) (s_transport s) (s_sent s) (s_output s) (s_waiters s))
      else None
    | _, _ => None
    end
  | CancelCaller =>
    match s_caller s with
    | CWaits m =>
      match s_request s with
      | None => Some (mkState (Some Cancelled) (CWaits m) (s_execution s) (s_transport s) (s_sent s) (s_output s) (s_waiters s))
      | Some _ => Some (mkState (s_request s) (CWaits true) (s_execution s) (s_transport s) (s_sent s) (s_output s) (s_waiters s))
      end
    | CEnded _ => None
    end
  | Waits =>        (* who has the stream; eventstream.py lines 172-174, up to the await *)
    match s_caller s with
    | CEnded (Returned _) =>
      let w := match s_output s, s_execution s with
               | Some v, _ => WEnded (Returned v)
               | None, XEnded o => WEnded o      (* a task that is done does not suspend who awaits it *)
               | None, _ => WWaits false
               end in
      let output := match w with WEnded (Returned v) => Some v | _ => s_output s end in
      Some (mkState (s_request s) (s_caller s) (s_execution s) (s_transport s) (s_sent s) output (s_waiters s ++ [w]))
    | _ => None
    end
  | Wakes i =>      (* lines 173-174, after the await *)
    match nth_error (s_waiters s) i, s_execution s with
    | Some (WWaits m), XEnded o =>
      let o := if m then Cancelled else o in
      let output := match o with Returned v => Some v | _ => s_output s end in
      Some (mkState (s_request s) (s_caller s) (s_execution s) (s_transport s) (s_sent s) output (set_nth i (WEnded o) (s_waiters s)))
    | _, _ => None
    end
  | CancelWaiter i =>
    match nth_error (s_waiters s) i with
    | Some (WWaits m) =>
      match s_execution s with
      | XEnded _ => Some (mkState (s_request s) (s_caller s) (s_execution s) (s_transport s) (s_sent s) (s_output s) (set_nth i (WWaits true) (s_waiters s)))
      | _ => Some (cancel_execution s)
      end
    | _ => None
    end
  end.

Fixpoint steps (ls : list label) (s : state) : option state :=
  match ls with
  | [] => Some s
  | l :: r => match step l s with Some s => steps r s | None => None end
  end.
