(** The tasks of a call with event streams in both directions:
    smithy_core/aio/client.py lines 178-240 and smithy_core/aio/eventstream.py lines
    11-118 ([DuplexEventStream]).

    The caller, the task that executes the call and the transport are those of
    StreamCall_Model.v: lines 200-209 are lines 131-142 but for the wrapper of line 133.  The task of
    lines 210-217 awaits the execution as any task does that awaits a task, so that it
    is waiter number 0 of that model; those that await the output await this task. *)
From Verif Require Import Base StreamCall_Model.

(** The task of lines 210-217: not there; created, not yet run, and asked to stop or
    not; awaiting the execution, line 231; ended.  What it returns, the pair of output
    and output stream, is a number. *)
Inductive output_task := ONone | OStart (must : bool) | OAwaits | OEnded (o : outcome).

(** A task in [await_output] (eventstream.py lines 81-101) or, [closing], in [close]
    (lines 103-112): waiting for the output; closing the input stream, the output
    stream, which may wait and be cancelled in that; ended. *)
Inductive user := UWaits (closing must : bool) | UInput (asked : bool) | UOutput (asked : bool) | UEnded (closing : bool) (o : outcome).

(** The calls of [close] on the two streams, with the number of the task. *)
Inductive closing_call := ClosesInput (i : nat) | ClosesOutput (i : nat).

Record duplex := mkDuplex {
  d_call : state;
  d_task : output_task;
  d_stream : option nat;              (* output and output_stream, lines 55 and 63 *)
  d_users : list user;
  d_closes : list closing_call }.     (* newest first *)

(** After line 201, when the caller awaits the request. *)
Definition begun : duplex := mkDuplex opened ONone None [] [].

Inductive dlabel :=
| DCall (l : label)                  (* a step of the call itself *)
| DTask (o : outcome)                (* the output task is run; [o] is what create_event_receiver does *)
| DAwaits                            (* a task calls await_output *)
| DCloses                            (* a task calls close *)
| DWakes (i : nat)
| DInput (i : nat) (o : outcome)     (* the close of the input stream ends *)
| DOutput (i : nat) (o : outcome)    (* the close of the output stream ends *)
| DCancel (i : nat).

(** Steps of the call: those of its waiters are taken by the output task. *)
Definition of_call (l : label) : bool :=
  match l with Waits | Wakes _ | CancelWaiter _ => false | _ => true end.

(** client.py lines 232-240: the receiver is made from an output. *)
Definition made (awaited o : outcome) : outcome := match awaited with Returned _ => o | _ => awaited end.

(** What a task does once the output task has ended with [o]: eventstream.py lines
    100-101, and 109-112 when it closes. *)
Definition goes_on (i : nat) (closing : bool) (o : outcome) (stream : option nat) (closes : list closing_call)
  : user * option nat * list closing_call :=
  match o with
  | Returned v => if closing then (UInput false, Some v, ClosesInput i :: closes) else (UEnded false o, Some v, closes)
  | _ => (UEnded closing o, stream, closes)
  end.

Definition dstep (l : dlabel) (d : duplex) : option duplex :=
  match l with
  | DCall l =>
    if of_call l then
      match step l (d_call d) with
      | Some s =>
        let t := match l, s_caller s with Opens _, CEnded (Returned _) => OStart false | _, _ => d_task d end in
        Some (mkDuplex s t (d_stream d) (d_users d) (d_closes d))
      | None => None
      end
    else None
  | DTask o =>
    if allowed false o then
      match d_task d with
      | OStart true => Some (mkDuplex (d_call d) (OEnded Cancelled) (d_stream d) (d_users d) (d_closes d))
      | OStart false =>
        match step Waits (d_call d) with
        | Some s =>
          let t := match nth_error (s_waiters s) 0 with Some (WEnded w) => OEnded (made w o) | _ => OAwaits end in
          Some (mkDuplex s t (d_stream d) (d_users d) (d_closes d))
        | None => None
        end
      | OAwaits =>
        match step (Wakes 0) (d_call d) with
        | Some s =>
          match nth_error (s_waiters s) 0 with
          | Some (WEnded w) => Some (mkDuplex s (OEnded (made w o)) (d_stream d) (d_users d) (d_closes d))
          | _ => None
          end
        | None => None
        end
      | _ => None
      end
    else None
  | DAwaits =>
    let i := List.length (d_users d) in
    match d_task d with
    | ONone => None
    | OEnded o =>
      let '(u, v, c) := goes_on i false o (d_stream d) (d_closes d) in
      Some (mkDuplex (d_call d) (d_task d) v (d_users d ++ [u]) c)
    | _ => Some (mkDuplex (d_call d) (d_task d) (d_stream d) (d_users d ++ [UWaits false false]) (d_closes d))
    end
  | DCloses =>
    let i := List.length (d_users d) in
    match d_stream d, d_task d with
    | _, ONone => None
    | Some _, _ =>      (* line 108 *)
      Some (mkDuplex (d_call d) (d_task d) (d_stream d) (d_users d ++ [UInput false]) (ClosesInput i :: d_closes d))
    | None, OEnded o =>
      let '(u, v, c) := goes_on i true o (d_stream d) (d_closes d) in
      Some (mkDuplex (d_call d) (d_task d) v (d_users d ++ [u]) c)
    | None, _ => Some (mkDuplex (d_call d) (d_task d) (d_stream d) (d_users d ++ [UWaits true false]) (d_closes d))
    end
  | DWakes i =>
    match nth_error (d_users d) i, d_task d with
    | Some (UWaits closing must), OEnded o =>
      let '(u, v, c) := goes_on i closing (if must then Cancelled else o) (d_stream d) (d_closes d) in
      Some (mkDuplex (d_call d) (d_task d) v (set_nth i u (d_users d)) c)
    | _, _ => None
    end
  | DInput i o =>       (* lines 111-112 *)
    match nth_error (d_users d) i with
    | Some (UInput asked) =>
      if allowed asked o then
        let '(u, c) := match o with Returned _ => (UOutput false, ClosesOutput i :: d_closes d) | _ => (UEnded true o, d_closes d) end in
        Some (mkDuplex (d_call d) (d_task d) (d_stream d) (set_nth i u (d_users d)) c)
      else None
    | _ => None
    end
  | DOutput i o =>
    match nth_error (d_users d) i with
    | Some (UOutput asked) =>
      if allowed asked o then Some (mkDuplex (d_call d) (d_task d) (d_stream d) (set_nth i (UEnded true o) (d_users d)) (d_closes d)) else None
    | _ => None
    end
  | DCancel i =>
    match nth_error (d_users d) i with
    | Some (UWaits closing must) =>
      match d_task d with
      | OStart _ => Some (mkDuplex (d_call d) (OStart true) (d_stream d) (d_users d) (d_closes d))
      | OAwaits =>
        match step (CancelWaiter 0) (d_call d) with
        | Some s => Some (mkDuplex s OAwaits (d_stream d) (d_users d) (d_closes d))
        | None => None
        end
      | _ => Some (mkDuplex (d_call d) (d_task d) (d_stream d) (set_nth i (UWaits closing true) (d_users d)) (d_closes d))
      end
    | Some (UInput _) => Some (mkDuplex (d_call d) (d_task d) (d_stream d) (set_nth i (UInput true) (d_users d)) (d_closes d))
    | Some (UOutput _) => Some (mkDuplex (d_call d) (d_task d) (d_stream d) (set_nth i (UOutput true) (d_users d)) (d_closes d))
    | _ => None
    end
  end.

Fixpoint dsteps (ls : list dlabel) (d : duplex) : option duplex :=
  match ls with
  | [] => Some d
  | l :: r => match dstep l d with Some d => dsteps r d | None => None end
  end.
