(** Reference behaviours for byte readers. *)
From Verif Require Import Base Streams_Model EventStream_Model.

(** Successive reads of the given sizes from a byte string: what each returns. *)
Fixpoint file_reads (content : bytes) (sizes : list Z) : list bytes :=
  match sizes with
  | [] => []
  | n :: r =>
    if Z.ltb n 0 then content :: file_reads [] r
    else firstn (Z.to_nat n) content :: file_reads (skipn (Z.to_nat n) content) r
  end.

(** An in-memory file: fixed content and a cursor.  Seeking to a negative
    position is not part of this reference; [file_ok] says that a script never
    does it and uses whence 0, 1 or 2. *)
Definition file_target (content : bytes) (pos : nat) (off whence : Z) : Z :=
  if Z.eqb whence 0 then off
  else if Z.eqb whence 1 then Z.of_nat pos + off
  else Z.of_nat (List.length content) + off.

Fixpoint file_ok (content : bytes) (pos : nat) (ops : list fop) : Prop :=
  match ops with
  | [] => True
  | FRead n :: r =>
    let avail := (List.length content - pos)%nat in
    file_ok content (pos + (if Z.ltb n 0 then avail else Nat.min (Z.to_nat n) avail)) r
  | FSeek off w :: r =>
    (w = 0 \/ w = 1 \/ w = 2)%Z /\ (0 <= file_target content pos off w)%Z /\
    file_ok content (Z.to_nat (file_target content pos off w)) r
  | FTell :: r => file_ok content pos r
  end.

Fixpoint file_run (content : bytes) (pos : nat) (ops : list fop) : list fobs :=
  match ops with
  | [] => []
  | FRead n :: r =>
    let out := if Z.ltb n 0 then skipn pos content else firstn (Z.to_nat n) (skipn pos content) in
    OBytes out :: file_run content (pos + List.length out) r
  | FSeek off w :: r =>
    let p := Z.to_nat (file_target content pos off w) in OPos p :: file_run content p r
  | FTell :: r => OPos pos :: file_run content pos r
  end.

(** A consumer calling the asynchronous event decoder until it reports the end or
    raises: the messages it got and the exception; [None] = more rounds needed
    than the fuel allows.  ([decode_all] is the same over bytes in memory.) *)
Fixpoint async_decode_all (fuel : nat) (r : areader) : option (list message * option exn) :=
  match fuel with
  | O => None
  | S fuel' =>
    match decode_event_from ar_read r with
    | Err e => Some ([], Some e)
    | Ok (None, _) => Some ([], None)
    | Ok (Some ev, r') =>
      match async_decode_all fuel' r' with
      | None => None
      | Some (ms, e) => Some (e_message ev :: ms, e)
      end
    end
  end.
