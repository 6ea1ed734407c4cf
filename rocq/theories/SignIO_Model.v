(** The byte readers of aws_sdk_signers/_io.py
    (packages/aws-sdk-signers/src/aws_sdk_signers/_io.py), and what cancelling a
    read leaves behind there and in smithy_core/aio/types.py.  I is the first
    file, T the second.  [BytesIO], the kinds of source and the states of the
    readers are those of Streams_Model, with the same simplifications. *)
From Verif Require Import Base Streams_Model.

(** I 42-86, [read] and [_read_from_iterable]: unlike T 113, the loop is entered
    also when the remainder is enough. *)
Definition sg_read (size : option Z) (r : areader) : result (bytes * areader) :=
  if ar_closed r then Err ValueError
  else
    let size := match size with Some n => n | None => (-1)%Z end in
    match ar_data r with
    | DNone => Err ValueError
    | DBytesIO b =>
      do '(out, b') <- bio_read size b;
      Ok (out, mkReader false (ar_rem r) (DBytesIO b'))
    | DIter chunks =>
      if Z.ltb size 0 then
        Ok (ar_rem r ++ List.concat chunks, mkReader false [] (DIter []))
      else
        let n := Z.to_nat size in
        let (res, rest) := take_until n (ar_rem r) chunks in
        Ok (firstn n res, mkReader false (skipn n res) (DIter rest))
    | DRestart chunks =>
      if Z.ltb size 0 then
        Ok (ar_rem r ++ List.concat chunks, mkReader false [] (DRestart chunks))
      else
        let n := Z.to_nat size in
        let (res, _) := take_until n (ar_rem r) chunks in
        Ok (firstn n res, mkReader false (skipn n res) (DRestart chunks))
    end.
(** A number given as the size. *)
Definition sg_read_n (n : Z) : areader -> result (bytes * areader) := sg_read (Some n).

(** A client performing reads, whatever they return. *)
Fixpoint sg_reads (r : areader) (sizes : list (option Z)) : list (result bytes) :=
  match sizes with
  | [] => []
  | n :: ns => match sg_read n r with
               | Ok (b, r') => Ok b :: sg_reads r' ns
               | Err e => Err e :: sg_reads r ns
               end
  end.

(** I 126-219, [SeekableAsyncBytesReader]: line by line that of T 161-255, over
    a source with an async [read], which is this file's reader for anything that
    has none (I 138-148).  A size may also be [None] (I 156-157). *)
Definition sgs_read {S} (sread : Z -> S -> result (bytes * S)) (size : option Z) (r : sreader S) : result (bytes * sreader S) :=
  s_read sread (match size with Some n => n | None => (-1)%Z end) r.

(** The state of a seekable reader after operations. *)
Fixpoint s_after {S} (sread : Z -> S -> result (bytes * S)) (ops : list fop) (r : sreader S) : sreader S :=
  match ops with
  | [] => r
  | op :: ops' => s_after sread ops' (snd (s_step sread op r))
  end.

(** I 14-15, 88-89 and 225-226: the size of the pieces of [async for]. *)
Definition default_chunk_size : Z := 1024.

(** ** Closing *)
(** Whether the source has a [close], and whether it must be awaited. *)
Inductive closing := NoClose | PlainClose | AsyncClose.
(** Whether the source is closed after it was asked to by calling its [close]
    without awaiting the result: I 118-123 and 255-260. *)
Definition closed_by_call (c : closing) : bool :=
  match c with PlainClose => true | NoClose | AsyncClose => false end.
(** aio/utils.py 56-60, [close], used by T 152-156 and 287-291: awaited if it is
    a coroutine. *)
Definition closed_by_await (c : closing) : bool :=
  match c with PlainClose | AsyncClose => true | NoClose => false end.

(** ** Cancellation *)
(** I 80-83, T 114-117: what the source has left when the loop waits for its
    chunk number [k] (from 0); [None] if the loop does not get there. *)
Fixpoint waiting (n k : nat) (acc : bytes) (chunks : list bytes) : option (list bytes) :=
  match k with
  | O => Some chunks
  | S k' =>
    match chunks with
    | [] => None
    | c :: r => if Nat.leb n (List.length (acc ++ c)) then None else waiting n k' (acc ++ c) r
    end
  end.
(** A read of [n] bytes is cancelled while it waits for the source to give its
    chunk number [k], or to say that there is none: the chunks it had collected
    were in a local variable (I 73-86, T 106-120), the remainder is as it was.
    The source gives the next chunk to the next read, as does for instance
    [AsyncBytesProvider]; a generator would be finished by the cancellation.
    [eager] is [true] for I, which waits for one chunk at least, and [false] for
    T. *)
Definition cancelled_read (eager : bool) (n k : nat) (r : areader) : option areader :=
  match ar_data r with
  | DIter chunks =>
    if (negb (ar_closed r) && (eager || Nat.ltb (List.length (ar_rem r)) n))%bool then
      match waiting n k (ar_rem r) chunks with
      | Some rest => Some (mkReader false (ar_rem r) (DIter rest))
      | None => None
      end
    else None
  | _ => None
  end.
(** I 159-172, T 190-204: as above for a seekable reader, whose cursor was moved
    to the end of its buffer before (I 163, T 195). *)
Definition cancelled_seekable_read (eager : bool) (n k : nat) (r : sreader areader) : option (sreader areader) :=
  match s_src r with
  | None => None
  | Some src =>
    let have := List.length (b_data (s_buf r)) in
    if (negb (b_closed (s_buf r)) && Nat.ltb have (b_pos (s_buf r) + n) && negb (Nat.eqb n 0))%bool
    then match cancelled_read eager (b_pos (s_buf r) + n - have) k src with
         | Some src' => Some (mkSeek (mkBio (b_data (s_buf r)) have false) (Some src'))
         | None => None
         end
    else None
  end.
