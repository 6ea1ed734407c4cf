(** Model of the byte readers of smithy_core/aio/types.py
    (packages/smithy-core/src/smithy_core/aio/types.py).
    Line numbers below refer to that file. *)
From Verif Require Import Base.

(** [io.BytesIO] as used by the readers (CPython's bytesio.c): content, cursor,
    closed flag. *)
Record bio := mkBio { b_data : bytes; b_pos : nat; b_closed : bool }.

Definition bio_read (n : Z) (b : bio) : result (bytes * bio) :=
  if b_closed b then Err ValueError
  else
    let avail := skipn (b_pos b) (b_data b) in
    let out := if Z.ltb n 0 then avail else firstn (Z.to_nat n) avail in
    Ok (out, mkBio (b_data b) (b_pos b + List.length out) false).

(** Whence 0 with a negative offset raises; whence 1 and 2 clamp at zero. *)
Definition bio_seek (off whence : Z) (b : bio) : result (nat * bio) :=
  if b_closed b then Err ValueError
  else if (Z.ltb off 0 && Z.eqb whence 0)%bool then Err ValueError
  else if negb (Z.eqb whence 0 || Z.eqb whence 1 || Z.eqb whence 2)%bool then Err ValueError
  else
    let base := if Z.eqb whence 1 then Z.of_nat (b_pos b)
                else if Z.eqb whence 2 then Z.of_nat (List.length (b_data b)) else 0%Z in
    let p := Z.to_nat (Z.max 0 (base + off)) in
    Ok (p, mkBio (b_data b) p false).

Definition bio_tell (b : bio) : result nat :=
  if b_closed b then Err ValueError else Ok (b_pos b).

(** Overwrites from the cursor on, filling a gap with zero bytes. *)
Definition bio_write (w : bytes) (b : bio) : result bio :=
  if b_closed b then Err ValueError
  else
    let pad := repeat 0%N (b_pos b - List.length (b_data b)) in
    Ok (mkBio (firstn (b_pos b) (b_data b ++ pad) ++ w ++ skipn (b_pos b + List.length w) (b_data b))
              (b_pos b + List.length w) false).

(** lines 21-49: what an [AsyncBytesReader] wraps: bytes (a [BytesIO]) or an
    async iterable of chunks.  [DIter] is a one-shot iterator (a generator
    object), [DRestart] an iterable whose [__aiter__] starts a new iteration each
    time (an object with an async generator method).  Simplifications: chunks are produced without
    raising, and the pass-through to another reader object (lines 60-68 for
    objects that are not a [BytesIO]) is not modelled. *)
Inductive adata : Type :=
| DBytesIO (b : bio)
| DIter (chunks : list bytes)
| DRestart (chunks : list bytes)
| DNone.
Record areader := mkReader { ar_closed : bool; ar_rem : bytes; ar_data : adata }.

Definition ar_of_bytes (b : bytes) : areader := mkReader false [] (DBytesIO (mkBio b 0 false)).
Definition ar_of_chunks (c : list bytes) : areader := mkReader false [] (DIter c).

(** lines 113-117: [async for element in iterator: result += element; if
    len(result) >= size: break]. *)
Fixpoint take_until (size : nat) (acc : bytes) (chunks : list bytes) : bytes * list bytes :=
  match chunks with
  | [] => (acc, [])
  | c :: r =>
    let acc' := acc ++ c in
    if Nat.leb size (List.length acc') then (acc', r) else take_until size acc' r
  end.

(** lines 51-72 and 101-120: [read] and [_read_from_iterable]. *)
Definition ar_read (size : Z) (r : areader) : result (bytes * areader) :=
  if ar_closed r then Err ValueError
  else
    match ar_data r with
    | DNone => Err ValueError
    | DBytesIO b =>
      do '(out, b') <- bio_read size b;
      Ok (out, mkReader false (ar_rem r) (DBytesIO b'))
    | DIter chunks =>
      if Z.ltb size 0 then
        Ok (ar_rem r ++ List.concat chunks, mkReader false [] (DIter []))
      else
        let n := Z.to_nat size in
        let (res, rest) :=
          if Nat.ltb (List.length (ar_rem r)) n then take_until n (ar_rem r) chunks
          else (ar_rem r, chunks) in
        Ok (firstn n res, mkReader false (skipn n res) (DIter rest))
    | DRestart chunks =>
      if Z.ltb size 0 then
        Ok (ar_rem r ++ List.concat chunks, mkReader false [] (DRestart chunks))
      else
        let n := Z.to_nat size in
        let (res, _) :=
          if Nat.ltb (List.length (ar_rem r)) n then take_until n (ar_rem r) chunks
          else (ar_rem r, chunks) in
        Ok (firstn n res, mkReader false (skipn n res) (DRestart chunks))
    end.

(** lines 74-99: [seek] and [tell]. *)
Definition ar_seek (off whence : Z) (r : areader) : result (nat * areader) :=
  match ar_data r with
  | DBytesIO b =>
    do '(p, b') <- bio_seek off whence b;
    Ok (p, mkReader (ar_closed r) (ar_rem r) (DBytesIO b'))
  | _ => Err NotImplementedErr
  end.
Definition ar_tell (r : areader) : result nat :=
  match ar_data r with DBytesIO b => bio_tell b | _ => Err NotImplementedErr end.

(** lines 152-156: [close]. *)
Definition ar_close (r : areader) : areader := mkReader true (ar_rem r) DNone.

(** A client performing reads of the given sizes, whatever they return. *)
Fixpoint ar_reads (r : areader) (sizes : list Z) : list (result bytes) :=
  match sizes with
  | [] => []
  | n :: ns => match ar_read n r with
               | Ok (b, r') => Ok b :: ar_reads r' ns
               | Err e => Err e :: ar_reads r ns
               end
  end.

(** lines 294-314: [_AsyncByteStreamIterator] over a [read] method: the pieces a
    [for] loop over it sees.  The loop ends at the first empty piece; the fuel
    bounds the number of pieces, [None] meaning that it was not enough. *)
Section ByteIterator.
  Context {S : Type} (read : Z -> S -> result (bytes * S)).
  Fixpoint iter_pieces (fuel : nat) (k : Z) (s : S) : option (result (list bytes * S)) :=
    match fuel with
    | O => None
    | Datatypes.S fuel' =>
      match read k s with
      | Err e => Some (Err e)
      | Ok ([], s') => Some (Ok ([], s'))
      | Ok (d, s') =>
        match iter_pieces fuel' k s' with
        | None => None
        | Some (Err e) => Some (Err e)
        | Some (Ok (ds, s'')) => Some (Ok (d :: ds, s''))
        end
      end
    end.
End ByteIterator.

(** lines 161-255: [SeekableAsyncBytesReader] over a source with an async [read]
    method.  Simplification: the wrapped source is any state with a read
    function; closing it is not modelled beyond dropping it. *)
Section Seekable.
  Context {S : Type} (sread : Z -> S -> result (bytes * S)).

  Record sreader := mkSeek { s_buf : bio; s_src : option S }.

  (** lines 167-183. *)
  Definition s_of_bytes (b : bytes) : sreader := mkSeek (mkBio b 0 false) None.
  Definition s_of_source (s : S) : sreader := mkSeek (mkBio [] 0 false) (Some s).

  (** lines 242-251: [_read_into_buffer]. *)
  Definition s_fill (size : Z) (r : sreader) : result sreader :=
    match s_src r with
    | None => Ok r
    | Some s =>
      do '(got, s') <- sread size s;
      let src' := if (Z.ltb (Z.of_nat (List.length got)) size || Z.ltb size 0)%bool
                  then None else Some s' in
      do '(_, b1) <- bio_seek 0 2 (s_buf r);
      do b2 <- bio_write got b1;
      Ok (mkSeek b2 src')
    end.

  (** lines 185-204: [read]. *)
  Definition s_read (size : Z) (r : sreader) : result (bytes * sreader) :=
    match s_src r with
    | None =>
      do '(out, b) <- bio_read size (s_buf r); Ok (out, mkSeek b None)
    | Some _ =>
      if Z.eqb size 0 then
        do '(out, b) <- bio_read size (s_buf r); Ok (out, mkSeek b (s_src r))
      else
        do start <- bio_tell (s_buf r);
        do '(cur, b1) <- bio_seek 0 2 (s_buf r);
        let r1 := mkSeek b1 (s_src r) in
        do r2 <- (if Z.ltb size 0 then s_fill size r1
                  else
                    let target := (Z.of_nat start + size)%Z in
                    if Z.ltb (Z.of_nat cur) target
                    then s_fill (target - Z.of_nat cur)%Z r1 else Ok r1);
        do '(_, b3) <- bio_seek (Z.of_nat start) 0 (s_buf r2);
        do '(out, b4) <- bio_read size b3;
        Ok (out, mkSeek b4 (s_src r2))
    end.

  (** lines 206-240: [seek].  A raised error leaves the buffer's cursor where the
      code moved it, so the state is returned also with an error. *)
  Definition s_seek (off whence : Z) (r : sreader) : result nat * sreader :=
    match s_src r with
    | None =>
      match bio_seek off whence (s_buf r) with
      | Ok (p, b) => (Ok p, mkSeek b None)
      | Err e => (Err e, r)
      end
    | Some s =>
      if Z.leb 2 whence then
        match bio_seek 0 2 (s_buf r) with
        | Err e => (Err e, r)
        | Ok (_, b1) =>
          match sread (-1) s with
          | Err e => (Err e, mkSeek b1 (Some s))
          | Ok (got, s') =>
            match bio_write got b1 with
            | Err e => (Err e, mkSeek b1 (Some s'))
            | Ok b2 =>
              match bio_seek off whence b2 with
              | Ok (p, b3) => (Ok p, mkSeek b3 (Some s'))
              | Err e => (Err e, mkSeek b2 (Some s'))
              end
            end
          end
        end
      else
        match bio_tell (s_buf r) with
        | Err e => (Err e, r)
        | Ok start =>
          let target := if Z.eqb whence 1 then (off + Z.of_nat start)%Z else off in
          match bio_seek 0 2 (s_buf r) with
          | Err e => (Err e, r)
          | Ok (cur, b1) =>
            let r1 := mkSeek b1 (Some s) in
            match (if Z.ltb (Z.of_nat cur) target then s_fill (target - Z.of_nat cur)%Z r1 else Ok r1) with
            | Err e => (Err e, r1)
            | Ok r2 =>
              match bio_seek target 0 (s_buf r2) with
              | Ok (p, b3) => (Ok p, mkSeek b3 (s_src r2))
              | Err e => (Err e, r2)
              end
            end
          end
        end
    end.

  (** lines 253-255: [tell]. *)
  Definition s_tell (r : sreader) : result nat := bio_tell (s_buf r).

  (** lines 287-291: [close]. *)
  Definition s_close (r : sreader) : sreader :=
    mkSeek (mkBio (b_data (s_buf r)) (b_pos (s_buf r)) true) None.
End Seekable.
Arguments sreader : clear implicits.
Arguments mkSeek {S}.
Arguments s_buf {S}.
Arguments s_src {S}.

(** lines 20-34 of smithy_core/aio/utils.py: [read_streaming_blob_async] on an
    async iterable: the concatenation of its chunks. *)
Fixpoint read_blob_iter (full : bytes) (chunks : list bytes) : bytes :=
  match chunks with [] => full | c :: r => read_blob_iter (full ++ c) r end.

(** Operations of a client of a seekable reader and what it observes. *)
Inductive fop := FRead (n : Z) | FSeek (off whence : Z) | FTell.
Inductive fobs := OBytes (b : bytes) | OPos (p : nat) | ORaised (e : exn).

Definition s_step {S} (sread : Z -> S -> result (bytes * S)) (op : fop) (r : sreader S) : fobs * sreader S :=
  match op with
  | FRead n => match s_read sread n r with
               | Ok (b, r') => (OBytes b, r')
               | Err e => (ORaised e, r) end
  | FSeek o w => match s_seek sread o w r with
                 | (Ok p, r') => (OPos p, r')
                 | (Err e, r') => (ORaised e, r') end
  | FTell => match s_tell r with Ok p => (OPos p, r) | Err e => (ORaised e, r) end
  end.

Fixpoint s_run {S} (sread : Z -> S -> result (bytes * S)) (ops : list fop) (r : sreader S) : list fobs :=
  match ops with
  | [] => []
  | op :: ops' => let (o, r') := s_step sread op r in o :: s_run sread ops' r'
  end.
