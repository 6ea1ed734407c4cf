(** What the HTTP clients make of a request, and how bodies are read:
    packages/smithy-core/src/smithy_core/aio/utils.py (U below), aio/types.py (T),
    packages/smithy-http/src/smithy_http/aio/crt.py (C) and aiohttp.py (A). *)
From Verif Require Import Base PyText_Model PyDict_Model Fields_Model Streams_Model.
Local Open Scope N_scope.

(** An object with a [read] method: its content, its cursor, and the most that each of the
    reads to come returns, for a source that gives less than it is asked for (nothing, only
    at the end).  A negative size reads to the end.  [d_async] tells a coroutine function,
    [d_iter] an object with [__aiter__] that yields reads of the default size, T 294-314,
    [d_seek] one that can be rewound. *)
Record reader := mkRd { d_data : bytes; d_pos : nat; d_chop : list nat; d_async : bool; d_iter : bool; d_seek : bool }.
Definition rd_left (r : reader) : bytes := skipn (d_pos r) (d_data r).
Definition rd_read (n : Z) (r : reader) : result (bytes * reader) :=
  let out := if Z.ltb n 0 then rd_left r
             else firstn (Nat.min (Z.to_nat n) (match d_chop r with [] => Z.to_nat n | k :: _ => S k end)) (rd_left r) in
  Ok (out, mkRd (d_data r) (d_pos r + List.length out) (tl (d_chop r)) (d_async r) (d_iter r) (d_seek r)).
(** [BytesIO(data)] *)
Definition bytes_io (b : bytes) : reader := mkRd b 0 [] false false true.

(** What an [AsyncBytesReader] wraps, T 37-41, and the reader with its remainder.  An async
    iterable is consumed by iterating, [SOnce], or starts again each time, [SRestart]. *)
Inductive source := SReader (r : reader) | SOnce (chunks : list bytes) | SRestart (chunks : list bytes).
Record wrapped := mkWrapped { w_rem : bytes; w_src : source }.
(** T 51-72 and 101-120, of a reader that is not closed *)
Definition w_read (n : Z) (w : wrapped) : result (bytes * wrapped) :=
  let some (chunks : list bytes) (again : list bytes -> source) :=
    if Z.ltb n 0 then Ok (w_rem w ++ List.concat chunks, mkWrapped [] (again []))
    else let (res, rest) := if Nat.ltb (List.length (w_rem w)) (Z.to_nat n) then take_until (Z.to_nat n) (w_rem w) chunks else (w_rem w, chunks) in
         Ok (firstn (Z.to_nat n) res, mkWrapped (skipn (Z.to_nat n) res) (again rest)) in
  match w_src w with
  | SReader r => do '(out, r') <- rd_read n r; Ok (out, mkWrapped (w_rem w) (SReader r'))
  | SOnce chunks => some chunks SOnce
  | SRestart chunks => some chunks (fun _ => SRestart chunks)
  end.
Definition w_seekable (w : wrapped) : bool := match w_src w with SReader r => d_seek r | _ => false end.
(** T 74-92, for the three kinds of [whence], of a source that can be rewound; positions
    before the start are left out *)
Definition w_seek (off whence : Z) (w : wrapped) : result (nat * wrapped) :=
  match w_src w with
  | SReader r =>
    if d_seek r then
      let base := if Z.eqb whence 1 then Z.of_nat (d_pos r) else if Z.eqb whence 2 then Z.of_nat (List.length (d_data r)) else 0%Z in
      let p := Z.to_nat (base + off) in
      Ok (p, mkWrapped (w_rem w) (SReader (mkRd (d_data r) p (d_chop r) (d_async r) (d_iter r) true)))
    else Err NotImplementedErr
  | _ => Err NotImplementedErr
  end.

(** The bodies of requests and responses. *)
Inductive body := BBytes (b : bytes) | BArray (b : bytes) | BReader (r : reader) | BIter (chunks : list bytes) | BRestart (chunks : list bytes) | BWrapped (w : wrapped).
(** T 28-41; A 116-117 and 99-100: a reader that is one already is taken as it is *)
Definition wrap (b : body) : wrapped :=
  match b with
  | BBytes b | BArray b => mkWrapped [] (SReader (bytes_io b))
  | BReader r => mkWrapped [] (SReader r)
  | BIter c => mkWrapped [] (SOnce c)
  | BRestart c => mkWrapped [] (SRestart c)
  | BWrapped w => w
  end.

(** What reading gives: bytes, or a coroutine nobody has awaited. *)
Inductive got := Got (b : bytes) | Coroutine.
(** U 37-53.  The protocol of line 48 asks for a method [read], no more. *)
Definition read_streaming_blob (b : body) : result got :=
  match b with
  | BBytes b | BArray b => Ok (Got b)
  | BReader r => if d_async r then Ok Coroutine else do '(out, _) <- rd_read (-1) r; Ok (Got out)
  | BWrapped _ => Ok Coroutine
  | BIter _ | BRestart _ => Err (OtherErr 40)   (* AsyncBodyError *)
  end.
(** U 20-34.  So does the protocol of line 26; awaiting bytes raises TypeError. *)
Definition read_streaming_blob_async (b : body) : result got :=
  match b with
  | BReader r => do '(out, _) <- rd_read (-1) r; if d_async r then Ok (Got out) else Err TypeError
  | BWrapped w => do '(out, _) <- w_read (-1) w; Ok (Got out)
  | BIter chunks | BRestart chunks => Ok (Got (fold_left (fun full chunk => full ++ chunk) chunks []))
  | b => read_streaming_blob b
  end.

(** C 317-324: what an HTTP/1.1 connection is given to read the body from, if anything *)
Definition create_body_stream (b : body) : result (option reader) :=
  match b with
  | BReader r => if d_async r then
                   do g <- read_streaming_blob_async b; match g with Got [] => Ok None | Got s => Ok (Some (bytes_io s)) | Coroutine => Err TypeError end
                 else Ok (Some r)
  | _ => do g <- read_streaming_blob_async b; match g with Got [] => Ok None | Got s => Ok (Some (bytes_io s)) | Coroutine => Err TypeError end
  end.
(** T 15-16 *)
Definition DEFAULT_CHUNK_SIZE : Z := 1024.
(** C 326-364: the chunks given to an HTTP/2 connection; [None] if [fuel] reads were not
    enough *)
Definition create_body_generator (fuel : nat) (buffer_size : Z) (b : body) : option (result (list bytes)) :=
  let pieces {S} (x : option (result (list bytes * S))) := match x with Some (Ok (l, _)) => Some (Ok l) | Some (Err e) => Some (Err e) | None => None end in
  match b with
  | BBytes b | BArray b => Some (Ok [b])
  | BIter chunks | BRestart chunks => Some (Ok chunks)
  | BWrapped w => pieces (iter_pieces w_read fuel DEFAULT_CHUNK_SIZE w)
  | BReader r =>
    if d_iter r then pieces (iter_pieces rd_read fuel DEFAULT_CHUNK_SIZE r)
    else if d_async r then pieces (iter_pieces rd_read fuel buffer_size r)
    else pieces (iter_pieces w_read fuel DEFAULT_CHUNK_SIZE (wrap b))
  end.
(** A 114-125 *)
Definition prepare_body (b : body) : result (option wrapped) :=
  let w := wrap b in
  if negb (w_seekable w) then Ok (Some w)
  else
    do '(position, w1) <- w_seek 0 1 w;
    do '(end_, w2) <- w_seek 0 2 w1;
    do '(_, w3) <- w_seek (Z.of_nat position) 0 w2;
    Ok (if Nat.eqb position end_ then None else Some w3).
(** A 93-100: without a length or an encoding given, an empty body is left out *)
Definition aiohttp_body (framed : bool) (b : body) : result (option wrapped) :=
  if framed then Ok (Some (wrap b)) else prepare_body b.
(** C 100-106: the chunks of a response, up to the first empty one *)
Fixpoint response_chunks (from_crt : list bytes) : list bytes :=
  match from_crt with [] => [] | [] :: _ => [] | c :: r => c :: response_chunks r end.

Section Headers.
  Variable lower : text -> text.
  (** The fields of a request: names in lower case and fields. *)
  Definition add_absent (name value : text) (e : list (text * field)) : list (text * field) :=
    if dict_has (lower name) e then e else dict_set (lower name) (mkField name [value] Header) e.
  (** C 287-315: the headers sent, and the fields of the request afterwards *)
  Definition marshal_request (netloc : text) (e : list (text * field)) : list (text * text) * list (text * field) :=
    let e' := add_absent (lit "accept") (lit "*/*") (add_absent (lit "host") netloc e) in
    (flat_map (fun kf => if position_eqb (f_kind (snd kf)) Header then as_tuples (snd kf) else []) e', e').
  (** A 89-91 *)
  Definition aiohttp_headers (e : list (text * field)) : list (text * text) := flat_map (fun kf => as_tuples (snd kf)) e.
End Headers.
(** C 282-285 *)
Definition render_path (path query : option text) : text :=
  (match path with Some p => p | None => lit "/" end) ++ (match query with Some q => 63 :: q | None => [] end).

(** [urllib.parse.parse_qs] with its default arguments, A 108: a dictionary of lists. *)
Section Query.
  (** [unquote_plus] *)
  Variable unquote_plus : text -> text.
  Definition truthy (s : text) : bool := match s with [] => false | _ => true end.
  Definition parse_qsl (qs : text) : list (text * text) :=
    if truthy qs then
      flat_map (fun nv => if truthy nv then
                            let (name, v) := cut_at 61 nv in
                            let value := match v with Some x => x | None => [] end in
                            if truthy value then [(unquote_plus name, unquote_plus value)] else []
                          else []) (split_on 38 qs)
    else [].
  Definition parse_qs (qs : text) : list (text * list text) :=
    fold_left (fun d nv => match dict_get (fst nv) d with
                           | Some l => dict_set (fst nv) (l ++ [snd nv]) d
                           | None => dict_set (fst nv) [snd nv] d
                           end) (parse_qsl qs) [].
End Query.
