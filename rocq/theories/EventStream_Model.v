(** Model of smithy_aws_event_stream/events.py
    (packages/smithy-aws-event-stream/src/smithy_aws_event_stream/events.py).
    Line numbers below refer to that file. *)
From Verif Require Import Base Utf8_Model.
Local Open Scope N_scope.

(** lines 36-42: limits. *)
Definition MAX_HEADERS_LENGTH : N := 128 * 1024.
Definition MAX_HEADER_VALUE_BYTE_LENGTH : N := 32 * 1024 - 1.
Definition MAX_PAYLOAD_LENGTH : N := 16 * (1024 * 1024).
Definition MESSAGE_METADATA_SIZE : N := 16.

(** lines 45-99: header values.  [Byte], [Short], [Long] and plain [int] are the
    four integer constructors.  Simplification: a timestamp is a whole number
    of milliseconds since the epoch (the float arithmetic of
    [int(value.timestamp() * 1000)] on line 535 and [int_value / 1000] on line
    695 is the subject of EventTime_Model); a UUID is its 16 bytes.
    [HOther] stands for a value of any other Python type. *)
Inductive hvalue : Type :=
| HBool (b : bool)
| HByte (z : Z)
| HShort (z : Z)
| HInt (z : Z)
| HLong (z : Z)
| HBlob (b : bytes)
| HString (s : text)
| HTimestamp (millis : Z)
| HUuid (b : bytes)
| HOther.

Definition headers := list (text * hvalue).

(** binascii.crc32 (lines 368, 787): the reflected CRC-32 (polynomial
    0xEDB88320), one bit at a time.  [crc32 data crc] continues from [crc]. *)
Definition POLY : N := 0xEDB88320.
Definition MASK32 : N := 0xFFFFFFFF.

Definition crc_bit (r : N) : N :=
  if N.testbit r 0 then N.lxor (N.shiftr r 1) POLY else N.shiftr r 1.

Fixpoint crc_bits (k : nat) (r : N) : N :=
  match k with O => r | S k' => crc_bits k' (crc_bit r) end.

Definition crc_byte (r b : N) : N := crc_bits 8 (N.lxor r b).

Definition crc32 (data : bytes) (crc : N) : N :=
  N.lxor (fold_left crc_byte data (N.lxor crc MASK32)) MASK32.

(** struct.pack of signed integers: out of range raises struct.error. *)
Definition pack_signed (k : nat) (z : Z) : result bytes :=
  if (Z.leb (- 2 ^ (8 * Z.of_nat k - 1)) z && Z.ltb z (2 ^ (8 * Z.of_nat k - 1)))%bool
  then Ok (be_bytes k (twos_of_Z k z)) else Err StructError.

(** struct.pack of unsigned integers. *)
Definition pack_unsigned (k : nat) (n : N) : result bytes :=
  if n <? 256 ^ N.of_nat k then Ok (be_bytes k n) else Err StructError.

(** [try: ... except struct.error as e: raise InvalidIntegerValue] (lines 450-453, ...). *)
Definition wrap_int {A} (r : result A) : result A :=
  match r with Err StructError => Err InvalidIntegerValue | _ => r end.

(** lines 421-428: [_encode_key]; [keys] is the set of keys already written. *)
Definition encode_key (keys : list text) (key : text) : result (list text * bytes) :=
  if mem_text key keys then Err DuplicateHeader
  else
    do encoded <- utf8_encode key;
    do l <- pack_unsigned 1 (len encoded);
    Ok (key :: keys, l ++ encoded).

(** lines 430-547: the typed header encoders, dispatched as in
    [encode_headers] (lines 398-419). *)
Definition encode_header (keys : list text) (h : text * hvalue)
  : result (list text * bytes) :=
  let (key, v) := h in
  match v with
  | HBool b =>
    do '(ks, kb) <- encode_key keys key;
    Ok (ks, kb ++ [if b then 0 else 1])
  | HByte z =>
    do '(ks, kb) <- encode_key keys key;
    do vb <- wrap_int (pack_signed 1 z);
    Ok (ks, kb ++ [2] ++ vb)
  | HShort z =>
    do '(ks, kb) <- encode_key keys key;
    do vb <- wrap_int (pack_signed 2 z);
    Ok (ks, kb ++ [3] ++ vb)
  | HLong z =>
    do '(ks, kb) <- encode_key keys key;
    do vb <- wrap_int (pack_signed 8 z);
    Ok (ks, kb ++ [5] ++ vb)
  | HInt z =>
    do '(ks, kb) <- encode_key keys key;
    do vb <- wrap_int (pack_signed 4 z);
    Ok (ks, kb ++ [4] ++ vb)
  | HBlob b =>
    if MAX_HEADER_VALUE_BYTE_LENGTH <? len b then Err InvalidHeaderValueLength
    else
      do '(ks, kb) <- encode_key keys key;
      do lb <- pack_unsigned 2 (len b);
      Ok (ks, kb ++ [6] ++ lb ++ b)
  | HString s =>
    do u <- utf8_encode s;
    if MAX_HEADER_VALUE_BYTE_LENGTH <? len u then Err InvalidHeaderValueLength
    else
      do '(ks, kb) <- encode_key keys key;
      do lb <- pack_unsigned 2 (len u);
      Ok (ks, kb ++ [7] ++ lb ++ u)
  | HTimestamp ms =>
    do '(ks, kb) <- encode_key keys key;
    do vb <- pack_signed 8 ms;
    Ok (ks, kb ++ [8] ++ vb)
  | HUuid b =>
    do '(ks, kb) <- encode_key keys key;
    Ok (ks, kb ++ [9] ++ b)
  | HOther => Err InvalidHeaderValue
  end.

(** lines 390-419: [encode_headers]. *)
Fixpoint encode_headers (keys : list text) (hs : headers) : result bytes :=
  match hs with
  | [] => Ok []
  | h :: r =>
    do '(ks, b) <- encode_header keys h;
    do bs <- encode_headers ks r;
    Ok (b ++ bs)
  end.

(** lines 383-388: [get_result], and lines 207-210: [_get_headers_bytes]. *)
Definition get_headers_bytes (hs : headers) : result bytes :=
  do b <- encode_headers [] hs;
  if MAX_HEADERS_LENGTH <? len b then Err InvalidHeadersLength else Ok b.

(** lines 362-365: [_encode_prelude_bytes]. *)
Definition encode_prelude_bytes (hb payload : bytes) : result bytes :=
  do a <- pack_unsigned 4 (len hb + len payload + MESSAGE_METADATA_SIZE);
  do b <- pack_unsigned 4 (len hb);
  Ok (a ++ b).

(** lines 340-360: [_EventEncoder.encode_bytes]. *)
Definition encode_event_bytes (hb payload : bytes) : result bytes :=
  if MAX_HEADERS_LENGTH <? len hb then Err InvalidHeadersLength
  else if MAX_PAYLOAD_LENGTH <? len payload then Err InvalidPayloadLength
  else
    do prelude <- encode_prelude_bytes hb payload;
    let pcrc := crc32 prelude 0 in
    do pcrcb <- pack_unsigned 4 pcrc;
    let message := pcrcb ++ hb ++ payload in
    let fcrc := crc32 message pcrc in
    do fcrcb <- pack_unsigned 4 fcrc;
    Ok (prelude ++ message ++ fcrcb).

Record message := mkMessage { m_headers : headers; m_payload : bytes }.

(** lines 201-205: the constructor check of [EventMessage]. *)
Definition mk_event_message (hs : headers) (p : bytes) : result message :=
  if MAX_PAYLOAD_LENGTH <? len p then Err InvalidPayloadLength
  else Ok (mkMessage hs p).

(** lines 212-215: [EventMessage.encode]. *)
Definition encode_message (m : message) : result bytes :=
  do hb <- get_headers_bytes (m_headers m);
  encode_event_bytes hb (m_payload m).

(** struct.unpack: the buffer must have exactly the format's size. *)
Definition unpack_unsigned (k : nat) (bs : bytes) : result N :=
  if Nat.eqb (List.length bs) k then Ok (be_val bs) else Err StructError.
Definition unpack_signed (k : nat) (bs : bytes) : result Z :=
  do n <- unpack_unsigned k bs; Ok (Z_of_twos k n).

(** lines 580-638: fixed-size unpackers: value and bytes consumed. *)
Definition dec_uint8 (data : bytes) : result (N * nat) :=
  do v <- unpack_unsigned 1 (firstn 1 data); Ok (v, 1%nat).
Definition dec_int (k : nat) (data : bytes) : result (Z * nat) :=
  do v <- unpack_signed k (firstn k data); Ok (v, k).

(** lines 640-662: [unpack_byte_array].  The slice is not checked for being
    complete. *)
Definition dec_byte_array (k : nat) (data : bytes) : result (bytes * nat) :=
  do l <- unpack_unsigned k (firstn k data);
  if MAX_HEADER_VALUE_BYTE_LENGTH <? l then Err InvalidHeaderValueLength
  else Ok (firstn (N.to_nat l) (skipn k data), (N.to_nat l + k)%nat).

(** lines 664-682: [unpack_utf8_string]. *)
Definition dec_utf8 (k : nat) (data : bytes) : result (text * nat) :=
  do '(b, n) <- dec_byte_array k data;
  do s <- utf8_decode b;
  Ok (s, n).

(** lines 698-705: [unpack_uuid]; [uuid.UUID(bytes=...)] needs 16 bytes. *)
Definition dec_uuid (data : bytes) : result (bytes * nat) :=
  if Nat.eqb (List.length (firstn 16 data)) 16 then Ok (firstn 16 data, 16%nat)
  else Err ValueError.

(** lines 711-730: [_HEADER_TYPE_MAP]; an unknown type is a KeyError.
    Simplification on type 8: see [hvalue]; the range errors of
    [datetime.fromtimestamp] are not modelled. *)
Definition dec_value (ty : N) (data : bytes) : result (hvalue * nat) :=
  match ty with
  | 0 => Ok (HBool true, 0%nat)
  | 1 => Ok (HBool false, 0%nat)
  | 2 => do '(v, n) <- dec_int 1 data; Ok (HByte v, n)
  | 3 => do '(v, n) <- dec_int 2 data; Ok (HShort v, n)
  | 4 => do '(v, n) <- dec_int 4 data; Ok (HInt v, n)
  | 5 => do '(v, n) <- dec_int 8 data; Ok (HLong v, n)
  | 6 => do '(v, n) <- dec_byte_array 2 data; Ok (HBlob v, n)
  | 7 => do '(v, n) <- dec_utf8 2 data; Ok (HString v, n)
  | 8 => do '(v, n) <- dec_int 8 data; Ok (HTimestamp v, n)
  | 9 => do '(v, n) <- dec_uuid data; Ok (HUuid v, n)
  | _ => Err KeyError
  end.

(** lines 756-773: [decode_header] and [_advance_data]. *)
Definition decode_header (data : bytes) : result (text * hvalue * bytes) :=
  do '(key, n) <- dec_utf8 1 data;
  let data1 := skipn n data in
  do '(ty, n1) <- dec_uint8 data1;
  let data2 := skipn n1 data1 in
  do '(v, n2) <- dec_value ty data2;
  Ok (key, v, skipn n2 data2).

(** lines 744-754 and 775-781: [decode_headers], the loop over the iterator.
    Each header consumes at least two bytes, so the number of rounds is bounded
    by the number of bytes; the fuel is the length of the data and running out
    of it is unreachable (lemma [decode_headers_fuel] in the proofs). *)
Fixpoint decode_headers_loop (fuel : nat) (acc : headers) (data : bytes)
  : result headers :=
  match data with
  | [] => Ok (rev acc)
  | _ =>
    match fuel with
    | O => Err AssertionError
    | S fuel' =>
      do '(k, v, rest) <- decode_header data;
      if mem_text k (map fst acc) then Err DuplicateHeader
      else decode_headers_loop fuel' ((k, v) :: acc) rest
    end
  end.

(** lines 732-742: the constructor's limit, then [decode_headers]. *)
Definition decode_headers (data : bytes) : result headers :=
  if MAX_HEADERS_LENGTH <? len data then Err InvalidHeadersLength
  else decode_headers_loop (List.length data) [] data.

(** lines 784-789: [_validate_checksum]. *)
Definition validate_checksum (data : bytes) (checksum crc : N) : result unit :=
  if checksum =? crc32 data crc then Ok tt else Err ChecksumMismatch.

Record prelude := mkPrelude { p_total : N; p_headers : N; p_crc : N }.

(** lines 141-147: the checks of [EventPrelude.__post_init__]. *)
Definition mk_prelude (total hl crc : N) : result prelude :=
  if MAX_HEADERS_LENGTH <? hl then Err InvalidHeadersLength
  else if Z.ltb (Z.of_N MAX_PAYLOAD_LENGTH) (Z.of_N total - Z.of_N hl - 16) then
    Err InvalidPayloadLength
  else Ok (mkPrelude total hl crc).

Record event := mkEvent { e_prelude : prelude; e_message : message; e_crc : N }.

(** struct.error raised by unpack is turned into InvalidEventBytes (lines
    265-269 and 277-280). *)
Definition wrap_struct {A} (r : result A) : result A :=
  match r with Err StructError => Err InvalidEventBytes | _ => r end.

(** lines 246-289: [Event.decode], and lines 291-334: [Event.decode_async],
    which has the same text with [await] before each [read].  The source is an
    arbitrary reader: a state and a [read] method that may raise.  Returns the
    decoded event (None at the end of the source) and the state of the source. *)
Definition decode_event_from {S : Type} (read : Z -> S -> result (bytes * S)) (src : S)
  : result (option event * S) :=
  do '(prelude_bytes, s1) <- read 8%Z src;
  match prelude_bytes with
  | [] => Ok (None, s1)
  | _ =>
    do '(pcrc_bytes, s2) <- read 4%Z s1;
    do '(pcrc, total, hl) <- wrap_struct (
        do pcrc <- unpack_unsigned 4 (firstn 4 pcrc_bytes);
        if Nat.eqb (List.length prelude_bytes) 8
        then Ok (pcrc, be_val (firstn 4 prelude_bytes), be_val (skipn 4 prelude_bytes))
        else Err StructError);
    do _ <- validate_checksum prelude_bytes pcrc 0;
    do pre <- mk_prelude total hl pcrc;
    do '(message_bytes, s3) <- read (Z.of_N total - Z.of_N MESSAGE_METADATA_SIZE)%Z s2;
    do '(crc_bytes, s4) <- read 4%Z s3;
    do crc <- wrap_struct (unpack_unsigned 4 (firstn 4 crc_bytes));
    do _ <- validate_checksum (pcrc_bytes ++ message_bytes) crc pcrc;
    do hs <- decode_headers (firstn (N.to_nat hl) message_bytes);
    do m <- mk_event_message hs (skipn (N.to_nat hl) message_bytes);
    Ok (Some (mkEvent pre m crc), s4)
  end.

(** Decoding from an in-memory source ([BytesIO]). *)
Definition decode_event (src : bytes) : result (option event * bytes) :=
  decode_event_from (fun n s => Ok (src_read n s)) src.

(** Reading a source until it ends or fails, as a consumer does by repeated
    calls of [Event.decode]: the list of messages obtained, and the exception
    that stopped it, if any.  The fuel is the length of the source: every
    decoded event consumes at least 12 bytes. *)
Fixpoint decode_all_loop (fuel : nat) (src : bytes) : list message * option exn :=
  match decode_event src with
  | Err e => ([], Some e)
  | Ok (None, _) => ([], None)
  | Ok (Some ev, rest) =>
    match fuel with
    | O => ([], Some AssertionError)
    | S fuel' =>
      let (ms, e) := decode_all_loop fuel' rest in (e_message ev :: ms, e)
    end
  end.
Definition decode_all (src : bytes) : list message * option exn :=
  decode_all_loop (List.length src) src.
