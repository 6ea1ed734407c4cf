(** What it means for an event message to be within the limits of the
    application/vnd.amazon.eventstream format.  Written from the format's
    description, without the encoder's or decoder's helpers. *)
From Verif Require Import Base EventStream_Model.
Local Open Scope N_scope.

(** Bytes taken by a code point and by a text in UTF-8. *)
Definition cp_size (c : N) : N :=
  if c <? 0x80 then 1 else if c <? 0x800 then 2 else if c <? 0x10000 then 3 else 4.
Definition text_size (s : text) : N := fold_right (fun c n => cp_size c + n) 0 s.

(** A text without lone surrogates. *)
Definition encodable (s : text) : Prop :=
  forall c, In c s -> c < 0xD800 \/ (0xE000 <= c /\ c < 0x110000).

(** A byte string. *)
Definition is_bytes (b : bytes) : Prop := forall x, In x b -> x < 256.

Definition fits (bits : Z) (z : Z) : Prop := (- 2 ^ (bits - 1) <= z < 2 ^ (bits - 1))%Z.

(** Values the format can carry. *)
Definition value_ok (v : hvalue) : Prop :=
  match v with
  | HBool _ => True
  | HByte z => fits 8 z
  | HShort z => fits 16 z
  | HInt z => fits 32 z
  | HLong z => fits 64 z
  | HBlob b => len b <= 32767
  | HString s => encodable s /\ text_size s <= 32767
  | HTimestamp z => fits 64 z
  | HUuid _ => True
  | HOther => False
  end.

(** The values' Python types guarantee these: bytes are bytes, a UUID has 16. *)
Definition value_typed (v : hvalue) : Prop :=
  match v with
  | HBlob b => is_bytes b
  | HUuid b => is_bytes b /\ List.length b = 16%nat
  | _ => True
  end.

Definition value_size (v : hvalue) : N :=
  match v with
  | HBool _ => 0 | HByte _ => 1 | HShort _ => 2 | HInt _ => 4 | HLong _ => 8
  | HBlob b => 2 + len b
  | HString s => 2 + text_size s
  | HTimestamp _ => 8
  | HUuid b => len b
  | HOther => 0
  end.

Definition header_size (h : text * hvalue) : N :=
  1 + text_size (fst h) + 1 + value_size (snd h).
Definition headers_size (hs : headers) : N :=
  fold_right (fun h n => header_size h + n) 0 hs.

Definition message_typed (m : message) : Prop :=
  is_bytes (m_payload m) /\ Forall (fun h => value_typed (snd h)) (m_headers m).

(** Within the limits: distinct encodable names of at most 255 bytes, values in
    range, headers at most 128 KiB, payload at most 16 MiB. *)
Definition within_limits (m : message) : Prop :=
  NoDup (map fst (m_headers m)) /\
  Forall (fun h => encodable (fst h) /\ text_size (fst h) <= 255 /\ value_ok (snd h)) (m_headers m) /\
  headers_size (m_headers m) <= 131072 /\
  len (m_payload m) <= 16777216.

(** [corrupted f f']: [f'] is [f] with one run of at most four adjacent bytes
    replaced by different bytes.  One kind of run is left out: four bytes of which
    exactly two belong to the final checksum (two bytes of [f] follow the run);
    [C04_boundary_refuted] shows that such a change can go unnoticed. *)
Definition corrupted (f f' : bytes) : Prop :=
  exists a w w' b,
    f = a ++ w ++ b /\ f' = a ++ w' ++ b /\
    List.length w = List.length w' /\ (List.length w <= 4)%nat /\ w <> w' /\ is_bytes w' /\
    ~ (List.length w = 4 /\ List.length b = 2)%nat.
