(** The wire form of an event message, written from the description of the
    application/vnd.amazon.eventstream format and of CRC-32 (IEEE 802.3), without
    the encoder's helpers. *)
From Verif Require Import Base EventStream_Model.
Local Open Scope N_scope.

(** ** CRC-32 as polynomial division over GF(2) *)

(** Bits in the order in which they are sent: each byte from its lowest bit. *)
Fixpoint low_bits (k : nat) (n : N) : list bool :=
  match k with O => [] | S k' => N.odd n :: low_bits k' (n / 2) end.
Definition bits_of (data : bytes) : list bool := flat_map (low_bits 8) data.

(** The number whose lowest bit comes first. *)
Fixpoint number_of (bs : list bool) : N :=
  match bs with [] => 0 | b :: r => (if b then 1 else 0) + 2 * number_of r end.

(** x^32 + x^26 + x^23 + x^22 + x^16 + x^12 + x^11 + x^10 + x^8 + x^7 + x^5 +
    x^4 + x^2 + x + 1: the coefficients below x^32, highest first. *)
Definition generator : list bool :=
  map (fun i => existsb (N.eqb i) [26; 23; 22; 16; 12; 11; 10; 8; 7; 5; 4; 2; 1; 0])
      [31; 30; 29; 28; 27; 26; 25; 24; 23; 22; 21; 20; 19; 18; 17; 16;
       15; 14; 13; 12; 11; 10; 9; 8; 7; 6; 5; 4; 3; 2; 1; 0].

(** Adds the polynomial [p] to the leading terms of [l]. *)
Fixpoint add_front (l p : list bool) : list bool :=
  match l, p with
  | a :: l', b :: p' => xorb a b :: add_front l' p'
  | _, _ => l
  end.

(** Long division: the remainder of [l] (highest coefficient first). *)
Fixpoint remainder (steps : nat) (l : list bool) : list bool :=
  match steps, l with
  | S k, b :: l' => remainder k (if b then add_front l' generator else l')
  | _, _ => l
  end.

(** The first 32 bits of the message are complemented, the message is multiplied
    by x^32 and divided by the generator, and the remainder is complemented. *)
Definition crc32_ieee (data : bytes) : N :=
  let dividend := bits_of data ++ repeat false 32 in
  let r := remainder (List.length (bits_of data)) (add_front dividend (repeat true 32)) in
  number_of (map negb r).

(** ** UTF-8 (RFC 3629) *)
Definition utf8_bytes_of (c : N) : bytes :=
  if c <? 0x80 then [c]
  else if c <? 0x800 then [0xC0 + c / 64; 0x80 + c mod 64]
  else if c <? 0x10000 then [0xE0 + c / 4096; 0x80 + c / 64 mod 64; 0x80 + c mod 64]
  else [0xF0 + c / 262144; 0x80 + c / 4096 mod 64; 0x80 + c / 64 mod 64; 0x80 + c mod 64].
Definition utf8 (s : text) : bytes := flat_map utf8_bytes_of s.

(** ** Frames *)

(** Two's complement, big endian, on [k] bytes. *)
Definition be_signed (k : nat) (z : Z) : bytes :=
  be_bytes k (Z.to_N (z mod 2 ^ (8 * Z.of_nat k))).

Definition wire_value (v : hvalue) : bytes :=
  match v with
  | HBool true => [0]
  | HBool false => [1]
  | HByte z => [2] ++ be_signed 1 z
  | HShort z => [3] ++ be_signed 2 z
  | HInt z => [4] ++ be_signed 4 z
  | HLong z => [5] ++ be_signed 8 z
  | HBlob b => [6] ++ be_bytes 2 (len b) ++ b
  | HString s => [7] ++ be_bytes 2 (len (utf8 s)) ++ utf8 s
  | HTimestamp ms => [8] ++ be_signed 8 ms
  | HUuid b => [9] ++ b
  | HOther => []
  end.

Definition wire_header (h : text * hvalue) : bytes :=
  be_bytes 1 (len (utf8 (fst h))) ++ utf8 (fst h) ++ wire_value (snd h).

(** Total length, length of the headers, checksum of these two; headers,
    payload; checksum of everything before. *)
Definition wire_message (m : message) : bytes :=
  let headers := flat_map wire_header (m_headers m) in
  let prelude := be_bytes 4 (16 + len headers + len (m_payload m)) ++ be_bytes 4 (len headers) in
  let body := prelude ++ be_bytes 4 (crc32_ieee prelude) ++ headers ++ m_payload m in
  body ++ be_bytes 4 (crc32_ieee body).
