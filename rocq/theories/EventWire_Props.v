(** C62: what the encoder emits is the documented byte format, so that any
    conforming peer can read it. *)
From Verif Require Import Base Base_Proofs EventStream_Model EventStream_Spec EventStream_Proofs
  EventWire_Spec EventWire_Proofs.
Local Open Scope N_scope.

(** The check value of CRC-32, and one documented frame: no headers, no payload. *)
Example crc_check : crc32_ieee (lit "123456789") = 0xCBF43926.
Proof. reflexivity. Qed.
Example empty_frame :
  wire_message (mkMessage [] []) =
  [0;0;0;16; 0;0;0;0; 0x05;0xc2;0x48;0xeb; 0x7d;0x98;0xc8;0xff].
Proof. reflexivity. Qed.
Example small_frame :
  match encode_message (mkMessage [(lit "a", HShort (-2)); (lit "b", HString [0xE9])] [7]) with
  | Ok f => firstn 6 (skipn 12 f) = [1; 97; 3; 0xFF; 0xFE; 1]
  | Err _ => False
  end.
Proof. vm_compute. reflexivity. Qed.

(** Every message the encoder accepts is written in the documented form. *)
Theorem C62_wire_format m f :
  message_typed m -> encode_message m = Ok f -> f = wire_message m.
Proof. apply encode_message_wire. Qed.
Print Assumptions C62_wire_format.

(** Every message within the limits, and no other, is accepted and written so. *)
Theorem C62_wire_complete m :
  message_typed m -> (encode_message m = Ok (wire_message m) <-> within_limits m).
Proof.
  intros Ht. rewrite <- (encode_iff_within m Ht). split.
  - intros H. exists (wire_message m). exact H.
  - intros [f Hf]. rewrite Hf. f_equal. apply encode_message_wire; assumption.
Qed.
Print Assumptions C62_wire_complete.

(** A frame made by any other conforming writer is read back as the message. *)
Theorem C62_reads_conforming m rest :
  message_typed m -> within_limits m ->
  exists ev, decode_event (wire_message m ++ rest) = Ok (Some ev, rest) /\ e_message ev = m.
Proof.
  intros Ht Hw. apply (C62_wire_complete m Ht) in Hw.
  exact (roundtrip m _ Ht Hw rest).
Qed.
Print Assumptions C62_reads_conforming.

(** The checksum is CRC-32. *)
Theorem C62_checksum data : is_bytes data -> crc32 data 0 = crc32_ieee data.
Proof. intros H. apply crc32_is_ieee. apply forallb_forall. intros x Hx. apply N.ltb_lt, H, Hx. Qed.
Print Assumptions C62_checksum.
