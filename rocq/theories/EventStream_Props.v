(** Event stream codec: properties C01, C02, C04, C05, C06, C07, C61. *)
From Verif Require Import Base EventStream_Model EventStream_Spec EventStream_Proofs.
Local Open Scope N_scope.

(** A message with all ten kinds of values, used in the examples. *)
Definition ex_message : message :=
  mkMessage
    [ (lit "yes", HBool true); (lit "no", HBool false); (lit "b", HByte (-128));
      (lit "s", HShort 32767); (lit "i", HInt (-2147483648)); (lit "l", HLong 9223372036854775807);
      (lit "blob", HBlob [0; 255; 7]); ([233; 8364; 128512], HString [233; 8364; 128512]);
      (lit ":date", HTimestamp (-1)); (lit "id", HUuid [0;1;2;3;4;5;6;7;8;9;10;11;12;13;14;255]) ]
    [1; 2; 3].

Example ex_typed : message_typed ex_message.
Proof.
  split.
  - intros x Hin. cbn in Hin. repeat (destruct Hin as [<-|Hin]; [reflexivity|]). destruct Hin.
  - repeat (apply Forall_cons; cbn [snd value_typed];
      [ try exact I; try split; try reflexivity;
        intros x Hin; cbn in Hin; repeat (destruct Hin as [<-|Hin]; [reflexivity|]); destruct Hin |]).
    apply Forall_nil.
Qed.

Definition ex_frame : bytes :=
  match encode_message ex_message with Ok f => f | Err _ => [] end.
Example ex_encodes : encode_message ex_message = Ok ex_frame.
Proof. vm_compute. reflexivity. Qed.

(** C01. Encoding a message within the limits succeeds... *)
Theorem C01_encode_total m :
  message_typed m -> ((exists f, encode_message m = Ok f) <-> within_limits m).
Proof. exact (encode_iff_within m). Qed.
Print Assumptions C01_encode_total.

(** ... and decoding gives it back, leaving the bytes that follow unread. *)
Theorem C01_roundtrip m :
  message_typed m -> within_limits m ->
  exists f, encode_message m = Ok f /\
    forall rest, exists ev, decode_event (f ++ rest) = Ok (Some ev, rest) /\ e_message ev = m.
Proof.
  intros Ht Hw. destruct (proj2 (encode_iff_within m Ht) Hw) as [f Hf].
  exists f. split; [exact Hf|]. exact (roundtrip m f Ht Hf).
Qed.
Print Assumptions C01_roundtrip.

Example C01_nonvacuous : message_typed ex_message /\ within_limits ex_message.
Proof.
  split; [exact ex_typed|]. apply (proj1 (C01_encode_total _ ex_typed)).
  exists ex_frame. exact ex_encodes.
Qed.

(** C02. A concatenation of messages decodes to them, then to the end. *)
Theorem C02_concatenation ms fs :
  Forall message_typed ms ->
  Forall2 (fun m f => encode_message m = Ok f) ms fs ->
  decode_all (List.concat fs) = (ms, None).
Proof.
  intros Ht H. pose proof (decode_all_frames ms fs [] Ht H) as E.
  rewrite app_nil_r in E. rewrite E. cbn. rewrite app_nil_r. reflexivity.
Qed.
Print Assumptions C02_concatenation.

Example C02_nonvacuous :
  let ms := [ex_message; mkMessage [] []; ex_message] in
  exists fs, Forall2 (fun m f => encode_message m = Ok f) ms fs /\ decode_all (List.concat fs) = (ms, None).
Proof.
  exists [ex_frame; [0;0;0;16;0;0;0;0;5;194;72;235;125;152;200;255]; ex_frame].
  split; [repeat constructor|]; vm_compute; reflexivity.
Qed.

(** C04. Any change of at most four adjacent bytes is noticed (with the one
    exception described at [corrupted]). *)
Theorem C04_corruption_rejected m f f' rest :
  message_typed m -> encode_message m = Ok f -> corrupted f f' ->
  exists e, decode_event (f' ++ rest) = Err e.
Proof. exact (corruption_detected m f f' rest). Qed.
Print Assumptions C04_corruption_rejected.

Example C04_nonvacuous :
  corrupted ex_frame (firstn 6 ex_frame ++ [9; 9; 9; 9] ++ skipn 10 ex_frame) /\
  decode_event (firstn 6 ex_frame ++ [9; 9; 9; 9] ++ skipn 10 ex_frame) = Err ChecksumMismatch.
Proof.
  split; [|vm_compute; reflexivity].
  exists (firstn 6 ex_frame), (firstn 4 (skipn 6 ex_frame)), [9;9;9;9], (skipn 10 ex_frame).
  repeat split; try (vm_compute; reflexivity); try (vm_compute; lia).
  - vm_compute. discriminate.
  - intros x Hin. cbn in Hin. repeat (destruct Hin as [<-|Hin]; [reflexivity|]). destruct Hin.
Qed.

(** The exception is real: the checksum is sent high byte first although it is a
    reflected CRC, so a change of the last two payload bytes together with the
    first two checksum bytes can cancel out. *)
Theorem C04_boundary_refuted :
  exists m m' a w w' b ev,
    encode_message m = Ok (a ++ w ++ b) /\ w <> w' /\
    List.length w = 4%nat /\ List.length w' = 4%nat /\
    decode_event (a ++ w' ++ b) = Ok (Some ev, []) /\ e_message ev = m' /\ m' <> m.
Proof.
  exists (mkMessage [] [0; 0]), (mkMessage [] [0x61; 0xD8]).
  set (f := match encode_message (mkMessage [] [0; 0]) with Ok f => f | Err _ => [] end).
  set (f2 := match encode_message (mkMessage [] [0x61; 0xD8]) with Ok f => f | Err _ => [] end).
  exists (firstn 12 f), (firstn 4 (skipn 12 f)), (firstn 4 (skipn 12 f2)), (skipn 16 f).
  exists (mkEvent (mkPrelude 18 0 (be_val (firstn 4 (skipn 8 f)))) (mkMessage [] [0x61; 0xD8]) (be_val (skipn 14 f2))).
  repeat split; try (vm_compute; reflexivity); try (vm_compute; discriminate); discriminate.
Qed.
Print Assumptions C04_boundary_refuted.

(** C05. Size limits, sending side: whatever is emitted is within them. *)
Theorem C05_encode_limits m f :
  message_typed m -> encode_message m = Ok f ->
  headers_size (m_headers m) <= 131072 /\ len (m_payload m) <= 16777216 /\
  len f = headers_size (m_headers m) + len (m_payload m) + 16.
Proof.
  intros Ht H.
  destruct (proj1 (encode_iff_within m Ht) (ex_intro _ f H)) as (_ & _ & H1 & H2).
  split; [exact H1|]. split; [exact H2|]. exact (encode_length m f Ht H).
Qed.
Print Assumptions C05_encode_limits.

(** C05. Receiving side: an accepted message declared sizes (in its first eight
    bytes) within the limits, and its payload is within them. *)
Theorem C05_decode_limits src ev rest :
  decode_event src = Ok (Some ev, rest) ->
  be_val (firstn 4 (skipn 4 src)) <= 131072 /\
  (Z.of_N (be_val (firstn 4 src)) - Z.of_N (be_val (firstn 4 (skipn 4 src))) - 16 <= 16777216)%Z /\
  len (m_payload (e_message ev)) <= 16777216.
Proof.
  intros H. destruct (decode_declared _ _ _ H) as (_ & _ & _ & H1 & H2).
  destruct (decode_limits _ _ _ H) as (_ & H3 & _). auto.
Qed.
Print Assumptions C05_decode_limits.

Example C05_nonvacuous : exists ev, decode_event ex_frame = Ok (Some ev, []).
Proof. eexists. vm_compute. reflexivity. Qed.

(** C06. Header names are unique on both sides. *)
Theorem C06_encode_unique m f :
  message_typed m -> encode_message m = Ok f -> NoDup (map fst (m_headers m)).
Proof. intros Ht H. exact (proj1 (proj1 (encode_iff_within m Ht) (ex_intro _ f H))). Qed.
Print Assumptions C06_encode_unique.

Theorem C06_decode_unique src ev rest :
  decode_event src = Ok (Some ev, rest) -> NoDup (map fst (m_headers (e_message ev))).
Proof. intros H. exact (proj2 (proj2 (decode_limits _ _ _ H))). Qed.
Print Assumptions C06_decode_unique.

Example C06_duplicate_rejected :
  encode_message (mkMessage [(lit "a", HBool true); (lit "a", HInt 1)] []) = Err DuplicateHeader /\
  decode_headers [1; 97; 0; 1; 97; 1] = Err DuplicateHeader.
Proof. split; vm_compute; reflexivity. Qed.

(** C07. A sequence cut inside a message: the complete messages are delivered,
    then an error; cut between two messages: they are delivered, then the end. *)
Theorem C07_truncation ms fs m f k :
  Forall message_typed ms -> Forall2 (fun m f => encode_message m = Ok f) ms fs ->
  message_typed m -> encode_message m = Ok f -> (k < List.length f)%nat ->
  decode_all (List.concat fs ++ firstn k f) =
    (ms, if Nat.eqb k 0 then None else Some InvalidEventBytes).
Proof.
  intros Hts Hfs Ht Hf Hk. rewrite (decode_all_frames ms fs _ Hts Hfs).
  destruct (Nat.eqb_spec k 0) as [->|Hk0].
  - cbn. rewrite app_nil_r. reflexivity.
  - rewrite (decode_all_err _ _ (decode_truncated m f k Ht Hf ltac:(lia))). cbn.
    rewrite app_nil_r. reflexivity.
Qed.
Print Assumptions C07_truncation.

Example C07_nonvacuous :
  (17 < List.length ex_frame)%nat /\
  decode_all (ex_frame ++ firstn 17 ex_frame) = ([ex_message], Some InvalidEventBytes).
Proof. split; [vm_compute; lia | vm_compute; reflexivity]. Qed.

(** C61. An accepted frame is NOT always consistent: a frame of 16 bytes that
    declares 5 bytes of headers is accepted as an empty message. *)
Theorem C61_declared_lengths_refuted :
  exists src ev, decode_event src = Ok (Some ev, []) /\
    p_headers (e_prelude ev) = 5 /\ p_total (e_prelude ev) = 16 /\
    e_message ev = mkMessage [] [].
Proof.
  set (pre := be_bytes 4 16 ++ be_bytes 4 5).
  set (pc := crc32 pre 0).
  exists (pre ++ be_bytes 4 pc ++ be_bytes 4 (crc32 (be_bytes 4 pc) pc)).
  eexists. split; [vm_compute; reflexivity|]. repeat split; vm_compute; reflexivity.
Qed.
Print Assumptions C61_declared_lengths_refuted.

(** C61. And a byte-array header value cut short by the end of the header block
    is delivered truncated instead of being reported. *)
Theorem C61_truncated_value_refuted :
  exists data, decode_headers data = Ok [(lit "a", HBlob [1; 2])] /\
    (* name length 1, "a", type 6, declared value length 9 *)
    firstn 5 data = [1; 97; 6; 0; 9].
Proof. exists [1; 97; 6; 0; 9; 1; 2]. split; vm_compute; reflexivity. Qed.
Print Assumptions C61_truncated_value_refuted.
