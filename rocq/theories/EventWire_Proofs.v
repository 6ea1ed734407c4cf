(** The bitwise checksum is CRC-32; encoded frames have the documented form. *)
From Verif Require Import Base Base_Proofs Utf8_Model Utf8_Proofs EventStream_Model EventStream_Spec
  Crc_Proofs EventStream_Proofs EventWire_Spec.
Local Open Scope N_scope.

Lemma low_bits_length k n : List.length (low_bits k n) = k.
Proof. revert n. induction k as [|k IH]; intros n; cbn [low_bits List.length]; [reflexivity|]. rewrite IH. reflexivity. Qed.

Lemma half n : n / 2 = N.shiftr n 1.
Proof. rewrite N.shiftr_div_pow2. reflexivity. Qed.

Lemma odd_bit n : N.odd n = N.testbit n 0.
Proof. symmetry. apply N.bit0_odd. Qed.

Lemma add_low k a b : add_front (low_bits k a) (low_bits k b) = low_bits k (N.lxor a b).
Proof.
  revert a b. induction k as [|k IH]; intros a b; [reflexivity|].
  cbn [low_bits add_front]. rewrite IH, !odd_bit, N.lxor_spec, !half, N.shiftr_lxor. reflexivity.
Qed.

Lemma add_front_assoc x p q :
  List.length p = List.length q -> add_front (add_front x p) q = add_front x (add_front p q).
Proof.
  revert p q. induction x as [|a x IH]; intros [|b p] [|c q] H; try discriminate H; try reflexivity.
  cbn [add_front]. cbn [List.length] in H. rewrite IH by congruence.
  rewrite xorb_assoc. reflexivity.
Qed.

Lemma add_front_false x p : add_front x (p ++ [false]) = add_front x p.
Proof.
  revert p. induction x as [|a x IH]; intros [|b p]; cbn [add_front app]; try reflexivity.
  - rewrite xorb_false_r. destruct x; reflexivity.
  - rewrite IH. reflexivity.
Qed.

Lemma low_bits_snoc k n : low_bits (S k) n = low_bits k n ++ [N.testbit n (N.of_nat k)].
Proof.
  revert n. induction k as [|k IH]; intros n; [cbn [low_bits app]; rewrite odd_bit; reflexivity|].
  change (low_bits (S (S k)) n) with (N.odd n :: low_bits (S k) (n / 2)). rewrite IH.
  cbn [low_bits app]. rewrite half, N.shiftr_spec by lia.
  do 3 f_equal. f_equal. lia.
Qed.

Lemma low_half r x : r < B32 -> add_front x (low_bits 31 (r / 2)) = add_front x (low_bits 32 (r / 2)).
Proof.
  intros H. rewrite (low_bits_snoc 31). rewrite half, N.shiftr_spec by lia.
  rewrite (bits_lt_pow2 r 32) by (try rewrite <- B32_pow; try assumption; lia).
  rewrite add_front_false. reflexivity.
Qed.

Lemma generator_poly : generator = low_bits 32 POLY.
Proof. reflexivity. Qed.

Lemma div_step r x k :
  r < B32 ->
  remainder (S k) (add_front (false :: x) (low_bits 32 r)) =
  remainder k (add_front x (low_bits 32 (crc_bit r))).
Proof.
  intros Hr. change (low_bits 32 r) with (N.odd r :: low_bits 31 (r / 2)).
  cbn [add_front remainder]. rewrite xorb_false_l, odd_bit. unfold crc_bit.
  rewrite low_half by exact Hr. rewrite half.
  destruct (N.testbit r 0) eqn:E; [|reflexivity].
  rewrite generator_poly, add_front_assoc by (rewrite !low_bits_length; reflexivity).
  rewrite add_low. reflexivity.
Qed.

Lemma div_steps j r x k :
  r < B32 ->
  remainder (j + k) (add_front (repeat false j ++ x) (low_bits 32 r)) =
  remainder k (add_front x (low_bits 32 (crc_bits j r))).
Proof.
  revert r. induction j as [|j IH]; intros r Hr; [reflexivity|].
  cbn [repeat app Nat.add crc_bits]. rewrite div_step by exact Hr. apply IH, crc_bit_lt, Hr.
Qed.

Lemma low_byte b : b < 256 -> low_bits 32 b = low_bits 8 b ++ repeat false 24.
Proof.
  intros Hb.
  assert (G : forall j, low_bits (8 + j) b = low_bits 8 b ++ repeat false j).
  { induction j as [|j IH]; [rewrite app_nil_r; reflexivity|].
    replace (8 + S j)%nat with (S (8 + j)) by lia. rewrite low_bits_snoc, IH.
    rewrite (bits_lt_pow2 b 8) by (change (2 ^ 8) with 256; lia).
    rewrite <- app_assoc. f_equal. change [false] with (repeat false 1). rewrite <- repeat_app.
    f_equal. lia. }
  exact (G 24%nat).
Qed.

Lemma low_zero k : low_bits k 0 = repeat false k.
Proof. induction k as [|k IH]; [reflexivity|]. cbn [low_bits repeat]. change (0 / 2) with 0. rewrite IH. reflexivity. Qed.

Lemma add_front_app p x q : List.length p = List.length q -> add_front (p ++ x) q = add_front p q ++ x.
Proof.
  revert q. induction p as [|a p IH]; intros [|b q] H; try discriminate H; cbn [app add_front].
  - destruct x; reflexivity.
  - rewrite IH by (cbn [List.length] in H; congruence). reflexivity.
Qed.

Lemma add_front_repeat_false x n : add_front x (repeat false n) = x.
Proof.
  revert n. induction x as [|a x IH]; intros [|n]; cbn [add_front repeat]; try reflexivity.
  rewrite xorb_false_r, IH. reflexivity.
Qed.

Lemma byte_front b x : b < 256 -> (24 <= List.length x)%nat ->
  low_bits 8 b ++ x = add_front (repeat false 8 ++ x) (low_bits 32 b).
Proof.
  intros Hb Hx. rewrite low_byte by exact Hb.
  assert (G : forall p z, add_front (repeat false (List.length p) ++ z) (p ++ repeat false 24) = p ++ z).
  { induction p as [|c p IH]; intros z; cbn [List.length repeat app add_front].
    - exact (add_front_repeat_false z 24).
    - rewrite IH, xorb_false_l. reflexivity. }
  specialize (G (low_bits 8 b) x). rewrite low_bits_length in G. symmetry. exact G.
Qed.

Lemma div_data data r :
  r < B32 -> all_bytes data = true ->
  remainder (List.length (bits_of data)) (add_front (bits_of data ++ repeat false 32) (low_bits 32 r)) =
  low_bits 32 (fold_left crc_byte data r).
Proof.
  revert r. induction data as [|b data IH]; intros r Hr Hd.
  - unfold bits_of. cbn [flat_map app List.length fold_left remainder].
    rewrite <- (low_zero 32), add_low, N.lxor_0_l. reflexivity.
  - cbn [all_bytes forallb] in Hd. apply andb_prop in Hd as [Hb Hd]. apply is_byte_lt in Hb.
    assert (E : bits_of (b :: data) = low_bits 8 b ++ bits_of data) by reflexivity.
    rewrite E, <- app_assoc, app_length, low_bits_length.
    assert (Hlen : (24 <= List.length (bits_of data ++ repeat false 32))%nat)
      by (rewrite app_length, repeat_length; lia).
    rewrite (byte_front _ _ Hb Hlen), add_front_assoc by (rewrite !low_bits_length; reflexivity).
    rewrite add_low.
    assert (Hlt : N.lxor b r < B32) by (apply lxor_lt32; [unfold B32; lia|exact Hr]).
    rewrite div_steps by exact Hlt. cbn [fold_left].
    unfold crc_byte at 2. rewrite (N.lxor_comm r b). apply IH; [apply crc_bits_lt; exact Hlt|exact Hd].
Qed.

Lemma number_low k n : n < 2 ^ N.of_nat k -> number_of (low_bits k n) = n.
Proof.
  revert n. induction k as [|k IH]; intros n H.
  - cbn [low_bits number_of]. change (2 ^ N.of_nat 0) with 1 in H. lia.
  - cbn [low_bits number_of].
    replace (N.of_nat (S k)) with (N.succ (N.of_nat k)) in H by lia.
    rewrite N.pow_succ_r' in H. rewrite IH by (apply N.div_lt_upper_bound; lia).
    pose proof (N.div2_odd n) as D. rewrite N.div2_div in D.
    destruct (N.odd n); cbn [N.b2n] in D; lia.
Qed.

Lemma map_negb_low n : map negb (low_bits 32 n) = low_bits 32 (N.lxor n MASK32).
Proof.
  rewrite <- (add_low 32 n). change (low_bits 32 MASK32) with (repeat true 32).
  assert (G : forall l k, List.length l = k -> map negb l = add_front l (repeat true k)).
  { induction l as [|a l IH]; intros [|k] H; try discriminate H; [reflexivity|].
    cbn [map repeat add_front]. rewrite (IH k) by (cbn [List.length] in H; congruence).
    rewrite xorb_true_r. reflexivity. }
  apply G, low_bits_length.
Qed.

Lemma crc32_is_ieee data : all_bytes data = true -> crc32 data 0 = crc32_ieee data.
Proof.
  intros Hd. unfold crc32, crc32_ieee.
  change (repeat true 32) with (low_bits 32 MASK32).
  rewrite div_data by (auto; reflexivity). rewrite map_negb_low, number_low.
  - rewrite N.lxor_0_l. reflexivity.
  - change (2 ^ N.of_nat 32) with B32. apply lxor_lt32; [|reflexivity].
    apply crc_fold_lt; [reflexivity|exact Hd].
Qed.

(** ** Frames *)
Lemma utf8_encode_spec s u : utf8_encode s = Ok u -> u = utf8 s.
Proof.
  revert u. induction s as [|c s IH]; intros u H; cbn [utf8_encode] in H.
  - injection H as <-. reflexivity.
  - destruct (utf8_encode_cp c) as [b|] eqn:Hb; cbn [bind] in H; [|discriminate H].
    destruct (utf8_encode s) as [bs|] eqn:Hs; cbn [bind] in H; [|discriminate H].
    injection H as <-. unfold utf8. cbn [flat_map]. f_equal; [|apply IH; reflexivity].
    unfold utf8_encode_cp in Hb. unfold utf8_bytes_of.
    destruct (c <? 0x80); [injection Hb as <-; reflexivity|].
    destruct (c <? 0x800); [injection Hb as <-; reflexivity|].
    destruct ((0xD800 <=? c) && (c <? 0xE000)); [discriminate Hb|].
    destruct (c <? 0x10000); [injection Hb as <-; reflexivity|].
    destruct (c <? 0x110000); [injection Hb as <-; reflexivity|discriminate Hb].
Qed.

Lemma value_bytes_wire v b : value_bytes v b -> b = wire_value v.
Proof.
  intros H. destruct H; try reflexivity.
  - destruct b; reflexivity.
  - apply utf8_encode_spec in H. subst u. reflexivity.
Qed.

Lemma encode_headers_wire keys hs b : encode_headers keys hs = Ok b -> b = flat_map wire_header hs.
Proof.
  revert keys b. induction hs as [|[k v] hs IH]; intros keys b H; cbn [encode_headers] in H.
  - injection H as <-. reflexivity.
  - destruct (encode_header keys (k, v)) as [[ks hb]|] eqn:Hh; cbn [bind] in H; [|discriminate H].
    destruct (encode_headers ks hs) as [bs|] eqn:Hr; cbn [bind] in H; [|discriminate H].
    injection H as <-. apply encode_header_ok in Hh as (kb & vb & Hk & Hv & ->).
    apply encode_key_ok in Hk as (_ & _ & u & Hu & _ & ->).
    apply utf8_encode_spec in Hu. apply value_bytes_wire in Hv. subst u vb.
    cbn [flat_map]. unfold wire_header at 1. cbn [fst snd]. rewrite <- !app_assoc.
    rewrite (IH _ _ Hr). reflexivity.
Qed.

Lemma encode_message_wire m f : message_typed m -> encode_message m = Ok f -> f = wire_message m.
Proof.
  intros Ht Hf. pose proof Hf as Hf'.
  apply encode_message_ok in Hf as (hb & Hh & _ & _ & ->); [|exact Ht].
  assert (Hall : all_bytes hb = true /\ all_bytes (m_payload m) = true).
  { split.
    - destruct Ht as [_ Ht]. clear Hf'. revert Hh. generalize (@nil text). revert hb Ht.
      generalize (m_headers m) as hs.
      induction hs as [|[k v] hs IH]; intros hb Ht keys Hh; cbn [encode_headers] in Hh.
      + injection Hh as <-. reflexivity.
      + destruct (encode_header keys (k, v)) as [[ks hb1]|] eqn:H1; cbn [bind] in Hh; [|discriminate Hh].
        destruct (encode_headers ks hs) as [bs|] eqn:H2; cbn [bind] in Hh; [|discriminate Hh].
        injection Hh as <-. apply encode_header_ok in H1 as (kb & vb & Hk & Hv & ->).
        apply encode_key_ok in Hk as (_ & _ & u & Hu & _ & ->).
        inversion Ht as [|h0 t0 Ht1 Ht2]; subst. cbn [snd] in Ht1.
        rewrite !all_bytes_app, be_bytes_all, (utf8_encode_bytes _ _ Hu), (value_bytes_bytes _ _ Ht1 Hv).
        rewrite (IH _ Ht2 _ H2). reflexivity.
    - destruct Ht as [Hp _]. apply forallb_forall. intros x Hx. apply is_byte_lt, Hp, Hx. }
  destruct Hall as [Hhb Hp].
  unfold frame_of, wire_message. cbv zeta.
  rewrite <- (encode_headers_wire _ _ _ Hh).
  set (pre := be_bytes 4 (len hb + len (m_payload m) + 16) ++ be_bytes 4 (len hb)).
  replace (16 + len hb + len (m_payload m)) with (len hb + len (m_payload m) + 16) by lia.
  fold pre.
  assert (Hpre : all_bytes pre = true) by apply pre_all.
  rewrite <- crc32_is_ieee by exact Hpre.
  set (pc := crc32 pre 0).
  assert (Hbody : all_bytes (pre ++ be_bytes 4 pc ++ hb ++ m_payload m) = true).
  { rewrite !all_bytes_app, Hpre, be_bytes_all, Hhb, Hp. reflexivity. }
  rewrite <- crc32_is_ieee by exact Hbody. rewrite (crc32_app pre). fold pc.
  rewrite <- !app_assoc. reflexivity.
Qed.
