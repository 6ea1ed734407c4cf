(** C101: blobs are written as RFC 4648 base64 wherever they are written as text, and
    which texts are read as blobs. *)
From Verif Require Import Base Base_Proofs Utf8_Model Utf8_Proofs PyText_Model Base64_Model Base64_Proofs Base64_Spec Base64Rfc_Proofs Json_Model Json_Spec JsonNum_Proofs Json_Proofs HttpVal_Model Form_Model JsonDoc_Model.
From Verif Require HttpVal_Props.
Local Open Scope N_scope.

(** A blob in JSON, in a form, and the UTF-8 of a text with a media type in a header. *)
Theorem C101_written : forall bs, all_bytes bs = true -> exists t, base64 bs t /\
  (forall st env ts_ser, Json_Model.write st env ts_ser (VBlob bs) = ([34] ++ t ++ [34], None)) /\
  (forall pads repr ts_format s, form_text pads repr ts_format s (HBlob bs) = Ok t) /\
  (forall pads repr lf x, lf_media lf = true -> utf8_encode x = Ok bs -> header_text pads repr lf (HText x) = Ok t).
Proof.
  intros bs B. exists (b64encode bs). split; [now apply b64_written|]. split; [|split].
  - intros st env ts_ser. cbn [Json_Model.write]. unfold write_string, wtext, wraw, wseq. cbn [fst snd].
    assert (A := fun c => b64encode_ascii bs c B).
    assert (E : forall l, (forall c, In c l -> 32 < c < 128 /\ c <> 34 /\ c <> 92) -> utf8_encode (escape_string l) = Ok l).
    { intros l. induction l as [|c l IH]; intros H; [reflexivity|].
      destruct (H c (or_introl eq_refl)) as (R & Q & S).
      assert (X : escape_string (c :: l) = c :: escape_string l).
      { unfold escape_string. cbn [flat_map]. assert (must_escape c = false) as ->; [|reflexivity].
        unfold must_escape. apply N.eqb_neq in Q, S. rewrite Q, S. cbn [orb]. apply N.ltb_ge. lia. }
      rewrite X. cbn [utf8_encode]. unfold utf8_encode_cp. destruct (N.ltb_spec c 128); [|lia]. cbn [bind]. rewrite IH by (intros d I; apply H; now right). reflexivity. }
    rewrite E by exact A. reflexivity.
  - reflexivity.
  - intros pads repr lf x M E. cbn [header_text]. rewrite M, E. reflexivity.
Qed.
Print Assumptions C101_written.

(** There is no other base64 text of the same bytes, and other bytes have another. *)
Theorem C101_one : forall bs bs' t t', base64 bs t -> base64 bs' t' -> bs = bs' <-> t = t'.
Proof.
  intros bs bs' t t' H H'. split; intros <-; [exact (base64_unique _ _ _ H H')|].
  apply base64_reads in H, H'. congruence.
Qed.
Print Assumptions C101_one.

(** The texts that are read as blobs in a JSON body and in a document, and as texts
    with a media type in a header.  For XML see C51_leaf. *)
Theorem C101_read : forall s bs,
  (forall path rest e, read_blob (mkParser None (mkEv path (TkStr s) :: rest) e) = Some (mkParser None rest e, Ok (VBlob bs)) <-> base64_read s bs) /\
  (forall env default ts_de float_of n, env n = NBlob -> as_shape env default ts_de float_of (PStr s) n = Ok (VBlob bs) <-> base64_read s bs) /\
  (forall tf nearest lf x, lf_media lf = true ->
     read_header tf nearest KText lf s = Ok (HText x) <-> exists b, base64_read s b /\ utf8_decode b = Ok x).
Proof.
  intros s bs. split; [|split].
  - intros path rest e. rewrite <- b64decode_iff. unfold read_blob, rbind, next, next_raw. cbn [p_pending p_rest p_end e_tok].
    destruct (b64decode s) as [b|x]; unfold ret, rfail; split; congruence.
  - intros env default ts_de float_of n E. rewrite <- b64decode_iff. cbn [as_shape]. rewrite E. destruct (b64decode s); split; congruence.
  - intros tf nearest lf x M. cbn [read_header]. rewrite M. split.
    + destruct (b64decode s) as [b|] eqn:D; cbn [bind]; [|discriminate]. destruct (utf8_decode b) as [y|] eqn:U; cbn [bind]; [|discriminate].
      intros [= <-]. exists b. split; [now apply b64decode_iff|exact U].
    + intros (b & R & U). apply b64decode_iff in R. rewrite R. cbn [bind]. now rewrite U.
Qed.
Print Assumptions C101_read.

(** Every other text is a ValueError. *)
Theorem C101_refused : forall s, (forall bs, ~ base64_read s bs) ->
  (forall path rest e, read_blob (mkParser None (mkEv path (TkStr s) :: rest) e) = Some (mkParser None rest e, Err ValueError)) /\
  (forall env default ts_de float_of n, env n = NBlob -> as_shape env default ts_de float_of (PStr s) n = Err ValueError) /\
  (forall tf nearest lf, lf_media lf = true -> read_header tf nearest KText lf s = Err ValueError).
Proof.
  intros s H. assert (E : b64decode s = Err ValueError).
  { destruct (b64decode_cases s) as [[bs E]|E]; [|exact E]. apply b64decode_iff in E. now apply H in E. }
  split; [|split].
  - intros path rest e. unfold read_blob, rbind, next, next_raw. cbn [p_pending p_rest p_end e_tok]. now rewrite E.
  - intros env default ts_de float_of n N. cbn [as_shape]. rewrite N, E; reflexivity.
  - intros tf nearest lf M. cbn [read_header]. now rewrite M, E.
Qed.
Print Assumptions C101_refused.

(** What is base64 is read as its bytes ... *)
Theorem C101_back : forall bs t, base64 bs t -> base64_read t bs.
Proof. intros bs t H. apply b64decode_iff. now apply base64_reads. Qed.
Print Assumptions C101_back.

(** ... but it is not true that only base64 is read: characters that do not belong to
    the alphabet are left out wherever they are, ... *)
Theorem C101_junk_refuted : forall s1 s2 c bs, c < 128 -> c <> 61 -> ~ In c alphabet ->
  base64_read (s1 ++ s2) bs <-> base64_read (s1 ++ c :: s2) bs.
Proof.
  intros s1 s2 c bs C Ne Na. rewrite <- !b64decode_iff. unfold b64decode. rewrite !forallb_app. cbn [forallb].
  rewrite (proj2 (N.ltb_lt c 128) C). cbn [andb]. destruct (forallb _ s1 && forallb _ s2); [|reflexivity].
  assert (E : forall pos left pads, b64_loop pos left pads (s1 ++ c :: s2) = b64_loop pos left pads (s1 ++ s2)).
  { apply no_letter in Na. apply N.eqb_neq in Ne. induction s1 as [|x s1 IH]; intros pos left pads; cbn [app b64_loop].
    - now rewrite Ne, Na.
    - destruct (b64_val x); now rewrite !IH. }
  now rewrite E.
Qed.
Print Assumptions C101_junk_refuted.

(** ... everything that follows the padding is left out, ... *)
Theorem C101_tail_refuted : forall bs t more, base64 bs t -> In 61 t -> (forall c, In c more -> c < 128) -> base64_read (t ++ more) bs.
Proof.
  intros bs t more B I M. assert (R := C101_back _ _ B). destruct R as [A (vs & Vs & [(u & v & -> & E & NE & V)|(NE & _)])].
  - split; [intros c J; apply in_app_iff in J as [J|J]; [now apply A|now apply M]|]. exists vs. split; [exact Vs|]. left.
    exists u, (v ++ more). split; [now rewrite <- app_assoc|]. auto.
  - exfalso. destruct B as (_ & ws & cs & z & p & D & Z & F & -> & P & n & L).
    assert (K : forall c, In c cs -> In c alphabet).
    { clear - F. induction F as [|c v cs vs X _ IH]; [intros c []|]. intros d [<-|J]; [exact (nth_error_In _ _ X)|now apply IH]. }
    assert (W : values cs ws) by (clear - F; induction F; constructor; assumption).
    apply in_app_iff in I as [I|I]; [now apply other_61, K|]. destruct p as [|p]; [destruct I|].
    assert (LL : List.length cs = List.length ws) by (clear - F; induction F; cbn; congruence).
    rewrite app_length, repeat_length in L. apply (f_equal (@List.length bool)) in D. rewrite app_length, !digits_length, repeat_length in D.
    assert (p = 0 \/ p = 1)%nat as [-> | ->] by lia; cbn [repeat] in NE.
    + apply (NE cs []); [reflexivity|]. exists ws. split; [exact W|]. left. exists (n - 1)%nat. lia.
    + apply (NE (cs ++ [61]) []); [now rewrite <- app_assoc|]. exists ws. split; [rewrite <- (app_nil_r ws); apply values_app; [exact W|constructor 3; [exact other_61|constructor]]|].
      right. split; [exists (n - 1)%nat; lia|]. exists cs, []. split; [reflexivity|constructor].
Qed.
Print Assumptions C101_tail_refuted.

(** ... and the bits that are filled up need not be zero. *)
Theorem C101_bits_refuted : base64_read (lit "QR==") [65] /\ base64 [65] (lit "QQ==") /\ ~ exists bs, base64 bs (lit "QR==").
Proof.
  split; [apply b64decode_iff; reflexivity|]. split; [apply (b64_written [65]); reflexivity|].
  intros [bs H]. assert (R := base64_reads _ _ H). change (b64decode (lit "QR==")) with (@Ok bytes [65]) in R. injection R as <-.
  discriminate (base64_unique _ _ _ H (b64_written [65] eq_refl)).
Qed.
Print Assumptions C101_bits_refuted.

(** Two texts, one after the other: the second is lost; and a text cut short is refused. *)
Example C101_ex : base64 [104; 105] (lit "aGk=") /\ base64_read (lit "aGk=" ++ lit "bG8=") [104; 105] /\
  base64_read (lit "a G-k?=") [104; 105] /\ (forall bs, ~ base64_read (lit "aGk") bs) /\ In 61 (lit "aGk=") /\ ~ In 45 alphabet.
Proof.
  assert (B : base64 [104; 105] (lit "aGk=")) by (apply (b64_written [104; 105]); reflexivity).
  split; [exact B|]. split; [|split; [|split; [|split]]].
  - apply C101_tail_refuted; [exact B|right; right; right; now left|]. cbn. intros c H. repeat (destruct H as [<-|H]; [reflexivity|]). destruct H.
  - apply b64decode_iff. reflexivity.
  - intros bs H. apply b64decode_iff in H. discriminate H.
  - right; right; right; now left.
  - apply no_letter. reflexivity.
Qed.
