(** C103: text on the wire is UTF-8, percent encoding and hexadecimal as the
    standards have them. *)
From Verif Require Import Base Base_Proofs Utf8_Model Utf8_Proofs PyText_Model PyText_Proofs PyDict_Model PyDict_Proofs EventIO_Model
  Http_Model Http_Spec Http_Proofs HttpPath_Proofs Encode_Spec Encode_Proofs.
From Verif Require Http_Props.
Local Open Scope N_scope.

(** C103: text is written as RFC 3629 says, and only characters that are not
    surrogates can be written. *)
Theorem C103_written s :
  (forall bs, utf8_encode s = Ok bs <-> Utf8 s bs) /\
  ((exists bs, utf8_encode s = Ok bs) <-> Forall scalar s) /\
  (forall e, utf8_encode s = Err e -> e = UnicodeError).
Proof.
  split; [intros bs; apply encode_iff|]. split; [|intros e; apply utf8_error].
  rewrite <- utf8_texts. split; intros [bs H]; exists bs; now apply encode_iff.
Qed.
Print Assumptions C103_written.
Example C103_written_ex : Utf8 [36; 163; 8364; 66376] [0x24; 0xC2; 0xA3; 0xE2; 0x82; 0xAC; 0xF0; 0x90; 0x8D; 0x88] /\
  ~ Forall scalar [0xD800].
Proof.
  split; [now apply C103_written|]. intros F. inversion F as [|c l H]. destruct H as [_ H]. apply H. split; discriminate.
Qed.

(** C103: octets are read exactly if they are the encoding of a text, and as that
    text; anything else is refused, an overlong form or half a character too. *)
Theorem C103_read bs :
  (forall s, utf8_decode bs = Ok s <-> Utf8 s bs) /\
  ((exists s, Utf8 s bs) \/ utf8_decode bs = Err UnicodeError).
Proof.
  split; [intros s; apply decode_iff|]. destruct (utf8_decode bs) as [s|e] eqn:E.
  - left. exists s. now apply decode_iff.
  - right. f_equal. now apply (decode_error bs).
Qed.
Print Assumptions C103_read.
Example C103_read_ex : utf8_decode [0xE2; 0x82; 0xAC; 0x41] = Ok [8364; 65] /\
  utf8_decode [0xC0; 0xAF] = Err UnicodeError /\ utf8_decode [0xE2; 0x82] = Err UnicodeError /\
  utf8_decode [0xED; 0xA0; 0x80] = Err UnicodeError.
Proof. repeat split. Qed.

(** C103: a text has one encoding, and octets are the encoding of one text. *)
Theorem C103_one s s' bs bs' : Utf8 s bs -> Utf8 s' bs' -> (s = s' <-> bs = bs').
Proof.
  intros A B. apply encode_iff in A. apply encode_iff in B. split; [intros ->; congruence|]. intros ->.
  exact (utf8_encode_inj s s' bs' A B).
Qed.
Print Assumptions C103_one.
Example C103_one_ex : Utf8 (lit "a") (lit "a"). Proof. now apply encode_iff. Qed.

(** C103: a query string is its parameters, each percent encoded as RFC 3986 says
    with digits in upper case, one after the other. *)
Lemma render_iff p t : render_param p = Ok t <-> Param p t.
Proof.
  unfold render_param, Param. destruct p as [k [v|]]; cbn [fst snd]; [|apply urlquote_iff]. split.
  - destruct (urlquote [] k) as [a|] eqn:A; [|discriminate]. cbn [bind]. destruct (urlquote [] v) as [b|] eqn:B; [|discriminate].
    intros [= <-]. exists a, b. split; [now apply urlquote_iff|]. split; [now apply urlquote_iff | reflexivity].
  - intros [a [b [A [B ->]]]]. apply urlquote_iff in A. apply urlquote_iff in B. rewrite A. cbn [bind]. now rewrite B.
Qed.
Theorem C103_query params prefix q :
  join_query_params params prefix = Ok q <-> exists parts, Forall2 Param params parts /\ Joined prefix parts q.
Proof.
  split.
  - revert prefix. induction params as [|p params IH]; intros prefix; cbn [join_query_params].
    + intros [= <-]. exists []. split; constructor.
    + destruct (render_param p) as [t|] eqn:R; [|discriminate]. cbn [bind]. intros H. apply IH in H. destruct H as [parts [F J]].
      exists (t :: parts). split; [constructor; [now apply render_iff | exact F]|].
      destruct prefix as [|c r]; [now constructor|]. constructor; [discriminate|]. now rewrite <- app_assoc in J.
  - intros [parts [F J]]. revert params F. induction J as [q | p ps q J IH | b p ps q NE J IH]; intros params F.
    + inversion F; subst. reflexivity.
    + inversion F as [|x y l l' P F']; subst. cbn [join_query_params]. apply render_iff in P. rewrite P. cbn [bind app]. now apply IH.
    + inversion F as [|x y l l' P F']; subst. cbn [join_query_params]. apply render_iff in P. rewrite P. cbn [bind].
      destruct b as [|c r]; [now elim NE|]. rewrite <- app_assoc. now apply IH.
Qed.
Print Assumptions C103_query.
Example C103_query_ex : join_query_params [(lit "a b", Some (lit "x/y~")); ([8364], None)] (lit "p=1") = Ok (lit "p=1&a%20b=x%2Fy~&%E2%82%AC").
Proof. vm_compute. reflexivity. Qed.

(** C103: a label in the path is the encoding of its value, of which only a greedy
    one keeps the slashes. *)
Theorem C103_labels uni_word ps labels path : Forall good_piece ps -> NoDup (map fst labels) ->
  serialize_path uni_word (show ps) labels = Ok path ->
  exists written, path = fill written ps /\
    forall n, is_label n ps -> exists v, In (n, v) labels /\
      ((is_greedy n ps /\ Escaped (lit "/") v (written n)) \/ (~ is_greedy n ps /\ Escaped [] v (written n))).
Proof.
  intros Hg Hnd H. unfold serialize_path in H.
  destruct (label_values uni_word (show ps) labels []) as [kwargs|] eqn:El; [|discriminate H]. cbn [bind] in H.
  apply Http_Props.C24_format in H; [|exact Hg]. destruct H as (H1 & H2 & H3 & H4).
  destruct (label_values_spec uni_word (show ps) labels [] kwargs El Hnd) as (A & B & C).
  exists (value kwargs). split; [exact H3|]. intros n Hn. destruct (H2 n Hn) as (q & Hq).
  destruct (C n q (dict_get_In _ _ _ Hq)) as [[]|(v & Hv & Ev)]. exists v. split; [exact Hv|].
  unfold value. rewrite Hq. unfold label_value in Ev. rewrite greedy_labels_show in Ev by exact Hg.
  destruct (mem_text n (greedy_of ps)) eqn:Em.
  - left. split; [now apply greedy_of_In, mem_text_In | now apply urlquote_iff].
  - right. split; [|now apply urlquote_iff]. intros G. apply greedy_of_In, mem_text_In in G. congruence.
Qed.
Print Assumptions C103_labels.
Example C103_labels_ex :
  serialize_path (fun _ => false) (show (segments Http_Props.users_pattern)) [(lit "id", [233]); (lit "path", lit "x/y z")]
  = Ok (lit "/users/%C3%A9/files/x/y%20z").
Proof. vm_compute. reflexivity. Qed.

(** C103: digests and signatures are written as two digits an octet, in lower
    case. *)
Theorem C103_hex bs t : Forall (fun b => b < 256) bs -> (hexlify bs = t <-> Hex bs t).
Proof. apply hex_iff. Qed.
Print Assumptions C103_hex.
Example C103_hex_ex : hexlify [0; 10; 171; 255] = lit "000aabff". Proof. reflexivity. Qed.

(** C103: a number is written with its decimal digits and no leading zero. *)
Theorem C103_decimal n t : PySort_Model.dec n = t <-> Decimal n t.
Proof. split; [intros <-; apply decimal_dec | intros D; symmetry; now apply decimal_fun]. Qed.
Print Assumptions C103_decimal.
Example C103_decimal_ex : Decimal 8080 (lit "8080"). Proof. now apply C103_decimal. Qed.
