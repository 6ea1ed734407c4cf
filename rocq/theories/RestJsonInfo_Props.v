(** C98: the error information of a REST JSON response. *)
From Verif Require Import Base PyText_Model PyText_Proofs Base_Proofs RestJsonInfo_Model RestJsonInfo_Spec RestJsonInfo_Proofs.
Open Scope N_scope.

Section Props.
  Variable lower : text -> text.
  Variable loads : bytes -> parsed.

  (** There is information exactly if the entries of the body can be looked at, and the
      places that are looked at for the code and the message hold texts. *)
  Theorem C98_total : forall fields body check,
    (exists i, parse_info lower loads fields body check = Ok i) <->
    exists m, body_entries loads body check m /\ (exists o, code_source lower fields m o) /\ exists n, picks (message_name lower) m n.
  Proof.
    intros fields body check. split.
    - intros (i & H). apply info_iff in H as (m & q & n & E & C & P & _). exists m. split; [exact E|]. split; [now exists q | now exists n].
    - intros (m & E & (q & C) & n & P). pose proof E as E1. apply entries_iff in E1 as (j & R & _).
      exists (mkInfo (shown q) (or_unknown n) j). apply info_iff. now exists m, q, n.
  Qed.

  (** The message is the first text there is under one of its names. *)
  Theorem C98_message : forall fields body check i m,
    parse_info lower loads fields body check = Ok i -> body_entries loads body check m ->
    (forall t, picks (message_name lower) m (Some t) -> i_message i = t) /\
    (picks (message_name lower) m None -> i_message i = lit "Unknown").
  Proof. exact (message_spec lower loads). Qed.

  (** The code is the name of the error in the header or else in the first text there is
      under one of the names for it, without namespace and URI. *)
  Theorem C98_code : forall fields body check i m,
    parse_info lower loads fields body check = Ok i -> body_entries loads body check m ->
    (forall c n, code_source lower fields m (Some c) -> names_error c n -> n <> [] ->
       (In 35 c -> exists a s, c = a ++ 35 :: s /\ plain a) -> i_code i = n) /\
    (code_source lower fields m None -> i_code i = lit "Unknown").
  Proof. exact (code_spec lower loads). Qed.

  (** The body is handed out as it was parsed. *)
  Theorem C98_body : forall fields body i,
    (forall check, parse_info lower loads fields body check = Ok i ->
       (check = true -> body <> [] -> forall v, loads body = Parsed v -> i_body i = Some v) /\
       (check = false \/ body = [] \/ loads body = NotJson -> i_body i = None)).
  Proof.
    intros fields body i check H. apply info_iff in H as (m & q & n & _ & _ & _ & _ & _ & R). unfold read_body in R. split.
    - intros -> Nb v L. destruct body; [congruence|]. rewrite L in R. congruence.
    - intros [->|[->|L]]; [congruence | destruct check; congruence|].
      destruct check; [|congruence]. destruct body; [congruence|]. rewrite L in R. congruence.
  Qed.

  (** A number sign in the URI of a code without namespace is taken for the one after a
      namespace: the name of the error is lost. *)
  Theorem C98_uri_refuted : forall n u rest after body,
    plain n -> plain u -> u <> [] -> 
    (forall f, f = mkField (lit "x-amzn-errortype") [n ++ 58 :: rest ++ 35 :: u] ->
     lower (f_name f) = lit "x-amzn-errortype" -> ~ In 35 rest ->
     exists i, parse_info lower loads (f :: after) body false = Ok i /\ i_code i = u).
  Proof. exact (uri_refuted lower loads). Qed.

  (** A body that is no object, or whose encoding is broken, is an error even if the
      header has the code. *)
  Theorem C98_body_refuted : forall fields body o,
    header_code lower fields = Ok o -> body <> [] ->
    (forall e, loads body = Fails e -> parse_info lower loads fields body true = Err e) /\
    (loads body = Parsed (JOther true) -> parse_info lower loads fields body true = Err AttributeError).
  Proof.
    intros fields body o H Nb. unfold parse_info, read_body. rewrite H. destruct body; [congruence|]. cbn [bind]. split.
    - intros e L. now rewrite L.
    - intros L. rewrite L. reflexivity.
  Qed.
End Props.
Print Assumptions C98_total.
Print Assumptions C98_message.
Print Assumptions C98_code.
Print Assumptions C98_body.
Print Assumptions C98_uri_refuted.
Print Assumptions C98_body_refuted.

(** ** Cases *)
Definition ex_lower (t : text) : text := map (fun c => if (65 <=? c) && (c <=? 90) then c + 32 else c) t.
Definition ex_entries : list (text * jval) :=
  [(lit "Code", JStr []); (lit "__type", JStr (lit "aws.example#FooError:http://h/#x")); (lit "Message", JStr (lit "no")); (lit "message", JOther true)].
Definition ex_loads (b : bytes) : parsed := match b with [1] => Parsed (JObj ex_entries) | [2] => Fails UnicodeError | _ => NotJson end.
Example C98_ex : parse_info ex_lower ex_loads [mkField (lit "Other") []] [1] true =
  Ok (mkInfo (lit "FooError") (lit "no") (Some (JObj ex_entries))).
Proof. reflexivity. Qed.
Example C98_header_ex : parse_info ex_lower ex_loads [mkField (lit "X-Amzn-ErrorType") [lit "BarError:http://h/"; lit "x"]] [1] true =
  Ok (mkInfo (lit "BarError") (lit "no") (Some (JObj ex_entries))).
Proof. reflexivity. Qed.
Example C98_uri_ex : parse_info ex_lower ex_loads [mkField (lit "x-amzn-errortype") [lit "FooError:http://h/#frag"]] [] true =
  Ok (mkInfo (lit "frag") (lit "Unknown") None).
Proof. reflexivity. Qed.
Example C98_html_ex : parse_info ex_lower ex_loads [] [60; 104] true = Ok (mkInfo (lit "Unknown") (lit "Unknown") None).
Proof. reflexivity. Qed.
Example C98_broken_ex : parse_info ex_lower ex_loads [mkField (lit "x-amzn-errortype") [lit "FooError"]] [2] true = Err UnicodeError.
Proof. reflexivity. Qed.
