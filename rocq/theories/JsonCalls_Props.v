(** C105: a JSON document is complete exactly if writing it succeeded. *)
From Verif Require Import Base Base_Proofs Utf8_Model Utf8_Proofs PyText_Model PySort_Model PyDict_Model PyDecimal_Model Base64_Model Base64_Spec
  Json_Model Json_Spec Json_Props Encode_Spec Encode_Proofs JsonCalls_Model JsonCalls_Spec JsonCalls_Proofs.
Local Open Scope N_scope.

(** Whatever calls a shape makes: they return only if they make a value, and then
    what has been written is what that value is written as; if the value has a
    JSON form, it is the UTF-8 of a JSON text of it. *)
Theorem C105_returns st env ts_ser c :
  (forall bs, make st env ts_ser c = (bs, None) -> exists v, Makes c v)
  /\ (forall v, Makes c v -> make st env ts_ser c = write st env ts_ser v)
  /\ (forall v, Makes c v -> value_ok st env ts_ser v ->
        exists bs t j, make st env ts_ser c = (bs, None) /\ Utf8 t bs /\ read_json t = Some j /\ value_is st env ts_ser v j).
Proof.
  split; [intros bs H; apply (made st env ts_ser); now rewrite H|].
  assert (K := proj1 (makes_all st env ts_ser)). split; [intros v; apply K|]. intros v M O. rewrite (K _ _ M).
  destruct (C44_json st env ts_ser v O) as (bs & t & j & A & D & R & V). exists bs, t, j. repeat split; auto. now apply decode_iff.
Qed.
Print Assumptions C105_returns.

(** Wherever the writing fails (a text that has no UTF-8, a schema that is not one
    of a member, the shape itself raising, a data stream inside a structure, list
    or map), the octets written so far are not a JSON document; except if the
    whole of it was bytes given to [write_data_stream]. *)
Theorem C105_failed_partial st env ts_ser c bs e : make st env ts_ser c = (bs, Some e) ->
  (forall b, c <> CWrite (MDataStream (SBytes b))) ->
  forall t j, Utf8 t bs -> read_json t <> Some j.
Proof. intros M K t j U. exact (not_json st env ts_ser c bs e t j K M U). Qed.
Print Assumptions C105_failed_partial.

(** Those bytes are written as a document, a base64 string, and then refused. *)
Theorem C105_stream_refuted st env ts_ser b : all_bytes b = true ->
  exists bs t s, make st env ts_ser (CWrite (MDataStream (SBytes b))) = (bs, Some unsupported)
    /\ make st env ts_ser (CWrite (MBlob b)) = (bs, None)
    /\ Utf8 t bs /\ read_json t = Some (JStr s) /\ base64 b s.
Proof.
  intros B. destruct (C44_json st env ts_ser (VBlob b) (Ok_blob _ _ _ b B)) as (bs & t & j & A & D & R & V).
  assert (K : exists s, j = JStr s /\ base64 b s) by (inversion V; eauto). destruct K as (s & -> & H). exists bs, t, s. cbn [make json_write]. cbn [write] in A. rewrite A.
  split; [unfold wseq; cbn; now rewrite app_nil_r|]. split; [reflexivity|]. split; [now apply decode_iff|]. now split.
Qed.
Print Assumptions C105_stream_refuted.

(** When a shape raises, what has been written is what it would have written
    anyway up to that point, and that exception is the one the caller gets, unless
    an earlier call failed before it. *)
Theorem C105_raises st env ts_ser c c' e : Raises e c c' ->
  (exists rest, fst (make st env ts_ser c') = fst (make st env ts_ser c) ++ rest)
  /\ (snd (make st env ts_ser c) = Some e
      \/ make st env ts_ser c = make st env ts_ser c' /\ snd (make st env ts_ser c) <> None).
Proof. apply raises. Qed.
Print Assumptions C105_raises.

(** A structure of which the second member's list raises after one element. *)
Definition ex_env (n : N) : node := NStruct [mkMember (lit "a") (Some (lit "A")) 1; mkMember (lit "b") None 2].
Definition ex_ts (f : tformat) (t : Z) : tstext := TNum (FFin (mkDec false 0 0)).
Definition ex_calls (last : call) : call :=
  CStruct 0 [(Some (lit "a"), CWrite (MLong 7)); (Some (lit "b"), CList [CWrite (MString [34]); last]); (Some (lit "a"), CWrite MNull)].
Example C105_raises_ex :
  make (mkSettings true true TEpoch) ex_env ex_ts (ex_calls (CRaise KeyError))
    = (123 :: 34 :: lit "A" ++ 34 :: lit ":7," ++ 34 :: lit "b" ++ 34 :: lit ":[" ++ [34; 92; 34; 34; 44], Some KeyError)
  /\ Raises KeyError (ex_calls (CRaise KeyError)) (ex_calls (CWrite (MBoolean true))).
Proof.
  split; [reflexivity|].
  apply (Ra_struct KeyError 0 [(Some (lit "a"), CWrite (MLong 7))] (lit "b") _ _ [(Some (lit "a"), CWrite MNull)] [(Some (lit "a"), CWrite MNull)]).
  apply (Ra_list KeyError [CWrite (MString [34])] _ _ [] []). constructor.
Qed.
Example C105_returns_ex : exists bs v, make (mkSettings true true TEpoch) ex_env ex_ts (ex_calls (CWrite (MBoolean true))) = (bs, None)
  /\ Makes (ex_calls (CWrite (MBoolean true))) v.
Proof.
  eexists; exists (VStruct 0 [(lit "a", VInt 7); (lit "b", VList [VStr [34]; VBool true]); (lit "a", VNull)]).
  split; [reflexivity|]. unfold ex_calls. repeat constructor.
Qed.
(** A key that is no member, a member whose text is a lone surrogate, a stream in
    a list. *)
Example C105_failed_ex :
  make (mkSettings true true TEpoch) ex_env ex_ts (CStruct 0 [(None, CWrite MNull)]) = ([123], Some ExpectationNotMet)
  /\ make (mkSettings true true TEpoch) ex_env ex_ts (CMap [([0xD800], CWrite MNull)]) = ([123; 34], Some UnicodeError)
  /\ make (mkSettings true true TEpoch) ex_env ex_ts (CList [CWrite (MDataStream (SBytes [0]))])
       = (91 :: 34 :: lit "AA==" ++ [34], Some unsupported).
Proof. repeat split. Qed.
