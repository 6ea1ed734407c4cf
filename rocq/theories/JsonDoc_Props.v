(** JSON read as a shape, directly and by way of a document. *)
From Verif Require Import Base Base_Proofs Utf8_Model PyText_Model PySort_Model PyDict_Model PyDecimal_Model Base64_Model Json_Model Json_Spec JsonRead_Proofs JsonTyped_Proofs JsonDoc_Model JsonDoc_Spec JsonDoc_Proofs JsonExact_Proofs.
Local Open Scope N_scope.

(** Whatever a JSON value says as a value of a schema, with members in any order,
    unknown members, nulls, integers for floats, is what is read from it.  The
    schema's structures have no two members of the same name. *)
Theorem C83_read st env ts_de float_of j n v path fuel :
  (forall n ms, env n = NStruct ms -> distinct st ms) ->
  keys_once j -> clear_path path j -> says false st env ts_de float_of n j v ->
  (List.length (events path j) < fuel)%nat ->
  exists v', consumes (read_shape st env ts_de float_of fuel n) (events path j) v'
    /\ says false st env ts_de float_of n j v' /\ alike v v'.
Proof.
  intros Hd K C S L. destruct (says_gives st env ts_de float_of Hd j K n v S) as (v' & S' & R). exists v'.
  split; [now apply R|]. split; [exact S'|].
  eapply says_alike with (b1 := false) (b2 := false) (st1 := st) (st2 := st); try eassumption; try reflexivity.
  - intros n0 ms m m' E I I'. apply (Hd n0 ms E); auto.
  - now left.
Qed.
Print Assumptions C83_read.

(** Reading gives what the JSON says, or raises when it says nothing. *)
Theorem C83_exact st env ts_de float_of j n path fuel :
  (forall n ms, env n = NStruct ms -> distinct st ms) ->
  (forall f t, ts_de TEpoch (TNum f) = Ok t -> exists d, f = FFin d) ->
  keys_once j -> clear_path path j -> (List.length (events path j) < fuel)%nat ->
  ((exists v, consumes (read_shape st env ts_de float_of fuel n) (events path j) v)
   \/ refuses (read_shape st env ts_de float_of fuel n) (events path j))
  /\ (forall v, consumes (read_shape st env ts_de float_of fuel n) (events path j) v -> says false st env ts_de float_of n j v)
  /\ (refuses (read_shape st env ts_de float_of fuel n) (events path j) <-> forall v, ~ says false st env ts_de float_of n j v).
Proof.
  intros Hd Hi K C L. destruct (says_or_bad st env ts_de float_of Hd Hi j K n) as [[v S]|B].
  - destruct (C83_read st env ts_de float_of j n v path fuel Hd K C S L) as (v' & R & S' & _).
    split; [left; now exists v'|]. split.
    + intros w W. now rewrite (consumes_one _ _ _ _ W R).
    + split; [intros X; elim (refuses_not _ _ _ X R) | intros X; elim (X v S)].
  - specialize (B path fuel C L). split; [now right|]. split.
    + intros w W. elim (refuses_not _ _ _ B W).
    + split; [|intros _; exact B]. intros _ v S. destruct (C83_read st env ts_de float_of j n v path fuel Hd K C S L) as (v' & R & _).
      elim (refuses_not _ _ _ B R).
Qed.
Print Assumptions C83_exact.

(** A document is converted to what its JSON says when neither [jsonName] nor
    [timestampFormat] is heeded, numbers for floats and decimals have to be
    written with a point or an exponent, and nulls are values: then, and only
    then, does it not raise. *)
Theorem C83_document st env ts_de float_of j n :
  (forall n ms, env n = NStruct ms -> NoDup (map m_name ms)) -> keys_once j ->
  (forall v, as_shape env (default_ts st) ts_de float_of (to_plain j) n = Ok v -> says true (no_traits st) env ts_de float_of n j v)
  /\ (forall v, says true (no_traits st) env ts_de float_of n j v ->
        exists v', as_shape env (default_ts st) ts_de float_of (to_plain j) n = Ok v' /\ alike v v').
Proof.
  intros Hd K. split.
  - intros v E. exact (document_sound st env ts_de float_of Hd j K n v E).
  - intros v S. destruct (document_total st env ts_de float_of Hd j K n v S) as [v' E]. exists v'. split; [exact E|].
    apply (document_sound st env ts_de float_of Hd j K n) in E.
    eapply says_alike with (b1 := true) (b2 := true) (st1 := no_traits st) (st2 := no_traits st); try eassumption; try reflexivity.
    + intros n0 ms m m' En I I' Em. specialize (Hd n0 ms En). clear - Hd I I' Em. induction ms as [|m0 ms IH]; [destruct I|].
      cbn [map] in Hd. inversion Hd as [|? ? D0 D1]; subst. destruct I as [->|I], I' as [->|I']; auto.
      * elim D0. rewrite Em. now apply in_map.
      * elim D0. rewrite <- Em. now apply in_map.
    + now left.
Qed.
Print Assumptions C83_document.

(** Hence the two ways agree wherever both read anything, if the schemas use
    neither trait (and no structure is without members). *)
Theorem C83_agree st env ts_de float_of j n v w path fuel :
  (forall n ms, env n = NStruct ms -> distinct st ms /\ NoDup (map m_name ms) /\ ms <> []) ->
  (forall n ms m, env n = NStruct ms -> In m ms -> m_json m = None \/ use_json_name st = false) ->
  (forall n a, env n = NTime a -> a = None \/ a = Some (default_ts st) \/ use_ts_format st = false) ->
  keys_once j -> clear_path path j -> (List.length (events path j) < fuel)%nat ->
  says false st env ts_de float_of n j v -> as_shape env (default_ts st) ts_de float_of (to_plain j) n = Ok w ->
  exists v', consumes (read_shape st env ts_de float_of fuel n) (events path j) v' /\ alike v' w.
Proof.
  intros Hs Hj Ht K C L S E.
  destruct (C83_read st env ts_de float_of j n v path fuel) as (v' & R & S' & _); auto.
  { intros n0 ms En. now apply (Hs n0). }
  exists v'. split; [exact R|].
  apply C83_document in E; [| intros n0 ms En; now apply (Hs n0 ms) | exact K].
  eapply says_alike with (b1 := false) (b2 := true) (st1 := st) (st2 := no_traits st); try eassumption.
  - intros n0 ms m wn En I. rewrite on_wire_plain. unfold on_wire. destruct (Hj n0 ms m En I) as [H|H]; rewrite H; [reflexivity|].
    destruct (m_json m); reflexivity.
  - intros n0 a f En. rewrite force_plain. unfold format_in_force. destruct (Ht n0 a En) as [H|[H|H]].
    + subst a. reflexivity.
    + subst a. destruct (use_ts_format st); reflexivity.
    + rewrite H. destruct a; reflexivity.
  - intros n0 ms m m' En I I' Em. destruct (Hs n0 ms En) as ([D _] & _). auto.
  - right. intros n0 En. now destruct (Hs n0 [] En) as (_ & _ & H).
Qed.
Print Assumptions C83_agree.

(** The plain value of a document is its JSON value. *)
Theorem C83_value j : as_value (to_plain j) = to_plain j.
Proof. apply as_value_same. Qed.
Print Assumptions C83_value.

(** ** A case, and where the two ways part *)

Definition ex_env (n : N) : node :=
  match n with
  | 0 => NStruct [mkMember (lit "count") (Some (lit "c")) 1; mkMember (lit "ratio") None 2; mkMember (lit "tags") None 3;
                  mkMember (lit "when") None 5; mkMember (lit "any") None 6]
  | 1 => NInt
  | 2 => NFloat
  | 3 => NList true 4
  | 4 => NStr
  | 5 => NTime (Some THttpDate)
  | _ => NDoc
  end.
Definition ex_st (names : bool) : settings := mkSettings names names TEpoch.
(** Timestamps in seconds; a text is a timestamp in [THttpDate] only. *)
Definition ex_de (f : tformat) (x : tstext) : result Z :=
  match f, x with
  | TEpoch, TNum (FFin d) => Ok (if d_neg d then - Z.of_N (d_coeff d) else Z.of_N (d_coeff d))%Z
  | THttpDate, TText s => Ok (Z.of_nat (List.length s))
  | _, _ => Err ExpectationNotMet
  end.
Definition num (neg : bool) (i f : string) : json := JNum (mkNum neg (lit i) (lit f) None).
(** [{"unknown": {"a": null}, "tags": ["x", null], "count": 12, "when": 99, "ratio": -1.50, "any": null}] *)
Definition ex_json : json :=
  JObj [(lit "unknown", JObj [(lit "a", JNull)]); (lit "tags", JArr [JStr (lit "x"); JNull]);
        (lit "count", num false "12" ""); (lit "when", num false "99" ""); (lit "ratio", num true "1" "50"); (lit "any", JNull)].
Definition ex_out : value :=
  VStruct 0 [(lit "count", VInt 12); (lit "ratio", VFloat (FFin (mkDec true 150 (-2)))); (lit "tags", VList [VStr (lit "x"); VNull]);
             (lit "when", VTime (Some THttpDate) 99); (lit "any", VDoc PNull)].

Ltac nodup := repeat (apply NoDup_cons; [cbn; intuition discriminate|]); apply NoDup_nil.
Lemma ex_schemas n ms : ex_env n = NStruct ms -> distinct (ex_st false) ms /\ NoDup (map m_name ms) /\ ms <> [].
Proof.
  intros E. assert (n = 0 /\ ms = match ex_env 0 with NStruct ms => ms | _ => [] end) as [-> ->].
  { destruct n as [|[[|[]|]|[|[]|]|]]; try discriminate E. split; [reflexivity|]. now injection E. }
  split; [|split; [cbn [map ex_env m_name]; nodup | discriminate]].
  split.
  - intros m m' I I' Em. cbn [ex_env In] in I, I'.
    repeat (destruct I as [<-|I]; [repeat (destruct I' as [<-|I']; [try reflexivity; discriminate Em|]); destruct I'|]). destruct I.
  - intros m m' k I I' W W'. assert (Em : m_name m = m_name m').
    { unfold on_wire in W, W'. cbn [use_json_name ex_st] in W, W'. destruct (m_json m), (m_json m'); congruence. }
    cbn [ex_env In] in I, I'.
    repeat (destruct I as [<-|I]; [repeat (destruct I' as [<-|I']; [try reflexivity; discriminate Em|]); destruct I'|]). destruct I.
Qed.
Example C83_ex : as_shape ex_env TEpoch ex_de FFin (to_plain ex_json) 0 = Ok ex_out
  /\ keys_once ex_json /\ clear_path [] ex_json
  /\ says true (no_traits (ex_st false)) ex_env ex_de FFin 0 ex_json ex_out
  /\ says false (ex_st false) ex_env ex_de FFin 0 ex_json ex_out.
Proof.
  assert (A : as_shape ex_env TEpoch ex_de FFin (to_plain ex_json) 0 = Ok ex_out) by reflexivity.
  assert (K : keys_once ex_json).
  { apply KO_obj; [cbn [map fst]; nodup|]. apply Forall_cons; [|apply Forall_cons; [|repeat constructor]]; cbn [snd].
    - apply KO_obj; [cbn [map fst]; nodup | repeat constructor].
    - apply KO_arr. repeat constructor. }
  split; [exact A|]. split; [exact K|]. split.
  { intros k j I. cbn [ex_json In] in I. destruct I as [E|I]; [injection E as <- _; discriminate|].
    exfalso. repeat (destruct I as [E|I]; [discriminate E|]). destruct I. }
  split.
  - apply C83_document; [|exact K | exact A]. intros n ms E. now apply (ex_schemas n).
  - eapply Sy_struct; [reflexivity | cbn [map fst]; nodup | |].
    + intros k v I. cbn [In] in I. repeat destruct I as [[= <- <-]|I]; try (now elim I).
      * exists (mkMember (lit "count") (Some (lit "c")) 1), (lit "count"), (num false "12" "").
        split; [cbn; auto|]. split; [reflexivity|]. split; [reflexivity|]. split; [cbn; auto|]. split; [right; left; discriminate|]. now apply Sy_int.
      * exists (mkMember (lit "ratio") None 2), (lit "ratio"), (num true "1" "50").
        split; [cbn; auto|]. split; [reflexivity|]. split; [reflexivity|]. split; [cbn; auto 7|]. split; [right; left; discriminate|]. now apply Sy_float.
      * exists (mkMember (lit "tags") None 3), (lit "tags"), (JArr [JStr (lit "x"); JNull]).
        split; [cbn; auto|]. split; [reflexivity|]. split; [reflexivity|]. split; [cbn; auto|]. split; [right; left; discriminate|].
        eapply Sy_list; [reflexivity|]. constructor; [right; split; [discriminate | now apply Sy_str]|]. constructor; [now left | constructor].
      * exists (mkMember (lit "when") None 5), (lit "when"), (num false "99" "").
        split; [cbn; auto|]. split; [reflexivity|]. split; [reflexivity|]. split; [cbn; auto 7|]. split; [right; left; discriminate|].
        eapply Sy_time_int with (f := TEpoch); try reflexivity. now left.
      * exists (mkMember (lit "any") None 6), (lit "any"), JNull.
        split; [cbn; auto 7|]. split; [reflexivity|]. split; [reflexivity|]. split; [cbn; auto 8|]. split; [right; right; reflexivity|].
        now apply (Sy_doc false (ex_st false) ex_env ex_de FFin 6 JNull).
    + intros m w j I _ _ _. cbn [ex_env In] in I. cbn [In].
      repeat (destruct I as [<-|I]; [eexists; cbn [m_name]; auto 7|]). destruct I.
Qed.

Notation direct j n v := (exists v', consumes (read_shape (ex_st true) ex_env ex_de FFin 9 n) (events [] j) v' /\ alike v v').
Notation by_document j n r := (as_shape ex_env TEpoch ex_de FFin (to_plain j) n = r).
Definition ex_ms : list member := match ex_env 0 with NStruct ms => ms | _ => [] end.
Lemma ex_named n ms : ex_env n = NStruct ms -> distinct (ex_st true) ms.
Proof.
  intros E. destruct (ex_schemas n ms E) as ([D _] & _). split; [exact D|]. clear D.
  assert (ms = ex_ms) as ->.
  { destruct n as [|[[|[]|]|[|[]|]|]]; try discriminate E. now injection E. }
  intros m m' k I I' W W'. unfold ex_ms in I, I'. cbn [ex_env In] in I, I'.
  repeat (destruct I as [<-|I];
    [repeat (destruct I' as [<-|I']; [try reflexivity; unfold on_wire in W, W'; cbn [use_json_name ex_st m_json m_name] in W, W'; rewrite W in W'; discriminate W'|]); destruct I'|]). destruct I.
Qed.
Lemma ex_direct j v : keys_once j -> clear_path [] j -> says false (ex_st true) ex_env ex_de FFin 0 j v -> (List.length (events [] j) < 9)%nat -> direct j 0 v.
Proof.
  intros K C S L. destruct (C83_read (ex_st true) ex_env ex_de FFin j 0 v [] 9) as (v' & R & _ & A); auto.
  - exact ex_named.
  - now exists v'.
Qed.
Lemma ex_single m w x v : In m ex_ms -> on_wire (ex_st true) m w -> x <> JNull -> says false (ex_st true) ex_env ex_de FFin (m_target m) x v ->
  says false (ex_st true) ex_env ex_de FFin 0 (JObj [(w, x)]) (VStruct 0 [(m_name m, v)]).
Proof.
  intros I W X S. apply Sy_struct with (ms := ex_ms); [reflexivity | cbn [map fst]; repeat constructor; intros []| |].
  - intros k v' [[= <- <-]|[]]. exists m, w, x. split; [exact I|]. split; [reflexivity|]. split; [exact W|]. split; [now left|]. split; [right; now left | exact S].
  - intros m' w' j' I' W' [[= <- <-]|[]] _. exists v. left. f_equal. now rewrite ((proj2 (ex_named 0 ex_ms eq_refl)) m m' w I I' W W').
Qed.
(** [{"c": 1.5}] is refused, since [count] is an integer. *)
Example C83_exact_ex : refuses (read_shape (ex_st true) ex_env ex_de FFin 9 0) (events [] (JObj [(lit "c", num false "1" "5")])).
Proof.
  apply (C83_exact (ex_st true) ex_env ex_de FFin (JObj [(lit "c", num false "1" "5")]) 0 [] 9).
  - exact ex_named.
  - intros f t E. destruct f as [| | |d]; try discriminate E. now exists d.
  - apply KO_obj; [cbn [map fst]; repeat constructor; intros [] | repeat constructor].
  - now intros k j [[= <- <-]|[]].
  - cbn. lia.
  - intros v S. inversion S; subst; try discriminate.
    match goal with E : ex_env 0 = _, X : forall k v, In (k, v) kw -> _, Y : forall m w j, _ -> _ -> _ -> _ -> exists v, In _ kw |- _ => rename E into En; rename X into A1; rename Y into A2 end.
    injection En as <-. destruct (A2 (mkMember (lit "count") (Some (lit "c")) 1) (lit "c") (num false "1" "5")) as [w I].
    + now left.
    + reflexivity.
    + now left.
    + right. left. discriminate.
    + destruct (A1 _ _ I) as (m & w' & j & Im & Nm & W & [[= <- <-]|[]] & _ & Sm).
      assert (m = mkMember (lit "count") (Some (lit "c")) 1).
      { apply (proj2 (ex_named 0 ex_ms eq_refl)) with (k := lit "c"); [exact Im | now left | exact W | reflexivity]. }
      subst m. inversion Sm; subst; discriminate.
Qed.
Ltac single := apply ex_direct;
  [apply KO_obj; [cbn [map fst]; repeat constructor; intros [] | repeat constructor]
  | intros k j I; destruct I as [E|I]; [injection E as <- _; discriminate | destruct I]
  | | cbn; lia].

(** The claim fails without the conditions.  [jsonName] and [timestampFormat] are
    lost on a document: a member sent under its [jsonName] is not found. *)
Theorem C83_name_refuted : exists j, direct j 0 (VStruct 0 [(lit "count", VInt 12)]) /\ by_document j 0 (Ok (VStruct 0 [])).
Proof.
  exists (JObj [(lit "c", num false "12" "")]). split; [|reflexivity]. single.
  apply (ex_single (mkMember (lit "count") (Some (lit "c")) 1)); [cbn; auto | reflexivity | discriminate | now apply Sy_int].
Qed.
Print Assumptions C83_name_refuted.
(** A timestamp in the format of its trait raises. *)
Theorem C83_format_refuted : exists j e, direct j 0 (VStruct 0 [(lit "when", VTime (Some THttpDate) 3)]) /\ by_document j 0 (Err e).
Proof.
  exists (JObj [(lit "when", JStr (lit "Tue"))]), ExpectationNotMet. split; [|reflexivity]. single.
  apply (ex_single (mkMember (lit "when") None 5)); [cbn; auto 7 | reflexivity | discriminate|].
  eapply Sy_time_text with (f := THttpDate); try reflexivity. left. discriminate.
Qed.
Print Assumptions C83_format_refuted.
(** A member that is null raises; so does a float without a point, and an infinite one. *)
Theorem C83_null_refuted : exists j e, direct j 0 (VStruct 0 []) /\ by_document j 0 (Err e).
Proof.
  exists (JObj [(lit "ratio", JNull)]), ExpectationNotMet. split; [|reflexivity]. single.
  apply Sy_struct with (ms := ex_ms); [reflexivity | constructor | intros k v []|].
  intros m w j I W [[= <- <-]|[]] [D|[D|D]]; [discriminate D | now elim D|]. exfalso. unfold ex_ms in I. cbn [ex_env In] in I.
  repeat (destruct I as [<-|I]; [solve [discriminate D | discriminate W]|]). destruct I.
Qed.
Print Assumptions C83_null_refuted.
Theorem C83_integer_refuted : exists j e, direct j 0 (VStruct 0 [(lit "ratio", VInt 5)]) /\ by_document j 0 (Err e).
Proof.
  exists (JObj [(lit "ratio", num false "5" "")]), ExpectationNotMet. split; [|reflexivity]. single.
  apply (ex_single (mkMember (lit "ratio") None 2)); [cbn; auto | reflexivity | discriminate | now apply Sy_float_int].
Qed.
Print Assumptions C83_integer_refuted.
Theorem C83_infinity_refuted : exists j e, direct j 0 (VStruct 0 [(lit "ratio", VFloat FInf)]) /\ by_document j 0 (Err e).
Proof.
  exists (JObj [(lit "ratio", JStr (lit "Infinity"))]), ExpectationNotMet. split; [|reflexivity]. single.
  apply (ex_single (mkMember (lit "ratio") None 2)); [cbn; auto | reflexivity | discriminate | now apply Sy_inf].
Qed.
Print Assumptions C83_infinity_refuted.
