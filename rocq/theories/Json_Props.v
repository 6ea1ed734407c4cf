(** C43, C44, C45 and C72: what the JSON codec writes is JSON of that value, and
    what it reads is what the events say, no more and no less of them. *)
From Verif Require Import Base Base_Proofs Utf8_Model Utf8_Proofs PyText_Model PySort_Model PyDict_Model PyDecimal_Model Base64_Model Json_Model Json_Spec JsonNum_Proofs Json_Proofs JsonRead_Proofs JsonTyped_Proofs.
Local Open Scope N_scope.

(** ** C43: strings *)

(** The literal of any string of Unicode scalar values is written, is the UTF-8
    of [t], and [t] is a quotation mark followed by a text that a conforming
    reader takes as that string and of which it leaves nothing over (so the
    first unescaped quotation mark is the last character); no character of [t]
    is a control character. *)
Theorem C43_string s : forallb is_scalar s = true ->
  exists bs t, write_string s = (bs, None) /\ utf8_decode bs = Ok (34 :: t)
    /\ read_string t = Some (s, [])
    /\ (forall c, In c (34 :: t) -> 32 <= c).
Proof.
  intros H. assert (V := escape_valid s). rewrite H in V.
  assert (Vt : valid_text (34 :: escape_string s ++ [34]) = true).
  { unfold valid_text in *. cbn [forallb]. rewrite forallb_app, V. reflexivity. }
  destruct (utf8_encode_valid _ Vt) as [bs E]. exists bs, (escape_string s ++ [34]). split; [|split; [|split]].
  - unfold write_string, wtext, wraw, wseq. cbn [snd fst].
    cbn [utf8_encode] in E. change (utf8_encode_cp 34) with (@Ok bytes [34]) in E. cbn [bind] in E.
    destruct (utf8_encode_valid _ V) as [x X].
    assert (Y := utf8_encode_app (escape_string s) [34] x [34] X eq_refl). rewrite Y in E. cbn [bind] in E. injection E as <-.
    rewrite X. cbn [snd fst]. reflexivity.
  - exact (utf8_roundtrip _ _ E).
  - exact (read_string_escape s []).
  - intros c [<-|I]; [lia|]. apply in_app_or in I as [I|[<-|[]]]; [|lia]. eapply escape_string_range; exact I.
Qed.
Print Assumptions C43_string.
Example C43_ex : write_string [34; 0; 10; 233; 128512; 92; 127]
    = ([34] ++ [92; 34] ++ lit "\u0000\n" ++ [195; 169; 240; 159; 152; 128; 92; 92; 127; 34], None).
Proof. reflexivity. Qed.

(** Distinct strings have distinct literals. *)
Theorem C43_injective s t bs : forallb is_scalar s = true -> forallb is_scalar t = true ->
  write_string s = (bs, None) -> write_string t = (bs, None) -> s = t.
Proof.
  intros Hs Ht Ws Wt. destruct (C43_string s Hs) as (b1 & t1 & W1 & D1 & R1 & _). destruct (C43_string t Ht) as (b2 & t2 & W2 & D2 & R2 & _).
  congruence.
Qed.
Print Assumptions C43_injective.

(** ** C44: values *)

(** Every value that has a JSON form: what is written is UTF-8 of a JSON text, and
    the text is that of the value. *)
Theorem C44_json st env ts_ser v : value_ok st env ts_ser v ->
  exists bs t j, write st env ts_ser v = (bs, None) /\ utf8_decode bs = Ok t
    /\ read_json t = Some j /\ value_is st env ts_ser v j.
Proof.
  intros K. destruct (value_written st env ts_ser v K) as (t & j & (bs & E & Wr) & R & V).
  exists bs, t, j. split; [exact Wr|]. split; [exact (utf8_roundtrip _ _ E)|]. split; [now apply reading_json | exact V].
Qed.
Print Assumptions C44_json.

(** A structure with a list of floats, a decimal, a map, a blob and a document. *)
Definition ex_settings : settings := mkSettings true true TEpoch.
Definition ex_env (n : N) : node :=
  match n with
  | 0 => NStruct [mkMember (lit "name") (Some (lit "Name")) 1; mkMember (lit "sizes") None 2; mkMember (lit "extra") None 4;
                  mkMember (lit "at") None 5; mkMember (lit "price") None 6; mkMember (lit "tags") None 7; mkMember (lit "raw") None 9]
  | 1 => NStr | 2 => NList true 3 | 3 => NFloat | 4 => NDoc | 5 => NTime None | 6 => NDecimal | 7 => NMap false 8 | 8 => NInt | _ => NBlob
  end.
(** Whole seconds: the number of seconds with one digit after the point. *)
Definition ex_ser (f : tformat) (t : Z) : tstext := TNum (FFin (mkDec (Z.ltb t 0) (Z.to_N (Z.abs t / 100000)) (-1))).
Definition ex_de (f : tformat) (s : tstext) : result Z :=
  match s with
  | TNum (FFin d) => Ok (let (m, e) := dec_value d in if Z.ltb e 0 then m * 1000000 / 10 ^ (- e) else m * 1000000 * 10 ^ e)%Z
  | _ => Err ValueError
  end.
(** A [float] that knows three numbers. *)
Definition same_valueb (a b : Z * Z) : bool :=
  let k := Z.min (snd a) (snd b) in Z.eqb (fst a * 10 ^ (snd a - k)) (fst b * 10 ^ (snd b - k)).
Definition ex_table : list decimal := [mkDec false 15 (-1); mkDec true 1 22; mkDec false 20 (-1)].
Definition ex_float (d : decimal) : float :=
  match find (fun x => Bool.eqb (d_neg d) (d_neg x) && same_valueb (dec_value d) (dec_value x)) ex_table with
  | Some x => FFin x
  | None => FNaN
  end.
Lemma same_valueb_iff a b : same_valueb a b = true <-> same_value a b.
Proof. unfold same_valueb, same_value. apply Z.eqb_eq. Qed.
Lemma ex_by_value : by_value ex_float.
Proof.
  intros d d' N V. unfold ex_float.
  assert (X : forall x, same_valueb (dec_value d) (dec_value x) = same_valueb (dec_value d') (dec_value x)).
  { intros x. apply Bool.eq_true_iff_eq. rewrite !same_valueb_iff. split; intros H.
    - eapply same_value_trans; [apply same_value_sym; exact V | exact H].
    - eapply same_value_trans; [exact V | exact H]. }
  unfold ex_table. cbn [find]. now rewrite N, !X.
Qed.
Definition ex_value : value :=
  VStruct 0 [(lit "name", VStr (lit "a""b")); (lit "sizes", VList [VFloat (FFin (mkDec false 15 (-1))); VNull; VFloat FInf; VFloat (FFin (mkDec true 1 22))]);
    (lit "extra", VDoc (PDict [(lit "", PDict []); (lit "k", PList [PInt (-3); PNull])]));
    (lit "price", VDecimal (BFin (mkDec false 12500 (-3)))); (lit "at", VTime None 2000000); (lit "tags", VMap [(lit "x", VInt 7)]); (lit "raw", VBlob [1; 2; 3; 255])].
Lemma ex_member k m m' : has_member ex_env 0 k m -> has_member ex_env 0 k m' -> m' = m.
Proof.
  intros (ms & E & I & N) (ms' & E' & I' & N'). cbn in E, E'. injection E as <-. injection E' as <-. subst k.
  repeat (destruct I as [<-|I]; [repeat (destruct I' as [<-|I']; [first [reflexivity | exfalso; revert N'; vm_compute; congruence]|]); destruct I'|]).
  destruct I.
Qed.
Lemma ex_mem i m : nth_error (members_of ex_env 0) i = Some m ->
  exists m', has_member ex_env 0 (m_name m) m' /\ (forall m'', has_member ex_env 0 (m_name m) m'' -> m'' = m')
    /\ forall w, on_wire ex_settings m' w -> forallb is_scalar w = true.
Proof.
  intros H. apply nth_error_In in H.
  assert (X : has_member ex_env 0 (m_name m) m) by (eexists; split; [reflexivity | split; [exact H | reflexivity]]).
  exists m. split; [exact X|]. split; [intros m''; now apply ex_member|].
  repeat (destruct H as [<-|H]; [intros w ->; reflexivity|]). destruct H.
Qed.
Example C44_ex : value_ok ex_settings ex_env ex_ser ex_value
  /\ write ex_settings ex_env ex_ser ex_value
     = (lit "{""Name"":""a\""b"",""sizes"":[1.5,null,""Infinity"",-1e+22],""extra"":{"""":{},""k"":[-3,null]},""price"":12.5,""at"":2.0,""tags"":{""x"":7},""raw"":""AQID/w==""}", None).
Proof.
  split; [|vm_compute; reflexivity].
  apply Ok_struct. repeat apply Forall_cons; [..|apply Forall_nil]; (split; [|cbn [snd]]).
  - exact (ex_mem 0 _ eq_refl).
  - now constructor.
  - exact (ex_mem 1 _ eq_refl).
  - constructor. repeat apply Forall_cons; [..|apply Forall_nil]; constructor; cbn; try exact I; discriminate.
  - exact (ex_mem 2 _ eq_refl).
  - constructor. constructor. repeat apply Forall_cons; [..|apply Forall_nil]; cbn [fst snd]; (split; [reflexivity|]); repeat constructor.
  - exact (ex_mem 4 _ eq_refl).
  - constructor. vm_compute. reflexivity.
  - exact (ex_mem 3 _ eq_refl).
  - constructor. intros f _. cbn. discriminate.
  - exact (ex_mem 5 _ eq_refl).
  - repeat constructor.
  - exact (ex_mem 6 _ eq_refl).
  - now constructor.
Qed.

(** Nothing that is not JSON can be written for such a value, but a NaN is written
    as a bare word, which no JSON reader accepts: the value is lost. *)
Theorem C44_nan_refuted st env ts_ser : exists v bs, write st env ts_ser v = (bs, None)
  /\ (v = VFloat FNaN \/ v = VList [VFloat FNaN]) /\ forall t, utf8_decode bs = Ok t -> read_json t = None.
Proof.
  exists (VFloat FNaN), (lit "NaN"). split; [reflexivity|]. split; [now left|]. intros t E. vm_compute in E. injection E as <-. reflexivity.
Qed.
Print Assumptions C44_nan_refuted.
(** A decimal of more than 28 significant digits is written as another number. *)
Theorem C44_big_decimal_refuted st env ts_ser : exists d bs t j,
  write st env ts_ser (VDecimal (BFin d)) = (bs, None) /\ utf8_decode bs = Ok t /\ read_json t = Some j
  /\ forall n, j = JNum n -> ~ same_value (num_value n) (dec_value d).
Proof.
  exists (mkDec false 12345678901234567890123456789 0).
  eexists _, _, _. split; [vm_compute; reflexivity|]. split; [vm_compute; reflexivity|]. split; [vm_compute; reflexivity|].
  intros n [= <-]. unfold same_value. vm_compute. discriminate.
Qed.
Print Assumptions C44_big_decimal_refuted.

(** ** C45: reading takes the events of the value, all of them and no others *)

Theorem C45_skip path v fuel : clear_path path v -> (List.length (events path v) <= fuel)%nat ->
  consumes (skip fuel) (events path v) tt.
Proof. apply skip_consumes. Qed.
Print Assumptions C45_skip.
Theorem C45_document path v fuel : clear_path path v -> (List.length (events path v) <= fuel)%nat ->
  consumes (read_document fuel) (events path v) (to_plain v).
Proof. apply document_consumes. Qed.
Print Assumptions C45_document.
(** A structure: members it does not know are passed over whole, whatever they
    hold; so are nulls, but for documents; each other member is given to the
    consumer in turn, and everything up to the end of the object is read. *)
Theorem C45_structure A st env ms (consumer : member -> A -> R A) (upd : member -> json -> A -> A -> Prop) path l fuel acc acc' :
  distinct st ms ->
  (forall k j m acc acc1, In (k, j) l -> In m ms -> on_wire st m k -> j <> JNull \/ env (m_target m) = NDoc ->
     upd m j acc acc1 -> consumes (consumer m acc) (events (path ++ [k]) j) acc1) ->
  struct_reads st (fun m => env (m_target m) = NDoc) ms upd l acc acc' ->
  (List.length (events path (JObj l)) <= fuel)%nat ->
  consumes (read_struct st env fuel ms consumer acc) (events path (JObj l)) acc'.
Proof. apply struct_consumes. Qed.
Print Assumptions C45_structure.
Theorem C45_list A (consumer : A -> R A) (upd : json -> A -> A -> Prop) path l fuel acc acc' :
  (forall j acc acc1, In j l -> upd j acc acc1 -> consumes (consumer acc) (events (path ++ [lit "item"]) j) acc1) ->
  in_turn upd l acc acc' -> (List.length (events path (JArr l)) <= fuel)%nat ->
  consumes (read_list fuel consumer acc) (events path (JArr l)) acc'.
Proof. apply list_consumes. Qed.
Print Assumptions C45_list.
Theorem C45_map A (consumer : text -> A -> R A) (upd : text * json -> A -> A -> Prop) path l fuel acc acc' :
  (forall k j acc acc1, In (k, j) l -> upd (k, j) acc acc1 -> consumes (consumer k acc) (events (path ++ [k]) j) acc1) ->
  in_turn upd l acc acc' -> (List.length (events path (JObj l)) <= fuel)%nat ->
  consumes (read_map fuel consumer acc) (events path (JObj l)) acc'.
Proof. apply map_consumes. Qed.
Print Assumptions C45_map.

(** The reading of a structure exists whatever the object: an unknown member may
    hold objects that have the members of the structure, and nothing of it is
    taken for one. *)
Definition ex_members : list member := [mkMember (lit "a") None 0; mkMember (lit "d") None 1].
Definition ex_obj : list (text * json) :=
  [(lit "z", JObj [(lit "a", JNull); (lit "z", JArr [JObj []; JStr (lit "a")])]); (lit "d", JNull);
   (lit "a", JNull); (lit "a", JStr (lit "x"))].
Definition ex_consumer (m : member) (acc : list (text * value)) : R (list (text * value)) :=
  if is_document (fun n => if n =? 1 then NDoc else NStr) m then get p <- read_document 100; ret (acc ++ [(m_name m, VDoc p)])
  else get s <- read_text; ret (acc ++ [(m_name m, VStr s)]).
Example C45_ex : distinct ex_settings ex_members
  /\ exists p', read_struct ex_settings (fun n => if n =? 1 then NDoc else NStr) 100 ex_members ex_consumer []
       (mkParser None (events [] (JObj ex_obj) ++ [mkEv [] TkEndArr]) OSError)
     = Some (p', Ok [(lit "d", VDoc PNull); (lit "a", VStr (lit "x"))]) /\ ahead p' = [mkEv [] TkEndArr].
Proof.
  split; [|eexists; split; vm_compute; reflexivity].
  split; intros m m'.
  - intros [<-|[<-|[]]] [<-|[<-|[]]]; vm_compute; congruence.
  - intros k [<-|[<-|[]]] [<-|[<-|[]]]; vm_compute; congruence.
Qed.

(** Passing over or reading as a document an object that is the whole text and
    has a member with an empty name which is an object stops at the end of that
    member. *)
Theorem C45_top_document_refuted : exists v p', 
  read_document 100 (mkParser None (events [] v) OSError) = Some (p', Ok (PDict [([], PDict [])]))
  /\ v = JObj [([], JObj []); (lit "b", JBool true)] /\ ahead p' <> []
  /\ to_plain v = PDict [([], PDict []); (lit "b", PBool true)].
Proof.
  eexists _, _. split; [|split; [reflexivity|]]; [vm_compute; reflexivity|]. split; [discriminate | reflexivity].
Qed.
Print Assumptions C45_top_document_refuted.

(** ** C72: what was written is read back *)

(** A value of a schema, written and read by that schema from the events of the
    text, comes back as it was (decimals by value), and exactly the events of the
    text are taken. *)
Theorem C72_codec st env ts_ser ts_de float_of n v :
  by_value float_of -> value_ok st env ts_ser v -> typed st env ts_ser ts_de float_of n v ->
  exists bs t j v', write st env ts_ser v = (bs, None) /\ utf8_decode bs = Ok t /\ read_json t = Some j /\ same v v'
    /\ ((forall p, v = VDoc p -> clear_path [] j) -> forall fuel, (List.length (events [] j) < fuel)%nat ->
         consumes (read_shape st env ts_de float_of fuel n) (events [] j) v').
Proof.
  intros B K T. destruct (C44_json _ _ _ _ K) as (bs & t & j & Wr & D & Rj & V).
  destruct (value_back st env ts_ser ts_de float_of B v n j T V) as (v' & S & Rd).
  exists bs, t, j, v'. split; [exact Wr|]. split; [exact D|]. split; [exact Rj|]. split; [exact S|].
  intros C fuel L. apply Rd; [|exact L]. unfold clear_for. destruct v; try exact I. eapply C; reflexivity.
Qed.
Print Assumptions C72_codec.

Definition ex_back : option value :=
  match read_json (fst (write ex_settings ex_env ex_ser ex_value)) with
  | Some j => match read_shape ex_settings ex_env ex_de ex_float 100 0 (mkParser None (events [] j) OSError) with
              | Some (_, Ok v) => Some v
              | _ => None
              end
  | None => None
  end.
Example C72_ex : by_value ex_float /\ typed ex_settings ex_env ex_ser ex_de ex_float 0 ex_value
  /\ exists v', ex_back = Some v' /\ same ex_value v'.
Proof.
  split; [apply ex_by_value|]. split.
  - eapply T_struct; [reflexivity| | |].
    + split; intros m m'.
      * intros I I' N. assert (X := nth_error_In). apply (ex_member (m_name m')); (eexists; split; [reflexivity|]; split; [assumption | congruence]).
      * intros k I I' N N'.
        repeat (destruct I as [<-|I]; [repeat (destruct I' as [<-|I']; [first [reflexivity | exfalso; revert N N'; vm_compute; congruence]|]); destruct I'|]).
        destruct I.
    + repeat constructor; vm_compute; intuition discriminate.
    + repeat apply Forall_cons; [..|apply Forall_nil].
      * eexists; split; [left; reflexivity|]; split; [reflexivity|]. now constructor.
      * eexists; split; [do 1 right; left; reflexivity|]; split; [reflexivity|]. eapply T_list; [reflexivity|].
        repeat apply Forall_cons; [..|apply Forall_nil]; try (right; split; [constructor; reflexivity | discriminate]). left. now split.
      * eexists; split; [do 2 right; left; reflexivity|]; split; [reflexivity|]. constructor; [reflexivity|].
        repeat constructor; vm_compute; intuition discriminate.
      * eexists; split; [do 4 right; left; reflexivity|]; split; [reflexivity|]. now constructor.
      * eexists; split; [do 3 right; left; reflexivity|]; split; [reflexivity|]. constructor; [reflexivity|]. intros f ->. vm_compute. auto.
      * eexists; split; [do 5 right; left; reflexivity|]; split; [reflexivity|]. eapply T_map; [reflexivity | repeat constructor; intros []|].
        constructor; [|constructor]. right. split; [now constructor | discriminate].
      * eexists; split; [do 6 right; left; reflexivity|]; split; [reflexivity|]. now constructor.
  - eexists. split; [vm_compute; reflexivity|].
    repeat constructor.
Qed.

(** An infinite decimal is written as the string Infinity, which the reader of
    decimals refuses. *)
Theorem C72_infinite_decimal_refuted st env ts_ser ts_de float_of n fuel p : env n = NDecimal -> exists bs t j,
  write st env ts_ser (VDecimal BInf) = (bs, None) /\ utf8_decode bs = Ok t /\ read_json t = Some j
  /\ exists p', read_shape st env ts_de float_of (S fuel) n (mkParser None (events [] j) p) = Some (p', Err SmithyErr).
Proof.
  intros E. eexists _, _, _. split; [reflexivity|]. split; [vm_compute; reflexivity|]. split; [vm_compute; reflexivity|].
  eexists. rewrite read_shape_eq, E. reflexivity.
Qed.
Print Assumptions C72_infinite_decimal_refuted.
(** A document that holds null, in a collection that is not sparse, is dropped. *)
Theorem C72_null_document_refuted st env ts_ser ts_de float_of n t p : env n = NList false t -> env t = NDoc -> exists bs s j,
  write st env ts_ser (VList [VDoc (PBool true); VDoc PNull]) = (bs, None) /\ utf8_decode bs = Ok s /\ read_json s = Some j
  /\ exists p', read_shape st env ts_de float_of 20 n (mkParser None (events [] j) p) = Some (p', Ok (VList [VDoc (PBool true)])).
Proof.
  intros E Et. eexists _, _, _. split; [reflexivity|]. split; [vm_compute; reflexivity|]. split; [vm_compute; reflexivity|].
  eexists. rewrite read_shape_eq, E. cbn -[read_shape]. rewrite read_shape_eq, Et. cbn. reflexivity.
Qed.
Print Assumptions C72_null_document_refuted.
