(** Direct reading gives what the JSON says or fails. *)
From Verif Require Import Base Base_Proofs PyDict_Model PyDict_Proofs PyText_Model PyDecimal_Model Base64_Model Base64_Spec Base64Rfc_Proofs Json_Model Json_Spec Json_Proofs JsonNum_Proofs JsonRead_Proofs JsonTyped_Proofs JsonDoc_Spec JsonDoc_Proofs.
Local Open Scope N_scope.

Lemma refuses_fail {A} e evs : @refuses A (rfail e) evs.
Proof. intros p rest _. exists p, e. reflexivity. Qed.
Lemma refuses_l {A B} (r : R A) (k : A -> R B) e1 e2 : refuses r e1 -> refuses (rbind r k) (e1 ++ e2).
Proof. intros H p rest E. rewrite <- app_assoc in E. destruct (H p _ E) as (p' & e & X). exists p', e. unfold rbind. now rewrite X. Qed.
Lemma refuses_r {A B} (r : R A) (k : A -> R B) e1 e2 x : consumes r e1 x -> refuses (k x) e2 -> refuses (rbind r k) (e1 ++ e2).
Proof.
  intros H1 H2 p rest E. rewrite <- app_assoc in E. destruct (H1 p _ E) as (p1 & R1 & A1 & _). destruct (H2 p1 rest A1) as (p' & e & X).
  exists p', e. unfold rbind. now rewrite R1.
Qed.
Lemma refuses_look {A B} (r : R A) (k : A -> R B) e evs x : looks r e x -> refuses (k x) (e :: evs) -> refuses (rbind r k) (e :: evs).
Proof.
  intros H1 H2 p rest E. cbn [app] in E. destruct (H1 p _ E) as (p1 & R1 & A1 & _). destruct (H2 p1 rest A1) as (p' & e' & X).
  exists p', e'. unfold rbind. now rewrite R1.
Qed.
Lemma refuses_next {B} (k : event -> R B) e evs : refuses (k e) evs -> refuses (rbind next k) (e :: evs).
Proof. intros H. apply (refuses_r next k [e] evs e); [apply consumes_next | exact H]. Qed.
Lemma refuses_fmap {A B} (r : R A) (g : A -> B) evs : refuses r evs -> refuses (rbind r (fun x => ret (g x))) evs.
Proof. intros H. rewrite <- (app_nil_r evs). now apply refuses_l. Qed.
Lemma refuses_not {A} (r : R A) evs x : refuses r evs -> consumes r evs x -> False.
Proof.
  intros H C. assert (E : ahead (mkParser None evs ValueError) = evs ++ []) by (unfold ahead; cbn [p_pending p_rest app]; now rewrite app_nil_r).
  destruct (H _ _ E) as (p' & e & X), (C _ _ E) as (p1 & Y & _). congruence.
Qed.
Lemma consumes_one {A} (r : R A) evs x y : consumes r evs x -> consumes r evs y -> x = y.
Proof.
  intros H C. assert (E : ahead (mkParser None evs ValueError) = evs ++ []) by (unfold ahead; cbn [p_pending p_rest app]; now rewrite app_nil_r).
  destruct (H _ _ E) as (p' & X & _), (C _ _ E) as (p1 & Y & _). congruence.
Qed.

(** A step of a loop reads its value for every accumulator, or fails for every one. *)
Definition steps {A} (c : A -> R A) (evs : list event) : Prop := forall acc, exists acc', consumes (c acc) evs acc'.
Definition stuck {A} (c : A -> R A) (evs : list event) : Prop := forall acc, refuses (c acc) evs.

Lemma list_stuck {A} (c : A -> R A) (path : list text) (l : list json) :
  Forall (fun j => steps c (events (path ++ [lit "item"]) j) \/ stuck c (events (path ++ [lit "item"]) j)) l ->
  Exists (fun j => stuck c (events (path ++ [lit "item"]) j)) l ->
  forall fuel acc, (List.length (flat_map (events (path ++ [lit "item"])) l) < fuel)%nat ->
  refuses (list_loop fuel c acc) (flat_map (events (path ++ [lit "item"])) l ++ [mkEv (dotted path) TkEndArr]).
Proof.
  induction 1 as [|j l D F IH]; intros X fuel acc L; [inversion X|]. destruct fuel as [|f]; [lia|]. cbn [flat_map list_loop] in *.
  rewrite app_length in L.
  assert (G : refuses (rbind (c acc) (fun acc' => list_loop f c acc'))
     ((events (path ++ [lit "item"]) j ++ flat_map (events (path ++ [lit "item"])) l) ++ [mkEv (dotted path) TkEndArr])).
  { rewrite <- app_assoc. destruct D as [D|D]; [|apply refuses_l, D]. destruct (D acc) as [acc' C]. apply (refuses_r _ _ _ _ _ C).
    apply IH.
    - inversion X as [? ? X0|? ? X0]; subst; [|exact X0]. elim (refuses_not _ _ _ (X0 acc) C).
    - destruct (events_head (path ++ [lit "item"]) j) as [r E]. rewrite E in L. cbn [List.length] in L. lia. }
  destruct (events_head (path ++ [lit "item"]) j) as [r E]. rewrite E in *. cbn [app] in *.
  eapply refuses_look; [apply looks_peek|]. cbn [e_tok].
  assert (T0 : head_tok j <> TkEndArr). { destruct j; cbn [head_tok]; try discriminate. unfold num_token. destruct (integral n); discriminate. }
  destruct (head_tok j); try exact G. now elim T0.
Qed.

Lemma map_stuck {A} (c : text -> A -> R A) (path : list text) (l : list (text * json)) : 
  Forall (fun a => steps (c (fst a)) (events (path ++ [fst a]) (snd a)) \/ stuck (c (fst a)) (events (path ++ [fst a]) (snd a))) l ->
  Exists (fun a => stuck (c (fst a)) (events (path ++ [fst a]) (snd a))) l ->
  forall fuel acc, (List.length (flat_map (pair_events path) l) < fuel)%nat ->
  refuses (map_loop fuel c acc) (flat_map (pair_events path) l ++ [mkEv (dotted path) TkEndMap]).
Proof.
  induction 1 as [|[k j] l D F IH]; intros X fuel acc L; [inversion X|]. destruct fuel as [|f]; [lia|]. cbn [flat_map map_loop] in *.
  rewrite app_length in L. cbn [pair_events app List.length fst snd] in *.
  eapply refuses_look; [apply looks_peek|]. cbn [e_tok].
  apply (refuses_r read_text _ [mkEv (dotted path) (TkKey k)] _ k); [apply consumes_text; now right|].
  rewrite <- app_assoc. destruct D as [D|D]; [|apply refuses_l, D]. destruct (D acc) as [acc' C]. apply (refuses_r _ _ _ _ _ C).
  apply IH; [|lia]. inversion X as [? ? X0|? ? X0]; subst; [|exact X0]. elim (refuses_not _ _ _ (X0 acc) C).
Qed.

(** The members that are read: those named, unless null and no document. *)
Definition wanted (st : settings) (env : N -> node) (ms : list member) (a : text * json) (m : member) : Prop :=
  In m ms /\ on_wire st m (fst a) /\ (snd a <> JNull \/ doc_member env m).
Lemma struct_stuck {A} st env ms (c : member -> A -> R A) (path : list text) (l : list (text * json)) : distinct st ms ->
  Forall (fun a => forall m, wanted st env ms a m -> steps (c m) (events (path ++ [fst a]) (snd a)) \/ stuck (c m) (events (path ++ [fst a]) (snd a))) l ->
  Exists (fun a => exists m, wanted st env ms a m /\ stuck (c m) (events (path ++ [fst a]) (snd a))) l ->
  forall fuel acc, (List.length (flat_map (pair_events path) l) < fuel)%nat ->
  refuses (struct_loop st env fuel ms c acc) (flat_map (pair_events path) l ++ [mkEv (dotted path) TkEndMap]).
Proof.
  intros Di. induction 1 as [|[k j] l D F IH]; intros X fuel acc L; [inversion X|]. destruct fuel as [|f]; [lia|]. cbn [flat_map struct_loop] in *.
  rewrite app_length in L. cbn [pair_events app List.length fst snd] in *.
  eapply refuses_look; [apply looks_peek|]. cbn [e_tok].
  apply (refuses_r read_text _ [mkEv (dotted path) (TkKey k)] _ k); [apply consumes_text; now right|].
  destruct (Exists_dec (fun m => on_wire st m k) ms) as [Y|Y]; [intros m; apply on_wire_dec| |].
  - apply Exists_exists in Y as (m & Im & W). rewrite (resolve_some _ _ _ _ Di Im W). rewrite <- app_assoc.
    assert (U : forall m', wanted st env ms (k, j) m' -> m' = m).
    { intros m' (A1 & A2 & _). eapply (proj2 Di); eassumption. }
    assert (Dec : (snd (k, j) <> JNull \/ doc_member env m) \/ (j = JNull /\ ~ doc_member env m)).
    { cbn [snd]. unfold doc_member. destruct j; try (left; left; discriminate). destruct (env (m_target m)); try (right; split; [reflexivity | discriminate]). left. now right. }
    destruct Dec as [Q|[-> ND]].
    + assert (Wm : wanted st env ms (k, j) m) by (split; [exact Im | split; [exact W | exact Q]]).
      assert (Dm := D m Wm).
      assert (Xm : stuck (c m) (events (path ++ [k]) j) \/ Exists (fun a => exists m, wanted st env ms a m /\ stuck (c m) (events (path ++ [fst a]) (snd a))) l).
      { inversion X as [? ? (m' & X0 & X1)|? ? X0]; subst; [|now right]. left. now rewrite <- (U m' X0). }
      assert (G : refuses (rbind (c m acc) (fun acc' => struct_loop st env f ms c acc'))
         (events (path ++ [k]) j ++ flat_map (pair_events path) l ++ [mkEv (dotted path) TkEndMap])).
      { destruct Dm as [Dm|Dm]; [|apply refuses_l, Dm]. destruct (Dm acc) as [acc' C]. apply (refuses_r _ _ _ _ _ C).
        apply IH; [|lia]. destruct Xm as [X0|X0]; [|exact X0]. elim (refuses_not _ _ _ (X0 acc) C). }
      destruct (events_head (path ++ [k]) j) as [r E]. rewrite E in *. cbn [app] in *.
      eapply refuses_look; [apply looks_is_null|]. cbn [e_tok].
      replace (null_tok (head_tok j) && negb (is_document env m)) with false; [exact G|].
      symmetry. apply andb_false_iff. destruct Q as [Q|Q].
      * left. destruct (null_tok (head_tok j)) eqn:Z; [|reflexivity]. now apply null_tok_head in Z.
      * right. apply is_document_iff in Q. now rewrite Q.
    + cbn [events app]. eapply refuses_look; [apply looks_is_null|]. cbn [e_tok null_tok andb].
      destruct (is_document env m) eqn:Z; [elim ND; now apply is_document_iff|]. cbn [negb].
      apply (refuses_r read_null _ [mkEv (dotted (path ++ [k])) TkNull] _ tt); [apply consumes_read_null|].
      apply IH; [|lia]. inversion X as [? ? (m' & X0 & X1)|? ? X0]; subst; [|exact X0]. assert (m' = m) by now apply U. subst m'.
      destruct X0 as (_ & _ & [X0|X0]); [now elim X0 | now elim ND].
  - rewrite (resolve_none _ _ _). 2:{ intros m Im W. apply Y. apply Exists_exists. eauto. }
    rewrite <- app_assoc. apply (refuses_r (skip f) _ _ _ tt); [apply skip_consumes; [apply clear_below | lia]|].
    apply IH; [|lia]. inversion X as [? ? (m' & X0 & X1)|? ? X0]; subst; [|exact X0]. elim Y. apply Exists_exists. exists m'. split; apply X0.
Qed.

Lemma Forall_or {A} (P Q : A -> Prop) l : Forall (fun x => P x \/ Q x) l -> Forall P l \/ Exists Q l.
Proof. induction 1 as [|x l [H|H] _ [IH|IH]]; auto. Qed.

Section Exact.
  Variable st : settings.
  Variable env : N -> node.
  Variable ts_de : tformat -> tstext -> result Z.
  Variable float_of : decimal -> float.
  Hypothesis Hd : forall n ms, env n = NStruct ms -> distinct st ms.
  Hypothesis Hi : forall f t, ts_de TEpoch (TNum f) = Ok t -> exists d, f = FFin d.
  Notation says := (says false st env ts_de float_of).
  Notation read_shape := (read_shape st env ts_de float_of).
  Notation gives := (gives st env ts_de float_of).
  Definition bad (n : N) (j : json) : Prop := forall path fuel, clear_path path j -> (List.length (events path j) < fuel)%nat ->
    refuses (read_shape fuel n) (events path j).

  Lemma scalar_bad n j (r : R value) : (forall f, read_shape (S f) n = r) -> (forall path, refuses r (events path j)) -> bad n j.
  Proof. intros E C path [|f] _ L; [lia|]. rewrite E. apply C. Qed.

  Ltac refuse := right; intros path [|f] C L; [lia|]; rewrite read_shape_eq; match goal with E : env _ = _ |- _ => rewrite E end; cbn [events];
    try apply refuses_fmap; unfold read_boolean, read_integer, read_float, read_big_decimal, read_text, read_blob, read_struct, read_list, read_map;
    apply refuses_next; cbn [e_tok]; try apply refuses_fail.

  (** A timestamp is read from a text or, as seconds, from a number. *)
  Lemma time_text a e evs : ts_format st a <> TEpoch -> match e_tok e with TkStr _ | TkKey _ => False | _ => True end ->
    refuses (read_timestamp st ts_de float_of a) (e :: evs).
  Proof.
    intros Ef T. unfold read_timestamp, read_text.
    assert (G : forall f, refuses (rbind (rbind next (fun e0 => match e_tok e0 with TkStr s | TkKey s => ret s | _ => rfail SmithyErr end))
       (fun s => match ts_de f (TText s) with Ok t => ret (VTime a t) | Err x => rfail x end)) (e :: evs)).
    { intros f. rewrite <- (app_nil_r (e :: evs)). apply refuses_l. apply refuses_next. destruct (e_tok e); try (now elim T); apply refuses_fail. }
    destruct (ts_format st a); [apply G | apply G | now elim Ef].
  Qed.
  Lemma time_text_err a e s x evs : ts_format st a <> TEpoch -> e_tok e = TkStr s -> ts_de (ts_format st a) (TText s) = Err x ->
    refuses (read_timestamp st ts_de float_of a) (e :: evs).
  Proof.
    intros Ef T X. unfold read_timestamp.
    assert (G : refuses (rbind read_text (fun s => match ts_de (ts_format st a) (TText s) with Ok t => ret (VTime a t) | Err x => rfail x end)) (e :: evs)).
    { apply (refuses_r read_text _ [e] _ s); [apply consumes_text; now left|]. rewrite X. apply refuses_fail. }
    destruct (ts_format st a); [exact G | exact G | now elim Ef].
  Qed.
  Lemma time_float a evs : ts_format st a = TEpoch -> refuses (read_float float_of) evs -> refuses (read_timestamp st ts_de float_of a) evs.
  Proof. intros Ef H. unfold read_timestamp. rewrite Ef. rewrite <- (app_nil_r evs). now apply refuses_l. Qed.
  Lemma time_float_err a evs x e : ts_format st a = TEpoch -> consumes (read_float float_of) evs x ->
    match x with
    | VFloat f => ts_de TEpoch (TNum f) = Err e
    | VInt z => ts_de TEpoch (TNum (FFin (decimal_of_Z z))) = Err e
    | VBool b => ts_de TEpoch (TNum (FFin (decimal_of_Z (if b then 1 else 0)))) = Err e
    | _ => True
    end -> refuses (read_timestamp st ts_de float_of a) evs.
  Proof.
    intros Ef H X. unfold read_timestamp. rewrite Ef. rewrite <- (app_nil_r evs). apply (refuses_r _ _ _ _ _ H).
    destruct x; try apply refuses_fail; rewrite X; apply refuses_fail.
  Qed.
  Lemma epoch_dec a : {ts_format st a = TEpoch} + {ts_format st a <> TEpoch}.
  Proof. destruct (ts_format st a); [right; discriminate | right; discriminate | now left]. Qed.
  Ltac refuse_time := right; eapply scalar_bad; [intros f; rewrite read_shape_eq; match goal with E : env _ = _ |- _ => rewrite E end; reflexivity|]; intros path; cbn [events].

  Lemma says_or_bad j : keys_once j -> forall n, (exists v, says n j v) \/ bad n j.
  Proof.
    induction j using json_ind'; intros K nn;
      (destruct (env nn) as [| | | | | | a | ms | sparse t | sparse t | ] eqn:En; [| | | | | | | | | |left; eexists; now apply Sy_doc]).
    (* null *)
    - refuse.
    - refuse.
    - refuse.
    - refuse.
    - refuse.
    - refuse.
    - refuse_time. destruct (epoch_dec a) as [E|E]; [apply (time_float _ _ E); apply refuses_next; apply refuses_fail | apply (time_text _ _ _ E); exact I].
    - refuse.
    - refuse.
    - refuse.
    (* booleans *)
    - left. eexists. now apply Sy_bool.
    - left. eexists. now apply Sy_int_bool.
    - left. eexists. now apply Sy_float_bool.
    - left. eexists. now apply Sy_dec_bool.
    - refuse.
    - refuse.
    - destruct (epoch_dec a) as [E|E]; [|refuse_time; apply (time_text _ _ _ E); exact I].
      destruct (ts_de TEpoch (TNum (FFin (int_decimal (if b then 1 else 0))))) as [t|x] eqn:X.
      + left. eexists. eapply Sy_time_bool; [exact En | apply ts_format_force | left; exact E | rewrite E; exact X].
      + refuse_time. apply (time_float_err a _ (VBool b) x E); [unfold read_float; apply next_last, consumes_ret | exact X].
    - refuse.
    - refuse.
    - refuse.
    (* numbers *)
    - refuse. unfold num_token. destruct (integral z); apply refuses_fail.
    - destruct (integral z) eqn:I.
      + left. eexists. eapply Sy_int; [exact En | exact I | now apply integral_pair].
      + refuse. rewrite num_token_eq, I. apply refuses_fail.
    - left. destruct (integral z) eqn:I.
      + eexists. eapply Sy_float_int; [reflexivity | exact En | exact I | now apply integral_pair].
      + eexists. eapply Sy_float; [exact En | exact I | apply token_written].
    - left. eexists. eapply Sy_dec; [exact En | now right | apply token_written].
    - refuse. unfold num_token. destruct (integral z); apply refuses_fail.
    - refuse. unfold num_token. destruct (integral z); apply refuses_fail.
    - destruct (epoch_dec a) as [E|E]; [|refuse_time; apply (time_text _ _ _ E); cbn [e_tok]; unfold num_token; destruct (integral z); exact I].
      destruct (integral z) eqn:I.
      + destruct (ts_de TEpoch (TNum (FFin (int_decimal (fst (num_value z)))))) as [t|x] eqn:X.
        * left. eexists. eapply Sy_time_int; [exact En | apply ts_format_force | left; exact E | exact I | now apply integral_pair | rewrite E; exact X].
        * refuse_time. apply (time_float_err a _ (VInt (fst (num_value z))) x E); [|exact X]. unfold read_float. apply next_last. cbn [e_tok]. rewrite num_token_eq, I.
          apply consumes_ret.
      + set (d := mkDec (n_neg z) (Z.abs_N (fst (num_value z))) (snd (num_value z))).
        destruct (ts_de TEpoch (TNum (float_of d))) as [t|x] eqn:X.
        * left. eexists. eapply Sy_time_num; [exact En | apply ts_format_force | left; exact E | exact I | apply token_written | rewrite E; exact X].
        * refuse_time. apply (time_float_err a _ (VFloat (float_of d)) x E); [|exact X]. unfold read_float. apply next_last. cbn [e_tok]. rewrite num_token_eq, I.
          apply consumes_ret.
    - refuse. unfold num_token. destruct (integral z); apply refuses_fail.
    - refuse. unfold num_token. destruct (integral z); apply refuses_fail.
    - refuse. unfold num_token. destruct (integral z); apply refuses_fail.
    (* texts *)
    - refuse.
    - refuse.
    - destruct (text_eqb s (lit "Infinity")) eqn:E1; [apply text_eqb_eq in E1; subst s; left; eexists; now apply Sy_inf|].
      destruct (text_eqb s (lit "-Infinity")) eqn:E2; [apply text_eqb_eq in E2; subst s; left; eexists; now apply Sy_neg_inf|].
      destruct (text_eqb s (lit "NaN")) eqn:E3; [apply text_eqb_eq in E3; subst s; left; eexists; now apply Sy_nan|].
      refuse. rewrite E1, E2, E3. apply refuses_fail.
    - refuse.
    - left. eexists. now apply Sy_str.
    - destruct (b64decode s) as [bs|x] eqn:X; [left; eexists; eapply Sy_blob; [eassumption|apply b64decode_iff; exact X]|]. refuse. rewrite X. apply refuses_fail.
    - destruct (epoch_dec a) as [E|E].
      + destruct (text_eqb s (lit "Infinity")) eqn:E1; [|destruct (text_eqb s (lit "-Infinity")) eqn:E2; [|destruct (text_eqb s (lit "NaN")) eqn:E3]].
        4: { refuse_time. apply (time_float _ _ E). unfold read_float. apply refuses_next. cbn [e_tok]. rewrite E1, E2, E3. apply refuses_fail. }
        all: match goal with E : text_eqb ?x _ = true |- _ => apply text_eqb_eq in E; subst x end.
        1: assert (C : forall path, consumes (read_float float_of) (events path (JStr (lit "Infinity"))) (VFloat FInf)) by (intros; unfold read_float; apply next_last, consumes_ret).
        2: assert (C : forall path, consumes (read_float float_of) (events path (JStr (lit "-Infinity"))) (VFloat FNegInf)) by (intros; unfold read_float; apply next_last, consumes_ret).
        3: assert (C : forall path, consumes (read_float float_of) (events path (JStr (lit "NaN"))) (VFloat FNaN)) by (intros; unfold read_float; apply next_last, consumes_ret).
        1: destruct (ts_de TEpoch (TNum FInf)) as [t|x] eqn:X; [destruct (Hi _ _ X); discriminate|].
        2: destruct (ts_de TEpoch (TNum FNegInf)) as [t|x] eqn:X; [destruct (Hi _ _ X); discriminate|].
        3: destruct (ts_de TEpoch (TNum FNaN)) as [t|x] eqn:X; [destruct (Hi _ _ X); discriminate|].
        1-3: refuse_time; match goal with X : ts_de _ _ = Err ?x |- _ => eapply (time_float_err a _ _ x E); [apply C | exact X] end.
      + destruct (ts_de (ts_format st a) (TText s)) as [t|x] eqn:X.
        * left. eexists. eapply Sy_time_text; [exact En | apply ts_format_force | now left | exact X].
        * refuse_time. eapply time_text_err; [exact E | reflexivity | exact X].
    - refuse.
    - refuse.
    - refuse.
    (* lists *)
    - refuse.
    - refuse.
    - refuse.
    - refuse.
    - refuse.
    - refuse.
    - refuse_time. destruct (epoch_dec a) as [E|E]; [apply (time_float _ _ E); apply refuses_next; apply refuses_fail | apply (time_text _ _ _ E); exact I].
    - refuse.
    - inversion K as [| | | |l0 Kl|]; subst.
      assert (Q : Forall (fun j => (j = JNull \/ exists v, gives t j v) \/ (j <> JNull /\ bad t j)) l).
      { apply Forall_forall. intros x I. rewrite Forall_forall in H, Kl. destruct (H x I (Kl x I) t) as [[v S]|B].
        - left. right. exact (says_gives st env ts_de float_of Hd x (Kl x I) t v S).
        - destruct x; try (right; split; [discriminate | exact B]). left. now left. }
      destruct (Forall_or _ _ _ Q) as [G|G].
      + left. assert (V : exists vs, Forall2 (fun j v => (j = JNull /\ v = VNull) \/ (j <> JNull /\ says t j v)) (filter (present sparse) l) vs).
        { clear - G. induction G as [|x l [->|[v [S _]]] _ [vs IH]]; cbn [filter].
          - exists []. constructor.
          - destruct (present sparse JNull); [exists (VNull :: vs); constructor; auto | now exists vs].
          - destruct (present sparse x) eqn:P; [|now exists vs].
            destruct x; try (exists (v :: vs); constructor; [right; split; [discriminate | exact S] | exact IH]).
            exists (VNull :: vs). constructor; auto. }
        destruct V as [vs V]. exists (VList vs). eapply Sy_list; eassumption.
      + right. intros path [|f] _ L; [lia|]. rewrite read_shape_eq, En. apply refuses_fmap. cbn [events] in L |- *. unfold read_list. apply refuses_next. cbn [e_tok].
        assert (Len : forall j, In j l -> (List.length (events (path ++ [lit "item"]) j) < f)%nat).
        { intros j Ij. assert (X := child_item path l j Ij). cbn [events] in X. lia. }
        cbn [List.length] in L. rewrite app_length in L. cbn [List.length] in L.
        assert (L' : (List.length (flat_map (events (path ++ [lit "item"])) l) < f)%nat) by lia.
        apply list_stuck; [| |exact L'].
        * apply Forall_forall. intros j Ij. specialize (Len j Ij). rewrite Forall_forall in Q.
          destruct (events_head (path ++ [lit "item"]) j) as [r E].
          destruct (Q j Ij) as [[->|(v & _ & Rv)]|[Nj B]].
          -- left. intros acc. exists (if sparse then acc ++ [VNull] else acc). cbn [events]. eapply consumes_look; [apply looks_is_null|]. cbn [e_tok null_tok].
             apply (consumes_fmap read_null (fun _ => if sparse then acc ++ [VNull] else acc) _ tt). apply consumes_read_null.
          -- left. intros acc. specialize (Rv (path ++ [lit "item"]) f (clear_below _ _ _) Len). rewrite E in *.
             destruct (null_tok (head_tok j)) eqn:Z.
             ++ assert (Ej : j = JNull) by now apply null_tok_head. subst j. cbn [events head_tok] in E. injection E as <-.
                exists (if sparse then acc ++ [VNull] else acc). eapply consumes_look; [apply looks_is_null|]. cbn [e_tok null_tok head_tok].
                apply (consumes_fmap read_null (fun _ => if sparse then acc ++ [VNull] else acc) _ tt). apply consumes_read_null.
             ++ exists (acc ++ [v]). eapply consumes_look; [apply looks_is_null|]. cbn [e_tok]. rewrite Z. apply (consumes_fmap _ (fun v => acc ++ [v])). exact Rv.
          -- right. intros acc. specialize (B (path ++ [lit "item"]) f (clear_below _ _ _) Len). rewrite E in *.
             eapply refuses_look; [apply looks_is_null|]. cbn [e_tok]. destruct (null_tok (head_tok j)) eqn:Z; [now apply null_tok_head in Z|].
             now apply refuses_fmap.
        * apply Exists_exists in G as (j & Ij & Nj & B). apply Exists_exists. exists j. split; [exact Ij|]. intros acc.
          specialize (B (path ++ [lit "item"]) f (clear_below _ _ _) (Len j Ij)). destruct (events_head (path ++ [lit "item"]) j) as [r E]. rewrite E in *.
          eapply refuses_look; [apply looks_is_null|]. cbn [e_tok]. destruct (null_tok (head_tok j)) eqn:Z; [now apply null_tok_head in Z|].
          now apply refuses_fmap.
    - refuse.
    (* objects *)
    - refuse.
    - refuse.
    - refuse.
    - refuse.
    - refuse.
    - refuse.
    - refuse_time. destruct (epoch_dec a) as [E|E]; [apply (time_float _ _ E); apply refuses_next; apply refuses_fail | apply (time_text _ _ _ E); exact I].
    - inversion K as [| | | | |l0 Kd Kl]; subst. assert (Di := Hd _ _ En).
      assert (Q0 : Forall (fun a : text * json => forall n v, says n (snd a) v -> exists v', gives n (snd a) v') l).
      { apply Forall_forall. intros x I n v S. rewrite Forall_forall in Kl. exact (says_gives st env ts_de float_of Hd (snd x) (Kl x I) n v S). }
      assert (Q1 : Forall (fun a : text * json => forall n, (exists v, gives n (snd a) v) \/ bad n (snd a)) l).
      { apply Forall_forall. intros x I n. rewrite Forall_forall in H, Kl, Q0. destruct (H x I (Kl x I) n) as [[v S]|B]; [left; eapply Q0; eassumption | now right]. }
      assert (Q : Forall (fun a => (forall m, wanted st env ms a m -> exists v, says (m_target m) (snd a) v) \/ exists m, wanted st env ms a m /\ bad (m_target m) (snd a)) l).
      { apply Forall_forall. intros [k j] I. rewrite Forall_forall in Q1. specialize (Q1 _ I). cbn [snd] in *.
        destruct (Exists_dec (fun m => on_wire st m k) ms) as [Y|Y]; [intros m; apply on_wire_dec| |].
        - apply Exists_exists in Y as (m & Im & W). destruct (Q1 (m_target m)) as [(v & S & _)|B].
          + left. intros m' (Im' & W' & _). assert (m' = m) by (eapply (proj2 Di); eassumption). subst m'. eauto.
          + assert (Dec : wanted st env ms (k, j) m \/ ~ wanted st env ms (k, j) m).
            { unfold wanted, doc_member. cbn [fst snd]. destruct j; try (left; split; [exact Im | split; [exact W | left; discriminate]]).
              destruct (env (m_target m)); try (right; intros (_ & _ & [X|X]); [now elim X | discriminate X]).
              left. split; [exact Im | split; [exact W | now right]]. }
            destruct Dec as [Wm|Wm]; [right; now exists m|].
            left. intros m' W'. exfalso. apply Wm. replace m with m'; [exact W'|]. destruct W' as (A1 & A2 & _). eapply (proj2 Di); eassumption.
        - left. intros m (Im & W & _). elim Y. apply Exists_exists. eauto. }
      destruct (Forall_or _ _ _ Q) as [G|G].
      + left. destruct (members_give st env ts_de float_of ms l Di Q0 Kd) with (acc := @nil (text * value)) as (new & T & G0 & G1 & G2).
        { intros m w j Im W Ij C. rewrite Forall_forall in G. apply (G (w, j) Ij m). split; [exact Im|]. split; [exact W|]. cbn [snd]. destruct C as [C|C]; [discriminate C | exact C]. }
        { intros m w _ _ []. }
        exists (VStruct nn new). eapply Sy_struct; eassumption.
      + right. intros path [|f] _ L; [lia|]. rewrite read_shape_eq, En. apply refuses_fmap.
        assert (Len : forall a, In a l -> (List.length (events (path ++ [fst a]) (snd a)) < f)%nat).
        { intros [k j] Ij. assert (X := child_pair path l k j Ij). cbn [fst snd]. lia. }
        cbn [events] in L |- *. unfold read_struct. apply refuses_next. cbn [e_tok].
        cbn [List.length] in L. rewrite app_length in L. cbn [List.length] in L.
        change (fun kv : text * json => let (k, x) := kv in mkEv (dotted path) (TkKey k) :: events (path ++ [k]) x) with (pair_events path) in *.
        apply struct_stuck; [exact Di | | |lia].
        * apply Forall_forall. intros x Ix m Wm. specialize (Len x Ix). rewrite Forall_forall in Q1. destruct (Q1 x Ix (m_target m)) as [(v & _ & Rv)|B].
          -- left. intros acc. exists (dict_set (m_name m) v acc). apply consumes_fmap with (g := fun v => dict_set (m_name m) v acc). apply Rv; [apply clear_below | exact Len].
          -- right. intros acc. apply refuses_fmap. apply B; [apply clear_below | exact Len].
        * apply Exists_exists in G as (x & Ix & m & Wm & B). apply Exists_exists. exists x. split; [exact Ix|]. exists m. split; [exact Wm|].
          intros acc. apply refuses_fmap. apply B; [apply clear_below | exact (Len x Ix)].
    - refuse.
    - inversion K as [| | | | |l0 Kd Kl]; subst.
      assert (Q : Forall (fun a : text * json => (snd a = JNull \/ exists v, gives t (snd a) v) \/ (snd a <> JNull /\ bad t (snd a))) l).
      { apply Forall_forall. intros x I. rewrite Forall_forall in H, Kl. destruct (H x I (Kl x I) t) as [[v S]|B].
        - left. right. exact (says_gives st env ts_de float_of Hd (snd x) (Kl x I) t v S).
        - destruct (snd x); try (right; split; [discriminate | exact B]). left. now left. }
      destruct (Forall_or _ _ _ Q) as [G|G].
      + left. assert (V : exists vs, Forall2 (fun (a : text * json) (b : text * value) => fst a = fst b /\ ((snd a = JNull /\ snd b = VNull) \/ (snd a <> JNull /\ says t (snd a) (snd b)))) (filter (fun a => present sparse (snd a)) l) vs).
        { clear - G. induction G as [|[k x] l X _ [vs IH]]; cbn [filter snd] in *.
          - exists []. constructor.
          - destruct (present sparse x) eqn:P; [|now exists vs]. destruct X as [->|[v [S _]]].
            + exists ((k, VNull) :: vs). constructor; cbn [fst snd]; auto.
            + destruct x; try (exists ((k, v) :: vs); constructor; [split; [reflexivity | right; split; [discriminate | exact S]] | exact IH]).
              exists ((k, VNull) :: vs). constructor; cbn [fst snd]; auto. }
        destruct V as [vs V]. exists (VMap vs). eapply Sy_map; eassumption.
      + right. intros path [|f] _ L; [lia|]. rewrite read_shape_eq, En. apply refuses_fmap.
        assert (Len : forall a, In a l -> (List.length (events (path ++ [fst a]) (snd a)) < f)%nat).
        { intros [k j] Ij. assert (X := child_pair path l k j Ij). cbn [fst snd]. lia. }
        cbn [events] in L |- *. unfold read_map. apply refuses_next. cbn [e_tok].
        cbn [List.length] in L. rewrite app_length in L. cbn [List.length] in L.
        change (fun kv : text * json => let (k, x) := kv in mkEv (dotted path) (TkKey k) :: events (path ++ [k]) x) with (pair_events path) in *.
        apply map_stuck; [| |lia].
        * apply Forall_forall. intros [k j] Ij. specialize (Len _ Ij). rewrite Forall_forall in Q. specialize (Q _ Ij). cbn [fst snd] in *.
          destruct (events_head (path ++ [k]) j) as [r E].
          destruct (null_tok (head_tok j)) eqn:Z.
          -- assert (Ej : j = JNull) by now apply null_tok_head. subst j. left. intros acc. exists (if sparse then dict_set k VNull acc else acc). cbn [events].
             eapply consumes_look; [apply looks_is_null|]. cbn [e_tok null_tok].
             apply (consumes_fmap read_null (fun _ => if sparse then dict_set k VNull acc else acc) _ tt). apply consumes_read_null.
          -- destruct Q as [[->|(v & _ & Rv)]|[Nj B]]; [discriminate Z| |].
             ++ left. intros acc. specialize (Rv (path ++ [k]) f (clear_below _ _ _) Len). rewrite E in *. exists (dict_set k v acc).
                eapply consumes_look; [apply looks_is_null|]. cbn [e_tok]. rewrite Z. apply (consumes_fmap _ (fun v => dict_set k v acc)). exact Rv.
             ++ right. intros acc. specialize (B (path ++ [k]) f (clear_below _ _ _) Len). rewrite E in *.
                eapply refuses_look; [apply looks_is_null|]. cbn [e_tok]. rewrite Z. now apply refuses_fmap.
        * apply Exists_exists in G as ([k j] & Ij & Nj & B). apply Exists_exists. exists (k, j). split; [exact Ij|]. cbn [fst snd] in *. intros acc.
          specialize (B (path ++ [k]) f (clear_below _ _ _) (Len _ Ij)). destruct (events_head (path ++ [k]) j) as [r E]. rewrite E in *.
          eapply refuses_look; [apply looks_is_null|]. cbn [e_tok]. destruct (null_tok (head_tok j)) eqn:Z; [now apply null_tok_head in Z|].
          now apply refuses_fmap.
  Qed.
End Exact.
