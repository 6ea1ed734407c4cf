(** C51 and C52: reading XML. *)
From Verif Require Import Base Base_Proofs PyText_Model PyDict_Model Base64_Spec Base64Rfc_Proofs HttpVal_Model Xml_Model Xml_Spec Xml_Proofs.
From Verif Require Time_Model Errors_Spec Errors_Proofs.
From Coq Require Import Lia.
Local Open Scope N_scope.

Section Props.
  Variable py_float : text -> result float.
  Variable time_float : text -> option Time_Model.float.
  Variable default_format : format.
  Variable use_format : bool.
  Variable shapes : nat -> shape.
  Notation deserialize := (deserialize py_float time_float default_format use_format shapes).
  Notation read := (read py_float time_float default_format use_format shapes).
  Notation leaf := (leaf py_float time_float default_format use_format).
  Notation reads := (reads leaf shapes).
  Notation delivers := (delivers leaf shapes).
  Notation single := (single leaf shapes).
  Notation regrouped := (regrouped leaf shapes).
  Notation together := (together leaf shapes).

  (** Passing over an element takes its events and those of its descendants, and nothing
      after them, whatever is in it. *)
  Theorem C51_skip x l b : (do nd <- consume_start (mkDe (events x ++ l) b None); skip_to_end (snd nd)) = Ok (mkDe l b None).
  Proof. apply skip_elem. Qed.

  (** What is read for a member is what its element holds, and the reader is then exactly
      behind the element: for lists, maps and structures nested in any way, with unknown
      elements anywhere.  The element gives a value if and only if it is well formed for
      the schema. *)
  Theorem C51_read s x l fuel v : (forall id, readable shapes (shapes id)) -> proper x -> m_flat s = false -> unflattened s -> (4 * List.length (events x) <= fuel)%nat ->
    (read fuel s (mkDe (events x ++ l) false None) = Ok (v, mkDe l false None) <-> reads s x v)
    /\ (forall d, read fuel s (mkDe (events x ++ l) false None) = Ok (v, d) -> d = mkDe l false None).
  Proof.
    intros A P F U Fu. pose proof (all_sim py_float time_float default_format use_format shapes A x s false fuel l P F U (or_introl eq_refl) Fu) as S. pose proof (all_good py_float time_float default_format use_format shapes A x s v P F U) as G. unfold agrees in S.
    destruct (value_of py_float time_float default_format use_format shapes x s) as [w|e].
    - destruct S as (b' & S & Hb). rewrite (Hb eq_refl) in S. rewrite S. split.
      + rewrite <- G. split; [intros [= ->]; reflexivity | intros [= ->]; reflexivity].
      + intros d [= _ <-]. reflexivity.
    - rewrite S. split; [|discriminate]. rewrite <- G. split; discriminate.
  Qed.

  (** A document: the root has the name of the structure, and its members get what the
      attributes and the elements hold.  Nothing after the root matters. *)
  Theorem C51_exact def n ch l v : (forall id, readable shapes (shapes id)) -> readable shapes def -> proper (Elem n ch) ->
    deserialize (events (Elem n ch) ++ l) [] def = Ok v <->
    named (shape_name def) (Elem n ch) /\ exists calls, delivers n def ch calls /\ v = VStruct (gather calls).
  Proof.
    intros A R P. inversion P as [? ? [t Ht] Pa Pch]; subst. unfold deserialize, new_de. cbn [wrappers bind].
    rewrite (root_struct py_float time_float default_format use_format shapes A def n ch true _ l R Pch).
    2:{ rewrite app_length. change (List.length (events (Elem n ch))) with (sized (Elem n ch)). rewrite sized_elem. lia. }
    pose proof (struct_iff py_float time_float default_format use_format shapes false def n ch R Pa (good_all py_float time_float default_format use_format shapes A ch Pch) v) as G.
    unfold validate_element_name, named. cbn [root_node]. rewrite (proj2 (tag_name_iff _ _) Ht). cbn [bind]. change (expected_root_name def) with (shape_name def).
    destruct (text_eqb t (shape_name def)) eqn:Q.
    - apply text_eqb_eq in Q. subst t. cbn [bind]. rewrite <- G. destruct (t_struct _ _ _ _ false def true n (map _ ch)) as [w|e]; cbn [bind fst].
      + split; [intros H; split; [exact Ht | exact H] | now intros [_ H]].
      + split; [discriminate | intros [_ H]; discriminate].
    - cbn [bind]. split; [discriminate|]. intros [H _]. rewrite (tag_fun _ _ _ Ht H), text_eqb_refl in Q. discriminate.
  Qed.
  (** A root with another name is refused as malformed. *)
  Theorem C51_root def n ch l : (forall id, readable shapes (shapes id)) -> readable shapes def -> proper (Elem n ch) -> ~ named (shape_name def) (Elem n ch) ->
    deserialize (events (Elem n ch) ++ l) [] def = Err XMLParseError.
  Proof.
    intros A R P No. inversion P as [? ? [t Ht] Pa Pch]; subst. unfold deserialize, new_de. cbn [wrappers bind].
    rewrite (root_struct py_float time_float default_format use_format shapes A def n ch true _ l R Pch).
    2:{ rewrite app_length. change (List.length (events (Elem n ch))) with (sized (Elem n ch)). rewrite sized_elem. lia. }
    unfold validate_element_name. rewrite (proj2 (tag_name_iff _ _) Ht). cbn [bind]. change (expected_root_name def) with (shape_name def).
    destruct (text_eqb t (shape_name def)) eqn:Q; [|reflexivity]. exfalso. apply text_eqb_eq in Q. subst t. now apply No.
  Qed.

  (** With wrapping elements: they must have the names given, and the structure is what
      is in the last of them, without its attributes. *)
  Theorem C51_wrapped def ws names ch e l v : (forall id, readable shapes (shapes id)) -> readable shapes def -> (forall c, In c ch -> proper c) -> ws <> [] ->
    Forall2 (fun w name => tag_name (n_tag w) name) ws names ->
    deserialize (map Start ws ++ flat_map events ch ++ End e :: l) names def = Ok v <->
    exists l2 l3, single (d_members def) ch l2 /\ regrouped (d_members def) ch [] ch l3 /\ v = VStruct (gather (l2 ++ l3)).
  Proof.
    intros A R P Ne W. unfold deserialize, new_de. rewrite (wrappers_ok ws names W). cbn [bind].
    assert (B : match names with [] => true | _ => false end = false) by (destruct W; [contradiction | reflexivity]). rewrite B.
    assert (X : exists w, fold_left (fun _ w => Some w) ws None = Some w).
    { clear -Ne. destruct ws as [|w ws] using rev_ind; [contradiction|]. rewrite fold_left_app. eexists. reflexivity. }
    destruct X as [w ->]. rewrite (wrapped_struct py_float time_float default_format use_format shapes A def w e ch _ l R P).
    2:{ rewrite !app_length. cbn [List.length]. unfold all_events. lia. }
    pose proof (rest_iff py_float time_float default_format use_format shapes false def ch R (good_all py_float time_float default_format use_format shapes A ch P) []) as Re.
    unfold t_struct. cbv iota. cbn [bind].
    match goal with |- (do vd <- (do v <- ?r; _); _) = _ <-> _ => assert (E : r = do kw <- (do kb <- t_members false (xml_names def) [] [] (map (annotate py_float time_float default_format use_format shapes) ch); t_replay false (xml_names def) (snd kb) (fst kb)); finish false kw) by (destruct (t_members _ _ _ _ _); reflexivity); rewrite E; clear E end.
    destruct (do kb <- t_members _ _ _ _ _; _) as [kw|er]; cbn [bind fst finish].
    - destruct (proj1 (Re kw) eq_refl) as (l2 & l3 & H2 & H3 & Ac). rewrite accept_all_struct in Ac. injection Ac as <-. split.
      + intros [= <-]. eauto.
      + intros (l2' & l3' & H2' & H3' & ->). pose proof (proj2 (Re _) (ex_intro _ l2' (ex_intro _ l3' (conj H2' (conj H3' (accept_all_struct _ _)))))) as Y. injection Y as Y. unfold gather. now rewrite Y.
    - split; [discriminate|]. intros (l2' & l3' & H2' & H3' & ->). pose proof (proj2 (Re _) (ex_intro _ l2' (ex_intro _ l3' (conj H2' (conj H3' (accept_all_struct _ _)))))) as Y. discriminate.
  Qed.
  (** A wrapping element that is missing or has another name is refused. *)
  Theorem C51_wrapper def names ws w name ws' l : Forall2 (fun w name => tag_name (n_tag w) name) ws names -> ~ tag_name (n_tag w) name -> (exists t, tag_name (n_tag w) t) ->
    deserialize (map Start ws ++ Start w :: l) (names ++ name :: ws') def = Err XMLParseError /\ deserialize (map Start ws ++ End w :: l) (names ++ name :: ws') def = Err XMLParseError.
  Proof.
    intros F Nw [t Ht]. unfold deserialize, new_de.
    assert (G : forall names ws, Forall2 (fun w name => tag_name (n_tag w) name) ws names -> forall b p e, (e = Start w \/ e = End w) -> wrappers (names ++ name :: ws') (mkDe (map Start ws ++ e :: l) b p) = Err XMLParseError).
    { clear F names ws. intros names ws F. induction F as [|w0 n0 ws names T F IH]; intros b p e He.
      - cbn [map app wrappers]. unfold pull. cbn [rest bind fst snd is_root preconsumed]. destruct He as [-> | ->]; [|reflexivity]. unfold validate_element_name.
        rewrite (proj2 (tag_name_iff _ _) Ht). cbn [bind]. destruct (text_eqb t name) eqn:Q; [|reflexivity]. apply text_eqb_eq in Q. subst t. contradiction.
      - cbn [map app wrappers]. unfold pull. cbn [rest bind fst snd is_root preconsumed]. unfold validate_element_name. rewrite (proj2 (tag_name_iff _ _) T). cbn [bind]. rewrite text_eqb_refl. cbn [bind]. now apply IH. }
    split; rewrite (G names ws F) by auto; reflexivity.
  Qed.

  (** An element that no member knows changes nothing: neither what is read nor the
      exception, wherever it stands and whatever it holds. *)
  Theorem C51_unknown def n pre x post l : (forall id, readable shapes (shapes id)) -> readable shapes def ->
    proper (Elem n (pre ++ x :: post)) -> (forall m, element m (d_members def) -> ~ named (wire_name m) x) ->
    deserialize (events (Elem n (pre ++ x :: post)) ++ l) [] def = deserialize (events (Elem n (pre ++ post)) ++ l) [] def.
  Proof.
    intros A R P No. inversion P as [? ? [t Ht] Pa Pch]; subst. unfold deserialize, new_de. cbn [wrappers bind].
    assert (Pch' : forall c, In c (pre ++ post) -> proper c) by (intros c Hc; apply Pch; apply in_app_iff in Hc as [Hc|Hc]; apply in_app_iff; [now left | right; now right]).
    rewrite (root_struct py_float time_float default_format use_format shapes A def n (pre ++ x :: post) true _ l R Pch).
    2:{ rewrite app_length. change (List.length (events (Elem n (pre ++ x :: post)))) with (sized (Elem n (pre ++ x :: post))). rewrite sized_elem. lia. }
    rewrite (root_struct py_float time_float default_format use_format shapes A def n (pre ++ post) true _ l R Pch').
    2:{ rewrite app_length. change (List.length (events (Elem n (pre ++ post)))) with (sized (Elem n (pre ++ post))). rewrite sized_elem. lia. }
    unfold t_struct. destruct (validate_element_name _ n) as [[]|]; [|reflexivity]. cbn [bind]. destruct (attributes _ _ _ _ _ n _ _) as [kw|]; [|reflexivity]. cbn [bind].
    rewrite (members_unknown py_float time_float default_format use_format shapes false (xml_names def) x post); [reflexivity| |apply Pch; apply in_app_iff; right; now left].
    intros u Hu. destruct (dict_get u (xml_names def)) as [m|] eqn:D; [|reflexivity]. apply xml_names_get in D as [E <-]. exfalso. now apply (No m).
  Qed.

  (** The values of texts. *)
  Theorem C51_leaf s t v :
    (leaf s KBool t v <-> (t = lit "true" /\ v = HBool true) \/ (t = lit "false" /\ v = HBool false)) /\
    (leaf s KInt t v <-> exists z, Errors_Spec.int_text t z /\ v = HInt z) /\
    (leaf s KText t v <-> v = HText t) /\
    (leaf s KBlob t v <-> exists b, base64_read t b /\ v = HBlob b) /\
    (leaf s KFloat (lit "NaN") v <-> v = HFloat FNaN) /\ (leaf s KFloat (lit "Infinity") v <-> v = HFloat FInf) /\ (leaf s KFloat (lit "-Infinity") v <-> v = HFloat FNegInf) /\
    (t <> lit "NaN" -> t <> lit "Infinity" -> t <> lit "-Infinity" -> leaf s KFloat t v <-> exists f, py_float t = Ok f /\ v = HFloat f) /\
    (leaf s KTime t v <-> exists w f, Time_Model.deserialize time_float f (Time_Model.SText t) = Ok w /\ v = HTime w /\
       f = match m_ts s, use_format with Some f, true => f | _, _ => default_format end).
  Proof.
    unfold Xml_Proofs.leaf, leaf_value.
    assert (D : forall A (r : result A) (f : A -> scalar), (do x <- r; Ok (f x)) = Ok v <-> exists x, r = Ok x /\ v = f x).
    { intros A [x|e] f; cbn [bind]; [split; [intros [= <-]; eauto | intros (y & [= <-] & ->); reflexivity] | split; [discriminate | intros (y & [=] & _)]]. }
    split; [|split; [|split; [|split; [|split; [|split; [|split; [|split]]]]]]].
    - destruct (text_eqb t (lit "true")) eqn:T; [apply text_eqb_eq in T; subst t|].
      + split; [intros [= <-]; now left | intros [[_ ->]|[H _]]; [reflexivity | discriminate]].
      + destruct (text_eqb t (lit "false")) eqn:Fa; [apply text_eqb_eq in Fa; subst t|].
        * split; [intros [= <-]; now right | intros [[H _]|[_ ->]]; [discriminate | reflexivity]].
        * split; [discriminate|]. intros [[-> _]|[-> _]]; [rewrite text_eqb_refl in T | rewrite text_eqb_refl in Fa]; discriminate.
    - rewrite D. split; intros (z & H & ->); exists z; (split; [now apply Errors_Proofs.py_int_iff | reflexivity]).
    - split; [intros [= <-]; reflexivity | intros ->; reflexivity].
    - rewrite D. split; intros (b & H & ->); exists b; (split; [now apply b64decode_iff | reflexivity]).
    - rewrite text_eqb_refl. split; [intros [= <-]; reflexivity | intros ->; reflexivity].
    - change (text_eqb (lit "Infinity") (lit "NaN")) with false. rewrite text_eqb_refl. split; [intros [= <-]; reflexivity | intros ->; reflexivity].
    - change (text_eqb (lit "-Infinity") (lit "NaN")) with false. change (text_eqb (lit "-Infinity") (lit "Infinity")) with false. rewrite text_eqb_refl. split; [intros [= <-]; reflexivity | intros ->; reflexivity].
    - intros A B C. apply text_eqb_neq in A, B, C. rewrite A, B, C. apply D.
    - cbv zeta. rewrite D. split.
      + intros (w & H & ->). exists w. eexists. split; [exact H|]. split; [reflexivity|]. destruct use_format, (m_ts s); reflexivity.
      + intros (w & f & H & -> & ->). exists w. split; [|reflexivity]. destruct use_format, (m_ts s); exact H.
  Qed.

  (** ** Flattened members *)

  (** Each flattened member of which the document has an element is delivered exactly
      once, after all other members, with all elements of its name in the order of the
      document; the others are not delivered. *)
  Theorem C52_regrouped def n ch l v : (forall id, readable shapes (shapes id)) -> readable shapes def -> NoDup (map m_name (d_members def)) -> proper (Elem n ch) ->
    deserialize (events (Elem n ch) ++ l) [] def = Ok v ->
    exists before after, delivers n def ch (before ++ after) /\ v = VStruct (gather (before ++ after)) /\
      (forall m w, element m (d_members def) -> m_flat m = true -> ~ In (m_name m, w) before) /\ NoDup (map fst after) /\
      (forall nm w, In (nm, w) after -> exists m, element m (d_members def) /\ m_flat m = true /\ nm = m_name m) /\
      (forall m, element m (d_members def) -> m_flat m = true -> (exists c, In c ch /\ named (wire_name m) c) ->
         exists items w, In (m_name m, w) after /\ occurrences (wire_name m) ch items /\ together m items w) /\
      (forall m w, element m (d_members def) -> m_flat m = true -> In (m_name m, w) after -> exists c, In c ch /\ named (wire_name m) c).
  Proof.
    intros A R N P H. apply (C51_exact def n ch l v A R P) in H as (_ & calls & H & ->).
    destruct (regrouped_calls py_float time_float default_format use_format shapes def R N n ch calls H) as (before & after & -> & K). exists before, after. split; [exact H|]. split; [reflexivity | exact K].
  Qed.

  (** Two documents whose elements of each name are the same, in the same order, are read
      alike, however the names are interleaved. *)
  Theorem C52_interleaved def n ch ch' kw : (forall id, readable shapes (shapes id)) -> readable shapes def -> NoDup (map m_name (d_members def)) -> proper (Elem n ch) -> proper (Elem n ch') ->
    (forall m items, element m (d_members def) -> occurrences (wire_name m) ch items <-> occurrences (wire_name m) ch' items) ->
    deserialize (events (Elem n ch)) [] def = Ok (VStruct kw) ->
    exists kw', deserialize (events (Elem n ch')) [] def = Ok (VStruct kw') /\ forall name, dict_get name kw' = dict_get name kw.
  Proof.
    intros A R N P P' Same H. rewrite <- (app_nil_r (events _)) in H. apply (C51_exact def n ch [] _ A R P) in H as (Nm & calls & H & E). injection E as ->.
    inversion P as [? ? _ _ Pch]; subst. inversion P' as [? ? _ _ Pch']; subst.
    destruct (interleaved py_float time_float default_format use_format shapes A def R N n ch ch' calls Pch Pch') as (calls' & H' & V).
    { intros m E. specialize (Same m (filter (has_tag (wire_name m)) ch) E). rewrite !occurrences_iff in Same. now apply Same. }
    { exact H. }
    exists (gather calls'). split.
    - rewrite <- (app_nil_r (events _)). apply (C51_exact def n ch' [] _ A R P'). split; [exact Nm|]. eauto.
    - intros name. rewrite !gather_get. now rewrite V.
  Qed.

  (** The claim is false for flattened lists of structures: they are refused whenever the
      name of the structure is not the name of the element, though the document holds
      them.  The elements are read again by a reader that takes each of them for a root. *)
  Theorem C52_structures_refuted def n ch l m i id v : (forall id, readable shapes (shapes id)) ->
    (forall m, In m (d_members def) -> unflattened m) -> NoDup (map wire_name (filter (fun m => negb (m_attr m)) (d_members def))) ->
    (forall c, In c ch -> proper c) -> element m (d_members def) -> m_flat m = true -> m_kind m = TList i -> m_kind i = TStruct id \/ m_kind i = TUnion id ->
    shape_name (shapes id) <> wire_name m -> (exists c, In c ch /\ named (wire_name m) c) ->
    deserialize (events (Elem n ch) ++ l) [] def <> Ok v.
  Proof. intros. eapply flat_struct_fails; eassumption. Qed.
End Props.
Print Assumptions C51_skip.
Print Assumptions C51_read.
Print Assumptions C51_exact.
Print Assumptions C51_root.
Print Assumptions C51_wrapped.
Print Assumptions C51_wrapper.
Print Assumptions C51_unknown.
Print Assumptions C51_leaf.
Print Assumptions C52_regrouped.
Print Assumptions C52_interleaved.
Print Assumptions C52_structures_refuted.

(** ** Examples *)
Definition el (tag : string) (ch : list xml) : xml := Elem (mkNode (lit tag) [] None) ch.
Definition tx (tag t : string) : xml := Elem (mkNode (lit tag) [] (Some (lit t))) [].
Definition mem (name : string) (k : target) : schema := mkSchema (lit name) None false false None k.
Definition flat (name : string) (k : target) : schema := mkSchema (lit name) None false true None k.
(** A bucket: an attribute, an integer, a flattened list of texts, a flattened map, a
    wrapped list of objects, and a nested structure. *)
Definition object : shape := mkShape (lit "Object") None [mem "Key" (TLeaf KText); mem "Size" (TLeaf KInt)].
Definition bucket : shape := mkShape (lit "Bucket") None
  [mkSchema (lit "id") None true false None (TLeaf KText); mem "Count" (TLeaf KInt); flat "Tag" (TList (mem "member" (TLeaf KText)));
   flat "Meta" (TMap (mem "key" (TLeaf KText)) (mem "value" (TLeaf KInt))); mem "Objects" (TList (mem "member" (TStruct 0)));
   flat "Object" (TList (mem "member" (TStruct 0)))].
Definition table (i : nat) : shape := match i with O => object | _ => bucket end.
Definition doc : xml := Elem (mkNode (lit "{urn:x}Bucket") [(lit "{urn:y}id", lit "b1")] None)
  [tx "Tag" "t1"; el "Meta" [tx "key" "a"; tx "value" "1"]; el "Unknown" [el "Tag" []; el "Deep" [tx "Count" "9"]]; tx "Count" "7"; tx "Tag" "t2";
   el "Object" [tx "Size" "3"; tx "Key" "k"]; el "Meta" [el "Odd" [el "value" []]; tx "key" "b"; tx "value" "2"]; el "Objects" [el "member" [tx "Key" "o"]; el "item" []]].
Definition read_doc (x : xml) (names : list text) (d : shape) : result value :=
  deserialize (fun _ => Err ValueError) (fun _ => None) Time_Model.DATE_TIME true table (events x) names d.
Example doc_read : read_doc doc [] bucket = Ok (VStruct
  [(lit "id", VScalar (HText (lit "b1"))); (lit "Count", VScalar (HInt 7)); (lit "Objects", VList [VStruct [(lit "Key", VScalar (HText (lit "o")))]; VStruct []]);
   (lit "Tag", VList [VScalar (HText (lit "t1")); VScalar (HText (lit "t2"))]); (lit "Meta", VMap [(lit "a", VScalar (HInt 1)); (lit "b", VScalar (HInt 2))]);
   (lit "Object", VList [VStruct [(lit "Size", VScalar (HInt 3)); (lit "Key", VScalar (HText (lit "k")))]])]).
Proof. vm_compute. reflexivity. Qed.
Lemma nodup_lit (l : list text) : (fix nd l := match l with [] => true | x :: r => (negb (mem_text x r) && nd r)%bool end) l = true -> NoDup l.
Proof.
  induction l as [|x r IH]; [constructor|]. intros H. apply andb_prop in H as [H1 H2]. constructor; [|now apply IH]. intros I. apply mem_text_In in I. rewrite I in H1. discriminate.
Qed.
Example table_readable : forall id, readable table (table id).
Proof.
  assert (O : readable table object).
  { split; [apply nodup_lit; vm_compute; reflexivity | intros m H | intros m H F]; cbn [object d_members In] in H; repeat (destruct H as [<-|H]; [first [exact I | discriminate F]|]); destruct H. }
  assert (B : readable table bucket).
  { split; [apply nodup_lit; vm_compute; reflexivity | intros m H | intros m H F]; cbn [bucket d_members In] in H.
    - repeat (destruct H as [<-|H]; [cbn; repeat split|]); destruct H.
    - repeat (destruct H as [<-|H]; [first [discriminate F | left; exact I | right; exists 0%nat; split; [left; reflexivity | reflexivity]]|]); destruct H. }
  intros [|id]; [exact O | exact B].
Qed.
Example doc_proper : proper doc.
Proof.
  assert (T : forall s, hd 0 (lit s) <> 123 -> exists t, tag_name (lit s) t) by (intros; eexists; now constructor).
  repeat (constructor; [|intros k v K; cbn [n_attrs In] in K|intros c H; cbn [In] in H; repeat (destruct H as [<-|H]); try destruct H]);
  cbn [n_tag]; try (apply T; vm_compute; discriminate); try (destruct K as [K|K]; [injection K as <- <- | destruct K]); try destruct K.
  - exists (lit "Bucket"). apply (T_qualified (lit "urn:x") (lit "Bucket")). vm_compute; intuition discriminate.
  - exists (lit "id"). apply (T_qualified (lit "urn:y") (lit "id")). vm_compute; intuition discriminate.
Qed.
(** Wrapped: the attributes of the last wrapper are not looked at. *)
Example doc_wrapped : read_doc (el "Response" [doc]) [lit "Response"; lit "Bucket"] bucket = read_doc (el "Response" [Elem (mkNode (lit "Bucket") [] None) (match doc with Elem _ ch => ch end)]) [lit "Response"; lit "Bucket"] bucket
  /\ exists kw, read_doc (el "Response" [doc]) [lit "Response"; lit "Bucket"] bucket = Ok (VStruct kw) /\ dict_get (lit "id") kw = None /\ dict_get (lit "Count") kw = Some (VScalar (HInt 7)).
Proof. split; [vm_compute; reflexivity|]. eexists. split; [vm_compute; reflexivity|]. split; reflexivity. Qed.
(** Interleaved in another way. *)
Example doc_interleaved : exists kw kw',
  read_doc (el "Bucket" [tx "Tag" "t1"; tx "Count" "1"; tx "Tag" "t2"; tx "Count" "2"]) [] bucket = Ok (VStruct kw) /\
  read_doc (el "Bucket" [tx "Count" "1"; tx "Count" "2"; tx "Tag" "t1"; tx "Tag" "t2"]) [] bucket = Ok (VStruct kw') /\ dict_get (lit "Tag") kw = dict_get (lit "Tag") kw' /\ dict_get (lit "Count") kw = Some (VScalar (HInt 2)).
Proof. eexists _, _. split; [vm_compute; reflexivity|]. split; [vm_compute; reflexivity|]. split; reflexivity. Qed.
(** Flattened structures under another name: the listing of a bucket. *)
Definition listing : shape := mkShape (lit "Listing") None [flat "Contents" (TList (mem "member" (TStruct 0)))].
Example listing_fails : read_doc (el "Listing" [el "Contents" [tx "Key" "k"; tx "Size" "1"]]) [] listing = Err XMLParseError.
Proof. vm_compute. reflexivity. Qed.
Example listing_held : delivers (leaf (fun _ => Err ValueError) (fun _ => None) Time_Model.DATE_TIME true) table (mkNode (lit "Listing") [] None) listing [el "Contents" [tx "Key" "k"]]
  [(lit "Contents", VList [VStruct [(lit "Key", VScalar (HText (lit "k")))]])].
Proof.
  apply (D_all _ _ _ _ _ [] [] [_]).
  - apply FA_none; [discriminate | constructor].
  - apply S_other; [|constructor]. intros m [[<-|[]] _]; discriminate.
  - assert (N : forall s ch, hd 0 (lit s) <> 123 -> named (lit s) (el s ch)) by (intros; constructor; assumption).
    apply (G_first _ _ _ _ _ _ _ (flat "Contents" (TList (mem "member" (TStruct 0)))) [el "Contents" [tx "Key" "k"]]).
    + split; [now left | reflexivity].
    + reflexivity.
    + apply N. vm_compute. discriminate.
    + intros [].
    + constructor; [apply N; vm_compute; discriminate | constructor].
    + apply (F_list _ _ _ (mem "member" (TStruct 0))); [reflexivity|]. constructor; [|constructor].
      apply (R_struct _ _ _ _ _ 0%nat [(lit "Key", VScalar (HText (lit "k")))]); [reflexivity|]. apply (D_all _ _ _ _ _ [] [_] []).
      * do 2 (apply FA_none; [discriminate|]). constructor.
      * apply (S_member _ _ _ _ _ (mem "Key" (TLeaf KText))); [split; [now left | reflexivity] | reflexivity | apply T_plain; vm_compute; discriminate | now apply (R_leaf _ _ _ _ KText) | constructor].
      * apply G_other; [|constructor]. intros m [[<-|[<-|[]]] _]; discriminate.
    + constructor.
Qed.
