(** C95: what a call of the awsQuery protocol makes of its response. *)
From Verif Require Import Base Base_Proofs HttpVal_Model Xml_Model Xml_Spec Xml_Proofs Xml_Props ResponseWire_Model ResponseWire_Spec QueryResponse_Model QueryResponse_Spec QueryResponse_Proofs.
From Verif Require Transport_Model HttpBind_Model HttpBind_Spec HttpBind_Props HttpRead_Proofs Json_Props Errors_Model Errors_Spec Errors_Proofs Errors_Props Header_Model ResponseWire_Proofs Fields_Model PyDict_Model Time_Model PyDecimal_Model Shape_Model Shape_Spec.
Local Open Scope N_scope.

Section Props.
  Variable iterparse : bytes -> list event.
  Variable fromstring : bytes -> option Errors_Model.xml.
  Variable py_float : text -> result float.
  Variable time_float : text -> option Time_Model.float.
  Variable default_format : format.
  Variable use_format : bool.
  Variable shapes : nat -> shape.
  Variable nearest : PyDecimal_Model.decimal -> float.
  Variable lower : text -> text.
  Variable decode_value : nat -> bytes -> result HttpBind_Model.value.
  Variable decode_struct : bytes -> result (list (nat * HttpBind_Model.value)).
  Variable reg : Errors_Model.registry.
  Variable error_schema : Errors_Model.shape -> shape.
  Variable construct : Errors_Model.shape -> value -> result Errors_Model.call_error.
  Notation answer_to := (deserialize_response iterparse fromstring py_float time_float default_format use_format shapes nearest lower
    decode_value decode_struct reg error_schema construct).
  Notation leaf := (leaf py_float time_float default_format use_format).
  Notation contents := (contents leaf shapes).
  Hypothesis shapes_ok : forall id, readable shapes (shapes id).

  Lemma successful service o status lines t b : brings t b -> b <> [] -> (200 <= status < 300)%Z ->
    answer_to service o status lines t =
    Output (deserialize py_float time_float default_format use_format shapes (iterparse b) (response_wrapper_elements o) (op_output o)).
  Proof.
    intros B Nb S. unfold deserialize_response. rewrite (consumed t b B), (proj2 (success_iff status) S). cbn [negb].
    destruct b; [contradiction|reflexivity].
  Qed.

  (** The output of a successful call is what is in the result element, however the body
      is cut into chunks and whatever comes after that element, even if nothing does. *)
  Theorem C95_after service o status lines t b root res e ch l v : brings t b -> b <> [] -> (200 <= status < 300)%Z ->
    d_members (op_output o) <> [] -> readable shapes (op_output o) -> (forall c, In c ch -> proper c) ->
    tag_name (n_tag root) (op_name o ++ lit "Response") -> tag_name (n_tag res) (op_name o ++ lit "Result") ->
    iterparse b = Start root :: Start res :: flat_map events ch ++ End e :: l ->
    answer_to service o status lines t = Output (Ok v) <-> contents (op_output o) ch v.
  Proof.
    intros B Nb S M R P T1 T2 I. rewrite (successful _ _ _ _ _ _ B Nb S), I. unfold response_wrapper_elements.
    destruct (d_members (op_output o)) as [|m ms] eqn:E; [contradiction|].
    pose proof (C51_wrapped py_float time_float default_format use_format shapes (op_output o) [root; res]
      [op_name o ++ lit "Response"; op_name o ++ lit "Result"] ch e l v shapes_ok R P ltac:(discriminate)
      (Forall2_cons _ _ T1 (Forall2_cons _ _ T2 (Forall2_nil _)))) as X.
    cbn [map app] in X. unfold QueryResponse_Spec.contents. split; intros H.
    - apply X. injection H as H. exact H.
    - f_equal. apply X, H.
  Qed.
  Theorem C95_output service o status lines t b root res ch post : brings t b -> (200 <= status < 300)%Z ->
    d_members (op_output o) <> [] -> readable shapes (op_output o) -> (forall c, In c ch -> proper c) ->
    holds iterparse fromstring b (Elem root (Elem res ch :: post)) ->
    named (op_name o ++ lit "Response") (Elem root (Elem res ch :: post)) -> named (op_name o ++ lit "Result") (Elem res ch) ->
    (exists r, answer_to service o status lines t = Output r) /\
    forall v, answer_to service o status lines t = Output (Ok v) <-> contents (op_output o) ch v.
  Proof.
    intros B S M R P (Nb & I & _) T1 T2. split.
    - rewrite (successful _ _ _ _ _ _ B Nb S). eexists. reflexivity.
    - intros v. apply (C95_after service o status lines t b root res res ch (flat_map events post ++ [End root])); try assumption.
      rewrite I. cbn [events flat_map]. rewrite <- !app_assoc. cbn [app]. rewrite <- !app_assoc. reflexivity.
  Qed.

  (** An operation without output members needs no result element, and ignores all there is. *)
  Theorem C95_void service o status lines t b root ch : brings t b -> (200 <= status < 300)%Z ->
    d_members (op_output o) = [] -> (forall c, In c ch -> proper c) ->
    holds iterparse fromstring b (Elem root ch) -> named (op_name o ++ lit "Response") (Elem root ch) ->
    answer_to service o status lines t = Output (Ok (VStruct [])).
  Proof.
    intros B S M P (Nb & I & _) T. rewrite (successful _ _ _ _ _ _ B Nb S), I. f_equal. unfold response_wrapper_elements. rewrite M.
    assert (R : readable shapes (op_output o)).
    { split; rewrite M; [constructor|intros m []|intros m []]. }
    assert (F : Forall2 (fun w name => tag_name (n_tag w) name) [root] [op_name o ++ lit "Response"]) by (constructor; [exact T|constructor]).
    cbn [events].
    pose proof (C51_wrapped py_float time_float default_format use_format shapes (op_output o) [root] [op_name o ++ lit "Response"] ch root [] (VStruct []) shapes_ok R P
      ltac:(discriminate) F) as X. cbn [map app] in X. apply X. clear X.
    rewrite M. exists [], []. split; [|split; [|reflexivity]].
    - clear. induction ch as [|c ch IH]; [constructor|]. apply S_other; [intros m []; contradiction|exact IH].
    - assert (Q : forall all l, regrouped leaf shapes [] all [] l []); [|apply Q].
      intros all l. induction l as [|c l IH]; constructor; [intros m []; contradiction|exact IH].
  Qed.

  (** The result element must come first: any other element before it, or none at all,
      makes the call fail. *)
  Theorem C95_order_refuted service o status lines t b root ch : brings t b -> (200 <= status < 300)%Z ->
    d_members (op_output o) <> [] -> proper (Elem root ch) ->
    holds iterparse fromstring b (Elem root ch) -> named (op_name o ++ lit "Response") (Elem root ch) ->
    (forall c, hd_error ch = Some c -> ~ named (op_name o ++ lit "Result") c) -> ~ tag_name (n_tag root) (op_name o ++ lit "Result") ->
    answer_to service o status lines t = Output (Err XMLParseError).
  Proof.
    intros B S M P (Nb & I & _) T H Nr. rewrite (successful _ _ _ _ _ _ B Nb S), I. f_equal. unfold response_wrapper_elements.
    destruct (d_members (op_output o)) eqn:E; [contradiction|]. inversion P as [? ? Pt _ Pc]; subst.
    assert (F : Forall2 (fun w name => tag_name (n_tag w) name) [root] [op_name o ++ lit "Response"]) by (constructor; [exact T|constructor]).
    cbn [events]. destruct ch as [|[n ch'] ch].
    - exact (proj2 (C51_wrapper py_float time_float default_format use_format shapes (op_output o) _ [root] root (op_name o ++ lit "Result") [] [] F Nr Pt)).
    - specialize (H _ eq_refl). pose proof (Pc _ (or_introl eq_refl)) as Pn. inversion Pn as [? ? Pt' _ _]; subst.
      cbn [flat_map events app]. exact (proj1 (C51_wrapper py_float time_float default_format use_format shapes (op_output o) _ [root] n (op_name o ++ lit "Result") [] _ F H Pt')).
  Qed.

  (** ** Failures *)

  (** Exactly the statuses outside 200 to 299 make a call fail with an error. *)
  Theorem C95_status service o status lines t b : brings t b ->
    (exists r, answer_to service o status lines t = Failure r) <-> ~ (200 <= status < 300)%Z.
  Proof.
    intros B. unfold deserialize_response. rewrite (consumed t b B). rewrite <- success_iff. destruct (Errors_Model.is_success status); cbn [negb].
    - split; [intros (r & H); destruct b; discriminate H|intros H; elim H; reflexivity].
    - split; [intros _; discriminate|intros _; eexists; reflexivity].
  Qed.

  Lemma failing service o status lines t b : brings t b -> ~ (200 <= status < 300)%Z ->
    exists fs, (forall name, HttpBind_Spec.header_values lower fs name = HttpBind_Spec.lines_named lower name lines) /\
      Some match answer_to service o status lines t with Failure r => r | _ => Err TypeError end =
        Errors_Model.query_response_error (read_error iterparse py_float time_float default_format use_format shapes error_schema construct b)
          reg service (op_errors o) status fs (fromstring b) /\
      exists r, answer_to service o status lines t = Failure r.
  Proof.
    intros B S. exists (marshal_loop lower lines []). split.
    - intros name. rewrite ResponseWire_Proofs.marshal_tuples. unfold HttpBind_Spec.header_values.
      pose proof (HttpRead_Proofs.field_named lower lines name) as X. cbv zeta in X. destruct (PyDict_Model.dict_get _ _); [apply X|symmetry; exact X].
    - unfold deserialize_response, Errors_Model.query_response_error. rewrite (consumed t b B).
      destruct (Errors_Model.is_success status) eqn:E; [elim S; apply success_iff, E|]. cbn [negb]. split; [reflexivity|eexists; reflexivity].
  Qed.

  (** A failing response whose code stands for a modeled error raises that error, made of
      what is in the error element. *)
  Theorem C95_error service o status lines t b root err ch post c code s v e0 : Errors_Spec.sound reg -> brings t b -> ~ (200 <= status < 300)%Z ->
    holds iterparse fromstring b (Elem root (Elem err ch :: post)) -> proper (Elem root (Elem err ch :: post)) ->
    named (lit "ErrorResponse") (Elem root (Elem err ch :: post)) -> named (lit "Error") (Elem err ch) ->
    first_named (lit "Code") ch c -> n_text (root_node c) = Some code ->
    Errors_Spec.query_resolves reg (op_errors o) service code s -> Errors_Model.sh_modeled s = true ->
    (exists ns name m, Shape_Spec.id_form (service ++ [35%N] ++ code) ns name m) ->
    readable shapes (error_schema s) -> contents (error_schema s) ch v -> construct s v = Ok e0 ->
    exists e fs, answer_to service o status lines t = Failure (Ok e) /\
      (forall name, HttpBind_Spec.header_values lower fs name = HttpBind_Spec.lines_named lower name lines) /\
      Errors_Spec.modeled_as e0 e (Errors_Model.parse_retry_after fs).
  Proof.
    intros So B S (Nb & I & Fs) P T1 T2 Fc Tc Q Md Idf R C K.
    destruct (failing service o status lines t b B S) as (fs & Hfs & E & r & Er). rewrite Er in E. rewrite Fs in E.
    assert (Re : read_error iterparse py_float time_float default_format use_format shapes error_schema construct b s = Ok e0).
    { unfold read_error. rewrite I. inversion P as [? ? _ _ Pc]; subst. pose proof (Pc _ (or_introl eq_refl)) as Pe. inversion Pe as [? ? _ _ Pch]; subst.
      assert (X : deserialize py_float time_float default_format use_format shapes (events (Elem root (Elem err ch :: post))) error_wrapper_elements (error_schema s) = Ok v).
      { assert (F : Forall2 (fun w name => tag_name (n_tag w) name) [root; err] error_wrapper_elements) by (constructor; [exact T1|constructor; [exact T2|constructor]]).
        pose proof (C51_wrapped py_float time_float default_format use_format shapes (error_schema s) [root; err] error_wrapper_elements ch err
          (flat_map events post ++ [End root]) v shapes_ok R Pch ltac:(discriminate) F) as X.
        cbn [map app] in X. cbn [events flat_map]. rewrite <- !app_assoc. cbn [app]. rewrite <- !app_assoc. apply X, C. }
      rewrite X. cbn [bind]. exact K. }
    assert (Qc : Errors_Spec.query_code (strip (Elem root (Elem err ch :: post))) code).
    { split; [apply strip_named, T1|]. exists (strip (Elem err ch)), (strip c). split; [|split].
      - apply strip_first. exists [], post. split; [reflexivity|]. split; [exact T2|intros y []].
      - apply strip_first, Fc.
      - destruct c. exact Tc. }
    destruct (Errors_Props.C47_query_modeled _ reg So service (op_errors o) status fs _ code s e0 (strip_proper _ P) S Qc Q Md Re Idf) as (e & E' & Ma).
    rewrite E' in E. injection E as ->. exists e, fs. split; [exact Er|]. split; assumption.
  Qed.

  (** A body that is not XML or has no code, or a code that stands for nothing, gives an
      error with the flags of the status. *)
  Theorem C95_unmodeled service o status lines t b : Errors_Spec.sound reg -> brings t b -> ~ (200 <= status < 300)%Z ->
    (fromstring b = None \/ exists x, holds iterparse fromstring b x /\ proper x /\
       forall code, Errors_Spec.query_code (strip x) code ->
         (forall s, ~ Errors_Spec.query_resolves reg (op_errors o) service code s) /\ exists ns name m, Shape_Spec.id_form (service ++ [35%N] ++ code) ns name m) ->
    exists e fs, answer_to service o status lines t = Failure (Ok e) /\
      (forall name, HttpBind_Spec.header_values lower fs name = HttpBind_Spec.lines_named lower name lines) /\
      Errors_Spec.unmodeled status (Errors_Model.parse_retry_after fs) e.
  Proof.
    intros So B S H. destruct (failing service o status lines t b B S) as (fs & Hfs & E & r & Er). rewrite Er in E.
    assert (X : exists e, Errors_Model.query_response_error (read_error iterparse py_float time_float default_format use_format shapes error_schema construct b)
          reg service (op_errors o) status fs (fromstring b) = Some (Ok e) /\ Errors_Spec.unmodeled status (Errors_Model.parse_retry_after fs) e).
    { apply (Errors_Props.C47_query_unmodeled _ reg So); [|exact S|].
      - intros x Hx. destruct H as [H|(y & (_ & _ & Fy) & Py & _)]; [congruence|]. rewrite Fy in Hx. injection Hx as <-. apply strip_proper, Py.
      - intros x code Hx Hc. destruct H as [H|(y & (_ & _ & Fy) & _ & U)]; [congruence|]. rewrite Fy in Hx. injection Hx as <-. apply U, Hc. }
    destruct X as (e & E' & U). rewrite E' in E. injection E as ->. exists e, fs. split; [exact Er|]. split; assumption.
  Qed.

  (** The error element is found behind other elements when its code is looked for, but
      not when it is read: the modeled error is lost. *)
  Theorem C95_error_order_refuted service o status lines t b root other ch0 ch c err ech code s : Errors_Spec.sound reg -> brings t b -> ~ (200 <= status < 300)%Z ->
    holds iterparse fromstring b (Elem root (Elem other ch0 :: ch)) -> proper (Elem root (Elem other ch0 :: ch)) ->
    named (lit "ErrorResponse") (Elem root (Elem other ch0 :: ch)) -> ~ named (lit "Error") (Elem other ch0) ->
    first_named (lit "Error") ch (Elem err ech) -> first_named (lit "Code") ech c -> n_text (root_node c) = Some code ->
    Errors_Spec.query_resolves reg (op_errors o) service code s -> Errors_Model.sh_modeled s = true ->
    (exists ns name m, Shape_Spec.id_form (service ++ [35%N] ++ code) ns name m) ->
    answer_to service o status lines t = Failure (Err XMLParseError).
  Proof.
    intros So B S (Nb & I & Fs) P T1 T2 Fe Fc Tc Q Md (ns & name & m & Idf).
    destruct (failing service o status lines t b B S) as (fs & Hfs & E & r & Er). rewrite Er in E. rewrite Er. do 1 f_equal. rewrite Fs in E.
    assert (Re : read_error iterparse py_float time_float default_format use_format shapes error_schema construct b s = Err XMLParseError).
    { unfold read_error. rewrite I. inversion P as [? ? _ _ Pc]; subst. pose proof (Pc _ (or_introl eq_refl)) as Pe. inversion Pe as [? ? Pt _ _]; subst.
      assert (F : Forall2 (fun w name => tag_name (n_tag w) name) [root] [lit "ErrorResponse"]) by (constructor; [exact T1|constructor]).
      pose proof (proj1 (C51_wrapper py_float time_float default_format use_format shapes (error_schema s) [lit "ErrorResponse"] [root] other (lit "Error") []
        (flat_map events ch0 ++ [End other] ++ flat_map events ch ++ [End root]) F T2 Pt)) as X.
      cbn [map app] in X. cbn [events flat_map]. rewrite <- !app_assoc. cbn [app]. rewrite <- !app_assoc. cbn [app]. exact (f_equal (fun r => do v <- r; construct s v) X). }
    assert (Qc : Errors_Spec.query_code (strip (Elem root (Elem other ch0 :: ch))) code).
    { split; [apply strip_named, T1|]. exists (strip (Elem err ech)), (strip c). split; [|split].
      - apply strip_first. destruct Fe as (pre & post & -> & Ne & Fe). exists (Elem other ch0 :: pre), post. split; [reflexivity|]. split; [exact Ne|].
        intros y [<-|Iy]; [exact T2|apply Fe, Iy].
      - apply strip_first, Fc.
      - destruct c. exact Tc. }
    pose proof (strip_proper _ P) as Px. set (sx := strip (Elem root (Elem other ch0 :: ch))) in *. clearbody sx.
    unfold Errors_Model.query_response_error in E. destruct (Errors_Model.is_success status) eqn:Z; [elim S; apply success_iff, Z|]. cbn [negb] in E.
    injection E as ->. unfold Errors_Model.create_query_error.
    destruct (Errors_Props.parse_code_cases _ Px) as [(code' & E1 & C1)|[_ C1]]; [|elim (C1 _ Qc)].
    rewrite E1, (Errors_Props.query_code_fun _ _ _ C1 Qc). cbn [bind].
    destruct (Errors_Props.query_id_cases reg (op_errors o) service code So) as [(i & s' & Ei & Gi & R')|[(U & _)|(U & _)]]; [|elim (U s Q)|elim (U ns name m Idf)].
    rewrite Ei. cbn [bind]. unfold Errors_Model.modeled. rewrite Gi. cbn [bind]. rewrite (Errors_Props.query_resolves_fun _ _ _ _ _ _ So R' Q), Md, Re. reflexivity.
  Qed.

  (** ** No body *)

  (** A successful response without a body is an output without members, unless a header
      says that there was a body. *)
  Theorem C95_empty service o status lines t : brings t [] -> (200 <= status < 300)%Z -> unbound (op_bound o) ->
    HttpBind_Spec.lines_named lower (lit "content-length") lines = [] \/ HttpBind_Spec.lines_named lower (lit "content-length") lines = [lit "0"] ->
    answer_to service o status lines t = Bare (Ok []).
  Proof.
    intros B S U H. unfold deserialize_response. rewrite (consumed t [] B), (proj2 (success_iff status) S). cbn [negb].
    rewrite (bare_read time_float nearest lower decode_value decode_struct _ _ _ U). destruct (op_bound o); [reflexivity|].
    rewrite ResponseWire_Proofs.marshal_tuples. pose proof (HttpRead_Proofs.field_named lower lines (lit "content-length")) as X. cbv zeta in X.
    destruct (PyDict_Model.dict_get _ _) as [f|]; [|reflexivity]. destruct X as [X Y]. destruct H as [H|H]; [contradiction|]. rewrite X, H. reflexivity.
  Qed.

  (** If it does, the codec is asked to read nothing: the call ends with the exception of
      the parser. *)
  Theorem C95_lost_refuted service o status lines t len n e : brings t [] -> (200 <= status < 300)%Z -> unbound (op_bound o) -> op_bound o <> [] ->
    HttpBind_Spec.lines_named lower (lit "content-length") lines = [len] -> Errors_Spec.int_text len n -> n <> 0%Z -> decode_struct [] = Err e ->
    answer_to service o status lines t = Bare (Err e).
  Proof.
    intros B S U Nb H Hn Nz D. unfold deserialize_response. rewrite (consumed t [] B), (proj2 (success_iff status) S). cbn [negb].
    rewrite (bare_read time_float nearest lower decode_value decode_struct _ _ _ U). destruct (op_bound o); [contradiction|].
    rewrite ResponseWire_Proofs.marshal_tuples. pose proof (HttpRead_Proofs.field_named lower lines (lit "content-length")) as X. cbv zeta in X.
    destruct (PyDict_Model.dict_get _ _) as [f|]; [|congruence]. destruct X as [X _]. rewrite X, H. cbn [Header_Model.as_string].
    rewrite (proj2 (Errors_Proofs.py_int_iff len n) Hn). cbn [bind]. rewrite (proj2 (Z.eqb_neq n 0) Nz). rewrite D. reflexivity.
  Qed.
End Props.
Print Assumptions C95_lost_refuted.
Print Assumptions C95_after.
Print Assumptions C95_output.
Print Assumptions C95_void.
Print Assumptions C95_order_refuted.
Print Assumptions C95_status.
Print Assumptions C95_error.
Print Assumptions C95_unmodeled.
Print Assumptions C95_error_order_refuted.
Print Assumptions C95_empty.

(** ** Examples *)

(** An operation with an integer and a flattened list; its document has metadata after the
    result. *)
Definition qx_output : shape := mkShape (lit "ListOutput") None [mem "Count" (TLeaf KInt); flat "Tag" (TList (mem "member" (TLeaf KText)))].
Definition qx_bound : list HttpBind_Model.member := [HttpBind_Props.blank_member (lit "Count") (HttpBind_Model.ShScalar HttpVal_Model.KInt)].
Definition qx_bad : Shape_Model.shape_id := Shape_Model.mkShapeId (lit "ns#Bad") (lit "ns") (lit "Bad") None.
Definition qx_op : operation := mkOp (lit "List") qx_output qx_bound [(qx_bad, Some (lit "Broken"))].
Definition qx_result : list xml := [tx "Count" "7"; tx "Tag" "a"; el "Unknown" [tx "Count" "8"]; tx "Tag" "b"].
Definition qx_meta : xml := el "ResponseMetadata" [tx "RequestId" "r1"].
Definition qx_doc : xml := el "ListResponse" [el "ListResult" qx_result; qx_meta].
Definition qx_error_content : list xml := [tx "Type" "Sender"; tx "Code" "Broken"; tx "Message" "no"].
Definition qx_error : xml := el "ErrorResponse" [el "Error" qx_error_content; tx "RequestId" "r1"].
Definition qx_error_late : xml := el "ErrorResponse" [tx "RequestId" "r1"; el "Error" qx_error_content].
Definition qx_late : xml := el "ListResponse" [qx_meta; el "ListResult" qx_result].
Definition qx_docs : list xml := [qx_doc; qx_late; qx_error; qx_error_late].
(** A parser that knows these four documents. *)
Definition qx_parse (b : bytes) : option xml := match b with [60; i] => nth_error qx_docs (N.to_nat i) | _ => None end.
Definition qx_iterparse (b : bytes) : list event := match qx_parse b with Some x => events x | None => [] end.
Definition qx_fromstring (b : bytes) : option Errors_Model.xml := match qx_parse b with Some x => Some (strip x) | None => None end.
Definition qx_error_schema (s : Errors_Model.shape) : shape := mkShape (lit "Bad") None [mem "Message" (TLeaf KText)].
Definition qx_construct (s : Errors_Model.shape) (v : value) : result Errors_Model.call_error := Errors_Props.ex_read s.
Definition qx_answer (status : Z) (lines : list (text * text)) (t : transport) : answer :=
  deserialize_response qx_iterparse qx_fromstring (fun _ => Err ValueError) (fun _ => None) Time_Model.DATE_TIME true table Json_Props.ex_float HttpBind_Props.ex_lower
    (fun _ _ => Err SmithyErr) (fun _ => Err StopIteration) Errors_Props.ex_reg qx_error_schema qx_construct (lit "ns") qx_op status lines t.
Notation qx_leaf := (leaf (fun _ => Err ValueError) (fun _ => None) Time_Model.DATE_TIME true).

Lemma plain_named s c : hd 0 (lit s) <> 123 -> n_tag (root_node c) = lit s -> named (lit s) c.
Proof. intros H E. unfold named. rewrite E. constructor. exact H. Qed.
Ltac plain := apply plain_named; [vm_compute; discriminate|reflexivity].
Lemma proper_el s ch : hd 0 (lit s) <> 123 -> (forall c, In c ch -> proper c) -> proper (el s ch).
Proof. intros H C. constructor; [eexists; constructor; exact H|intros k v []|exact C]. Qed.
Lemma proper_tx s t : hd 0 (lit s) <> 123 -> proper (tx s t).
Proof. intros H. constructor; [eexists; constructor; exact H|intros k v []|intros c []]. Qed.
Ltac proper_doc := first [apply proper_tx; vm_compute; discriminate
  | apply proper_el; [vm_compute; discriminate|]; let c := fresh in let H := fresh in intros c H; cbn [In qx_result qx_error_content] in H;
    repeat (destruct H as [<-|H]; [proper_doc|]); destruct H].
Example qx_proper : proper qx_doc /\ proper qx_late /\ proper qx_error /\ proper qx_error_late.
Proof. unfold qx_doc, qx_late, qx_error, qx_error_late, qx_meta. split; [|split; [|split]]; proper_doc. Qed.
Example qx_readable : readable table qx_output /\ forall s, readable table (qx_error_schema s).
Proof.
  split; [|intros s]; (split; [apply nodup_lit; vm_compute; reflexivity | intros m H | intros m H F]); cbn [qx_output qx_error_schema d_members In] in H;
    repeat (destruct H as [<-|H]; [first [discriminate F | left; exact I | cbn; repeat split]|]); destruct H.
Qed.
Definition qx_value : value := VStruct [(lit "Count", VScalar (HInt 7)); (lit "Tag", VList [VScalar (HText (lit "a")); VScalar (HText (lit "b"))])].
Example C95_output_ex :
  brings (Crt [[60]; [0]; []]) [60; 0] /\ holds qx_iterparse qx_fromstring [60; 0] qx_doc /\
  named (op_name qx_op ++ lit "Response") qx_doc /\ named (op_name qx_op ++ lit "Result") (el "ListResult" qx_result) /\
  d_members (op_output qx_op) <> [] /\
  qx_answer 200 [] (Crt [[60]; [0]; []]) = Output (Ok qx_value) /\ contents qx_leaf table qx_output qx_result qx_value.
Proof.
  assert (B : brings (Crt [[60]; [0]; []]) [60; 0]) by (apply (B_crt [[60]; [0]] []); repeat constructor; discriminate).
  assert (H : holds qx_iterparse qx_fromstring [60; 0] qx_doc) by (split; [discriminate|split; reflexivity]).
  assert (N1 : named (op_name qx_op ++ lit "Response") qx_doc) by (apply (plain_named "ListResponse"); [vm_compute; discriminate|reflexivity]).
  assert (N2 : named (op_name qx_op ++ lit "Result") (el "ListResult" qx_result)) by (apply (plain_named "ListResult"); [vm_compute; discriminate|reflexivity]).
  assert (A : qx_answer 200 [] (Crt [[60]; [0]; []]) = Output (Ok qx_value)) by (vm_compute; reflexivity).
  repeat (split; [first [assumption|discriminate]|]).
  unfold qx_answer in A. eapply (C95_output qx_iterparse qx_fromstring) in A; [exact A|exact table_readable|exact B|split; [discriminate|reflexivity]|discriminate|exact (proj1 qx_readable)| |exact H|exact N1|exact N2].
  pose proof (proj1 qx_proper) as P. inversion P as [? ? _ _ P1]; subst. specialize (P1 _ (or_introl eq_refl)). inversion P1 as [? ? _ _ P2]; subst. exact P2.
Qed.
(** Metadata before the result, and before the error. *)
Example C95_order_ex :
  brings (Aiohttp [60; 1]) [60; 1] /\ holds qx_iterparse qx_fromstring [60; 1] qx_late /\ named (op_name qx_op ++ lit "Response") qx_late /\
  qx_answer 200 [] (Aiohttp [60; 1]) = Output (Err XMLParseError) /\
  holds qx_iterparse qx_fromstring [60; 3] qx_error_late /\ qx_answer 500 [] (Aiohttp [60; 3]) = Failure (Err XMLParseError).
Proof.
  split; [constructor|]. split; [split; [discriminate|split; reflexivity]|].
  split; [apply (plain_named "ListResponse"); [vm_compute; discriminate|reflexivity]|].
  split; [vm_compute; reflexivity|]. split; [split; [discriminate|split; reflexivity]|]. vm_compute. reflexivity.
Qed.
Example C95_error_ex :
  holds qx_iterparse qx_fromstring [60; 2] qx_error /\ named (lit "ErrorResponse") qx_error /\ named (lit "Error") (el "Error" qx_error_content) /\
  first_named (lit "Code") qx_error_content (tx "Code" "Broken") /\
  Errors_Spec.query_resolves Errors_Props.ex_reg (op_errors qx_op) (lit "ns") (lit "Broken") Errors_Props.ex_shape /\
  Shape_Spec.id_form (lit "ns" ++ [35] ++ lit "Broken") (lit "ns") (lit "Broken") None /\
  qx_answer 500 [] (Aiohttp [60; 2]) = Failure (Errors_Props.ex_read Errors_Props.ex_shape) /\
  qx_answer 429 [] (Aiohttp [1]) = Failure (Ok (Errors_Model.generic 429 None)) /\
  exists v, contents qx_leaf table (qx_error_schema Errors_Props.ex_shape) qx_error_content v.
Proof.
  split; [split; [discriminate|split; reflexivity]|]. split; [plain|]. split; [plain|].
  split; [exists [tx "Type" "Sender"], [tx "Message" "no"]; split; [reflexivity|split; [plain|]]|].
  { intros y [<-|[]] X. apply tag_name_iff in X. vm_compute in X. discriminate X. }
  split; [exact (proj1 (proj2 (proj2 Errors_Props.C47_query_ex)))|].
  split; [repeat split; try discriminate; vm_compute; intuition discriminate|].
  split; [vm_compute; reflexivity|]. split; [vm_compute; reflexivity|].
  exists (VStruct [(lit "Message", VScalar (HText (lit "no")))]).
  assert (F : Forall2 (fun w name => tag_name (n_tag w) name) [root_node (el "Error" [])] [lit "Error"]) by (repeat constructor; vm_compute; discriminate).
  assert (P : forall c, In c qx_error_content -> proper c).
  { pose proof (proj1 (proj2 (proj2 qx_proper))) as P. inversion P as [? ? _ _ P1]; subst. specialize (P1 _ (or_introl eq_refl)). inversion P1 as [? ? _ _ P2]; subst. exact P2. }
  pose proof (C51_wrapped (fun _ => Err ValueError) (fun _ => None) Time_Model.DATE_TIME true table (qx_error_schema Errors_Props.ex_shape) [root_node (el "Error" [])] [lit "Error"] qx_error_content
    (root_node (el "Error" [])) [] (VStruct [(lit "Message", VScalar (HText (lit "no")))]) table_readable (proj2 qx_readable _) P ltac:(discriminate) F) as X.
  apply X. vm_compute. reflexivity.
Qed.
Example C95_empty_ex :
  brings (Crt [[]]) [] /\ unbound (op_bound qx_op) /\ qx_answer 204 [(lit "Content-Length", lit "0")] (Crt [[]]) = Bare (Ok []).
Proof.
  split; [apply (B_crt [] []); constructor|]. split; [|vm_compute; reflexivity].
  intros m [<-|[]]. split; [right; split; reflexivity|reflexivity].
Qed.
(** A body that was lost. *)
Example C95_lost_ex : HttpBind_Spec.lines_named HttpBind_Props.ex_lower (lit "content-length") [(lit "Content-Length", lit "42")] = [lit "42"] /\
  Errors_Spec.int_text (lit "42") 42 /\ qx_answer 200 [(lit "Content-Length", lit "42")] (Crt [[]]) = Bare (Err StopIteration).
Proof. split; [vm_compute; reflexivity|]. split; [apply Errors_Proofs.py_int_iff; vm_compute; reflexivity|vm_compute; reflexivity]. Qed.
