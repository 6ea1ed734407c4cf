(** C46: form bodies of the AWS Query protocol. *)
From Verif Require Import Base Utf8_Model PyText_Model PySort_Model PyDecimal_Model Base64_Spec Base64_Proofs Base64Rfc_Proofs Fields_Model HttpVal_Model.
From Verif Require Import Json_Spec Time_Model Time_Spec HttpVal_Spec Form_Model Form_Spec Form_Proofs.
From Verif Require HttpVal_Props Json_Model.
Local Open Scope N_scope.

(** Every structure of the protocol's values has a form.  Its body is plain ASCII that
    reads as the action, the version and one parameter for every leaf, named by the way
    to the leaf; different leaves have different names. *)
Theorem C46_form pads_year repr xml_name member_name flattened ts_format list_member map_key map_value lower action version s members :
  good pads_year repr xml_name member_name ts_format list_member map_key map_value s (QStruct members) ->
  encodable action -> encodable version ->
  exists r ps,
    serialize_form pads_year repr xml_name member_name flattened ts_format list_member map_key map_value lower action version s members = Ok r
    /\ (forall c, In c (f_body r) -> c < 128)
    /\ form_of (f_body r) ((lit "Action", action) :: (lit "Version", version) :: ps)
    /\ NoDup (map fst ps)
    /\ forall name t, In (name, t) ps <->
         exists way, leaf pads_year repr xml_name member_name flattened ts_format list_member map_key map_value s (QStruct members) way t
           /\ name = join (lit ".") way.
Proof.
  intros G A V. destruct (top_params pads_year repr xml_name member_name flattened ts_format list_member map_key map_value s members G) as (ps & E & Np & Ep & L).
  destruct (flush_ok action version ps A V Ep) as (body & Eb & Ab & Fb). unfold serialize_form. rewrite E. cbn [bind]. rewrite Eb. cbn [bind].
  eexists _, ps. split; [reflexivity|]. cbn [f_body]. exact (conj Ab (conj Fb (conj Np L))).
Qed.
Print Assumptions C46_form.

Lemma ok_inj {A} (a b : A) : Ok a = Ok b -> a = b.
Proof. congruence. Qed.
Lemma two_fields lower n1 v1 n2 v2 : lower n1 = n1 -> lower n2 = n2 -> text_eqb n2 n1 = false ->
  tuples_loop lower Header [(n1, v1); (n2, v2)] [] = [(n1, mkField n1 [v1] Header); (n2, mkField n2 [v2] Header)].
Proof. intros L1 L2 D. cbn. rewrite L1, L2. cbn. rewrite D. reflexivity. Qed.

(** It is posted to the root with the type of forms and the length of its body. *)
Theorem C46_request pads_year repr xml_name member_name flattened ts_format list_member map_key map_value lower action version s members r :
  (forall n, In n [lit "content-type"; lit "content-length"] -> lower n = n) ->
  serialize_form pads_year repr xml_name member_name flattened ts_format list_member map_key map_value lower action version s members = Ok r ->
  f_method r = lit "POST" /\ f_path r = lit "/"
  /\ map (fun kf => (fst kf, f_name (snd kf), f_values (snd kf))) (f_fields r) =
     [(lit "content-type", lit "content-type", [lit "application/x-www-form-urlencoded"]);
      (lit "content-length", lit "content-length", [dec (N.of_nat (List.length (f_body r)))])].
Proof.
  intros Hl. unfold serialize_form. destruct (write _ _ _ _ _ _ _ _ _ s (QStruct members) []) as [ps|]; [|discriminate]. cbn [bind].
  destruct (flush (Some action) (Some version) ps) as [body|]; [|discriminate]. cbn [bind]. intros H. apply ok_inj in H. subst r.
  cbn [f_method f_path f_fields f_body]. split; [reflexivity|]. split; [reflexivity|].
  assert (L1 := Hl _ (or_introl eq_refl)). assert (L2 := Hl _ (or_intror (or_introl eq_refl))).
  rewrite (two_fields lower _ _ _ _ L1 L2 eq_refl). reflexivity.
Qed.
Print Assumptions C46_request.

(** What the texts say. *)
Theorem C46_values pads repr tf nearest ts_format s v : floats_ok repr tf nearest ->
  match v with
  | HBool b => form_text pads repr ts_format s v = Ok (lit (if b then "true" else "false"))
  | HText t => form_text pads repr ts_format s v = Ok t
  | HBlob bs => all_bytes bs = true -> exists t, form_text pads repr ts_format s v = Ok t /\ base64 bs t
  | HTime t =>
    forall f, f = match ts_format s with Some f => f | None => Time_Model.DATE_TIME end -> time_carried pads f t ->
      exists x u, form_text pads repr ts_format s v = Ok x /\ deserialize tf f (SText x) = Ok u
        /\ offset u = Some 0%Z /\ instant_of u = instant_of t
  | _ =>
    carried pads nearest (mkLeaf false (ts_format s)) v ->
    exists t, form_text pads repr ts_format s v = Ok t
      /\ match v with
         | HInt z => exists n, read_number t = Some (n, []) /\ num_value n = (z, 0%Z) /\ integral n = true
         | HFloat (Json_Model.FFin d) | HDecimal (Json_Model.BFin d) =>
           exists n, read_number t = Some (n, []) /\ n_neg n = d_neg d /\ same_value (num_value n) (dec_value d)
         | HFloat Json_Model.FNaN | HDecimal Json_Model.BNaN => t = lit "NaN"
         | HFloat Json_Model.FInf | HDecimal Json_Model.BInf => t = lit "Infinity"
         | HFloat Json_Model.FNegInf | HDecimal Json_Model.BNegInf => t = lit "-Infinity"
         | _ => False
         end
  end.
Proof.
  intros F. assert (Q := HttpVal_Props.C60_query pads repr tf nearest (mkLeaf false (ts_format s)) v F).
  assert (U := fun C K => HttpVal_Props.C60_numbers pads repr nearest (mkLeaf false (ts_format s)) false v C K).
  destruct v as [b|z|f|d|t|t|bs]; try exact Q.
  - intros C. destruct (U C I) as (t & _ & E & _ & P). exists t. exact (conj E P).
  - intros C. destruct (U C I) as (t & _ & E & _ & P). exists t. exact (conj E P).
  - intros C. destruct (U C I) as (t & _ & E & _ & P). exists t. exact (conj E P).
  - intros B. eexists. split; [reflexivity|]. apply b64_written. exact B.
Qed.
Print Assumptions C46_values.

(** Documents have no form. *)
Theorem C46_documents pads_year repr xml_name member_name flattened ts_format list_member map_key map_value lower action version s m name :
  member_name m = Some name ->
  serialize_form pads_year repr xml_name member_name flattened ts_format list_member map_key map_value lower action version s [(m, QDocument)] = Err SerializationErr.
Proof. intros E. unfold serialize_form. cbn [write]. unfold expect_name. rewrite E. reflexivity. Qed.
Print Assumptions C46_documents.

(** A structure with a string, a flattened list, a list of structures, a map, an empty
    list and an unset member. *)
Definition ex_names (n : N) : option text :=
  match n with 1 => Some (lit "Name") | 2 => Some (lit "Tags") | 3 => Some (lit "Groups") | 4 => Some (lit "Attrs") | 5 => Some (lit "None") | 6 => Some (lit "Id") | 7 => Some (lit "Gone") | _ => None end.
Definition ex_xml (n : N) : option text := match n with 10 => Some (lit "item") | _ => None end.
Definition ex_flat (n : N) : bool := n =? 2.
Definition ex_member (n : N) : option N := match n with 2 => Some 9 | 3 => Some 10 | 5 => Some 9 | _ => None end.
Definition ex_key (n : N) : option N := match n with 4 => Some 11 | _ => None end.
Definition ex_value (n : N) : option N := match n with 4 => Some 12 | _ => None end.
Definition ex_members : list (N * value) :=
  [(1, QScalar (HText (lit "a&b=c")));
   (2, QList [QScalar (HText (lit "x")); QScalar (HText [233])]);
   (3, QList [QStruct [(6, QScalar (HInt 7%Z))]]);
   (4, QMap [(lit "k", QScalar (HBool true))]);
   (5, QList []); (7, QNull)].
Example C46_good : good false HttpVal_Props.ex_repr ex_xml ex_names (fun _ => None) ex_member ex_key ex_value 0 (QStruct ex_members)
  /\ encodable (lit "ListThings") /\ encodable (lit "2020-01-01").
Proof.
  assert (P : forall n, forallb (fun c => negb (c =? 46)) n && Utf8_Proofs.valid_text n = true -> plain_name n).
  { intros n H. apply andb_true_iff in H. destruct H as [A B]. split; [|exact B]. intros J. rewrite forallb_forall in A. apply A in J. discriminate J. }
  split; [|split; reflexivity].
  exists [lit "Name"; lit "Tags"; lit "Groups"; lit "Attrs"; lit "None"; lit "Gone"]. split; [|split; [|split]].
  - unfold ex_members. repeat (apply Forall2_cons || apply Forall2_nil); (eexists; split; reflexivity).
  - repeat constructor; intros J; vm_compute in J; repeat (destruct J as [J|J]); try discriminate J; exact J.
  - repeat (apply Forall_cons || apply Forall_nil); apply P; vm_compute; reflexivity.
  - split; [eexists; split; reflexivity|]. split.
    { eexists. split; [reflexivity|]. split; [apply P; vm_compute; reflexivity|]. split; [eexists; split; reflexivity|]. split; [eexists; split; reflexivity|exact I]. }
    split.
    { eexists. split; [reflexivity|]. split; [apply P; vm_compute; reflexivity|]. split; [|exact I].
      exists [lit "Id"]. split; [repeat constructor; eexists; split; reflexivity|]. split; [repeat constructor; intros []|]. split; [repeat constructor; apply P; vm_compute; reflexivity|].
      split; [eexists; split; reflexivity|exact I]. }
    split.
    { eexists _, _. split; [reflexivity|]. split; [reflexivity|]. split; [apply P; vm_compute; reflexivity|]. split; [apply P; vm_compute; reflexivity|].
      split; [vm_compute; discriminate|]. split; [|exact I]. split; [eexists; split; reflexivity|reflexivity]. }
    split; [eexists; split; [reflexivity|]; split; [apply P; vm_compute; reflexivity|exact I]|]. split; [exact I|exact I].
Qed.
Example C46_example : exists r,
  serialize_form false HttpVal_Props.ex_repr ex_xml ex_names ex_flat (fun _ => None) ex_member ex_key ex_value (fun t => t)
    (lit "ListThings") (lit "2020-01-01") 0 ex_members = Ok r
  /\ f_body r = lit "Action=ListThings&Version=2020-01-01&Name=a%26b%3Dc&Tags.1=x&Tags.2=%C3%A9&Groups.item.1.Id=7&Attrs.entry.1.key=k&Attrs.entry.1.value=true&None=".
Proof. eexists. split; vm_compute; reflexivity. Qed.

(** Names with dots may clash: the hypothesis that names have none is needed. *)
Theorem C46_dots_refuted : exists r members (names : N -> option text),
  serialize_form false HttpVal_Props.ex_repr (fun _ => None) names (fun _ => false) (fun _ => None) (fun _ => None) (fun _ => None) (fun _ => None) (fun t => t)
    (lit "A") (lit "1") 0 members = Ok r
  /\ f_body r = lit "Action=A&Version=1&a.b=x&a.b=y"
  /\ NoDup (map fst members).
Proof.
  exists (mkForm (lit "POST") (lit "/")
    (tuples_loop (fun t => t) Header [(lit "content-type", lit "application/x-www-form-urlencoded"); (lit "content-length", lit "30")] [])
    (lit "Action=A&Version=1&a.b=x&a.b=y")).
  exists [(1, QScalar (HText (lit "x"))); (2, QStruct [(3, QScalar (HText (lit "y")))])].
  exists (fun n => match n with 1 => Some (lit "a.b") | 2 => Some (lit "a") | _ => Some (lit "b") end).
  split; [vm_compute; reflexivity|]. split; [reflexivity|]. repeat constructor; intros J; vm_compute in J; repeat (destruct J as [J|J]); try discriminate J; exact J.
Qed.
Print Assumptions C46_dots_refuted.
