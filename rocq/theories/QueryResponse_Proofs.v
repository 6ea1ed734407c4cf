(** Proofs about responses of the awsQuery protocol. *)
From Verif Require Import Base Base_Proofs HttpVal_Model Xml_Model Xml_Spec ResponseWire_Model ResponseWire_Spec QueryResponse_Model QueryResponse_Spec.
From Verif Require Transport_Model HttpBind_Model HttpBind_Spec HttpBind_Proofs HttpRead_Proofs Xml_Proofs Errors_Model Errors_Spec ResponseWire_Proofs Fields_Model PyDict_Model.
Local Open Scope N_scope.

Lemma consumed t b : brings t b -> Transport_Model.read_streaming_blob_async (response_body t) = Ok (Transport_Model.Got b).
Proof.
  intros B. pose proof (ResponseWire_Proofs.buffered t b B) as E.
  destruct t as [chunks|all]; cbn [response_body buffer_async_body Transport_Model.read_streaming_blob_async] in *; injection E as ->; reflexivity.
Qed.
Lemma success_iff s : Errors_Model.is_success s = true <-> (200 <= s < 300)%Z.
Proof. unfold Errors_Model.is_success. rewrite andb_true_iff, Z.leb_le, Z.ltb_lt. tauto. Qed.

(** ** The two views of a document *)
Lemma same_tag t n : Errors_Spec.tag_name t n <-> tag_name t n.
Proof. split; intros [t' H|ns t' H]; constructor; assumption. Qed.
Lemma strip_tag x : Errors_Model.x_tag (strip x) = n_tag (root_node x).
Proof. destruct x. reflexivity. Qed.
Lemma strip_named name x : Errors_Spec.is_named name (strip x) <-> named name x.
Proof. unfold Errors_Spec.is_named, named. rewrite strip_tag. apply same_tag. Qed.
Lemma strip_proper x : proper x -> Errors_Spec.proper_xml (strip x).
Proof.
  revert x. fix IH 2. intros x [n ch (t & T) _ C]. cbn [strip]. constructor.
  - exists t. apply same_tag, T.
  - intros y I. apply in_map_iff in I as (c & <- & I). apply IH, C, I.
Qed.
Lemma strip_first name n ch c : first_named name ch c -> Errors_Spec.first_child name (strip (Elem n ch)) (strip c).
Proof.
  intros (pre & post & -> & N & F). exists (map strip pre), (map strip post). cbn [strip Errors_Model.x_children]. rewrite map_app. cbn [map].
  split; [reflexivity|]. split; [apply strip_named, N|]. intros y I. apply in_map_iff in I as (z & <- & I). rewrite strip_named. apply F, I.
Qed.

(** ** A response without a body *)
Section Bare.
  Variable time_float : text -> option Time_Model.float.
  Variable nearest : PyDecimal_Model.decimal -> float.
  Variable lower : text -> text.
  Variable decode_value : nat -> bytes -> result HttpBind_Model.value.
  Variable decode_struct : bytes -> result (list (nat * HttpBind_Model.value)).
  Lemma bare_read ms status fs : unbound ms ->
    HttpBind_Model.read_response time_float nearest lower decode_value decode_struct ms (HttpBind_Model.mkResponse status fs (HttpBind_Model.BBytes [])) =
    match ms with
    | [] => Ok []
    | _ => match PyDict_Model.dict_get (lower (lit "content-length")) fs with
           | None => Ok []
           | Some f => do n <- py_int (Header_Model.as_string (Fields_Model.f_values f)); if Z.eqb n 0 then Ok [] else decode_struct []
           end
    end.
  Proof.
    intros U. unfold HttpBind_Model.read_response.
    assert (M : forall m, In m ms -> HttpBind_Model.response_match m = HttpBind_Model.BODY).
    { intros m I. exact (proj1 (HttpBind_Proofs.response_placed m _ (proj1 (U m I)))). }
    assert (R : forall l k, (forall n, nth_error l n = nth_error ms (k + n)) ->
      HttpBind_Model.read_members time_float nearest lower decode_value (HttpBind_Model.make_matcher HttpBind_Model.response_match ms)
        (HttpBind_Model.mkResponse status fs (HttpBind_Model.BBytes [])) k l = Ok []).
    { induction l as [|m l IH]; intros k H; [reflexivity|]. cbn [HttpBind_Model.read_members].
      assert (Nk : nth_error ms k = Some m) by (rewrite <- (Nat.add_0_r k), <- H; reflexivity).
      unfold HttpBind_Model.read_member. rewrite (HttpBind_Proofs.matches_some _ _ _ _ Nk), (M m (nth_error_In _ _ Nk)). cbn [bind].
      rewrite IH; [reflexivity|]. intros n. rewrite Nat.add_succ_l, <- Nat.add_succ_r, <- H. reflexivity. }
    rewrite (R ms 0%nat) by reflexivity. clear R. cbn [bind].
    destruct (HttpBind_Proofs.matcher_spec HttpBind_Model.response_match ms) as (_ & Hb & _). rewrite Hb. clear Hb. destruct ms as [|m ms]; [reflexivity|].
    cbn [existsb]. rewrite (M m) by now left. cbn [orb]. unfold HttpBind_Model.has_empty_body. cbn [HttpBind_Model.r_fields HttpBind_Model.r_body].
    change HttpBind_Model.CONTENT_LENGTH with (lit "content-length"). destruct (PyDict_Model.dict_get _ fs) as [f|]; [|reflexivity].
    destruct (py_int _) as [n|]; [|reflexivity]. cbn [bind]. destruct (Z.eqb n 0); [reflexivity|]. cbn [HttpBind_Model.body_bytes HttpBind_Model.r_body bind].
    destruct (decode_struct []) as [l|]; reflexivity.
  Qed.
End Bare.
