(** C108: objects that compare equal can stand for each other. *)
From Verif Require Import Base Base_Proofs PyDict_Model PyDict_Proofs Equality_Model Equality_Spec Equality_Proofs.
From Verif Require Fields_Model Http_Model Uri_Model Shape_Model Shape_Props EventStream_Model EventStream_Spec EventStream_Proofs EventStream_Props.
From Verif Require Import Doc_Model Doc_Spec Doc_Proofs.

(** ** Headers *)

(** Two fields are equal exactly if they have the same name, position and values,
    in the same order ... *)
Theorem C108_field a b : field_eqb a b = true <->
  Fields_Model.f_name a = Fields_Model.f_name b /\ Fields_Model.f_kind a = Fields_Model.f_kind b
  /\ Fields_Model.f_values a = Fields_Model.f_values b.
Proof.
  rewrite field_eqb_eq. split; [intros ->; auto|]. destruct a, b. cbn. intros (-> & -> & ->). reflexivity.
Qed.
Print Assumptions C108_field.

(** ... and two collections exactly if they have the same encoding and the same
    fields, under the same names, in the same order. *)
Theorem C108_fields a b : NoDup (map fst (c_entries a)) -> NoDup (map fst (c_entries b)) ->
  collection_eqb a b = true <-> c_encoding a = c_encoding b /\ c_entries a = c_entries b.
Proof.
  intros A B. unfold collection_eqb. rewrite andb_true_iff, text_eqb_eq, (odict_eqb_eq field_eqb field_eqb_eq _ _ A B). reflexivity.
Qed.
Print Assumptions C108_fields.

Example C108_fields_ex :
  let f := Fields_Model.mkField (lit "A") [lit "1"; lit "2"] Fields_Model.Header in
  let g := Fields_Model.mkField (lit "B") [] Fields_Model.Trailer in
  let c := mkCollection [(lit "a", f); (lit "b", g)] (lit "utf-8") in
  let d := mkCollection [(lit "b", g); (lit "a", f)] (lit "utf-8") in
  NoDup (map fst (c_entries c)) /\ NoDup (map fst (c_entries d)) /\ collection_eqb c c = true /\ collection_eqb c d = false
  /\ dict_eqb field_eqb (c_entries c) (c_entries d) = true.
Proof.
  cbn zeta. split; [|split; [|vm_compute; auto]].
  all: cbn; constructor; [intros [H|[]]; discriminate|constructor; [intros []|constructor]].
Qed.

(** The class says that names that differ in their case only must be treated as
    equivalent.  Fields with such names are never equal, although a collection
    keeps them under one name. *)
Theorem C108_case_refuted (lower : text -> text) name name' values kind : lower name = lower name' -> name <> name' ->
  let f := Fields_Model.mkField name values kind in
  let g := Fields_Model.mkField name' values kind in
  field_eqb f g = false /\ dict_get (lower (Fields_Model.f_name g)) [(lower (Fields_Model.f_name f), f)] = Some f.
Proof.
  intros L N f g. split.
  - destruct (field_eqb f g) eqn:E; [|reflexivity]. apply field_eqb_eq in E. injection E as E. contradiction.
  - cbn. rewrite L, text_eqb_refl. reflexivity.
Qed.
Print Assumptions C108_case_refuted.
Example C108_case_ex : exists lower : text -> text, lower (lit "Host") = lower (lit "host") /\ lit "Host" <> lit "host"
  /\ lower (lit "host") <> lower (lit "date").
Proof.
  exists (map (fun c => if N.leb 65 c && N.leb c 90 then (c + 32)%N else c)). split; [reflexivity|]. split; discriminate.
Qed.

(** ** URIs *)

(** Two URIs are equal exactly if all their parts are; then their texts and their
    hashes are the same too. *)
Theorem C108_uri (H : Type) (hash : _ -> H) a b :
  (uri_eqb a b = true <->
   Http_Model.u_scheme a = Http_Model.u_scheme b /\ Http_Model.u_username a = Http_Model.u_username b
   /\ Http_Model.u_password a = Http_Model.u_password b /\ Http_Model.u_host a = Http_Model.u_host b
   /\ Http_Model.u_port a = Http_Model.u_port b /\ Http_Model.u_path a = Http_Model.u_path b
   /\ Http_Model.u_query a = Http_Model.u_query b /\ Http_Model.u_fragment a = Http_Model.u_fragment b)
  /\ (uri_eqb a b = true -> Uri_Model.build a = Uri_Model.build b /\ uri_hash hash a = uri_hash hash b).
Proof.
  split; [|intros E; apply uri_eqb_eq in E; subst b; split; reflexivity].
  rewrite uri_eqb_eq. split; [intros ->; tauto|]. destruct a, b. cbn. intros (-> & -> & -> & -> & -> & -> & -> & ->). reflexivity.
Qed.
Print Assumptions C108_uri.
Definition ex_uri (path : option text) : Http_Model.uri :=
  Http_Model.mkUri (lit "https") None None (lit "example.com") (Some 8443%N) path (Some (lit "a=b")) None.
Example C108_uri_ex : uri_eqb (ex_uri None) (ex_uri None) = true /\ uri_eqb (ex_uri None) (ex_uri (Some (lit "/x"))) = false.
Proof. vm_compute. auto. Qed.

(** URIs with the same text need not be equal: no path and an empty path, no query
    and an empty query, no fragment and an empty fragment are told apart. *)
Theorem C108_uri_text_refuted scheme user password host port path query fragment :
  let u := Http_Model.mkUri scheme user password host port in
  (Uri_Model.build (u None query fragment) = Uri_Model.build (u (Some []) query fragment) /\ uri_eqb (u None query fragment) (u (Some []) query fragment) = false)
  /\ (Uri_Model.build (u path None fragment) = Uri_Model.build (u path (Some []) fragment) /\ uri_eqb (u path None fragment) (u path (Some []) fragment) = false)
  /\ (Uri_Model.build (u path query None) = Uri_Model.build (u path query (Some [])) /\ uri_eqb (u path query None) (u path query (Some [])) = false).
Proof.
  cbn zeta. split; [|split]; (split; [reflexivity|]); unfold uri_eqb; cbn; rewrite ?andb_false_r; reflexivity.
Qed.
Print Assumptions C108_uri_text_refuted.

(** ** Shape identifiers *)
Definition id_or_text (o : object) : Prop := match o with AnObject _ _ => False | _ => True end.

(** Identifiers and texts are equal exactly if they are the same text, on
    whichever side they stand, and then they have the same hash. *)
Theorem C108_id (H : Type) (of_text : text -> H) of_object a b : id_or_text a -> id_or_text b ->
  (object_eqb a b = true <-> shown a = shown b) /\ object_eqb a b = object_eqb b a
  /\ (object_eqb a b = true -> object_hash of_text of_object a = object_hash of_text of_object b).
Proof.
  intros A B.
  assert (E : forall a b, id_or_text a -> id_or_text b -> object_eqb a b = true <-> shown a = shown b).
  { clear. intros a b A B. destruct a, b; try destruct A; try destruct B; cbn; rewrite text_eqb_eq; split; congruence. }
  split; [apply E; assumption|]. split.
  - destruct (object_eqb b a) eqn:X.
    + apply E; auto. symmetry. apply E; auto.
    + destruct (object_eqb a b) eqn:Y; [|reflexivity]. apply E in Y; auto. rewrite <- X. symmetry. apply E; auto.
  - intros X. apply E in X; auto. destruct a, b; try destruct A; try destruct B; cbn in *; congruence.
Qed.
Print Assumptions C108_id.
Definition ex_id : Shape_Model.shape_id := Shape_Model.mkShapeId (lit "a#b$c") (lit "a") (lit "b") (Some (lit "c")).
Example C108_id_ex : Shape_Model.new_id (lit "a#b$c") = Ok ex_id /\ object_eqb (AText (lit "a#b$c")) (AnId ex_id) = true
  /\ object_eqb (AnId ex_id) (AText (lit "a#b")) = false.
Proof. vm_compute. auto. Qed.

(** With any other object an identifier is equal as soon as the object is shown as
    the identifier's text: two objects that are not equal are both equal to the
    identifier, and unless the hashes happen to collide they are not found under it
    in a set or dict. *)
Theorem C108_object_refuted (H : Type) (of_text : text -> H) of_object x i j : i <> j -> of_object i <> of_text (Shape_Model.s_id x) ->
  let a := AnObject i (Shape_Model.s_id x) in
  let b := AnObject j (Shape_Model.s_id x) in
  object_eqb a (AnId x) = true /\ object_eqb (AnId x) b = true /\ object_eqb a b = false
  /\ object_hash of_text of_object a <> object_hash of_text of_object (AnId x).
Proof.
  intros N D. cbn. rewrite text_eqb_refl. split; [reflexivity|]. split; [reflexivity|]. split; [apply PeanoNat.Nat.eqb_neq; exact N|exact D].
Qed.
Print Assumptions C108_object_refuted.
Example C108_object_ex : exists (of_text : text -> nat) (of_object : nat -> nat), 0%nat <> 1%nat /\ of_object 0%nat <> of_text (Shape_Model.s_id ex_id).
Proof. exists (@List.length N), (fun i => i). split; discriminate. Qed.

(** ** Event messages *)
Import EventStream_Model EventStream_Spec.

(** Two messages are equal exactly if they are the same: the same payload and the
    same headers, in the same order and with the same types. *)
Theorem C108_message m n : message_typed m -> message_typed n -> within_limits m -> within_limits n ->
  message_eq m n = Ok true <-> m_payload m = m_payload n /\ m_headers m = m_headers n.
Proof.
  intros T U L _. rewrite (message_eq_true m n T U). apply (EventStream_Proofs.encode_iff_within m T) in L as [f F].
  split; [intros [-> _]; auto|]. intros [P Q]. split; [destruct m, n; cbn in *; congruence|]. exact (encode_headers_bytes _ _ F).
Qed.
Print Assumptions C108_message.

(** That is, exactly if they are the same on the wire. *)
Theorem C108_message_wire m n : message_typed m -> message_typed n -> within_limits m -> within_limits n ->
  exists same, message_eq m n = Ok same /\ (same = true <-> encode_message m = encode_message n).
Proof.
  intros T U L K. pose proof (message_eq_true m n T U) as E.
  apply (EventStream_Proofs.encode_iff_within m T) in L as [f F]. apply (EventStream_Proofs.encode_iff_within n U) in K as [g G].
  destruct (encode_headers_bytes _ _ F) as [x X]. destruct (encode_headers_bytes _ _ G) as [y Y].
  assert (D : exists s, message_eq m n = Ok s) by (unfold message_eq; rewrite X, Y; cbn [bind]; eauto).
  destruct D as [s D]. exists s. split; [exact D|]. split.
  - intros ->. apply E in D as [-> _]. reflexivity.
  - intros W. pose proof (encode_inj m n T U (ex_intro _ f F) W) as <-.
    assert (Z : message_eq m m = Ok true) by (apply E; eauto). congruence.
Qed.
Print Assumptions C108_message_wire.

Definition one_header (v : hvalue) : message := mkMessage [(lit "h", v)] [1; 2]%N.
Lemma one_header_typed v : value_typed v -> message_typed (one_header v).
Proof.
  intros V. split; [|constructor; [exact V|constructor]]. intros x [<-|[<-|[]]]; reflexivity.
Qed.
Example C108_message_ex :
  message_typed (one_header (HInt 1)) /\ message_typed (one_header (HBool true)) /\ within_limits (one_header (HInt 1)) /\ within_limits (one_header (HBool true))
  /\ message_eq (one_header (HInt 1)) (one_header (HInt 1)) = Ok true /\ message_eq (one_header (HInt 1)) (one_header (HBool true)) = Ok false
  /\ hvalue_eqb (HInt 1) (HBool true) = true.
Proof.
  assert (A : message_typed (one_header (HInt 1))) by (apply one_header_typed; exact I).
  assert (B : message_typed (one_header (HBool true))) by (apply one_header_typed; exact I).
  split; [exact A|]. split; [exact B|].
  split; [apply (EventStream_Proofs.encode_iff_within _ A); eexists; vm_compute; reflexivity|].
  split; [apply (EventStream_Proofs.encode_iff_within _ B); eexists; vm_compute; reflexivity|]. vm_compute. auto.
Qed.

(** A message with headers that cannot be encoded can be made, but comparing it
    with any message raises, even with itself or with one that has another
    payload, on whichever side it stands. *)
Theorem C108_raises_refuted m n e : get_headers_bytes (m_headers m) = Err e ->
  message_eq m n = Err e /\ exists e', message_eq n m = Err e'.
Proof.
  intros E. unfold message_eq. rewrite E. cbn [bind]. split; [reflexivity|].
  destruct (get_headers_bytes (m_headers n)) as [y|e']; cbn [bind]; eauto.
Qed.
Print Assumptions C108_raises_refuted.
Example C108_raises_ex : exists m e, mk_event_message (m_headers m) (m_payload m) = Ok m /\ get_headers_bytes (m_headers m) = Err e.
Proof. exists (one_header (HInt 2147483648)). eexists. split; vm_compute; reflexivity. Qed.

(** ** Documents *)
Section Documents.
  Variable number_eqb : scalar -> scalar -> bool.

  (** Two documents whose plain values are up to date are equal exactly if they
      hold the same value; comparing them does not change what they hold. *)
  Theorem C108_document a b : up_to_date a -> up_to_date b -> proper (content a) -> proper (content b) ->
    let '(a', b', equal) := document_eq number_eqb a b in
    (equal = true <-> alike (equal_scalar (fun x y => number_eqb x y = true)) (content a) (content b))
    /\ content a' = content a /\ content b' = content b /\ up_to_date a' /\ up_to_date b'.
  Proof.
    intros A B P Q. unfold document_eq.
    destruct (as_value_fresh (fun _ => KDocument) (fun _ => None) a A) as [V1 F1]. destruct (as_value_fresh (fun _ => KDocument) (fun _ => None) b B) as [V2 F2].
    pose proof (as_value_content a) as C1. pose proof (as_value_content b) as C2.
    destruct (as_value a) as [a' x], (as_value b) as [b' y]. cbn [fst snd] in *. subst x y.
    split; [apply plain_eqb_iff; assumption|]. auto.
  Qed.

  (** The type of a scalar plays no part: a truth value and a whole number make
      equal documents, with different types and different contents. *)
  Theorem C108_kind_refuted kind_of s b : kind_of s = KDocument ->
    let x := new s (PScalar (SBool b)) in
    let y := new s (PScalar (SInt (if b then 1 else 0)%Z)) in
    snd (document_eq number_eqb x y) = true /\ shape_type kind_of x = DScalar TyBool /\ shape_type kind_of y = DScalar TyInt
    /\ content x <> content y.
  Proof.
    intros K x y. subst x y. unfold shape_type. cbn [new d_schema d_value]. rewrite K. destruct b; (split; [reflexivity|]; split; [reflexivity|]; split; [reflexivity|discriminate]).
  Qed.

  (** A document in which a member of a member has been replaced is still equal
      to what it was before. *)
  Theorem C108_stale_refuted kind_of s j k t u : kind_of s = KDocument -> t <> u ->
    let old := PMap [(j, PMap [(k, PScalar (SStr t))])] in
    let d := fst (run_op kind_of false (OSet [KStr j] (KStr k) (APlain (PScalar (SStr u)))) (new s old)) in
    snd (document_eq number_eqb d (new s old)) = true /\ content d = PMap [(j, PMap [(k, PScalar (SStr u))])] /\ content d <> content (new s old).
  Proof.
    intros K N old d.
    assert (D : d = Doc s (IDict [(j, Doc s (IDict [(k, Doc s (IScalar (SStr u)) None)]) None)]) (Some old)).
    { subst d old. unfold run_op, op_at. cbn [new fst at_path getitem as_map]. unfold wrap_map. rewrite K. cbn [bind map fst snd new dict_get].
      rewrite text_eqb_refl. unfold setitem, slot_schema. cbn [d_schema]. rewrite K. cbn [to_doc new as_map]. unfold wrap_map. rewrite K.
      cbn [map fst snd dict_set child_changed d_schema new]. rewrite !text_eqb_refl. reflexivity. }
    rewrite D. split; [|split; [reflexivity|]].
    - subst old. unfold document_eq. cbn. rewrite !text_eqb_refl. cbn. rewrite !text_eqb_refl. reflexivity.
    - subst old. cbn. congruence.
  Qed.
End Documents.
Print Assumptions C108_document.
Print Assumptions C108_kind_refuted.
Print Assumptions C108_stale_refuted.

Example C108_document_ex :
  let p := PMap [(lit "a", PScalar (SInt 1)); (lit "b", PList [PNull; PScalar (SStr (lit "x"))])] in
  let q := PMap [(lit "b", PList [PNull; PScalar (SStr (lit "x"))]); (lit "a", PScalar (SInt 1))] in
  let r := PMap [(lit "a", PScalar (SInt 2)); (lit "b", PList [PNull; PScalar (SStr (lit "x"))])] in
  up_to_date (new 0 p) /\ up_to_date (new 0 q) /\ proper (content (new 0 p)) /\ proper (content (new 0 q))
  /\ snd (document_eq (fun _ _ => false) (new 0 p) (new 0 q)) = true /\ snd (document_eq (fun _ _ => false) (new 0 p) (new 0 r)) = false.
Proof.
  cbn zeta. split; [split; [reflexivity|exact I]|]. split; [split; [reflexivity|exact I]|].
  split; [|split; [|vm_compute; auto]].
  all: cbn; split; [constructor; [intros [H|[]]; discriminate|constructor; [intros []|constructor]]|tauto].
Qed.
