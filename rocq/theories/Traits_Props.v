(** C97: traits read the same however they are given. *)
From Verif Require Import Base PyText_Model PyText_Proofs PyDict_Model PyDict_Proofs Base_Proofs Traits_Model Traits_Spec Traits_Proofs.
Open Scope N_scope.

(** A class takes exactly these values. *)
Theorem C97_accepts : forall c d, (exists t, call c (ADoc d) = Ok t) <-> accepts c d.
Proof. exact accepts_iff. Qed.
Print Assumptions C97_accepts.

(** The value, the class and the attributes of a trait are those of what it was made of,
    whether given as a value or as a dynamic trait. *)
Theorem C97_views : forall c d t,
  call c (ADoc d) = Ok t \/ (exists i, call c (ADyn i d) = Ok t) ->
  t_class t = c /\ t_doc t = d /\ forall a v, read t a = Ok v <-> shows c d a v.
Proof. exact views. Qed.
Print Assumptions C97_views.

(** A dynamic trait of the same identifier gives what its value gives, a dynamic trait
    of another is refused. *)
Theorem C97_dynamic : forall c d,
  takes_dynamic c ->
  call c (ADyn (class_id c) d) = call c (ADoc d) /\
  forall i, i <> class_id c -> call c (ADyn i d) = Err ValueError.
Proof. exact dynamic_same. Qed.
Print Assumptions C97_dynamic.

(** Two classes take no dynamic trait at all, though they take values. *)
Theorem C97_dynamic_refuted : forall c,
  ~ takes_dynamic c ->
  (forall i d t, call c (ADyn i d) <> Ok t) /\ exists t, call c (ADoc DNull) = Ok t.
Proof. exact dynamic_refused. Qed.
Print Assumptions C97_dynamic_refuted.

(** [Trait.new] gives what the class defined last under the identifier gives, and a
    dynamic trait where there is none. *)
Theorem C97_new : forall before c after d,
  (forall x, In x after -> class_id x <> class_id c) ->
  new (registry (before ++ c :: after)) (class_id c) d =
  match call c (ADoc d) with Ok t => Ok (Known t) | Err e => Err e end.
Proof. exact new_known. Qed.
Print Assumptions C97_new.
Theorem C97_new_unknown : forall l i d,
  (forall x, In x l -> class_id x <> i) -> new (registry l) i d = Ok (Dynamic i d).
Proof. exact new_unknown. Qed.
Print Assumptions C97_new_unknown.

(** With the library loaded, and whatever classes a user defines for traits of their own,
    the name Smithy gives a trait leads to its class... *)
Theorem C97_names : forall c own d,
  In c (core_classes ++ aws_classes) -> well_named c ->
  (forall x, In x own -> class_id x <> smithy_name c) ->
  new (registry ((core_classes ++ aws_classes) ++ own)) (smithy_name c) d =
  match call c (ADoc d) with Ok t => Ok (Known t) | Err e => Err e end.
Proof. exact names. Qed.
Print Assumptions C97_names.
(** ... except for three, for which the class is never used. *)
Theorem C97_names_refuted : forall c own d,
  In c (core_classes ++ aws_classes) -> ~ well_named c ->
  (forall x, In x own -> class_id x <> smithy_name c) ->
  new (registry ((core_classes ++ aws_classes) ++ own)) (smithy_name c) d = Ok (Dynamic (smithy_name c) d).
Proof. exact names_refuted. Qed.
Print Assumptions C97_names_refuted.
Example C97_misnamed : forall c, ~ well_named c <-> In c [CDefault; CIdempotencyToken; CUnitType].
Proof. intros c. unfold well_named. split; [destruct c; intros H; try (destruct H; repeat split; discriminate); cbn; tauto | intros [<-|[<-|[<-|[]]]]; tauto]. Qed.

(** A value of the shape Smithy gives the trait is taken, and every attribute is of
    the type the library declares for it. *)
Theorem C97_typed : forall c d,
  declared c d ->
  exists t, call c (ADoc d) = Ok t /\
    forall a, (has_attribute c a -> exists v, read t a = Ok v /\ typed c a v) /\
              (~ has_attribute c a -> read t a = Err AttributeError).
Proof. exact declared_typed. Qed.
Print Assumptions C97_typed.

(** Values of another shape are taken as well: a header trait without a name. *)
Theorem C97_undeclared_refuted :
  exists c d t a v, ~ declared c d /\ call c (ADoc d) = Ok t /\ read t a = Ok v /\ ~ typed c a v.
Proof.
  exists CHTTPHeader, DNull, (mkTrait CHTTPHeader DNull FNone), AKey, (VDoc DNull).
  split; [intros H; inversion H as [c A| | c t A| | | | | | | | | | | | |]; cbn in A; repeat (destruct A as [A|A]; [discriminate|]); destruct A|].
  split; [reflexivity|]. split; [reflexivity|]. intros (t & [=]).
Qed.
Print Assumptions C97_undeclared_refuted.

(** The stream of an operation is in the first member of its input or output with the streaming trait;
    it long polls when it has that trait.  Neither fails. *)
Definition bears (i : text) (l : list any_trait) : Prop := exists t, In t l /\ any_id t = i.
Definition schema_members (ms : list (text * list any_trait)) := map (fun m => (fst m, traits_of (snd m))) ms.
Theorem C97_stream : forall ms,
  (forall before name l after,
     ms = before ++ (name, l) :: after -> bears (lit "smithy.api#streaming") l ->
     (forall m, In m before -> ~ bears (lit "smithy.api#streaming") (snd m)) ->
     stream_member (schema_members ms) = Ok (Some name)) /\
  ((forall m, In m ms -> ~ bears (lit "smithy.api#streaming") (snd m)) -> stream_member (schema_members ms) = Ok None).
Proof. intros ms. apply (member_with_spec CStreaming I). Qed.
Print Assumptions C97_stream.
Theorem C97_long_poll : forall l,
  exists b, long_polling (traits_of l) = Ok b /\ (b = true <-> bears (lit "smithy.api#longPoll") l).
Proof. exact long_poll_spec. Qed.
Print Assumptions C97_long_poll.

(** A schema whose trait was made before its class was known hands out a trait of the
    class, the same from then on, and keeps the other traits. *)
Theorem C97_get : forall c before d after k,
  takes_dynamic c -> (forall t, In t after -> any_id t <> class_id c) -> call c (ADoc d) = Ok k ->
  exists traits, get_trait c (traits_of (before ++ Dynamic (class_id c) d :: after)) = Ok (Some (Known k), traits) /\
    get_trait c traits = Ok (Some (Known k), traits) /\
    forall i, i <> class_id c -> dict_get i traits = dict_get i (traits_of (before ++ Dynamic (class_id c) d :: after)).
Proof. exact get_dynamic. Qed.
Print Assumptions C97_get.

(** No member is ever found to be the idempotency token, unless its trait is given the
    name of the class, which Smithy does not know. *)
Theorem C97_token_refuted : forall own ms,
  (forall m t, In m ms -> In t (snd m) -> exists i d, i <> lit "smithy.api#IdempotencyToken" /\
     new (registry ((core_classes ++ aws_classes) ++ own)) i d = Ok t) ->
  idempotency_token_member (schema_members ms) = Ok None.
Proof. exact token_never. Qed.
Print Assumptions C97_token_refuted.

(** ** Cases *)
Definition ex_http : doc :=
  DMap [(lit "method", DStr (lit "PUT")); (lit "uri", DStr (lit "/a/{b}?list&x=1?2"))].
Lemma ex_at (m : list (text * doc)) k v : dict_get k m = Some v -> at_key (DMap m) k v.
Proof. apply at_map. Qed.
Example C97_http_ex : exists t, call CHTTP (ADyn (lit "smithy.api#http") ex_http) = Ok t /\
  read t AMethod = Ok (VDoc (DStr (lit "PUT"))) /\ read t APath = Ok (VPattern (lit "/a/{b}")) /\
  read t AQuery = Ok (VDoc (DStr (lit "list&x=1?2"))) /\ read t ACode = Ok (VDoc (DInt 200)).
Proof. eexists. split; [reflexivity|]. repeat split. Qed.
Example C97_http_declared : declared CHTTP ex_http.
Proof.
  apply (d_http _ (lit "PUT") (lit "/a/{b}?list&x=1?2")); [apply ex_at; reflexivity | apply ex_at; reflexivity|].
  intros c A. apply at_map in A. discriminate.
Qed.
Example C97_rest_json_ex : exists t,
  call CRestJson1 (ADoc (DMap [(lit "http", DList [DStr (lit "h2"); DStr (lit "http/1.1")])])) = Ok t /\
  read t AEventStreamHttp = Ok (VTuple [DStr (lit "h2"); DStr (lit "http/1.1")]).
Proof. eexists. split; reflexivity. Qed.
Example C97_takes_dynamic_ex : takes_dynamic CSigV4 /\ ~ takes_dynamic CRestJson1 /\ well_named CStreaming.
Proof. split; [split; discriminate|]. split; [intros (H & _); now apply H | split; [discriminate | split; discriminate]]. Qed.
(** A member with the trait Smithy calls idempotencyToken, as code is generated for it. *)
Example C97_token_ex : exists t,
  new (registry (core_classes ++ aws_classes)) (lit "smithy.api#idempotencyToken") DNull = Ok t /\
  idempotency_token_member (schema_members [(lit "clientToken", [t])]) = Ok None.
Proof. eexists. split; reflexivity. Qed.
Example C97_stream_ex : exists t,
  new (registry core_classes) (lit "smithy.api#streaming") DNull = Ok t /\
  stream_member (schema_members [(lit "a", [Dynamic (lit "x#y") DNull]); (lit "b", [t])]) = Ok (Some (lit "b")).
Proof. eexists. split; reflexivity. Qed.
(** An awsQuery trait that came before its class. *)
Example C97_aws_query_ex : get_trait CAwsQuery (traits_of [Dynamic (lit "aws.protocols#awsQuery") DNull]) = Err AssertionError.
Proof. reflexivity. Qed.
Example C97_rest_json_dynamic_ex : get_trait CRestJson1 (traits_of [Dynamic (lit "aws.protocols#restJson1") DNull]) = Err AssertionError.
Proof. reflexivity. Qed.
