(** C50: documents follow the operations done to them.  C74: shapes survive the
    conversion to a document.  C75: conversions in different threads. *)
From Verif Require Import Base Base_Proofs PyDict_Model PyDict_Proofs Doc_Model Doc_Spec Doc_Proofs DocShape_Proofs DocSerial_Proofs.
Local Open Scope Z_scope.

(** ** Schemas for the examples *)
Definition ex_kind (n : N) : kind :=
  match n with
  | 1%N => KStruct [(lit "name", 2%N); (lit "tags", 3%N); (lit "extra", 6%N); (lit "choice", 7%N)]
  | 2%N => KScalar TyStr
  | 3%N => KMap true 4%N
  | 4%N => KScalar TyInt
  | 5%N => KMap true 1%N
  | 7%N => KUnion [(lit "one", 8%N); (lit "two", 9%N)]
  | 8%N => KScalar TyInt
  | 9%N => KScalar TyStr
  | 10%N => KList true 7%N
  | _ => KDocument
  end.
Definition ex_name (n : N) : option text :=
  match n with
  | 2%N => Some (lit "name") | 3%N => Some (lit "tags") | 6%N => Some (lit "extra") | 7%N => Some (lit "choice")
  | 8%N => Some (lit "one") | 9%N => Some (lit "two")
  | _ => None
  end.
Definition ex_plain : plain :=
  PMap [(lit "a", PMap [(lit "b", PScalar (SInt 1))]); (lit "c", PList [PScalar (SStr (lit "x")); PNull])].
Definition ex_ops : list op :=
  [OContents []; OSet [KStr (lit "a")] (KStr (lit "b")) (APlain (PList []));
   OSet [KStr (lit "c"); KIdx 7] (KIdx 0) (APlain PNull);
   ODel [KStr (lit "c")] (KIdx (-1));
   OSet [] (KStr (lit "d")) (ADoc (new 0 ex_plain)); OValue [KStr (lit "d")];
   OSet [KStr (lit "d"); KStr (lit "c")] (KIdx 1) (APlain (PScalar (SBool true)))].

Section Props.
  Variable kind_of : N -> kind.
  Variable member_name : N -> option text.

  (** ** C50 *)

  (** Any document, typed or not: what it holds after a program is what the
      operations that did not raise make of a plain value; the ones that raised
      have changed nothing. *)
  Theorem C50_replay os : Forall (sensible_arg kind_of) os -> forall d : doc,
    plain_replay os (outcomes kind_of os d) (content d) = Some (content (run kind_of false os d)).
  Proof.
    induction 1 as [|o os K _ IH]; intros d; [reflexivity|]. cbn [run outcomes].
    destruct (run_op kind_of false o d) as [d' e] eqn:E. pose proof (run_op_content kind_of o K d d' e E) as C.
    cbn [fst plain_replay]. destruct e as [x|].
    - rewrite <- C. apply IH.
    - rewrite C. apply IH.
  Qed.

  (** A document without a schema goes through a program exactly as the plain
      value does, whether nested changes are made in place or assigned back. *)
  Theorem C50_history assigning os d : untyped kind_of d -> Forall (plain_args kind_of) os ->
    content (run kind_of assigning os d) = plain_run os (content d).
  Proof.
    intros U A. refine (proj2 (run_inv kind_of member_name false assigning os _ _ d _)); [discriminate| |split; [exact U|discriminate]].
    eapply Forall_impl; [|exact A]. intros o H. unfold plain_args in H. destruct (arg_of o) as [[p|x]|]; cbn; auto.
    split; [exact H|discriminate].
  Qed.

  (** An operation raises exactly when the same operation on the plain value does. *)
  Theorem C50_raises assigning o d : untyped kind_of d -> plain_args kind_of o ->
    match o with OSet _ _ _ | ODel _ _ => True | _ => False end ->
    snd (run_op kind_of assigning o d) = None <-> plain_op o (content d) <> None.
  Proof.
    intros U A W. destruct (run_op kind_of assigning o d) as [d' e] eqn:E.
    assert (H : match arg_of o with Some a => arg_inv kind_of false a | None => True end).
    { unfold plain_args in A. destruct (arg_of o) as [[p|x]|]; cbn; auto. split; [exact A|discriminate]. }
    assert (H2 : inv kind_of false d) by (split; [exact U|discriminate]).
    destruct (run_op_inv kind_of member_name false assigning o d d' e ltac:(discriminate) H H2 E) as (_ & _ & R).
    destruct o; try solve [destruct W]; exact R.
  Qed.

  (** [as_value()] after a program that assigns nested changes back. *)
  Theorem C50_as_value_partial os d : untyped kind_of d -> up_to_date d -> Forall (fresh_args kind_of) os ->
    snd (as_value (run kind_of true os d)) = plain_run os (content d).
  Proof.
    intros U F A. assert (H : inv kind_of true d) by (split; [exact U|intros _; exact F]).
    assert (B : Forall (fun o => match arg_of o with Some a => arg_inv kind_of true a | None => True end) os).
    { eapply Forall_impl; [|exact A]. intros o Ho. unfold fresh_args in Ho. destruct (arg_of o) as [[p|x]|]; cbn; auto.
      destruct Ho as [Ho1 Ho2]. split; [exact Ho1|intros _; exact Ho2]. }
    destruct (run_inv kind_of member_name true true os (fun _ => eq_refl) B d H) as [[_ I] C].
    rewrite (proj1 (as_value_fresh kind_of member_name _ (I eq_refl))). exact C.
  Qed.

  (** Serializing a document without a schema, after any program. *)
  Theorem C50_serialized assigning os d : untyped kind_of d -> Forall (plain_args kind_of) os ->
    visit kind_of member_name (run kind_of assigning os d) = Ok (plain_run os (content d)).
  Proof.
    intros U A. rewrite <- (C50_history assigning os d U A). apply visit_untyped.
    refine (proj1 (proj1 (run_inv kind_of member_name false assigning os _ _ d _))); [discriminate| |split; [exact U|discriminate]].
    eapply Forall_impl; [|exact A]. intros o H. unfold plain_args in H. destruct (arg_of o) as [[p|x]|]; cbn; auto.
    split; [exact H|discriminate].
  Qed.

  (** A new document, to start from. *)
  Theorem C50_new s p : kind_of s = KDocument ->
    untyped kind_of (new s p) /\ up_to_date (new s p) /\ content (new s p) = p.
  Proof. intros K. split; [apply untyped_new, K|]. split; [apply fresh_new|apply content_new]. Qed.

  (** A document that keeps its plain value never notices a change made in place
      to one of its children: [as_value()] goes on giving the old value. *)
  Lemma raw_kept path f d r : d_raw d = Some r -> path <> [] -> d_raw (fst (at_path kind_of path f d)) = Some r.
  Proof.
    intros R N. destruct path as [|k path]; [congruence|]. cbn [at_path].
    assert (G : d_raw (fst (getitem kind_of k d)) = Some r).
    { destruct d as [s v raw]. cbn in R. subst raw. unfold getitem, as_map, as_list.
      destruct k; destruct v; try reflexivity; destruct r; try reflexivity. destruct (wrap_map kind_of s l); reflexivity. }
    destruct (getitem kind_of k d) as [d1 [c|e]]; cbn [fst] in *; [|exact G].
    destruct (at_path kind_of path f c) as [c' e]. cbn [fst]. destruct k as [t|i], d1 as [s [|x|m|l] raw]; cbn in *; try exact G.
    destruct (py_index i l); exact G.
  Qed.
  Theorem C50_nested_refuted d r o : d_raw d = Some r ->
    match o with OSet path _ _ | ODel path _ => path <> [] | _ => False end ->
    snd (as_value (fst (run_op kind_of false o d))) = r.
  Proof.
    intros R N. assert (H : d_raw (fst (run_op kind_of false o d)) = Some r).
    { destruct o; try solve [destruct N]; cbn; apply raw_kept; assumption. }
    destruct (fst (run_op kind_of false o d)) as [s v raw]. cbn in H. subst raw. destruct v; reflexivity.
  Qed.

  (** ** C74 *)

  (** Whatever earlier conversions have left behind, a value of a shape becomes a
      document that holds it, and reading the document as that shape, or as
      any other shape it fits, gives the value back. *)
  Theorem C74_round_trip s v g : fits kind_of member_name s v ->
    exists g' d, from_shape kind_of member_name s v g = (g', Ok d) /\ content d = plain_of v /\
      forall t, fits kind_of member_name t v -> exists v', read_doc kind_of t d = Ok v' /\ same v v'.
  Proof.
    intros F. destruct (write_shown kind_of member_name v RRoot s (put RRoot None g) (or_intror F)) as (g1 & d & E & G & [H _]).
    exists g1, d. unfold from_shape. rewrite E, G. split; [reflexivity|]. split; [exact (holds_content v d H)|].
    intros t Ft. exact (read_holds kind_of member_name v t d H Ft).
  Qed.
  (** Without unions, the document also serializes as the value it was made from. *)
  Theorem C74_serialized s v g : fits kind_of member_name s v -> serializable kind_of s v ->
    exists g' d, from_shape kind_of member_name s v g = (g', Ok d) /\ visit kind_of member_name d = Ok (plain_of v).
  Proof.
    intros F U. destruct (write_typed kind_of member_name v RRoot s (put RRoot None g) (or_intror F) U) as (g1 & d & E & G & [H _]).
    exists g1, d. unfold from_shape. rewrite E, G. split; [reflexivity|]. exact (visit_typed kind_of member_name v s d H).
  Qed.
End Props.
Print Assumptions C74_serialized.
Print Assumptions C50_replay.
Print Assumptions C50_history.
Print Assumptions C50_raises.
Print Assumptions C50_as_value_partial.
Print Assumptions C50_serialized.
Print Assumptions C50_new.
Print Assumptions C50_nested_refuted.
Print Assumptions C74_round_trip.

Example C50_programs_run :
  plain_run ex_ops ex_plain = PMap
    [(lit "a", PMap [(lit "b", PList [])]); (lit "c", PList [PScalar (SStr (lit "x"))]);
     (lit "d", PMap [(lit "a", PMap [(lit "b", PScalar (SInt 1))]); (lit "c", PList [PScalar (SStr (lit "x")); PScalar (SBool true)])])]
  /\ Forall (fresh_args ex_kind) ex_ops /\ Forall (plain_args ex_kind) ex_ops /\ Forall (sensible_arg ex_kind) ex_ops
  /\ untyped ex_kind (new 0 ex_plain) /\ up_to_date (new 0 ex_plain)
  /\ outcomes ex_kind ex_ops (new 0 ex_plain) = [true; true; false; true; true; true; true].
Proof.
  split; [vm_compute; reflexivity|].
  assert (F : Forall (fresh_args ex_kind) ex_ops) by (repeat constructor).
  split; [exact F|]. split; [repeat constructor|]. split; [repeat constructor; cbn; intros; discriminate|].
  split; [cbn; auto|]. split; [cbn; auto|]. vm_compute. reflexivity.
Qed.

(** The value shown is not the value held, for a document just made. *)
Example C50_nested_concrete :
  let o := OSet [KStr (lit "a")] (KStr (lit "b")) (APlain (PScalar (SInt 2))) in
  let d := fst (run_op ex_kind false o (new 0 ex_plain)) in
  snd (as_value d) = ex_plain /\ plain_op o ex_plain <> Some ex_plain /\ plain_op o ex_plain = Some (content d)
  /\ visit ex_kind ex_name d = Ok (content d).
Proof. vm_compute. split; [reflexivity|]. split; [discriminate|]. split; reflexivity. Qed.

(** A document of a structure: an in-place change of a member shows up in what it
    holds and serializes, and the plain value of a member that is not there is refused. *)
Definition ex_struct : value :=
  VStruct [(lit "name", VScalar (SStr (lit "n"))); (lit "tags", VMap [(lit "t", VScalar (SInt 1)); (lit "u", VNull)]);
           (lit "extra", VDoc (new 0 ex_plain)); (lit "choice", VStruct [(lit "two", VScalar (SStr (lit "2")))])].
Definition no_regs : regs := fun _ => None.
Definition ex_doc : doc := Eval vm_compute in
  match from_shape ex_kind ex_name 1 ex_struct no_regs with (_, Ok d) => d | _ => Doc 0 INone None end.
Example C50_typed_runs :
  outcomes ex_kind [OSet [] (KStr (lit "nobody")) (APlain PNull); OSet [KStr (lit "tags")] (KStr (lit "t")) (APlain (PScalar (SInt 5)))] ex_doc
  = [false; true].
Proof. vm_compute. reflexivity. Qed.

(** A union's document cannot be serialized: its member has been given the schema
    of the union (line 368 asks for structures only). *)
Theorem C50_union_refuted kind_of member_name s ms k m x g :
  kind_of s = KUnion ms -> good_members member_name ms -> In (k, m) ms -> kind_of m = KScalar (scalar_type x) ->
  exists g' d, from_shape kind_of member_name s (VStruct [(k, VScalar x)]) g = (g', Ok d)
    /\ content d = PMap [(k, PScalar x)] /\ visit kind_of member_name d = Err ExpectationNotMet.
Proof.
  intros K [N G] I Km. pose proof (dict_In_get _ _ _ N I) as E. pose proof (G k m I) as Nm.
  unfold from_shape. cbn [write]. rewrite K. cbv beta iota. unfold mem. rewrite E, Nm. rewrite put_same.
  unfold setitem, slot_schema, to_doc, with_schema, shape_type. cbn [d_schema]. rewrite K, Km. cbv beta iota.
  cbn [bind d_value as_map dict_set]. rewrite put_same. do 2 eexists. split; [reflexivity|]. split; [reflexivity|].
  cbn [visit]. unfold shape_type. cbn [d_schema]. rewrite K. cbn. destruct (member_name s); reflexivity.
Qed.
Print Assumptions C50_union_refuted.
Example C50_union_example : good_members ex_name [(lit "one", 8%N); (lit "two", 9%N)].
Proof.
  split.
  - repeat constructor; cbn; intuition discriminate.
  - intros k m [[= <- <-]|[[= <- <-]|[]]]; reflexivity.
Qed.

Example C74_example : fits ex_kind ex_name 1 ex_struct
  /\ exists v, read_doc ex_kind 1 ex_doc = Ok v /\ content ex_doc = plain_of ex_struct.
Proof.
  split.
  - cbn. eexists. split; [left; reflexivity|]. split; [|split].
    + split; [repeat constructor; cbn; intuition discriminate|].
      intros k m [[= <- <-]|[[= <- <-]|[[= <- <-]|[[= <- <-]|[]]]]]; reflexivity.
    + repeat constructor.
    + split; [eexists; split; reflexivity|]. split.
      { eexists. split; [reflexivity|]. do 2 eexists. split; [reflexivity|]. split; [repeat constructor; cbn; intuition discriminate|].
        split; [right; reflexivity|]. split; [left; auto|exact I]. }
      split; [eexists; split; [reflexivity|]; auto|]. split; [|exact I].
      eexists. split; [reflexivity|]. eexists. split; [right; split; [reflexivity|eexists; reflexivity]|]. split; [exact C50_union_example|].
      split; [repeat constructor|]. split; [eexists; split; reflexivity|exact I].
  - eexists. split; vm_compute; reflexivity.
Qed.

(** A sparse map of structures (lists, maps) with a null in it cannot be converted:
    [_with_schema] (lines 392-398) asks the null for its members. *)
Theorem C74_null_refuted kind_of member_name s sparse m k g : kind_of s = KMap sparse m -> is_container (kind_of m) = true ->
  snd (from_shape kind_of member_name s (VMap [(k, VNull)]) g) = Err ExpectationNotMet.
Proof.
  intros K C. unfold from_shape. cbn [write]. rewrite K. cbv beta iota. rewrite put_same.
  unfold setitem, slot_schema, to_doc, with_schema, shape_type. cbn [d_schema]. rewrite K.
  destruct (kind_of m); try discriminate C; reflexivity.
Qed.
Print Assumptions C74_null_refuted.

(** ** C75 *)

(** Steps of one thread alone make its own members, in order. *)
Lemma alone n : forall t, t_phase t = Put -> t_raised t = false -> n = List.length (t_todo t) ->
  forall dl b, fst (threads (repeat true (3 * n)) dl t b) =
    mkThread [] Put (fold_left (fun acc kv => dict_set (fst kv) (snd kv) acc) (t_todo t) (t_result t)) false.
Proof.
  induction n as [|n IH]; intros [td ph rs ra] P R L dl b; cbn in P, R; subst ph ra.
  - destruct td; [|discriminate]. reflexivity.
  - destruct td as [|[k v] td]; [discriminate|]. cbn in L. injection L as L.
    replace (3 * S n)%nat with (3 + 3 * n)%nat by lia. cbn [Nat.add repeat threads thread_step t_todo t_raised t_phase t_result].
    rewrite IH; [reflexivity|reflexivity|reflexivity|exact L].
Qed.
Theorem C75_alone a dl b : NoDup (map fst a) ->
  fst (threads (repeat true (3 * List.length a)) dl (thread_start a) b) = mkThread [] Put a false.
Proof.
  intros N. rewrite (alone (List.length a)); try reflexivity. cbn. f_equal.
  enough (H : forall done, NoDup (map fst (done ++ a)) -> fold_left (fun acc kv => dict_set (fst kv) (snd kv) acc) a done = done ++ a) by exact (H [] N).
  clear N. induction a as [|[k v] a IH]; intros done N; cbn; [rewrite app_nil_r; reflexivity|].
  rewrite dict_set_new.
  - rewrite IH; rewrite <- app_assoc; [reflexivity|exact N].
  - rewrite map_app in N. cbn in N. apply NoDup_remove_2 in N. intros I. apply N. apply in_app_iff. left. exact I.
Qed.
Print Assumptions C75_alone.

(** Two threads: one may end up with the other's value, or raise. *)
Theorem C75_threads_refuted : forall ka kb va vb,
  (exists schedule, fst (threads schedule None (thread_start [(ka, va)]) (thread_start [(kb, vb)])) = mkThread [] Put [(ka, vb)] false)
  /\ exists schedule, t_raised (fst (threads schedule None (thread_start [(ka, va)]) (thread_start [(kb, vb)]))) = true.
Proof.
  intros ka kb va vb. split.
  - exists [true; false; true; true]. reflexivity.
  - exists [true; false; false; false; true]. reflexivity.
Qed.
Print Assumptions C75_threads_refuted.
Example C75_example :
  let a := [(lit "password", SStr (lit "alice's"))] in
  let b := [(lit "password", SStr (lit "bob's"))] in
  t_result (fst (threads [true; false; true; true] None (thread_start a) (thread_start b))) = b
  /\ t_result (fst (threads [true; true; true] None (thread_start a) (thread_start b))) = a.
Proof. vm_compute. split; reflexivity. Qed.

(** A structure with a map and a document in it is serialized. *)
Definition ex_struct2 : value :=
  VStruct [(lit "name", VScalar (SStr (lit "n"))); (lit "tags", VMap [(lit "t", VScalar (SInt 1)); (lit "u", VNull)]);
           (lit "extra", VDoc (new 0 ex_plain))].
Example C74_serialized_example : fits ex_kind ex_name 1 ex_struct2 /\ serializable ex_kind 1 ex_struct2
  /\ exists g d, from_shape ex_kind ex_name 1 ex_struct2 no_regs = (g, Ok d) /\ visit ex_kind ex_name d = Ok (plain_of ex_struct2).
Proof.
  assert (F : fits ex_kind ex_name 1 ex_struct2).
  { cbn. eexists. split; [left; reflexivity|]. split; [|split].
    + split; [repeat constructor; cbn; intuition discriminate|].
      intros k m [[= <- <-]|[[= <- <-]|[[= <- <-]|[[= <- <-]|[]]]]]; reflexivity.
    + repeat constructor.
    + split; [eexists; split; reflexivity|]. split.
      { eexists. split; [reflexivity|]. do 2 eexists. split; [reflexivity|]. split; [repeat constructor; cbn; intuition discriminate|].
        split; [right; reflexivity|]. split; [left; auto|exact I]. }
      split; [eexists; split; [reflexivity|]; auto|exact I]. }
  assert (U : serializable ex_kind 1 ex_struct2).
  { cbn. split; [intros; exact I|]. split; [intros m [= <-]; cbn; auto|]. split; [|exact I]. intros m [= <-]. cbn. auto. }
  split; [exact F|]. split; [exact U|]. exact (C74_serialized ex_kind ex_name 1 ex_struct2 no_regs F U).
Qed.
