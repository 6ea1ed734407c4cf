(** C82: a response that was serialized for a structure is read as that structure. *)
From Verif Require Import Base Base_Proofs Utf8_Model PyText_Model PySort_Model PyDecimal_Model PyDict_Model Fields_Model Header_Model Header_Spec.
From Verif Require Import HttpVal_Model HttpVal_Spec HttpVal_Props HttpBind_Model HttpBind_Spec HttpBind_Proofs HttpBind_Props HttpRead_Spec HttpRead_Proofs.
From Verif Require Header_Props Json_Props Time_Model Time_Spec.

(** Every member that was written is read once and with the same value; the other
    members that are read are the status, headers under a prefix of which there are none,
    and a payload that is empty. *)
Theorem C82_back : forall pads repr tf nearest lower media_type cv cs dv ds o error_status ms vals r,
  floats_ok repr tf nearest ->
  (forall x, repr x <> [] /\ forall c, In c (repr x) -> is_space c = false /\ c <> 44%N /\ c <> 34%N) ->
  folds lower ->
  good_schema response_places ms -> written ms vals -> apart lower ms -> plain_payload ms ->
  (forall i v m p, In (i, v) vals -> nth_error ms i = Some m -> placed (response_places m) p -> returns pads nearest m p v) ->
  (forall i m, nth_error ms i = Some m -> placed (response_places m) AsPayload -> ~ In i (map fst vals) -> may_be_unset m) ->
  codec_back cv cs dv ds vals ->
  serialize_response pads repr lower media_type cv cs o error_status ms vals = Ok r ->
  exists read, read_response tf nearest lower dv ds ms r = Ok read /\ NoDup (map fst read) /\
    (forall i v, In (i, v) vals -> exists v', In (i, v') read /\ back v v') /\
    (forall i v', In (i, v') read -> In i (map fst vals) \/
       exists m p, nth_error ms i = Some m /\ placed (response_places m) p /\ unset_reads (r_status r) m p v').
Proof.
  intros pads repr tf nearest lower media cv cs dv ds o es ms vals r Fl Rp Fo G W A PP Ret Uns CB H.
  destruct (response_parts _ _ _ _ _ _ _ _ _ _ _ G W H) as (hl & ct & cl & L & B & F).
  destruct (C59_response _ _ _ _ _ _ _ _ _ _ _ G W H) as (_ & S).
  apply (reads_back pads repr tf nearest lower media cv cs dv ds o ms vals r Fl Rp Fo G W A PP Ret Uns CB hl ct cl L B F).
  destruct S as [S|[S _]]; auto.
Qed.
Print Assumptions C82_back.

(** And the response is made, unless a length is required that is not known. *)
Theorem C82_made : forall pads repr nearest tf lower media_type cv cs o error_status ms vals bd ct cl,
  floats_ok repr tf nearest ->
  good_schema response_places ms -> written ms vals ->
  (forall i v m p, In (i, v) vals -> nth_error ms i = Some m -> placed (response_places m) p -> returns pads nearest m p v) ->
  (forall i m, nth_error ms i = Some m -> placed (response_places m) AtStatus -> m_shape m = ShScalar KInt) ->
  body_of media_type cv cs false (o_omit_empty o) response_places ms vals bd ct cl ->
  (forall m, In m ms -> m_requires_length m = true -> cl <> None) ->
  exists r, serialize_response pads repr lower media_type cv cs o error_status ms vals = Ok r /\ r_body r = bd.
Proof.
  intros pads repr nearest tf lower media cv cs o es ms vals bd ct cl Fl G W Ret Si B Rl. unfold serialize_response.
  assert (Mt : forall m p, placed (response_places m) p -> response_match m = binding_of p) by (intros m p P; now apply response_placed).
  assert (St := fun b i v b' S => write_response_change pads repr (fun _ => false) [] ms b i v b' G S).
  destruct (write_all_total (write_response pads repr ms (make_matcher response_match ms)) vals no_acc) as (a & E1).
  { intros a i v I. destruct (proj2 W i v I) as (m & N & S). destruct (g_one _ _ G m (nth_error_In _ _ N)) as (p & P).
    assert (R := Ret i v m p I N P). destruct (response_placed m p P) as [M Nm].
    unfold write_response. rewrite (matches_some response_match ms i m N), N, M. cbn [bind].
    assert (Q := response_no_query m p P).
    destruct p as [k|q|k| | | | | |]; try contradiction; cbn [binding_of]; cbn [returns] in R.
    - assert (X : exists lines, header_lines pads repr m (AtHeader k) v lines).
      { cbn [header_lines]. unfold header_carries in R. unfold keyed_lines, elements. unfold has_shape in S.
        destruct v as [s|l|l|d|n]; try (destruct (m_shape m); contradiction).
        - assert (C : carried pads nearest (m_leaf m) s) by (destruct (m_shape m); try contradiction; exact R).
          destruct (C60_header pads repr tf nearest _ s Fl C) as (t & _ & E & _). exists [(k, t)], [t]. split; [reflexivity|eauto].
        - destruct (m_shape m) as [[]| |kd lf| | | |]; try contradiction. destruct R as (_ & R & _).
          assert (Y : exists ts, element_texts (header_text pads repr lf) l ts).
          { clear - R Fl. induction l as [|e l IH]; [exists []; constructor|]. destruct IH as (ts & T); [intros e' I; apply R; now right|].
            destruct (R e (or_introl eq_refl)) as (s & -> & C). destruct (C60_header pads repr tf nearest _ s Fl C) as (t & _ & E & _).
            exists (t :: ts). constructor; eauto. }
          destruct Y as (ts & Y). exists (map (fun t => (k, t)) ts), ts. auto. }
      destruct X as (l & L). rewrite (header_tuples_total pads repr m (AtHeader k) v l Nm S (or_introl eq_refl) L). eexists; reflexivity.
    - destruct R as (es0 & -> & _).
      rewrite (header_tuples_total pads repr m (AtHeaders q) _ _ Nm S (or_intror eq_refl) (ex_intro _ es0 (conj eq_refl eq_refl))). eexists; reflexivity.
    - unfold has_shape in S. rewrite (Si i m N P) in S. destruct v as [[]|l|l|d|n]; try discriminate S; try contradiction. eexists; reflexivity.
    - eexists; reflexivity.
    - eexists; reflexivity. }
  rewrite E1. cbn [bind].
  destruct (write_all_spec _ _ _ _ _ _ _ _ Mt St vals no_acc a W E1) as (_ & _ & _ & _ & Hc & _).
  cbn [no_acc a_calls app] in Hc. rewrite Hc, (payload_of_total _ _ _ _ _ _ G Mt false _ _ _ _ _ W B). cbn [bind].
  assert (Ck : check_length lower (make_matcher response_match ms) (tuples_loop lower Header (all_headers (a_headers a) ct cl) [])
               = Ok (tuples_loop lower Header (all_headers (a_headers a) ct cl) [])).
  { unfold check_length, length_required. destruct (b_events _); [reflexivity|].
    destruct (matcher_spec response_match ms) as (_ & _ & _ & M4 & _).
    destruct (b_payload _) as [[j m]|]; [|reflexivity]. destruct (m_requires_length m) eqn:R; [|reflexivity].
    assert (X := Rl m (nth_error_In _ _ (proj1 M4)) R). destruct cl as [n|]; [|congruence].
    assert (X' := fields_spec lower (a_headers a) ct (Some n) CONTENT_LENGTH). unfold header_values, lines_named, dict_has in *.
    destruct (dict_get (lower CONTENT_LENGTH) _); [reflexivity|]. exfalso.
    rewrite !filter_app, !map_app in X'. cbn [if_some filter fst] in X'.
    change (lit "content-length") with CONTENT_LENGTH in X'. rewrite text_eqb_refl in X'.
    cbn [map snd] in X'. destruct (map snd (filter _ (a_headers a))), (map snd (filter _ (if_some _ ct))); discriminate X'. }
  rewrite Ck. cbn [bind]. eexists. split; [reflexivity|]. reflexivity.
Qed.
Print Assumptions C82_made.

(** A list of headers, one text, headers under a prefix, the status and two members of
    the body, one of which is not set. *)
Definition rx_members : list member :=
  [ mkMember (lit "tags") (ShList KText (mkLeaf false None)) false None false (Some (lit "X-Tag")) None false false false false false None None;
    mkMember (lit "one") (ShList KText (mkLeaf false None)) false None false (Some (lit "X-One")) None false false false false false None None;
    mkMember (lit "meta") ShMap false None false None (Some (lit "X-Meta-")) false false false false false None None;
    mkMember (lit "code") (ShScalar KInt) false None false None None false false true false false None None;
    mkMember (lit "etag") (ShScalar KText) false None false (Some (lit "ETag")) None false false false false false None None;
    blank_member (lit "name") (ShScalar KText);
    blank_member (lit "size") (ShScalar KInt) ].
Definition rx_values : list (nat * value) :=
  [ (0, VList [Some (HText (lit "a, b")); Some (HText [])]); (1, VList [Some (HText (lit "c"))]);
    (2, VMap [(lit "K", IText (lit "v")); (lit "l", IText (lit "w, x"))]); (3, VOne (HInt 201)); (6, VOne (HInt 9)) ]%nat.
Definition rx_at (i : nat) : list (nat * value) := match find (fun iv => Nat.eqb (fst iv) i) rx_values with Some iv => [iv] | None => [] end.
Definition rx_struct (l : list (nat * value)) : result bytes := Ok (map (fun iv => N.of_nat (fst iv)) l ++ [255%N]).
Definition rx_read (bs : bytes) : result (list (nat * value)) := Ok (flat_map (fun c => rx_at (N.to_nat c)) bs).
Definition rx_one (iv : nat * value) : result bytes := Ok [N.of_nat (fst iv)].
Definition rx_value (i : nat) (bs : bytes) : result value := match rx_at i with [(_, v)] => Ok v | _ => Err SmithyErr end.
Definition rx_op : operation := mkOperation (lit "/") None None true 200.
Definition rx_response : response := Eval vm_compute in
  match serialize_response true ex_repr ex_lower (lit "application/json") rx_one rx_struct rx_op 0 rx_members rx_values with
  | Ok r => r | Err _ => mkResponse 0 [] BEvents end.
Lemma rx_at_values i v : In (i, v) rx_values -> rx_at i = [(i, v)].
Proof. intros I. unfold rx_values in I. cbn [In] in I. repeat (destruct I as [I|I]; [injection I as <- <-; reflexivity|]). destruct I. Qed.
Example C82_codec : codec_back rx_one rx_struct rx_value rx_read rx_values.
Proof.
  split.
  - intros i v bs I H. injection H as <-. split; [discriminate|]. exists v. split; [|constructor].
    unfold rx_value. now rewrite (rx_at_values i v I).
  - intros kept bs K H. injection H as <-. split; [intros X; apply app_eq_nil in X as [_ X]; discriminate X|].
    exists kept. split.
    + unfold rx_read. f_equal. rewrite flat_map_app. cbn [flat_map]. change (rx_at (N.to_nat 255)) with (@nil (nat * value)). cbn [app]. rewrite app_nil_r.
      induction kept as [|[i v] kept IH]; [reflexivity|]. cbn [map flat_map fst]. rewrite Nat2N.id, (rx_at_values i v) by (apply K; now left).
      cbn [app]. f_equal. apply IH. intros iv I. apply K. now right.
    + clear K. induction kept as [|[i v] kept IH]; constructor; [split; [reflexivity|constructor]|exact IH].
Qed.
Example C82_folds : folds ex_lower.
Proof.
  intros s _. unfold ex_lower. apply map_ext. intros c. reflexivity.
Qed.
Example C82_repr : forall x, ex_repr x <> [] /\ forall c, In c (ex_repr x) -> is_space c = false /\ c <> 44%N /\ c <> 34%N.
Proof.
  intros x. split; [discriminate|]. intros c I. unfold ex_repr in I.
  assert (D : forall z, In c (dec_Z z) -> is_space c = false /\ c <> 44%N /\ c <> 34%N) by (intros z J; exact (proj2 (dec_Z_plain z) c J)).
  destruct I as [<-|I]; [split; [reflexivity|split; discriminate]|]. apply in_app_or in I as [I|[<-|I]]; [exact (D _ I)|split; [reflexivity|split; discriminate]|exact (D _ I)].
Qed.
Ltac splace := repeat match goal with
  | P : placed _ _ |- _ => unfold placed, response_places in P; cbn in P; let Q := fresh in
      destruct P as [P|[P Q]]; [first [discriminate P | inversion P; clear P; subst] | first [discriminate P | discriminate Q | clear P; subst]]
  end.
Example C82_ex :
  good_schema response_places rx_members /\ written rx_members rx_values /\ apart ex_lower rx_members /\ plain_payload rx_members /\
  (forall i v m p, In (i, v) rx_values -> nth_error rx_members i = Some m -> placed (response_places m) p ->
     returns true Json_Props.ex_float m p v) /\
  serialize_response true ex_repr ex_lower (lit "application/json") rx_one rx_struct rx_op 0 rx_members rx_values = Ok rx_response /\
  read_response ex_tf Json_Props.ex_float ex_lower rx_value rx_read rx_members rx_response = Ok rx_values.
Proof.
  split; [|split; [|split; [|split; [|split; [|split; vm_compute; reflexivity]]]]].
  - constructor.
    + intros m I. unfold rx_members in I. each_member; subst m; cbn; eexists; try (left; reflexivity); right; split; reflexivity.
    + intros i j mi mj p Ni Pi _ _ _. exfalso. unfold rx_members in Ni. each_index; destruct Pi as [E|[E F]]; discriminate.
    + intros m p I P Wm. unfold rx_members in I. each_member; subst m; cbn in P; destruct P as [E|[E F]]; try discriminate E;
        try (injection E as <-; try discriminate Wm; reflexivity); subst p; discriminate Wm.
    + intros m p I P Wm. unfold rx_members in I. each_member; subst m; cbn in P; destruct P as [E|[E F]]; try discriminate E;
        try (injection E as <-; try discriminate Wm; discriminate); subst p; discriminate Wm.
    + unfold rx_members. cbn [map m_name blank_member]. repeat (constructor; [cbn [In]; intros H; each_member; discriminate|]). constructor.
  - split.
    + cbn [rx_values map fst]. repeat (constructor; [cbn [In]; intros H; each_member; discriminate|]). constructor.
    + intros i v I. unfold rx_values in I. each_member; injection I as <- <-; eexists; (split; [reflexivity|]); cbn; auto;
      intros s Hs; each_member; injection Hs as <-; reflexivity.
  - constructor.
    + intros i j mi mj k l Ni Nj Pi Pj E. unfold rx_members in *. each_index; splace; try reflexivity; vm_compute in E; discriminate E.
    + intros m k I P. unfold rx_members in I. each_member; subst m; splace; split; vm_compute; discriminate.
    + intros m p I P. unfold rx_members in I. each_member; subst m; splace.
      split; [repeat (constructor; [reflexivity|]); constructor|].
      split; [intros (x & X); vm_compute in X; discriminate X|]. split; [intros (x & X); vm_compute in X; discriminate X|].
      intros m' k I' P'. unfold rx_members in I'. each_member; subst m'; splace; intros (x & X); vm_compute in X; discriminate X.
    + intros i j mi mj p q Ni Nj Pi Pj. unfold rx_members in *. each_index; splace; reflexivity.
    + intros i j mi mj Ni Nj Pi Pj. unfold rx_members in *. each_index; splace; reflexivity.
  - split.
    + intros m I [X Y]. unfold rx_members in I. each_member; subst m; discriminate X.
    + intros m I P. unfold rx_members in I. each_member; subst m; splace.
  - intros i v m p I N P. unfold rx_values in I. each_member; injection I as <- <-; injection N as <-; splace; cbn [returns].
    + cbn. split; [discriminate|]. split; [|intros s X; discriminate X].
      intros e [<-|[<-|[]]]; eexists; (split; [reflexivity|]); cbn; discriminate.
    + cbn. split; [discriminate|]. split.
      * intros e [<-|[]]; eexists; (split; [reflexivity|]); cbn; discriminate.
      * intros s X. injection X as <-. apply plain_lone. split; [discriminate|]. intros c [<-|[]]. vm_compute. split; [reflexivity|split; discriminate].
    + exists [(lit "K", lit "v"); (lit "l", lit "w, x")]. split; [reflexivity|].
      split; [repeat (constructor; [constructor; [reflexivity|constructor]|]); constructor|].
      cbn. constructor; [intros [X|[]]; discriminate X|]. constructor; [intros []|constructor].
    + exact I.
    + exact I.
Qed.

(** Without the conditions it fails.  A list of one text with a comma is read as two
    texts, a list of one text in quotes as another text. *)
Definition rx_tags : list member :=
  [mkMember (lit "tags") (ShList KText (mkLeaf false None)) false None false (Some (lit "X-Tag")) None false false false false false None None].
Definition rx_trip (cv : nat * value -> result bytes) (dv : nat -> bytes -> result value) (ms : list member) (vals : list (nat * value)) : result (list (nat * value)) :=
  do r <- serialize_response true ex_repr ex_lower (lit "application/json") cv rx_struct rx_op 0 ms vals;
  read_response ex_tf Json_Props.ex_float ex_lower dv rx_read ms r.
Theorem C82_lone_refuted :
  rx_trip rx_one rx_value rx_tags [(0%nat, VList [Some (HText (lit "a,b"))])] = Ok [(0%nat, VList [Some (HText (lit "a")); Some (HText (lit "b"))])] /\
  rx_trip rx_one rx_value rx_tags [(0%nat, VList [Some (HText (lit """a"""))])] = Ok [(0%nat, VList [Some (HText (lit "a"))])].
Proof. split; vm_compute; reflexivity. Qed.
Print Assumptions C82_lone_refuted.
(** An empty list is read as no list. *)
Theorem C82_empty_list_refuted : rx_trip rx_one rx_value rx_tags [(0%nat, VList [])] = Ok [].
Proof. vm_compute. reflexivity. Qed.
Print Assumptions C82_empty_list_refuted.
(** An enumeration as the payload is written by the codec and read as the text of the
    body: whatever the codec writes around the text becomes part of it. *)
Theorem C82_enum_payload_refuted : forall cv dv,
  (forall s bs, utf8_encode s = Ok bs -> cv (0%nat, VOne (HText s)) = Ok ([34] ++ bs ++ [34])%N) ->
  rx_trip cv dv [mkMember (lit "color") ShEnum false None false None None true false false false false None None] [(0%nat, VOne (HText (lit "RED")))]
    = Ok [(0%nat, VOne (HText (lit """RED""")))].
Proof.
  intros cv dv H. unfold rx_trip.
  assert (serialize_response true ex_repr ex_lower (lit "application/json") cv rx_struct rx_op 0
    [mkMember (lit "color") ShEnum false None false None None true false false false false None None] [(0%nat, VOne (HText (lit "RED")))]
    = Ok (mkResponse 200 [(lit "content-type", mkField (lit "content-type") [lit "application/json"] Header);
                          (lit "content-length", mkField (lit "content-length") [lit "5"] Header)] (BBytes (lit """RED""")))) as ->.
  { unfold serialize_response. cbn. rewrite (H _ (lit "RED")) by (vm_compute; reflexivity). vm_compute. reflexivity. }
  vm_compute. reflexivity.
Qed.
Print Assumptions C82_enum_payload_refuted.
(** The empty prefix takes every header, those the serializer adds and those of other
    members included. *)
Theorem C82_prefix_refuted :
  rx_trip rx_one rx_value
    [mkMember (lit "all") ShMap false None false None (Some []) false false false false false None None;
     mkMember (lit "size") (ShScalar KInt) false None false (Some (lit "X-Size")) None false false false false false None None;
     blank_member (lit "name") (ShScalar KText)]
    [(0%nat, VMap []); (1%nat, VOne (HInt 4))]
  = Ok [(0%nat, VMap [(lit "X-Size", IText (lit "4")); (lit "content-type", IText (lit "application/json")); (lit "content-length", IText (lit "1"))]);
        (1%nat, VOne (HInt 4))].
Proof. vm_compute. reflexivity. Qed.
Print Assumptions C82_prefix_refuted.
(** A document as the payload that is not set is read all the same: a codec that refuses
    the empty text makes reading the response fail. *)
Theorem C82_unset_document_refuted : forall cv dv e, dv 0%nat [] = Err e ->
  rx_trip cv dv [mkMember (lit "doc") ShDocument false None false None None true false false false false None None] [] = Err e.
Proof.
  intros cv dv e H. unfold rx_trip.
  assert (serialize_response true ex_repr ex_lower (lit "application/json") cv rx_struct rx_op 0
    [mkMember (lit "doc") ShDocument false None false None None true false false false false None None] []
    = Ok (mkResponse 200 [(lit "content-type", mkField (lit "content-type") [lit "application/json"] Header);
                          (lit "content-length", mkField (lit "content-length") [lit "0"] Header)] (BBytes []))) as -> by (vm_compute; reflexivity).
  cbn [bind]. unfold read_response. cbn. now rewrite H.
Qed.
Print Assumptions C82_unset_document_refuted.

(** ** Responses of any server *)

Lemma read_members_each tf nearest lower dv b r ms : forall n x i m,
  read_members tf nearest lower dv b r n ms = Ok x -> nth_error ms i = Some m ->
  exists y, read_member tf nearest lower dv b r (n + i) m = Ok y /\ incl y x.
Proof.
  induction ms as [|m0 ms IH]; intros n x i m H N; [destruct i; discriminate N|]. cbn [read_members] in H.
  destruct (read_member tf nearest lower dv b r n m0) as [a|] eqn:E; [cbn [bind] in H | discriminate H].
  destruct (read_members tf nearest lower dv b r (S n) ms) as [c|] eqn:F; [cbn [bind] in H | discriminate H]. injection H as <-.
  destruct i as [|i]; cbn [nth_error] in N.
  - injection N as <-. rewrite Nat.add_0_r. exists a. split; [exact E | now apply incl_appl].
  - destruct (IH (S n) c i m F N) as (y & R & I). exists y. rewrite <- plus_n_Sm. split; [exact R | now apply incl_appr].
Qed.
Lemma read_response_each tf nearest lower dv ds ms r read i m : read_response tf nearest lower dv ds ms r = Ok read -> nth_error ms i = Some m ->
  exists y, read_member tf nearest lower dv (make_matcher response_match ms) r i m = Ok y /\ incl y read.
Proof.
  intros H N. unfold read_response in H.
  destruct (read_members tf nearest lower dv (make_matcher response_match ms) r 0 ms) as [x|] eqn:E; [cbn [bind] in H | discriminate H].
  destruct (read_members_each _ _ _ _ _ _ _ 0 x i m E N) as (y & R & I). exists y. split; [exact R|]. intros z Z. specialize (I z Z).
  destruct (b_has_body _); [|injection H as <-; exact I].
  destruct (has_empty_body lower r) as [[]|]; [| |discriminate H]; cbn [bind] in H; [injection H as <-; exact I|].
  destruct (body_bytes r); [cbn [bind] in H | discriminate H]. destruct (ds _); [cbn [bind] in H | discriminate H]. injection H as <-. apply in_or_app. now left.
Qed.
(** Neither commas nor quotation marks. *)
Definition unquoted (s : text) : Prop := ~ In 44%N s /\ ~ In 34%N s.
Lemma as_string_plain vs : (forall s, In s vs -> unquoted s) -> as_string vs = join [44; 32]%N vs.
Proof.
  intros U. destruct vs as [|v [|v' vs]]; try reflexivity. unfold as_string. change COMMA with 44%N. f_equal.
  assert (Q : forall s, unquoted s -> quote_and_escape s = s).
  { intros s [Hc Hq]. unfold quote_and_escape.
    destruct (existsb _ s) eqn:X; [|reflexivity]. apply existsb_exists in X. destruct X as (c & I & C). apply orb_true_iff in C.
    destruct C as [C|C]; apply N.eqb_eq in C; subst c; [now elim Hc | now elim Hq]. }
  rewrite <- (map_id (v :: v' :: vs)) at 2. apply map_ext_in. intros s I. apply Q, U, I.
Qed.
(** Lines of the same name are one value (RFC 9110, section 5.2), for texts and under a prefix. *)
Theorem C82_lines tf nearest lower dv ds ms r read i m k f :
  read_response tf nearest lower dv ds ms r = Ok read -> nth_error ms i = Some m -> placed (response_places m) (AtHeader k) ->
  m_shape m = ShScalar KText -> m_media m = None ->
  dict_get (lower k) (r_fields r) = Some f -> (forall s, In s (f_values f) -> unquoted s) ->
  In (i, VOne (HText (join [44; 32]%N (f_values f)))) read.
Proof.
  intros H N P Sh Me F U. destruct (read_response_each _ _ _ _ _ _ _ _ _ _ H N) as (y & R & I). apply I. clear I H.
  destruct (response_placed m _ P) as [M Nm]. cbn [binding_of] in M. unfold read_member in R. rewrite (matches_some response_match ms i m N), M in R.
  cbn [bind] in R. cbn [named] in Nm. rewrite Nm in R. cbn [expect bind] in R. rewrite F, Sh in R. unfold read_scalar in R. rewrite Sh in R.
  unfold read_header, m_leaf in R. rewrite Me in R. cbn [lf_media bind] in R. injection R as <-. rewrite (as_string_plain _ U). now left.
Qed.
Print Assumptions C82_lines.
Theorem C82_prefix_lines tf nearest lower dv ds ms r read i m q key f rest :
  read_response tf nearest lower dv ds ms r = Ok read -> nth_error ms i = Some m -> placed (response_places m) (AtHeaders q) ->
  In (key, f) (r_fields r) -> lower (f_name f) = lower q ++ rest -> (forall s, In s (f_values f) -> unquoted s) ->
  exists entries, In (i, VMap entries) read /\
    In (skipn (List.length (lower q)) (f_name f), IText (join [44; 32]%N (f_values f))) entries.
Proof.
  intros H N P F S U. destruct (read_response_each _ _ _ _ _ _ _ _ _ _ H N) as (y & R & I).
  destruct (response_placed m _ P) as [M Nm]. cbn [binding_of] in M. unfold read_member in R. rewrite (matches_some response_match ms i m N), M in R.
  cbn [bind] in R. cbn [named] in Nm. rewrite Nm in R. cbn [expect bind] in R. injection R as <-. eexists. split; [apply I; now left|].
  apply in_flat_map. exists (key, f). split; [exact F|]. cbn [snd]. rewrite S.
  assert (W : forall p w, starts_with p (p ++ w) = true).
  { induction p as [|c p IHp]; intros w; [reflexivity|]. cbn. now rewrite N.eqb_refl, IHp. }
  rewrite W, (as_string_plain _ U). now left.
Qed.
Print Assumptions C82_prefix_lines.
Definition rx_two : response :=
  mkResponse 200 [(lit "x-name", mkField (lit "X-Name") [lit "a"; lit "b"] Header); (lit "x-meta-k", mkField (lit "X-Meta-K") [lit "c"; lit "d"] Header)] (BBytes []).
Definition rx_lines : list member :=
  [ mkMember (lit "name") (ShScalar KText) false None false (Some (lit "X-Name")) None false false false false false None None;
    mkMember (lit "meta") ShMap false None false None (Some (lit "X-Meta-")) false false false false false None None ].
Definition rx_none : member := mkMember [] ShMap false None false None None false false false false false None None.
Example C82_lines_ex :
  read_response ex_tf Json_Props.ex_float ex_lower rx_value rx_read rx_lines rx_two =
  Ok [(0%nat, VOne (HText (lit "a, b"))); (1%nat, VMap [(lit "K", IText (lit "c, d"))])] /\
  placed (response_places (nth 0 rx_lines rx_none)) (AtHeader (lit "X-Name")) /\
  placed (response_places (nth 1 rx_lines rx_none)) (AtHeaders (lit "X-Meta-")) /\
  (forall s, In s [lit "a"; lit "b"; lit "c"; lit "d"] -> unquoted s).
Proof.
  split; [vm_compute; reflexivity|]. split; [cbn; repeat constructor|]. split; [cbn; repeat constructor|].
  intros s I. cbn in I. repeat (destruct I as [<-|I]; [split; intros X; vm_compute in X; repeat (destruct X as [X|X]; [discriminate X|]); destruct X|]). destruct I.
Qed.
(** But the lines of a list are not: elements that share a line are read as one
    when there is another line (deserializers.py 224-235). *)
Theorem C82_lines_refuted : exists r r',
  map f_values (map snd (r_fields r)) = [[lit "a, b"; lit "c"]] /\ map f_values (map snd (r_fields r')) = [[lit "a, b, c"]] /\
  map fst (r_fields r) = map fst (r_fields r') /\ r_body r = r_body r' /\ r_status r = r_status r' /\
  read_response ex_tf Json_Props.ex_float ex_lower rx_value rx_read rx_tags r' = Ok [(0%nat, VList [Some (HText (lit "a")); Some (HText (lit "b")); Some (HText (lit "c"))])] /\
  read_response ex_tf Json_Props.ex_float ex_lower rx_value rx_read rx_tags r = Ok [(0%nat, VList [Some (HText (lit "a, b")); Some (HText (lit "c"))])].
Proof.
  exists (mkResponse 200 [(lit "x-tag", mkField (lit "X-Tag") [lit "a, b"; lit "c"] Header)] (BBytes [])).
  exists (mkResponse 200 [(lit "x-tag", mkField (lit "X-Tag") [lit "a, b, c"] Header)] (BBytes [])).
  repeat (split; [reflexivity|]). split; vm_compute; reflexivity.
Qed.
Print Assumptions C82_lines_refuted.
