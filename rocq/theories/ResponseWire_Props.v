(** C94: the output of an operation arrives, however the transport brings it. *)
From Verif Require Import Base Base_Proofs PyText_Model PyDict_Model Fields_Model HttpVal_Model HttpVal_Spec HttpBind_Model HttpBind_Spec HttpBind_Proofs
  HttpRead_Spec HttpRead_Proofs HttpRead_Props ResponseWire_Model ResponseWire_Spec ResponseWire_Proofs.
From Verif Require Import HttpVal_Props HttpBind_Props.
From Verif Require Transport_Model Json_Props.
Local Open Scope N_scope.

(** What C82 asks of a schema, its values and the codec. *)
Definition carriable pads repr tf nearest lower cv cs dv ds ms vals : Prop :=
  floats_ok repr tf nearest /\
  (forall x, repr x <> [] /\ forall c, In c (repr x) -> is_space c = false /\ c <> 44%N /\ c <> 34%N) /\
  folds lower /\
  good_schema response_places ms /\ written ms vals /\ apart lower ms /\ plain_payload ms /\
  (forall i v m p, In (i, v) vals -> nth_error ms i = Some m -> placed (response_places m) p -> returns pads nearest m p v) /\
  (forall i m, nth_error ms i = Some m -> placed (response_places m) AsPayload -> ~ In i (map fst vals) -> may_be_unset m) /\
  codec_back cv cs dv ds vals.
(** What was written is read once and with the same value, and nothing else. *)
Definition gives_back (status : Z) (ms : list member) (vals read : list (nat * value)) : Prop :=
  NoDup (map fst read) /\
  (forall i v, In (i, v) vals -> exists v', In (i, v') read /\ back v v') /\
  (forall i v', In (i, v') read -> In i (map fst vals) \/
     exists m p, nth_error ms i = Some m /\ placed (response_places m) p /\ unset_reads status m p v').

(** The service's response to a successful call, sent as header lines and as a body in
    any chunks by either client, becomes the output that was written. *)
Theorem C94_delivered pads repr tf nearest lower media_type cv cs dv ds o error_status ms vals r lines bs t stream :
  carriable pads repr tf nearest lower cv cs dv ds ms vals ->
  serialize_response pads repr lower media_type cv cs o error_status ms vals = Ok r ->
  (200 <= r_status r < 300)%Z -> (forall m, In m ms -> m_streaming m = false) ->
  r_body r = BBytes bs -> says_same lower ms lines (wire_lines (r_fields r)) -> brings t bs ->
  exists read, deserialize_response tf nearest lower dv ds ms (r_status r) lines stream t = Output (Ok read) /\
    gives_back (r_status r) ms vals read.
Proof.
  intros (Fl & Rp & Fo & G & W & A & PP & Ret & Uns & CB) H Hs Nst Hb L B.
  destruct (C82_back _ _ _ _ _ _ _ _ _ _ _ _ _ _ _ Fl Rp Fo G W A PP Ret Uns CB H) as (read & R & Ok1).
  destruct (response_parts _ _ _ _ _ _ _ _ _ _ _ G W H) as (hl & ct & cl & _ & _ & F).
  exists read. split; [|exact Ok1]. unfold deserialize_response.
  replace ((200 <=? r_status r) && (r_status r <? 300))%Z with true by (symmetry; apply andb_true_iff; split; [apply Z.leb_le|apply Z.ltb_lt]; lia).
  cbn [negb]. replace (has_stream ms) with false.
  2:{ symmetry. unfold has_stream. destruct (existsb m_streaming ms) eqn:E; [|reflexivity]. apply existsb_exists in E as (m & I & E). rewrite (Nst m I) in E. discriminate E. }
  rewrite (buffered t bs B). cbn [bind as_read]. rewrite F in L. rewrite (wire_read _ _ _ _ _ _ _ _ _ _ L), <- F, <- Hb. destruct r as [st fs bd]. cbn [r_status r_fields r_body] in *. rewrite R. reflexivity.
Qed.
Print Assumptions C94_delivered.

(** A streamed payload is the body of the response itself, which has not been read; all
    other members are as they were written. *)
Theorem C94_streamed pads repr tf nearest lower media_type cv cs dv ds o error_status ms vals r lines t stream i m :
  carriable pads repr tf nearest lower cv cs dv ds ms vals ->
  serialize_response pads repr lower media_type cv cs o error_status ms vals = Ok r ->
  (200 <= r_status r < 300)%Z -> nth_error ms i = Some m -> placed (response_places m) AsPayload -> m_streaming m = true ->
  says_same lower ms lines (wire_lines (r_fields r)) ->
  exists read read', deserialize_response tf nearest lower dv ds ms (r_status r) lines stream t = Output (Ok read') /\
    gives_back (r_status r) ms vals read /\ map fst read' = map fst read /\
    (forall v, In (i, v) read' -> v = VData (DStream stream)) /\
    (forall j v, j <> i -> (In (j, v) read' <-> In (j, v) read)).
Proof.
  intros (Fl & Rp & Fo & G & W & A & PP & Ret & Uns & CB) H Hs Nm P St L.
  destruct (C82_back _ _ _ _ _ _ _ _ _ _ _ _ _ _ _ Fl Rp Fo G W A PP Ret Uns CB H) as (read & R & Ok1).
  destruct (response_parts _ _ _ _ _ _ _ _ _ _ _ G W H) as (hl & ct & cl & _ & _ & F).
  exists read, (map (put i stream) read). split; [|split; [exact Ok1|]].
  - unfold deserialize_response.
    replace ((200 <=? r_status r) && (r_status r <? 300))%Z with true by (symmetry; apply andb_true_iff; split; [apply Z.leb_le|apply Z.ltb_lt]; lia).
    cbn [negb]. replace (has_stream ms) with true by (symmetry; apply existsb_exists; exists m; split; [eapply nth_error_In; exact Nm|exact St]).
    cbn [bind]. rewrite F in L. rewrite (wire_read _ _ _ _ _ _ _ _ _ _ L), <- F.
    rewrite (stream_read tf nearest lower dv ds ms i m (r_status r) (r_fields r) (r_body r) stream G (proj1 PP) Nm P St).
    + destruct r as [st fs bd]. cbn [r_status r_fields r_body] in *. rewrite R. reflexivity.
    + apply (proj2 (proj2 PP m (nth_error_In _ _ Nm) P)). exact St.
  - split; [|split].
    + rewrite map_map. apply map_ext. intros [j v]. unfold put. cbn [fst]. destruct (Nat.eqb j i) eqn:E; [|reflexivity]. apply Nat.eqb_eq in E. now subst.
    + intros v I. apply in_map_iff in I as ([j w] & E & _). unfold put in E. cbn [fst] in E. destruct (Nat.eqb j i) eqn:Q; [congruence|].
      injection E as -> ->. rewrite Nat.eqb_refl in Q. discriminate Q.
    + intros j v Ne. split.
      * intros I. apply in_map_iff in I as ([k w] & E & I). unfold put in E. cbn [fst] in E. destruct (Nat.eqb k i); congruence.
      * intros I. apply in_map_iff. exists (j, v). split; [|exact I]. unfold put. cbn [fst].
        destruct (Nat.eqb j i) eqn:Q; [apply Nat.eqb_eq in Q; contradiction|reflexivity].
Qed.
Print Assumptions C94_streamed.

(** Any other status makes the call fail, with the whole body. *)
Theorem C94_failure tf nearest lower dv ds ms status lines stream t bs : brings t bs ->
  (exists o, deserialize_response tf nearest lower dv ds ms status lines stream t = Output o) /\ (200 <= status < 300)%Z \/
  (exists fields, deserialize_response tf nearest lower dv ds ms status lines stream t = Failure status fields (Transport_Model.BBytes bs) /\
     forall name, header_values lower fields name = lines_named lower name lines) /\ ~ (200 <= status < 300)%Z.
Proof.
  intros B. unfold deserialize_response. destruct ((200 <=? status) && (status <? 300))%Z eqn:E; cbn [negb].
  - left. apply andb_true_iff in E as [E1 E2]. apply Z.leb_le in E1. apply Z.ltb_lt in E2. split; [eexists; reflexivity|lia].
  - right. split.
    + rewrite (buffered t bs B). eexists. split; [reflexivity|]. intros name. rewrite marshal_tuples. unfold header_values.
      pose proof (field_named lower lines name) as X. cbv zeta in X. destruct (dict_get _ _); [apply X|symmetry; exact X].
    + intros [H1 H2]. apply andb_false_iff in E as [E|E]; [apply Z.leb_gt in E|apply Z.ltb_ge in E]; lia.
Qed.
Print Assumptions C94_failure.

(** A concrete case: the response of C82's example, its body in two chunks. *)
Example C94_carriable : carriable true ex_repr ex_tf Json_Props.ex_float ex_lower rx_one rx_struct rx_value rx_read rx_members rx_values.
Proof.
  destruct C82_ex as (G & W & A & PP & Ret & _). repeat (split; [first [exact HttpVal_Props.ex_floats_ok|exact C82_repr|exact C82_folds|assumption]|]).
  split; [|exact C82_codec]. intros i m N P. exfalso. unfold rx_members in N. each_index; splace.
Qed.
Definition wx_lines := Eval vm_compute in wire_lines (r_fields rx_response).
Definition wx_bytes := Eval vm_compute in match r_body rx_response with BBytes bs => bs | _ => [] end.
Example C94_delivered_ex :
  wx_bytes = [6; 255] /\ brings (Crt [[6]; [255]; []]) wx_bytes /\ brings (Aiohttp wx_bytes) wx_bytes /\
  r_body rx_response = BBytes wx_bytes /\ says_same ex_lower rx_members wx_lines (wire_lines (r_fields rx_response)) /\
  (forall m, In m rx_members -> m_streaming m = false) /\ (200 <= r_status rx_response < 300)%Z /\
  deserialize_response ex_tf Json_Props.ex_float ex_lower rx_value rx_read rx_members (r_status rx_response) wx_lines 1 (Crt [[6]; [255]; []]) = Output (Ok rx_values).
Proof.
  split; [reflexivity|]. split; [apply (B_crt [[6]; [255]] []); repeat constructor; discriminate|]. split; [constructor|]. split; [reflexivity|].
  split; [left; reflexivity|]. split; [intros m I; unfold rx_members in I; each_member; subst m; reflexivity|].
  split; [split; [discriminate|reflexivity]|]. vm_compute. reflexivity.
Qed.
(** A header and a streamed blob; the lines in another case, with a line nobody asks for. *)
Definition sx_members : list member :=
  [ mkMember (lit "etag") (ShScalar KText) false None false (Some (lit "ETag")) None false false false false false None None;
    mkMember (lit "data") (ShScalar KBlob) false None false None None true false false true false None None ].
Definition sx_values : list (nat * value) := [(0%nat, VOne (HText (lit "e1"))); (1%nat, VOne (HBlob [1; 2; 3]))].
Definition sx_struct (l : list (nat * value)) : result bytes := Err SmithyErr.
Definition sx_response : response := Eval vm_compute in
  match serialize_response true ex_repr ex_lower (lit "application/json") rx_one sx_struct rx_op 0 sx_members sx_values with
  | Ok r => r | Err _ => mkResponse 0 [] BEvents end.
Definition sx_value (i : nat) (bs : bytes) : result value := match nth_error sx_values i with Some (_, v) => Ok v | None => Err SmithyErr end.
Example C94_streamed_carriable : carriable true ex_repr ex_tf Json_Props.ex_float ex_lower rx_one sx_struct sx_value rx_read sx_members sx_values.
Proof.
  split; [exact HttpVal_Props.ex_floats_ok|]. split; [exact C82_repr|]. split; [exact C82_folds|]. split; [|split; [|split; [|split; [|split; [|split]]]]].
  - constructor.
    + intros m I. unfold sx_members in I. each_member; subst m; cbn; eexists; try (left; reflexivity); right; split; reflexivity.
    + intros i j mi mj p Ni Pi Nj Pj B. unfold sx_members in Ni, Nj. each_index; splace; try reflexivity; try discriminate B.
    + intros m p I P Wm. unfold sx_members in I. each_member; subst m; splace; try discriminate Wm; reflexivity.
    + intros m p I P Wm. unfold sx_members in I. each_member; subst m; splace; try discriminate Wm; discriminate.
    + unfold sx_members. cbn [map m_name]. repeat (constructor; [cbn [In]; intros H; each_member; discriminate|]). constructor.
  - split.
    + cbn [sx_values map fst]. repeat (constructor; [cbn [In]; intros H; each_member; discriminate|]). constructor.
    + intros i v I. unfold sx_values in I. each_member; injection I as <- <-; eexists; (split; [reflexivity|]); cbn; auto.
  - constructor.
    + intros i j mi mj k l Ni Nj Pi Pj E. unfold sx_members in *. each_index; splace; reflexivity.
    + intros m k I P. unfold sx_members in I. each_member; subst m; splace; split; vm_compute; discriminate.
    + intros m p I P. unfold sx_members in I. each_member; subst m; splace.
    + intros i j mi mj p q Ni Nj Pi Pj. unfold sx_members in *. each_index; splace.
    + intros i j mi mj Ni Nj Pi Pj. unfold sx_members in *. each_index; splace.
  - split.
    + intros m I [X Y]. unfold sx_members in I. each_member; subst m; first [discriminate X|discriminate Y].
    + intros m I P. unfold sx_members in I. each_member; subst m; splace. split; [discriminate|reflexivity].
  - intros i v m p I N P. unfold sx_values in I. each_member; injection I as <- <-; injection N as <-; splace; cbn; auto; discriminate.
  - intros i m N P Un. exfalso. unfold sx_members in N. each_index; splace. apply Un. cbn. auto.
  - split.
    + intros i v bs I H. injection H as <-. split; [discriminate|]. exists v. split; [|constructor].
      unfold sx_values in I. each_member; injection I as <- <-; reflexivity.
    + intros kept bs K H. discriminate H.
Qed.
Definition sx_lines : list (text * text) :=
  [(lit "Date", lit "today"); (lit "Content-Length", lit "3"); (lit "etag", lit "e1")].
Example C94_streamed_ex :
  serialize_response true ex_repr ex_lower (lit "application/json") rx_one sx_struct rx_op 0 sx_members sx_values = Ok sx_response /\
  r_body sx_response = BBytes [1; 2; 3] /\ says_same ex_lower sx_members sx_lines (wire_lines (r_fields sx_response)) /\
  sx_lines <> wire_lines (r_fields sx_response) /\
  deserialize_response ex_tf Json_Props.ex_float ex_lower sx_value rx_read sx_members (r_status sx_response) sx_lines 7 (Crt [[1; 2]]) =
    Output (Ok [(0%nat, VOne (HText (lit "e1"))); (1%nat, VData (DStream 7))]).
Proof.
  split; [vm_compute; reflexivity|]. split; [reflexivity|]. split; [|split; [discriminate|vm_compute; reflexivity]].
  right. split; [intros m I; unfold sx_members in I; each_member; subst m; reflexivity|].
  intros name [->|(m & I & E)]; [vm_compute; reflexivity|]. unfold sx_members in I. each_member; subst m; try discriminate E. injection E as <-. vm_compute. reflexivity.
Qed.
(** The headers of a prefix are keyed by their names as they arrive: if the case of the
    names changes on the way, as HTTP/2 lets nobody prevent (RFC 9113, section 8.2), so do
    the keys of the map. *)
Theorem C94_prefix_refuted : exists lines,
  (forall name, lines_named ex_lower name lines = lines_named ex_lower name wx_lines) /\
  deserialize_response ex_tf Json_Props.ex_float ex_lower rx_value rx_read rx_members (r_status rx_response) lines 1 (Crt [[6]; [255]; []]) <> Output (Ok rx_values) /\
  exists read, deserialize_response ex_tf Json_Props.ex_float ex_lower rx_value rx_read rx_members (r_status rx_response) lines 1 (Crt [[6]; [255]; []]) = Output (Ok read) /\
    In (2%nat, VMap [(lit "k", IText (lit "v")); (lit "l", IText (lit "w, x"))]) read.
Proof.
  exists (map (fun l => (ex_lower (fst l), snd l)) wx_lines). split.
  - intros name. unfold lines_named. rewrite <- (map_id wx_lines) at 2. generalize wx_lines as l. induction l as [|[k v] l IH]; [reflexivity|].
    cbn [map filter fst snd]. replace (ex_lower (ex_lower k)) with (ex_lower k).
    + destruct (text_eqb _ _); cbn [map snd]; rewrite IH; reflexivity.
    + unfold ex_lower. rewrite map_map. apply map_ext. intros c. unfold lower_ascii. destruct ((65 <=? c) && (c <=? 90)) eqn:E; [|rewrite E; reflexivity].
      apply andb_true_iff in E as [E1 E2]. apply N.leb_le in E1, E2. replace (c + 32 <=? 90) with false by (symmetry; apply N.leb_gt; lia). rewrite andb_false_r. reflexivity.
  - split; [vm_compute; discriminate|]. eexists. split; [vm_compute; reflexivity|]. cbn [In]. auto 10.
Qed.
Print Assumptions C94_prefix_refuted.
Example C94_failure_ex : brings (Crt [[1]; [2]; []]) [1; 2] /\
  deserialize_response ex_tf Json_Props.ex_float ex_lower rx_value rx_read rx_members 404 [(lit "X-A", lit "1")] 1 (Crt [[1]; [2]; []]) =
    Failure 404 [(lit "x-a", mkField (lit "X-A") [lit "1"] Header)] (Transport_Model.BBytes [1; 2]).
Proof. split; [apply (B_crt [[1]; [2]] []); repeat constructor; discriminate|]. vm_compute. reflexivity. Qed.
