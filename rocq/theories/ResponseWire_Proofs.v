(** Proofs about responses on the wire. *)
From Verif Require Import Base Base_Proofs PyDict_Model PyDict_Proofs Fields_Model HttpVal_Model HttpBind_Model HttpBind_Spec HttpBind_Proofs
  HttpRead_Spec HttpRead_Proofs ResponseWire_Model ResponseWire_Spec.
From Verif Require Transport_Model Fields_Props.
Local Open Scope N_scope.

Lemma marshal_tuples lower l : forall d, marshal_loop lower l d = tuples_loop lower Header l d.
Proof. induction l as [|[n v] l IH]; intros d; cbn [marshal_loop tuples_loop]; [reflexivity|]. apply IH. Qed.

Lemma buffered t b : brings t b -> buffer_async_body (response_body t) = Ok (Transport_Model.BBytes b).
Proof.
  assert (G : forall l acc, fold_left (fun full chunk : bytes => full ++ chunk) l acc = acc ++ List.concat l).
  { induction l as [|c l IH]; intros acc; cbn [fold_left List.concat]; [now rewrite app_nil_r|]. rewrite IH, app_assoc. reflexivity. }
  intros [chunks rest F|all]; cbn [response_body buffer_async_body]; rewrite G; cbn [app].
  - do 2 f_equal. induction F as [|c cs N F IH]; [reflexivity|]. destruct c as [|x c]; [contradiction|].
    cbn [app Transport_Model.response_chunks List.concat]. rewrite IH. reflexivity.
  - cbn [List.concat]. rewrite app_nil_r. reflexivity.
Qed.

(** ** Lines in the order of the fields *)
Definition clean (lower : text -> text) (fs : list (text * field)) : Prop :=
  NoDup (map fst fs) /\ forall k f, In (k, f) fs -> k = lower (f_name f) /\ f_values f <> [] /\ f_kind f = Header.
Lemma dict_get_app_r {A} k (a : list (text * A)) b : ~ In k (map fst a) -> dict_get k (a ++ b) = dict_get k b.
Proof.
  induction a as [|[k' x] a IH]; intros H; [reflexivity|]. cbn [app dict_get]. destruct (text_eqb k k') eqn:E.
  - apply text_eqb_eq in E. subst. elim H. now left.
  - apply IH. intros I. apply H. now right.
Qed.
Lemma dict_set_app_r {A} k (x : A) (a : list (text * A)) b : ~ In k (map fst a) -> dict_set k x (a ++ b) = a ++ dict_set k x b.
Proof.
  induction a as [|[k' y] a IH]; intros H; [reflexivity|]. cbn [app dict_set]. destruct (text_eqb k k') eqn:E.
  - apply text_eqb_eq in E. subst. elim H. now left.
  - f_equal. apply IH. intros I. apply H. now right.
Qed.
Lemma one_field lower name kind vs : forall rest done vs0, ~ In (lower name) (map fst done) ->
  marshal_loop lower (map (fun v => (name, v)) vs ++ rest) (done ++ [(lower name, mkField name vs0 kind)]) =
  marshal_loop lower rest (done ++ [(lower name, mkField name (vs0 ++ vs) kind)]).
Proof.
  induction vs as [|v vs IH]; intros rest done vs0 H; cbn [map app]; [rewrite app_nil_r; reflexivity|]. cbn [marshal_loop].
  rewrite dict_get_app_r by exact H. cbn [dict_get]. rewrite text_eqb_refl. rewrite dict_set_app_r by exact H. cbn [dict_set]. rewrite text_eqb_refl.
  unfold field_add. cbn [f_name f_values f_kind]. rewrite IH by exact H. rewrite <- app_assoc. reflexivity.
Qed.
Lemma marshal_wire lower fs : clean lower fs -> marshal_loop lower (wire_lines fs) [] = fs.
Proof.
  assert (G : forall fs done, clean lower (done ++ fs) -> marshal_loop lower (wire_lines fs) done = done ++ fs).
  { clear fs. induction fs as [|[k f] fs IH]; intros done [N C]; [cbn; rewrite app_nil_r; reflexivity|].
    destruct (C k f) as (K & V & H); [apply in_or_app; right; now left|].
    unfold wire_lines. cbn [map List.concat snd]. fold (wire_lines fs).
    assert (D : ~ In k (map fst done)).
    { rewrite map_app in N. cbn [map fst] in N. apply NoDup_remove_2 in N. intros I. apply N. apply in_or_app. now left. }
    destruct f as [name vs kind]. cbn [f_name f_values f_kind] in *. subst kind. destruct vs as [|v vs]; [contradiction|].
    cbn [map app marshal_loop]. rewrite <- K.
    assert (G : dict_get k done = None).
    { rewrite <- (app_nil_r done). rewrite dict_get_app_r by exact D. reflexivity. }
    assert (T : forall x, dict_set k x done = done ++ [(k, x)]).
    { intros x. rewrite <- (app_nil_r done) at 1. rewrite dict_set_app_r by exact D. reflexivity. }
    rewrite G, T.
    rewrite K. rewrite one_field by (rewrite <- K; exact D). rewrite <- K. cbn [app].
    rewrite (IH (done ++ [(k, mkField name (v :: vs) Header)])); [now rewrite <- app_assoc|].
    rewrite <- app_assoc. split; assumption. }
  intros H. apply (G fs []). exact H.
Qed.
Lemma tuples_header lower l : forall d, (forall k f, In (k, f) d -> f_kind f = Header) -> forall k f, In (k, f) (tuples_loop lower Header l d) -> f_kind f = Header.
Proof.
  induction l as [|[n v] l IH]; intros d D; cbn [tuples_loop]; [exact D|]. apply IH. intros k f I.
  destruct (dict_get (lower n) d) as [g|] eqn:E; apply dict_set_In in I as [I|I]; try (now apply D in I); apply (f_equal snd) in I; cbn [snd] in I; subst f; [|reflexivity].
  unfold field_add. cbn [f_kind]. apply dict_get_In in E. exact (D _ _ E).
Qed.
Lemma tuples_clean lower l : clean lower (tuples_loop lower Header l []).
Proof.
  destruct (Fields_Props.C22_tuples lower Header l) as (N & K & _). split; [exact N|]. intros k f I. split; [exact (K k f I)|]. split.
  - eapply tuples_nonempty; [|exact I]. intros k' f' [].
  - eapply tuples_header; [|exact I]. intros k' f' [].
Qed.

(** ** Any order *)
Definition alike (lower : text -> text) (ms : list member) (f g : list (text * field)) : Prop :=
  forall name, asked ms name -> match dict_get (lower name) f, dict_get (lower name) g with
               | Some a, Some b => f_values a = f_values b
               | None, None => True
               | _, _ => False
               end.
Lemma marshal_alike lower ms l l' : (forall name, asked ms name -> lines_named lower name l = lines_named lower name l') ->
  alike lower ms (tuples_loop lower Header l []) (tuples_loop lower Header l' []).
Proof.
  intros H name As. pose proof (field_named lower l name) as A. pose proof (field_named lower l' name) as B. cbv zeta in A, B. rewrite (H name As) in A.
  destruct (dict_get _ (tuples_loop lower Header l [])), (dict_get _ (tuples_loop lower Header l' [])).
  - destruct A as [-> _], B as [-> _]. reflexivity.
  - destruct A as [_ A]. congruence.
  - destruct B as [_ B]. congruence.
  - exact I.
Qed.
Section Read.
  Variable time_float : text -> option Time_Model.float.
  Variable nearest : PyDecimal_Model.decimal -> float.
  Variable lower : text -> text.
  Variable decode_value : nat -> bytes -> result value.
  Variable decode_struct : bytes -> result (list (nat * value)).
  Variables (status : Z) (f g : list (text * field)) (b : body).
  Variable all : list member.
  Hypothesis same : alike lower all f g.

  Lemma empty_alike : has_empty_body lower (mkResponse status f b) = has_empty_body lower (mkResponse status g b).
  Proof.
    unfold has_empty_body. cbn [r_fields r_body]. specialize (same CONTENT_LENGTH (or_introl eq_refl)).
    destruct (dict_get _ f), (dict_get _ g); try contradiction; [rewrite same; reflexivity|reflexivity].
  Qed.
  Lemma member_alike ma i m : In m all -> m_prefix m = None ->
    read_member time_float nearest lower decode_value ma (mkResponse status f b) i m =
    read_member time_float nearest lower decode_value ma (mkResponse status g b) i m.
  Proof.
    intros Im P. unfold read_member. destruct (matches ma i) as [loc|]; [|reflexivity]. cbn [bind]. destruct loc; try reflexivity.
    - destruct (m_header m) as [k|] eqn:Hk; [|reflexivity]. cbn [expect bind r_fields].
      specialize (same k (or_intror (ex_intro _ m (conj Im Hk)))).
      destruct (dict_get _ f), (dict_get _ g); try contradiction; [rewrite same; reflexivity|reflexivity].
    - destruct (b_events ma); [reflexivity|]. destruct (b_payload ma) as [[j pm]|]; [|reflexivity].
      unfold read_payload. cbn [r_body]. unfold body_bytes. cbn [r_body]. rewrite empty_alike. reflexivity.
    - rewrite P. reflexivity.
  Qed.
  Lemma response_alike : (forall m, In m all -> m_prefix m = None) ->
    read_response time_float nearest lower decode_value decode_struct all (mkResponse status f b) =
    read_response time_float nearest lower decode_value decode_struct all (mkResponse status g b).
  Proof.
    intros P. unfold read_response. set (ma := make_matcher response_match all). clearbody ma.
    assert (G : forall ms, (forall m, In m ms -> In m all) -> forall i, read_members time_float nearest lower decode_value ma (mkResponse status f b) i ms =
                          read_members time_float nearest lower decode_value ma (mkResponse status g b) i ms).
    { induction ms as [|m r IH]; intros Sub i; [reflexivity|]. cbn [read_members]. rewrite member_alike by (try apply P; apply Sub; now left).
      rewrite IH by (intros m' I; apply Sub; now right). reflexivity. }
    rewrite (G all) by auto. rewrite empty_alike. unfold body_bytes. reflexivity.
  Qed.
End Read.

Lemma wire_read tf nearest lower dv ds ms status l lines b :
  says_same lower ms lines (wire_lines (tuples_loop lower Header l [])) ->
  read_response tf nearest lower dv ds ms (mkResponse status (marshal_loop lower lines []) b) =
  read_response tf nearest lower dv ds ms (mkResponse status (tuples_loop lower Header l []) b).
Proof.
  intros [-> | [P H]]; [rewrite marshal_wire by apply tuples_clean; reflexivity|].
  apply response_alike; [|exact P]. rewrite marshal_tuples.
  rewrite <- (marshal_wire lower (tuples_loop lower Header l [])) by apply tuples_clean. rewrite marshal_tuples. apply marshal_alike. exact H.
Qed.

(** ** A streamed payload *)
Section Stream.
  Variable time_float : text -> option Time_Model.float.
  Variable nearest : PyDecimal_Model.decimal -> float.
  Variable lower : text -> text.
  Variable decode_value : nat -> bytes -> result value.
  Variable decode_struct : bytes -> result (list (nat * value)).
  Variables (ms : list member) (i : nat) (m : member) (status : Z) (fs : list (text * field)) (bd : body) (s : N).
  Hypothesis G : good_schema response_places ms.
  Hypothesis no_events : forall m, In m ms -> ~ is_event_stream m.
  Hypothesis N : nth_error ms i = Some m.
  Hypothesis P : placed (response_places m) AsPayload.
  Hypothesis St : m_streaming m = true.
  Hypothesis Sh : m_shape m = ShScalar KBlob.
  Let b := make_matcher response_match ms.
  Definition put (jv : nat * value) : nat * value := if Nat.eqb (fst jv) i then (i, VData (DStream s)) else jv.

  Lemma stream_payload : b_payload b = Some (i, m).
  Proof.
    assert (RM : forall m p, placed (response_places m) p -> response_match m = binding_of p) by (intros m0 p Q; apply (response_placed m0 p Q)).
    destruct (matcher_spec response_match ms) as (_ & _ & _ & E & _). fold b in E. destruct (b_payload b) as [[j m']|].
    - destruct E as [N' E]. assert (P' := is_pl_spec response_places ms response_match G RM m' (nth_error_In _ _ N') E).
      assert (i = j) as <- by (eapply (g_payload _ _ G i j); eauto). rewrite N in N'. injection N' as <-. reflexivity.
    - specialize (E m (nth_error_In _ _ N)). rewrite (RM m _ P) in E. discriminate E.
  Qed.
  Lemma stream_events : b_events b = None.
  Proof.
    destruct (matcher_spec response_match ms) as (_ & _ & _ & _ & E). fold b in E. destruct (b_events b) as [[j m']|]; [|reflexivity].
    destruct E as [I E]. apply is_events_spec in E. elim (no_events m' I E).
  Qed.
  Lemma stream_body : b_has_body b = false.
  Proof.
    destruct (matcher_spec response_match ms) as (_ & Hb & _). fold b in Hb. rewrite Hb. clear Hb.
    destruct (existsb _ ms) eqn:E; [|reflexivity]. apply existsb_exists in E as (mb & Ib & Eb).
    destruct (g_one _ _ G mb Ib) as (pb & Pb). rewrite (proj1 (response_placed mb _ Pb)) in Eb.
    destruct (In_nth_error _ _ Ib) as (nb & Nb).
    assert (B : in_body pb = true) by (destruct pb; try discriminate Eb; reflexivity).
    assert (i = nb) as <- by (eapply (g_payload _ _ G i nb); eauto). rewrite N in Nb. injection Nb as <-.
    assert (X : pb = AsPayload) by (destruct P as [X|[X Y]], Pb as [X'|[X' Y']]; congruence). subst pb. discriminate Eb.
  Qed.
  Lemma stream_member j mj : nth_error ms j = Some mj ->
    read_member time_float nearest lower decode_value b (mkResponse status fs (BStream s)) j mj =
    do x <- read_member time_float nearest lower decode_value b (mkResponse status fs (bd)) j mj; Ok (map put x).
  Proof.
    intros Nj. pose proof (matches_some response_match ms j mj Nj) as M. fold b in M. unfold read_member. rewrite M. clear M. cbn [bind].
    destruct (g_one _ _ G mj (nth_error_In _ _ Nj)) as (p & Pj). destruct (response_placed mj p Pj) as [-> _].
    assert (Ne : p <> AsPayload -> Nat.eqb j i = false).
    { intros Np. apply Nat.eqb_neq. intros ->. rewrite N in Nj. injection Nj as <-. apply Np.
      destruct P as [X|[X Y]], Pj as [X'|[X' Y']]; congruence. }
    assert (K : forall v, p <> AsPayload -> Ok [(j, v)] = Ok (map put [(j, v)])).
    { intros v Np. cbn [map]. unfold put. cbn [fst]. rewrite (Ne Np). reflexivity. }
    destruct p; cbn [binding_of]; try reflexivity.
    - destruct (expect (m_header mj)) as [k|]; [|reflexivity]. cbn [bind r_fields]. destruct (dict_get (lower k) fs) as [f|]; [|reflexivity].
      destruct (match m_shape mj with ShList _ _ => _ | _ => _ end) as [v|]; [|reflexivity]. cbn [bind]. apply K. discriminate.
    - destruct (expect (m_prefix mj)) as [q|]; [|reflexivity]. cbn [bind r_fields]. apply K. discriminate.
    - cbn [bind]. apply (K (VOne (HInt status))). discriminate.
    - rewrite stream_events, stream_payload. unfold read_payload. rewrite Sh. cbn [is_text_or_blob]. rewrite St. cbn [bind r_body map].
      unfold put. cbn [fst]. rewrite Nat.eqb_refl. reflexivity.
  Qed.
  Lemma stream_read :
    read_response time_float nearest lower decode_value decode_struct ms (mkResponse status fs (BStream s)) =
    do x <- read_response time_float nearest lower decode_value decode_struct ms (mkResponse status fs (bd)); Ok (map put x).
  Proof.
    unfold read_response. fold b. rewrite stream_body.
    assert (Q : forall l k, (forall n, nth_error l n = nth_error ms (k + n)) ->
      read_members time_float nearest lower decode_value b (mkResponse status fs (BStream s)) k l =
      do x <- read_members time_float nearest lower decode_value b (mkResponse status fs (bd)) k l; Ok (map put x)).
    { induction l as [|m0 l IH]; intros k H; [reflexivity|]. cbn [read_members].
      rewrite stream_member by (rewrite <- (Nat.add_0_r k); rewrite <- H; reflexivity).
      destruct (read_member _ _ _ _ _ (mkResponse status fs (bd)) k m0) as [x|]; [|reflexivity]. cbn [bind].
      rewrite IH by (intros n; rewrite Nat.add_succ_l, <- Nat.add_succ_r, <- H; reflexivity).
      destruct (read_members _ _ _ _ _ (mkResponse status fs (bd)) (S k) l) as [y|]; [|reflexivity]. cbn [bind]. rewrite map_app. reflexivity. }
    rewrite (Q ms 0%nat) by reflexivity. destruct (read_members _ _ _ _ _ _ _ _); reflexivity.
  Qed.
End Stream.
