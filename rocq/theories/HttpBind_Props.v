(** C59: members go to their places in a request and in a response. *)
From Verif Require Import Base Base_Proofs Utf8_Model Utf8_Proofs PyText_Model PySort_Model PyDict_Model PyDict_Proofs Fields_Model Fields_Proofs Http_Model Http_Spec Http_Proofs HttpPath_Proofs HttpVal_Model HttpVal_Spec HttpBind_Model HttpBind_Spec HttpBind_Proofs.
From Verif Require Fields_Props Http_Props JsonNum_Proofs HttpVal_Proofs PyDecimal_Model PyDecimal_Proofs.

Lemma greedy_iff uni_word ps n : Forall good_piece ps ->
  mem_text n (greedy_labels uni_word (show ps)) = true <-> is_greedy n ps.
Proof.
  intros G. rewrite greedy_labels_show by exact G. unfold is_greedy. rewrite mem_text_In.
  clear G. induction ps as [|[t|x|x] ps IH]; cbn [greedy_of In]; [reflexivity|..].
  - rewrite IH. split; [auto|intros [E|E]; [discriminate E|exact E]].
  - rewrite IH. split; [auto|intros [E|E]; [discriminate E|exact E]].
  - rewrite IH. split; (intros [E|E]; [left; congruence|auto]).
Qed.
Lemma label_iff pads repr uni_word ps m v t : Forall good_piece ps ->
  label_at pads repr uni_word (show ps) m v t <-> label_of pads repr ps m v t.
Proof.
  intros G. unfold label_at, label_of. split.
  - intros (s & -> & E). eexists s, _. split; [reflexivity|]. split; [|exact E]. now apply greedy_iff.
  - intros (s & g & -> & Hg & E). exists s. split; [reflexivity|].
    assert (mem_text (m_name m) (greedy_labels uni_word (show ps)) = g) as ->; [|exact E].
    assert (X := greedy_iff uni_word ps (m_name m) G). destruct g, (mem_text _ _); try reflexivity.
    + apply X, Hg. reflexivity.
    + symmetry. apply Hg, X. reflexivity.
Qed.
(** The query string holds the constant part of the URI and the parameters. *)
Lemma query_spec params prefix q :
  join_query_params (map (fun kv : text * text => (fst kv, Some (snd kv))) params) prefix = Ok q ->
  parse_query q = match parse_query prefix with
                  | Some ps => Some (ps ++ map (fun kv => (fst kv, Some (snd kv))) params) | None => None end.
Proof.
  intros H. destruct prefix as [|c r].
  - cbn [parse_query]. apply Http_Props.C23_roundtrip; [exact H|]. intros rest E. destruct params as [|[k v] params]; discriminate E.
  - apply Http_Props.C23_prefix; [discriminate|exact H].
Qed.
Definition no_greedy (hs : list piece) : Prop := forall n, ~ In (Greedy n) hs.
Lemma plain_no_greedy hs : no_greedy hs -> map plain_piece hs = hs.
Proof.
  intros H. induction hs as [|p hs IH]; [reflexivity|]. cbn [map]. rewrite IH by (intros n Hn; apply (H n); now right).
  f_equal. destruct p as [t|n|n]; try reflexivity. elim (H n). now left.
Qed.

(** The request that is made: headers, query, path, host and body hold what the members
    bound to them give, and the headers describe the body. *)
Theorem C59_request : forall pads repr lower uni_word host_ok media_type codec_value codec_struct o ms vals q ps hs,
  good_schema request_places ms -> written ms vals ->
  o_path o = show ps -> Forall good_piece ps ->
  match o_host_prefix o with Some h => h | None => [] end = show hs -> Forall good_piece hs -> no_greedy hs ->
  serialize_request pads repr lower uni_word host_ok media_type codec_value codec_struct o ms vals = Ok q ->
  (exists ct cl, body_of media_type codec_value codec_struct true (o_omit_empty o) request_places ms vals (q_body q) ct cl /\
     fields_of pads repr lower request_places ms vals ct cl (q_fields q)) /\
  (exists params, contributions request_places ms (query_params pads repr) vals params /\
     parse_query (q_query q) =
     match parse_query (match o_query o with Some s => s | None => [] end) with
     | Some base => Some (base ++ map (fun kv => (fst kv, Some (snd kv))) params)
     | None => None
     end) /\
  (exists label, q_path q = fill label ps /\ has_sub [47; 47]%N (q_path q) = false /\
     forall n, is_label n ps -> exists m v, set_at request_places ms vals AtPath m v /\ m_name m = n /\ label_of pads repr ps m v (label n) /\
       (~ is_greedy n ps -> ~ In 47%N (label n))) /\
  (exists label, q_host q = fill label hs /\ host_ok (q_host q) = true /\
     forall n, is_label n hs -> exists m v, set_at request_places ms vals AtHost m v /\ m_name m = n /\ host_label_of v (label n)).
Proof.
  intros pads repr lower uni_word host_ok media cv cs o ms vals q ps hs G W Op Gp Oh Gh Ng H.
  unfold serialize_request in H.
  destruct (write_all _ no_acc vals) as [a|] eqn:E1; [|discriminate H]. cbn [bind] in H.
  assert (Mt : forall m p, placed (request_places m) p -> request_match m = binding_of p) by (intros m p P; now apply request_placed).
  assert (St := fun b i v b' S => write_request_change pads repr uni_word (o_path o) ms b i v b' G S).
  destruct (write_all_spec _ _ _ _ _ _ _ _ Mt St vals no_acc a W E1)
    as ((hl & Hh & Ch) & (ql & Hq & Cq) & Hp & Ho & Hc & _).
  cbn [no_acc a_headers a_query a_path a_host a_calls app] in *.
  rewrite Hc in H.
  destruct (payload_of _ _ _ _ _ _ _) as [[[bd ct] cl]|] eqn:E2; [|discriminate H]. cbn [bind] in H.
  unfold check_length in H. destruct (length_required _ && _); [discriminate H|]. cbn [bind] in H.
  destruct (str_format (a_host a) None _) as [host|] eqn:E3; [|discriminate H]. cbn [bind] in H.
  destruct (path_format uni_word (o_path o) (a_path a)) as [path|] eqn:E4; [|discriminate H]. cbn [bind] in H.
  destruct (join_query_params _ _) as [query|] eqn:E5; [|discriminate H]. cbn [bind] in H.
  destruct (host_ok host) eqn:E6; [|discriminate H]. injection H as <-.
  cbn [q_host q_path q_query q_fields q_body]. split; [|split; [|split]].
  - exists ct, cl. split; [eapply payload_of_spec; eauto|]. exists hl. split; [exact Ch|]. intros name.
    rewrite Hh. apply fields_spec.
  - exists ql. split; [exact Cq|]. rewrite Hq in E5. apply query_spec. exact E5.
  - rewrite Op in E4. apply path_format_ok in E4; [|exact Gp]. destruct E4 as (Sl & L & Ep & Ns).
    exists (HttpPath_Proofs.value (a_path a)). split; [exact Ep|]. split; [exact Ns|].
    intros n Hn. destruct (L n Hn) as (t & D). destruct (Hp n t D) as [X|(m & v & A & B & C)]; [discriminate X|].
    exists m, v. split; [exact A|]. split; [exact B|]. unfold HttpPath_Proofs.value. rewrite D.
    rewrite Op in C. apply label_iff in C; [|exact Gp]. split; [exact C|]. intros NG I. apply NG. apply (Sl n t); [now apply dict_get_In | exact I].
  - rewrite Oh, <- (plain_no_greedy hs Ng), (format_show uni_word (a_host a) hs Gh) in E3.
    destruct (forallb (bound (a_host a)) hs) eqn:B; [|discriminate E3]. injection E3 as <-.
    exists (HttpPath_Proofs.value (a_host a)). split; [reflexivity|]. split; [exact E6|].
    intros n [Hn|Hn]; [|elim (Ng n Hn)]. rewrite forallb_forall in B. specialize (B _ Hn).
    cbn [bound] in B. unfold dict_has in B. destruct (dict_get n (a_host a)) as [t|] eqn:D; [|discriminate B].
    destruct (Ho n t D) as [X|(m & v & A1 & A2 & A3)]; [discriminate X|]. exists m, v.
    split; [exact A1|]. split; [exact A2|]. unfold HttpPath_Proofs.value. rewrite D. exact A3.
Qed.
Print Assumptions C59_request.

(** ** Success *)
Lemma texts_of_total f key l ts : element_texts f l ts -> texts_of f key l = Ok (map (fun t => (key, t)) ts).
Proof.
  intros H. induction H as [|e t l ts (s & -> & F) _ IH]; [reflexivity|]. cbn [texts_of map]. rewrite F. cbn [bind]. now rewrite IH.
Qed.
Lemma prefix_entries_total p es : prefix_entries p (map (fun e => (fst e, IText (snd e))) es) = Ok (map (fun e : text * text => (p ++ fst e, snd e)) es).
Proof. induction es as [|[k s] es IH]; [reflexivity|]. cbn [map prefix_entries fst snd]. now rewrite IH. Qed.
Lemma header_tuples_total pads repr m p v l : named m p -> has_shape m v -> binding_of p = HEADER \/ binding_of p = PREFIX_HEADERS ->
  header_lines pads repr m p v l -> header_tuples pads repr m v = Ok l.
Proof.
  intros N S B H. destruct p; destruct B as [B|B]; try discriminate B; cbn [named header_lines] in *.
  - destruct H as (ts & -> & H). destruct v as [s|l|l|d|n]; try contradiction; cbn [header_tuples]; rewrite N; cbn [expect bind].
    + destruct H as (t & -> & E). now rewrite E.
    + rewrite (elem_leaf_elements m l S). now apply texts_of_total.
  - destruct H as (es & -> & ->). cbn [header_tuples]. rewrite N. apply prefix_entries_total.
Qed.
Lemma query_tuples_total pads repr m p v l : named m p -> has_shape m v -> binding_of p = QUERY \/ binding_of p = QUERY_PARAMS ->
  query_params pads repr m p v l -> query_tuples pads repr m v = Ok l.
Proof.
  intros N S B H. destruct p; destruct B as [B|B]; try discriminate B; cbn [named query_params] in *.
  - destruct H as (ts & -> & H). destruct v as [s|l|l|d|n]; try contradiction; cbn [query_tuples]; rewrite N; cbn [expect bind].
    + destruct H as (t & -> & E). now rewrite E.
    + rewrite (elem_leaf_elements m l S). now apply texts_of_total.
  - destruct H as (es & -> & ->). cbn [query_tuples]. f_equal. apply flat_map_ext. intros [k [s|ss]]; reflexivity.
Qed.
Section Total.
  Variable places : member -> list place.
  Variable ms : list member.
  Definition all_writable pads repr (ps : list piece) (vals : list (nat * value)) : Prop :=
    forall i v m p, In (i, v) vals -> nth_error ms i = Some m -> placed (places m) p -> writable pads repr ps m p v.
End Total.
Lemma write_request_total pads repr uni_word ps ms a i v m p : Forall good_piece ps ->
  nth_error ms i = Some m -> placed (request_places m) p -> has_shape m v -> writable pads repr ps m p v ->
  exists a', write_request pads repr uni_word (show ps) ms (make_matcher request_match ms) a (i, v) = Ok a'.
Proof.
  intros Gp N P S Wr. destruct (request_placed m p P) as [M Nm]. assert (Q := request_no_status m p P).
  unfold write_request. rewrite (matches_some request_match ms i m N), N, M. cbn [bind].
  destruct p; cbn [binding_of]; try congruence; cbn [writable] in Wr.
  - destruct Wr as (l & L). rewrite (header_tuples_total pads repr m (AtHeader name) v l Nm S (or_introl eq_refl) L). eexists; reflexivity.
  - destruct Wr as (l & L). rewrite (header_tuples_total pads repr m (AtHeaders prefix) v l Nm S (or_intror eq_refl) L). eexists; reflexivity.
  - destruct Wr as (l & L & _). rewrite (query_tuples_total pads repr m (AtQuery key) v l Nm S (or_introl eq_refl) L). eexists; reflexivity.
  - destruct Wr as (l & L & _). rewrite (query_tuples_total pads repr m AtQueries v l Nm S (or_intror eq_refl) L). eexists; reflexivity.
  - destruct Wr as (t & L). apply (label_iff pads repr uni_word) in L as (s & -> & E); [|exact Gp]. rewrite E. eexists; reflexivity.
  - destruct Wr as (t & s & -> & E). rewrite E. eexists; reflexivity.
  - eexists; reflexivity.
  - eexists; reflexivity.
Qed.
Lemma write_all_total (w : acc -> nat * value -> result acc) vals : forall a,
  (forall a i v, In (i, v) vals -> exists a', w a (i, v) = Ok a') -> exists a', write_all w a vals = Ok a'.
Proof.
  induction vals as [|[i v] vals IH]; intros a H; [eexists; reflexivity|]. cbn [write_all].
  destruct (H a i v (or_introl eq_refl)) as (a1 & ->). cbn [bind]. apply IH. intros b j u U. apply H. now right.
Qed.
Lemma contributions_In {X} places ms (f : member -> place -> value -> list X -> Prop) vals l x :
  contributions places ms f vals l -> In x l ->
  exists i v m p part, In (i, v) vals /\ nth_error ms i = Some m /\ placed (places m) p /\ f m p v part /\ In x part.
Proof.
  intros (parts & -> & F) H. induction F as [|[i v] part vals parts (m & p & N & P & Hf) _ IH]; [destruct H|].
  cbn [List.concat] in H. apply in_app_or in H as [H|H].
  - exists i, v, m, p, part. split; [now left|auto].
  - destruct (IH H) as (j & u & m' & p' & part' & A & R). exists j, u, m', p', part'. split; [now right|exact R].
Qed.
Lemma query_params_fun pads repr m p v l l' : query_params pads repr m p v l -> query_params pads repr m p v l' -> l = l'.
Proof.
  destruct p; cbn [query_params]; try congruence.
  - intros (ts & -> & H) (us & -> & K). f_equal. destruct v as [s|vs|vs|d|n]; try contradiction.
    + destruct H as (t & -> & E), K as (u & -> & E'). congruence.
    + revert us K. induction H as [|e t vs ts (s & -> & E) _ IH]; intros us K; inversion K as [|? u ? us' (s' & Es & E') K']; subst; [reflexivity|].
      injection Es as <-. rewrite E in E'. injection E' as <-. f_equal. now apply IH.
  - intros (es & -> & ->) (es' & E & ->). congruence.
Qed.

(** When every written value can go where it belongs, the labels of the path and of the
    host are set, the path and the host they give are well formed, the body can be made
    and a required length is known, the request is made. *)
Theorem C59_request_total : forall pads repr lower uni_word host_ok media_type codec_value codec_struct o ms vals ps hs bd ct cl,
  good_schema request_places ms -> written ms vals ->
  o_path o = show ps -> Forall good_piece ps ->
  match o_host_prefix o with Some h => h | None => [] end = show hs -> Forall good_piece hs -> no_greedy hs ->
  (forall i v m p, In (i, v) vals -> nth_error ms i = Some m -> placed (request_places m) p -> writable pads repr ps m p v) ->
  (forall n, is_label n ps -> exists m v, set_at request_places ms vals AtPath m v /\ m_name m = n) ->
  (forall m v t, set_at request_places ms vals AtPath m v -> label_of pads repr ps m v t -> In 47%N t -> is_greedy (m_name m) ps) ->
  (forall label, (forall m v, set_at request_places ms vals AtPath m v -> label_of pads repr ps m v (label (m_name m))) ->
     has_sub [47; 47]%N (fill label ps) = false) ->
  (forall n, is_label n hs -> exists m v, set_at request_places ms vals AtHost m v /\ m_name m = n) ->
  (forall label, (forall m v, set_at request_places ms vals AtHost m v -> host_label_of v (label (m_name m))) ->
     host_ok (fill label hs) = true) ->
  body_of media_type codec_value codec_struct true (o_omit_empty o) request_places ms vals bd ct cl ->
  (forall m, In m ms -> m_requires_length m = true -> cl <> None) ->
  exists q, serialize_request pads repr lower uni_word host_ok media_type codec_value codec_struct o ms vals = Ok q /\ q_body q = bd.
Proof.
  intros pads repr lower uni_word host_ok media cv cs o ms vals ps hs bd ct cl G W Op Gp Oh Gh Ng Wr Lp Ls Ld Lh Hk B Rl.
  unfold serialize_request.
  assert (Mt : forall m p, placed (request_places m) p -> request_match m = binding_of p) by (intros m p P; now apply request_placed).
  assert (St := fun b i v b' S => write_request_change pads repr uni_word (o_path o) ms b i v b' G S).
  destruct (write_all_total (write_request pads repr uni_word (o_path o) ms (make_matcher request_match ms)) vals no_acc) as (a & E1).
  { intros a i v I. destruct (proj2 W i v I) as (m & N & S). destruct (g_one _ _ G m (nth_error_In _ _ N)) as (p & P).
    rewrite Op. eapply write_request_total; eauto. }
  rewrite E1. cbn [bind].
  destruct (write_all_spec _ _ _ _ _ _ _ _ Mt St vals no_acc a W E1) as (_ & (ql & Hq & Cq) & Hp & Ho & Hc & _).
  destruct (write_all_path _ _ _ _ _ _ _ G St vals no_acc a W E1) as (_ & Wp & Wn).
  destruct (write_all_host _ _ _ _ _ _ _ G St vals no_acc a W E1) as (_ & Wh).
  cbn [no_acc a_headers a_query a_path a_host a_calls app] in *.
  rewrite Hc, (payload_of_total _ _ _ _ _ _ G Mt true _ _ _ _ _ W B). cbn [bind].
  assert (Ck : check_length lower (make_matcher request_match ms) (tuples_loop lower Header (all_headers (a_headers a) ct cl) [])
               = Ok (tuples_loop lower Header (all_headers (a_headers a) ct cl) [])).
  { unfold check_length, length_required. destruct (b_events _); [reflexivity|].
    destruct (matcher_spec request_match ms) as (_ & _ & _ & M4 & _).
    destruct (b_payload _) as [[j m]|]; [|reflexivity]. destruct (m_requires_length m) eqn:R; [|reflexivity].
    assert (X := Rl m (nth_error_In _ _ (proj1 M4)) R). destruct cl as [n|]; [|congruence].
    assert (X' := fields_spec lower (a_headers a) ct (Some n) CONTENT_LENGTH). unfold header_values, lines_named, dict_has in *.
    destruct (dict_get (lower CONTENT_LENGTH) _); [reflexivity|]. exfalso.
    rewrite !filter_app, !map_app in X'. cbn [if_some filter fst] in X'.
    change (lit "content-length") with CONTENT_LENGTH in X'. rewrite text_eqb_refl in X'.
    cbn [map snd] in X'. destruct (map snd (filter _ (a_headers a))), (map snd (filter _ (if_some _ ct))); discriminate X'. }
  rewrite Ck. cbn [bind].
  assert (Eh : str_format (a_host a) None (match o_host_prefix o with Some h => h | None => [] end) = Ok (fill (HttpPath_Proofs.value (a_host a)) hs)).
  { rewrite Oh. rewrite <- (plain_no_greedy hs Ng) at 1. rewrite (format_show uni_word (a_host a) hs Gh).
    assert (forallb (bound (a_host a)) hs = true) as ->; [|reflexivity]. apply forallb_forall. intros p I.
    assert (K : forall n, is_label n hs -> dict_has n (a_host a) = true).
    { intros n Hn. destruct (Lh n Hn) as (m & v & A & <-). destruct (Wh m v A) as (t & _ & D). unfold dict_has. now rewrite D. }
    destruct p as [t|n|n]; cbn [bound]; [reflexivity|apply K; now left|apply K; now right]. }
  rewrite Eh. cbn [bind].
  assert (Ep : path_format uni_word (o_path o) (a_path a) = Ok (fill (HttpPath_Proofs.value (a_path a)) ps)).
  { rewrite Op. apply path_format_ok; [exact Gp|]. split; [|split; [|split]].
    - intros n t I S47. apply dict_In_get in I; [|apply Wn; constructor].
      destruct (Hp n t I) as [X|(m & v & A & <- & C)]; [discriminate X|]. rewrite Op in C. apply label_iff in C; [|exact Gp]. eauto.
    - intros n Hn. destruct (Lp n Hn) as (m & v & A & <-). destruct (Wp m v A) as (t & _ & D). eauto.
    - reflexivity.
    - apply Ld. intros m v A. destruct (Wp m v A) as (t & C & D). unfold HttpPath_Proofs.value. rewrite D.
      rewrite Op in C. now apply label_iff in C. }
  rewrite Ep. cbn [bind].
  destruct (join_query_ok (map (fun kv : text * text => (fst kv, Some (snd kv))) (a_query a))
             (match o_query o with Some q => q | None => [] end)) as (query & Eq).
  { apply Forall_forall. intros [k t] I. apply in_map_iff in I as ([k' t'] & E & I). injection E as <- <-. rewrite Hq in I.
    destruct (contributions_In _ _ _ _ _ _ Cq I) as (i & v & m & p & part & Iv & N & P & Q & Ix).
    assert (Wx := Wr i v m p Iv N P). unfold encodable. cbn [fst snd].
    destruct p; cbn [query_params] in Q; try (subst part; destruct Ix); cbn [writable] in Wx; destruct Wx as (l & L & V);
      (assert (part = l) as -> by (eapply (query_params_fun pads repr m _ v part l); [|exact L]; exact Q)); exact (V _ _ Ix). }
  rewrite Eq. cbn [bind].
  rewrite Hk; [eexists; split; [reflexivity|]; reflexivity|].
  intros m v A. destruct (Wh m v A) as (t & C & D). unfold HttpPath_Proofs.value. rewrite D. exact C.
Qed.
Print Assumptions C59_request_total.

(** The response that is made. *)
Theorem C59_response : forall pads repr lower media_type codec_value codec_struct o error_status ms vals r,
  good_schema response_places ms -> written ms vals ->
  serialize_response pads repr lower media_type codec_value codec_struct o error_status ms vals = Ok r ->
  (exists ct cl, body_of media_type codec_value codec_struct false (o_omit_empty o) response_places ms vals (r_body r) ct cl /\
     fields_of pads repr lower response_places ms vals ct cl (r_fields r)) /\
  ((exists z m, set_at response_places ms vals AtStatus m (VOne (HInt z)) /\ r_status r = z) \/
   ((forall m v, ~ set_at response_places ms vals AtStatus m v) /\
    ((0 < error_status)%Z /\ r_status r = error_status \/ (error_status <= 0)%Z /\ r_status r = o_code o))).
Proof.
  intros pads repr lower media cv cs o es ms vals r G W H. unfold serialize_response in H.
  destruct (write_all _ no_acc vals) as [a|] eqn:E1; [|discriminate H]. cbn [bind] in H.
  assert (Mt : forall m p, placed (response_places m) p -> response_match m = binding_of p) by (intros m p P; now apply response_placed).
  assert (St := fun b i v b' S => write_response_change pads repr (fun _ => false) [] ms b i v b' G S).
  destruct (write_all_spec _ _ _ _ _ _ _ _ Mt St vals no_acc a W E1) as ((hl & Hh & Ch) & _ & _ & _ & Hc & Hs).
  cbn [no_acc a_headers a_calls a_status app] in *. rewrite Hc in H.
  destruct (payload_of _ _ _ _ _ _ _) as [[[bd ct] cl]|] eqn:E2; [|discriminate H]. cbn [bind] in H.
  unfold check_length in H. destruct (length_required _ && _); [discriminate H|]. cbn [bind] in H. injection H as <-.
  cbn [r_body r_fields r_status]. split.
  - exists ct, cl. split; [eapply payload_of_spec; eauto|]. exists hl. split; [exact Ch|]. intros name. rewrite Hh. apply fields_spec.
  - destruct Hs as [(z & m & A & ->)|[A ->]]; [left; eauto|]. right. split; [exact A|].
    destruct (Z.ltb_spec 0 es); [left|right]; split; auto.
Qed.
Print Assumptions C59_response.

(** When no member gives such headers itself, the length is that of the body, a body
    that is not empty has a length and one type, and a streamed body has no length. *)
Lemma no_such_lines lower name lines : (forall k t, In (k, t) lines -> lower k <> lower name) -> lines_named lower name lines = [].
Proof.
  intros H. unfold lines_named. induction lines as [|[k t] l IH]; [reflexivity|]. cbn [filter fst].
  destruct (text_eqb (lower name) (lower k)) eqn:E.
  - apply text_eqb_eq in E. elim (H k t (or_introl eq_refl)). now symmetry.
  - apply IH. intros k' t' I. apply (H k' t'). now right.
Qed.
Lemma lines_named_app lower name a b : lines_named lower name (a ++ b) = lines_named lower name a ++ lines_named lower name b.
Proof. unfold lines_named. now rewrite filter_app, map_app. Qed.
Theorem C59_content : forall pads repr lower uni_word host_ok media_type codec_value codec_struct o ms vals q ps hs,
  good_schema request_places ms -> written ms vals ->
  o_path o = show ps -> Forall good_piece ps ->
  match o_host_prefix o with Some h => h | None => [] end = show hs -> Forall good_piece hs -> no_greedy hs ->
  serialize_request pads repr lower uni_word host_ok media_type codec_value codec_struct o ms vals = Ok q ->
  lower (lit "content-type") <> lower (lit "content-length") ->
  (forall m p v lines k t, set_at request_places ms vals p m v -> header_lines pads repr m p v lines -> In (k, t) lines ->
     lower k <> lower (lit "content-type") /\ lower k <> lower (lit "content-length")) ->
  (match q_body q with
   | BBytes bs => header_values lower (q_fields q) (lit "content-length") = [dec (size bs)] \/
                  bs = [] /\ header_values lower (q_fields q) (lit "content-length") = []
   | _ => header_values lower (q_fields q) (lit "content-length") = []
   end) /\
  (match q_body q with
   | BBytes [] => True
   | _ => exists t, header_values lower (q_fields q) (lit "content-type") = [t]
   end).
Proof.
  intros pads repr lower uni_word host_ok media cv cs o ms vals q ps hs G W Op Gp Oh Gh Ng H Ne Nl.
  destruct (C59_request _ _ _ _ _ _ _ _ _ _ _ _ _ _ G W Op Gp Oh Gh Ng H) as ((ct & cl & B & (lines & C & F)) & _).
  assert (K : forall k t, In (k, t) lines -> lower k <> lower (lit "content-type") /\ lower k <> lower (lit "content-length")).
  { intros k t I. destruct (contributions_In _ _ _ _ _ _ C I) as (i & v & m & p & part & Iv & N & P & Q & Ix).
    eapply Nl; [exists i; eauto|exact Q|exact Ix]. }
  rewrite !F, !lines_named_app, !(no_such_lines lower _ lines) by (intros k t I; now apply K in I). cbn [app].
  assert (Lt : forall t, lines_named lower (lit "content-type") (if_some (fun t => (lit "content-type", t)) (Some t)) = [t]).
  { intros t. unfold lines_named. cbn [if_some filter fst]. now rewrite text_eqb_refl. }
  assert (Lt' : forall o, lines_named lower (lit "content-length") (if_some (fun t => (lit "content-type", t)) o) = []).
  { intros [t|]; [|reflexivity]. apply no_such_lines. intros k x [E|[]]. injection E as <- _. exact Ne. }
  assert (Ll : forall n, lines_named lower (lit "content-length") (if_some (fun n => (lit "content-length", dec n)) (Some n)) = [dec n]).
  { intros t. unfold lines_named. cbn [if_some filter fst]. now rewrite text_eqb_refl. }
  assert (Ll' : forall o, lines_named lower (lit "content-type") (if_some (fun n => (lit "content-length", dec n)) o) = []).
  { intros [t|]; [|reflexivity]. apply no_such_lines. intros k x [E|[]]. injection E as <- _. intros X. apply Ne. now symmetry. }
  rewrite !Lt', !Ll'. cbn [app]. rewrite ?app_nil_r.
  destruct B; rewrite ?Ll, ?Lt; cbn [if_some lines_named filter map app]; (split; [auto|]);
    try exact I; eauto; destruct bs; eauto.
Qed.
Print Assumptions C59_content.

(** A request with a label, a list of headers, a map of headers, a query parameter, a
    host label and two members in the body. *)
Definition blank_member (n : text) (sh : shape) : member :=
  mkMember n sh false None false None None false false false false false None None.
Definition ex_members : list member :=
  [ mkMember (lit "id") (ShScalar KText) true None false None None false false false false false None None;
    mkMember (lit "tags") (ShList KInt (mkLeaf false None)) false None false (Some (lit "X-Tag")) None false false false false false None None;
    mkMember (lit "meta") ShMap false None false None (Some (lit "x-meta-")) false false false false false None None;
    mkMember (lit "page") (ShScalar KInt) false (Some (lit "page")) false None None false false false false false None None;
    mkMember (lit "acct") (ShScalar KText) false None false None None false true false false false None None;
    blank_member (lit "name") (ShScalar KText);
    blank_member (lit "size") (ShScalar KInt) ].
Definition ex_values : list (nat * value) :=
  [ (0, VOne (HText (lit "a/b"))); (1, VList [Some (HInt 4); Some (HInt 5)]); (2, VMap [(lit "k", IText (lit "v"))]);
    (3, VOne (HInt 2)); (4, VOne (HText (lit "me"))); (6, VOne (HInt 9)) ]%nat.
Definition ex_op : operation := mkOperation (lit "/items/{id}") (Some (lit "list")) (Some (lit "{acct}.")) true 200.
Definition ex_lower (s : text) : text := map lower_ascii s.
Definition ex_struct (l : list (nat * value)) : result bytes := Ok (map (fun iv => N.of_nat (fst iv)) l).
Definition ex_one (v : nat * value) : result bytes := Ok [N.of_nat (fst v)].
Definition ex_q : request := Eval vm_compute in
  match serialize_request true (fun _ => []) ex_lower (fun _ => false) (fun _ => true) (lit "application/json") ex_one ex_struct ex_op ex_members ex_values with
  | Ok q => q | Err _ => mkRequest [] [] [] [] BEvents end.
Lemma nth_error_nil {A} i : @nth_error A [] i = None.
Proof. destruct i; reflexivity. Qed.
Ltac each_member := cbn [In] in *; repeat match goal with
  | H : _ \/ _ |- _ => destruct H as [H|H]
  | H : False |- _ => destruct H
  end.
Ltac each_index := repeat match goal with
  | H : nth_error _ ?i = Some _ |- _ => is_var i; destruct i; cbn [nth_error] in H
  | H : Some _ = Some _ |- _ => injection H as <-
  | H : None = Some _ |- _ => discriminate H
  | H : nth_error [] _ = Some _ |- _ => rewrite nth_error_nil in H; discriminate H
  end.
Ltac place_is H := let E := fresh in destruct H as [E|[E ?]]; [injection E as <-|]; try discriminate E; subst.
Example C59_request_example :
  good_schema request_places ex_members /\ written ex_members ex_values /\
  serialize_request true (fun _ => []) ex_lower (fun _ => false) (fun _ => true) (lit "application/json") ex_one ex_struct ex_op ex_members ex_values = Ok ex_q /\
  q_host ex_q = lit "me." /\ q_path ex_q = lit "/items/a%2Fb" /\ q_query ex_q = lit "list&page=2" /\
  q_body ex_q = BBytes [4; 6]%N /\
  header_values ex_lower (q_fields ex_q) (lit "x-tag") = [lit "4"; lit "5"] /\
  header_values ex_lower (q_fields ex_q) (lit "X-Meta-k") = [lit "v"] /\
  header_values ex_lower (q_fields ex_q) (lit "Content-Length") = [lit "2"] /\
  header_values ex_lower (q_fields ex_q) (lit "Content-Type") = [lit "application/json"].
Proof.
  split; [|split; [|repeat (split; [vm_compute; reflexivity|]); vm_compute; reflexivity]].
  - constructor.
    + intros m I. unfold ex_members in I. each_member; subst m; cbn; eexists; try (left; reflexivity); right; split; reflexivity.
    + intros i j mi mj p Ni Pi _ _ _. exfalso. unfold ex_members in Ni. each_index; destruct Pi as [E|[E F]]; discriminate.
    + intros m p I P Wm. unfold ex_members in I. each_member; subst m; cbn in P; destruct P as [E|[E F]]; try discriminate E;
        try (injection E as <-; try discriminate Wm; reflexivity); subst p; discriminate Wm.
    + intros m p I P Wm. unfold ex_members in I. each_member; subst m; cbn in P; destruct P as [E|[E F]]; try discriminate E;
        try (injection E as <-; try discriminate Wm; discriminate); subst p; discriminate Wm.
    + unfold ex_members. cbn [map m_name blank_member]. repeat (constructor; [cbn [In]; intros H; each_member; discriminate|]). constructor.
  - split.
    + cbn [ex_values map fst]. repeat (constructor; [cbn [In]; intros H; each_member; discriminate|]). constructor.
    + intros i v I. unfold ex_values in I. each_member; injection I as <- <-; eexists; (split; [reflexivity|]); cbn; auto.
      intros s [E|[E|[]]]; injection E as <-; reflexivity.
Qed.

(** A member bound to the header content-length (or content-type) does not replace what
    the serializer computes: both are sent. *)
Theorem C59_length_refuted : exists ms vals q,
  good_schema request_places ms /\ written ms vals /\
  serialize_request true (fun _ => []) ex_lower (fun _ => false) (fun _ => true) (lit "application/json") ex_one ex_struct
    (mkOperation (lit "/") None None true 200) ms vals = Ok q /\
  q_body q = BBytes [1; 2; 3]%N /\
  header_values ex_lower (q_fields q) (lit "content-length") = [lit "3"; lit "3"] /\
  header_values ex_lower (q_fields q) (lit "content-type") = [lit "image/png"; lit "application/octet-stream"].
Proof.
  exists [ mkMember (lit "length") (ShScalar KInt) false None false (Some (lit "Content-Length")) None false false false false false None None;
           mkMember (lit "type") (ShScalar KText) false None false (Some (lit "Content-Type")) None false false false false false None None;
           mkMember (lit "data") (ShScalar KBlob) false None false None None true false false false false None None ],
    [(0, VOne (HInt 3)); (1, VOne (HText (lit "image/png"))); (2, VOne (HBlob [1; 2; 3]%N))]%nat.
  eexists. split; [|split; [|split; [vm_compute; reflexivity|repeat split]]].
  - constructor.
    + intros m I. each_member; subst m; cbn; eexists; left; reflexivity.
    + intros i j mi mj p Ni Pi Nj Pj B. each_index; cbn in Pi, Pj; try reflexivity;
        repeat match goal with P : placed _ _ |- _ => destruct P as [P|[P ?]]; try discriminate P end;
        injection Pj as <-; discriminate B.
    + intros m p I P Wm. each_member; subst m; cbn in P; destruct P as [E|[E F]]; try discriminate E; injection E as <-; discriminate Wm.
    + intros m p I P Wm. each_member; subst m; cbn in P; destruct P as [E|[E F]]; try discriminate E; injection E as <-; discriminate.
    + cbn [map m_name]. repeat (constructor; [cbn [In]; intros H; each_member; discriminate|]). constructor.
  - split.
    + cbn [map fst]. repeat (constructor; [cbn [In]; intros H; each_member; discriminate|]). constructor.
    + intros i v I. each_member; injection I as <- <-; eexists; (split; [reflexivity|]); reflexivity.
Qed.
Print Assumptions C59_length_refuted.

(** A member that is a host label and has another binding does not reach the host: the
    request is refused, as the pattern lacks its value. *)
Theorem C59_host_refuted :
  serialize_request true (fun _ => []) ex_lower (fun _ => false) (fun _ => true) (lit "application/json") ex_one ex_struct
    (mkOperation (lit "/") None (Some (lit "{acct}.")) true 200)
    [mkMember (lit "acct") (ShScalar KText) false None false (Some (lit "X-Account")) None false true false false false None None]
    [(0%nat, VOne (HText (lit "me")))] = Err KeyError.
Proof. vm_compute. reflexivity. Qed.
Print Assumptions C59_host_refuted.
(** A stream whose length is required is refused even if it could be measured. *)
Theorem C59_required_length_refuted : forall s,
  serialize_request true (fun _ => []) ex_lower (fun _ => false) (fun _ => true) (lit "application/json") ex_one ex_struct
    (mkOperation (lit "/") None None true 200)
    [mkMember (lit "data") (ShScalar KBlob) false None false None None true false false true true None None]
    [(0%nat, VData (DStream s))] = Err SerializationErr.
Proof. intros s. vm_compute. reflexivity. Qed.
Print Assumptions C59_required_length_refuted.
(** A parameter given by a map is added to the one of the same name that has its own
    member; Smithy gives precedence to the latter. *)
Example C59_query_conflict :
  match serialize_request true (fun _ => []) ex_lower (fun _ => false) (fun _ => true) (lit "application/json") ex_one ex_struct
    (mkOperation (lit "/") None None true 200)
    [mkMember (lit "page") (ShScalar KInt) false (Some (lit "page")) false None None false false false false false None None;
     mkMember (lit "other") ShMap false None true None None false false false false false None None]
    [(0%nat, VOne (HInt 2)); (1%nat, VMap [(lit "page", IText (lit "7"))])] with
  | Ok q => q_query q | Err _ => [] end = lit "page=2&page=7".
Proof. vm_compute. reflexivity. Qed.

(** What a label says: percent decoding gives the text the value has in a query. *)
Lemma encode_plain t : (forall c, In c t -> (c < 128)%N) -> utf8_encode t = Ok t.
Proof.
  induction t as [|c t IH]; intros H; [reflexivity|]. cbn [utf8_encode].
  assert (C := H c (or_introl eq_refl)). unfold utf8_encode_cp. replace (c <? 128)%N with true by (symmetry; now apply N.ltb_lt).
  cbn [bind]. rewrite IH by (intros d D; apply H; now right). reflexivity.
Qed.
Lemma decode_plain t : (forall c, In c t -> (c < 128)%N /\ c <> 37%N) -> decode t = Some t.
Proof.
  intros H. unfold decode. assert (unquote t = Some t) as ->.
  { induction t as [|c t IH]; [reflexivity|]. cbn [unquote]. destruct (H c (or_introl eq_refl)) as [A B].
    replace (c =? 37)%N with false by (symmetry; now apply N.eqb_neq). replace (c <? 128)%N with true by (symmetry; now apply N.ltb_lt).
    rewrite IH by (intros d D; apply H; now right). reflexivity. }
  rewrite (utf8_roundtrip t t); [reflexivity|]. apply encode_plain. intros c C. now apply H in C.
Qed.
Lemma number_plain neg i f e : JsonNum_Proofs.int_ok i -> PyDecimal_Proofs.all_digits f -> JsonNum_Proofs.exp_ok e ->
  decode (JsonNum_Proofs.num_text neg i f e) = Some (JsonNum_Proofs.num_text neg i f e).
Proof.
  intros A B C. apply decode_plain. intros c H. assert (X := HttpVal_Proofs.num_text_chars neg i f e c A B C H).
  unfold HttpVal_Proofs.number_char in X. lia.
Qed.
Ltac plain_text := split; [vm_compute; reflexivity|]; repeat split; intros; intros I; vm_compute in I; each_member; discriminate I.
Theorem C59_label : forall pads repr greedy lf v t,
  (forall d, v = HFloat (FFin d) -> PyDecimal_Model.d_coeff d = 0%N -> PyDecimal_Model.d_exp d = 0%Z) ->
  label_text pads repr greedy lf v = Ok t ->
  exists s, query_text pads repr lf v = Ok s /\ decode t = Some s /\ ~ In 63%N t /\ ~ In 35%N t /\ (greedy = false -> (forall d, v <> HTime d) -> ~ In 47%N t).
Proof.
  intros pads repr greedy lf v t Hf H. destruct v as [b|z|f|d|s|d|bs]; cbn [label_text query_text] in *.
  - injection H as <-. exists (if b then lit "true" else lit "false"). split; [reflexivity|].
    destruct b; (split; [vm_compute; reflexivity|]); repeat split; intros; intros I; vm_compute in I; each_member; discriminate I.
  - injection H as <-. exists (dec_Z z). split; [reflexivity|].
    assert (X : forall c, In c (dec_Z z) -> HttpVal_Proofs.number_char c).
    { intros c C. rewrite JsonNum_Proofs.dec_Z_text in C. eapply (HttpVal_Proofs.num_text_chars _ _ [] None); [apply JsonNum_Proofs.dec_int|intros x []|exact I|exact C]. }
    unfold HttpVal_Proofs.number_char in X. split; [apply decode_plain; intros c C; apply X in C; lia|].
    repeat split; intros; intros C; apply X in C; lia.
  - injection H as <-. eexists. split; [reflexivity|].
    destruct f as [| | |d]; [plain_text|plain_text|plain_text|].
    destruct (HttpVal_Proofs.serialize_float_form d (Hf d eq_refl)) as (i & fr & e & -> & A & B & C & _).
    split; [now apply number_plain|].
    repeat split; intros; intros X; apply HttpVal_Proofs.num_text_chars in X; auto; unfold HttpVal_Proofs.number_char in X; lia.
  - injection H as <-. eexists. split; [reflexivity|].
    destruct d as [| | |d]; [plain_text|plain_text|plain_text|].
    destruct (HttpVal_Proofs.serialize_decimal_form d) as (i & fr & e & -> & A & B & C & _).
    split; [now apply number_plain|].
    repeat split; intros; intros X; apply HttpVal_Proofs.num_text_chars in X; auto; unfold HttpVal_Proofs.number_char in X; lia.
  - exists s. split; [reflexivity|]. destruct greedy.
    + split; [eapply decode_urlquote; [apply safe_slash|exact H]|].
      split; [eapply urlquote_clean; [exact H|reflexivity|intros [X|[]]; discriminate X|discriminate]|].
      split; [eapply urlquote_clean; [exact H|reflexivity|intros [X|[]]; discriminate X|discriminate]|]. discriminate.
    + split; [eapply (decode_urlquote []); [intros c []|exact H]|].
      split; [eapply (urlquote_clean []); [exact H|reflexivity|intros []|discriminate]|].
      split; [eapply (urlquote_clean []); [exact H|reflexivity|intros []|discriminate]|].
      intros _ _. eapply (urlquote_clean []); [exact H|reflexivity|intros []|discriminate].
  - destruct (time_text _ _ _ _ _) as [s|]; [|discriminate H]. cbn [bind] in H. exists s. split; [reflexivity|].
    split; [eapply decode_urlquote; [apply safe_slash|exact H]|].
    split; [eapply urlquote_clean; [exact H|reflexivity|intros [X|[]]; discriminate X|discriminate]|].
    split; [eapply urlquote_clean; [exact H|reflexivity|intros [X|[]]; discriminate X|discriminate]|].
    intros _ X. now elim (X d).
  - discriminate H.
Qed.
Print Assumptions C59_label.
Example C59_label_example : label_text true (fun _ => []) false (mkLeaf false None) (HText (lit "a?/b")) = Ok (lit "a%3F%2Fb").
Proof. vm_compute. reflexivity. Qed.

(** The hypotheses of the theorem on success hold of the example. *)
Example C59_total_example : exists q,
  serialize_request true (fun _ => []) ex_lower (fun _ => false) (fun _ => true) (lit "application/json") ex_one ex_struct ex_op ex_members ex_values = Ok q /\
  q_body q = BBytes [4; 6]%N.
Proof.
  destruct C59_request_example as (G & W & _).
  apply (C59_request_total true (fun _ => []) ex_lower (fun _ => false) (fun _ => true) (lit "application/json") ex_one ex_struct ex_op ex_members ex_values
     [Lit (lit "/items/"); Label (lit "id")] [Label (lit "acct"); Lit (lit ".")] (BBytes [4; 6]%N) (Some (lit "application/json")) (Some 2%N)).
  - exact G.
  - exact W.
  - reflexivity.
  - constructor; [|constructor; [|constructor]].
    + split; intros H; vm_compute in H; each_member; discriminate.
    + split; [intros c H; vm_compute in H; each_member; subst c; reflexivity|]. exists 105%N. split; [now left|lia].
  - reflexivity.
  - constructor; [|constructor; [|constructor]].
    + split; [intros c H; vm_compute in H; each_member; subst c; reflexivity|]. exists 97%N. split; [now left|lia].
    + split; intros H; vm_compute in H; each_member; discriminate.
  - intros n H. each_member; discriminate.
  - intros i v m p I N P. unfold ex_values in I. each_member; injection I as <- <-; cbn in N; injection N as <-;
      cbn in P; destruct P as [E|[E F]]; try discriminate E; try injection E as <-; subst; cbn [writable]; try exact Logic.I.
    + exists (lit "a%2Fb"), (HText (lit "a/b")), false. split; [reflexivity|]. split; [|vm_compute; reflexivity].
      split; [discriminate|intros [E|[E|[]]]; discriminate E].
    + eexists _, [lit "4"; lit "5"]. split; [reflexivity|]. repeat constructor; eexists; split; reflexivity.
    + eexists _, [(lit "k", lit "v")]. split; reflexivity.
    + eexists. split; [exists [lit "2"]; split; [reflexivity|]; exists (lit "2"); split; reflexivity|].
      intros k t [E|[]]. injection E as <- <-. split; reflexivity.
    + exists (lit "me"), (lit "me"). split; reflexivity.
  - intros n [H|H]; each_member; try discriminate H. injection H as <-. exists (nth 0 ex_members (blank_member [] ShMap)), (VOne (HText (lit "a/b"))).
    split; [|reflexivity]. exists 0%nat. split; [now left|]. split; [reflexivity|now left].
  - intros m v t (i & I & N & P) (s & g & Ev & Hg & L) S. exfalso. unfold ex_values in I.
    each_member; injection I as <- <-; cbn in N; injection N as <-; cbn in P; destruct P as [E|[E F]]; try discriminate.
    injection Ev as <-. destruct g; [assert (X : is_greedy (lit "id") [Lit (lit "/items/"); Label (lit "id")]) by (now apply Hg); destruct X as [X|[X|[]]]; discriminate X|].
    vm_compute in L. injection L as <-. vm_compute in S. each_member; discriminate.
  - intros label H.
    assert (X : label_of true (fun _ => []) [Lit (lit "/items/"); Label (lit "id")] (nth 0 ex_members (blank_member [] ShMap)) (VOne (HText (lit "a/b"))) (label (lit "id"))).
    { apply (H (nth 0 ex_members (blank_member [] ShMap))). exists 0%nat. split; [now left|]. split; [reflexivity|now left]. }
    destruct X as (s & g & E & Hg & L). injection E as <-.
    destruct g; [assert (X : is_greedy (lit "id") [Lit (lit "/items/"); Label (lit "id")]) by (now apply Hg); destruct X as [X|[X|[]]]; discriminate X|].
    vm_compute in L. injection L as L. cbn [fill map fill_piece List.concat app]. change (lit "id") with [105; 100]%N. rewrite <- L. vm_compute. reflexivity.
  - intros n [H|H]; each_member; try discriminate H. injection H as <-. exists (nth 4 ex_members (blank_member [] ShMap)), (VOne (HText (lit "me"))).
    split; [|reflexivity]. exists 4%nat. split; [vm_compute; tauto|]. split; [reflexivity|now left].
  - reflexivity.
  - apply (Body_struct (lit "application/json") ex_one ex_struct true true request_places ex_members ex_values (fun i => Nat.leb 4 i) [4; 6]%N).
    + intros m I. unfold ex_members in I. each_member; subst m; (split; [intros [A B]; discriminate A|intros [A|[A B]]; discriminate]).
    + right. exists (blank_member (lit "name") (ShScalar KText)), InBody. split; [unfold ex_members; cbn [In]; tauto|].
      split; [right; split; reflexivity|reflexivity].
    + intros i m p N P. unfold ex_members in N. each_index; cbn in P; destruct P as [E|[E F]]; try discriminate E; try injection E as <-; subst; reflexivity.
    + vm_compute. reflexivity.
  - intros m I R. discriminate.
Qed.
