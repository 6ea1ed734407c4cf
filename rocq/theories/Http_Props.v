(** Properties of request targets, API keys and user agents
    (C23, C24, C25, C26, C27, C66). *)
From Verif Require Import Base Base_Proofs Utf8_Model Utf8_Proofs PyText_Model PyText_Proofs PyDict_Model PyDict_Proofs
  Fields_Model Http_Model Http_Spec Http_Proofs HttpPath_Proofs.
Local Open Scope N_scope.

(** ** C23: query strings round trip *)

(** Parameters of encodable text are always joined. *)
Theorem C23_total : forall params prefix, Forall encodable params ->
  exists q, join_query_params params prefix = Ok q.
Proof. intros params prefix. apply join_query_ok. Qed.
Print Assumptions C23_total.

(** Reading the joined string gives the parameters back, in order, as long as
    the first is not an empty key without a value. *)
Theorem C23_roundtrip : forall params q, join_query_params params [] = Ok q ->
  (forall rest, params <> ([], None) :: rest) -> parse_query q = Some params.
Proof.
  intros params q H Hne. apply join_query_empty in H.
  destruct params as [|[[|c k] [v|]] params]; try exact H. exfalso. eapply Hne; reflexivity.
Qed.
Print Assumptions C23_roundtrip.

(** With a prefix (the query of the operation's URI pattern), the parameters of
    the prefix come first. *)
Theorem C23_prefix : forall params prefix q, prefix <> [] -> join_query_params params prefix = Ok q ->
  parse_query q = match parse_query prefix with Some ps => Some (ps ++ params) | None => None end.
Proof. intros params prefix q Hp H. eapply join_query_nonempty; eauto. Qed.
Print Assumptions C23_prefix.

(** Nothing but unreserved characters and [%], [&], [=] is added. *)
Theorem C23_characters : forall params prefix q c, join_query_params params prefix = Ok q -> In c q ->
  In c prefix \/ is_unreserved c = true \/ c = 37 \/ c = 38 \/ c = 61.
Proof. intros params prefix q c. apply join_query_chars. Qed.
Print Assumptions C23_characters.

Example C23_example :
  join_query_params [(lit "a b", Some (lit "x&y=z")); ([], None); ([8364], Some [])] (lit "p=1")
  = Ok (lit "p=1&a%20b=x%26y%3Dz&&%E2%82%AC=") /\
  parse_query (lit "p=1&a%20b=x%26y%3Dz&&%E2%82%AC=")
  = Some [(lit "p", Some (lit "1")); (lit "a b", Some (lit "x&y=z")); ([], None); ([8364], Some [])].
Proof. split; vm_compute; reflexivity. Qed.

(** The exception: leading empty keys without a value vanish. *)
Theorem C23_leading_refuted : exists params q, join_query_params params [] = Ok q /\ parse_query q <> Some params.
Proof. exists [([], None); (lit "a", None)], (lit "a"). split; [vm_compute; reflexivity|vm_compute; discriminate]. Qed.
Print Assumptions C23_leading_refuted.

(** ** C24: URI labels cannot escape their segment *)

(** What formatting does: it succeeds exactly when slashes only come in greedy
    labels, every label has a value and no two slashes meet, and the result is
    the pattern with the values put in. *)
Theorem C24_format : forall uni_word ps kwargs path, Forall good_piece ps ->
  path_format uni_word (show ps) kwargs = Ok path <->
    (forall n v, In (n, v) kwargs -> In 47 v -> is_greedy n ps) /\
    (forall n, is_label n ps -> exists v, dict_get n kwargs = Some v) /\
    path = fill (value kwargs) ps /\ has_sub [47; 47] path = false.
Proof. intros uni_word ps kwargs path. apply path_format_ok. Qed.
Print Assumptions C24_format.

(** The segments of the result are those of the pattern: each segment without a
    greedy label is one segment of the path. *)
Theorem C24_segments : forall uni_word segs kwargs path, segs <> [] ->
  Forall good_piece (segments segs) -> Forall (Forall no_slash) segs ->
  path_format uni_word (show (segments segs)) kwargs = Ok path ->
  (forall n, In n (map fst kwargs) -> ~ is_greedy n (segments segs) -> forall v, dict_get n kwargs = Some v -> ~ In 47 v) /\
  split_on 47 path = flat_map (fun seg => split_on 47 (fill (value kwargs) seg)) segs /\
  (forall seg, In seg segs -> (forall n, In (Label n) seg -> ~ is_greedy n (segments segs)) -> only_plain seg ->
     split_on 47 (fill (value kwargs) seg) = [fill (value kwargs) seg]).
Proof.
  intros uni_word segs kwargs path Hne Hg Hs H. apply C24_format in H; [|exact Hg].
  destruct H as (H1 & H2 & -> & H4).
  assert (A : forall n v, dict_get n kwargs = Some v -> ~ is_greedy n (segments segs) -> ~ In 47 v).
  { intros n v Hv Hn Hin. apply Hn. eapply H1; [apply dict_get_In; exact Hv|exact Hin]. }
  split; [|split].
  - intros n _ Hn v Hv. eapply A; eauto.
  - rewrite fill_segments, split_join_flat; [|destruct segs; [congruence|discriminate]|exact Hne].
    rewrite !flat_map_concat_map, map_map. reflexivity.
  - intros seg Hseg Hl Hp. apply split_on_none. apply plain_fill_no_slash; [|exact Hp|].
    + rewrite Forall_forall in Hs. apply Hs; exact Hseg.
    + intros n Hn. unfold value. destruct (dict_get n kwargs) as [v|] eqn:E; [|intros []].
      eapply A; [exact E|apply Hl; exact Hn].
Qed.
Print Assumptions C24_segments.

(** No segment between two others is empty. *)
Theorem C24_no_empty_segment : forall uni_word pattern kwargs path,
  path_format uni_word pattern kwargs = Ok path ->
  forall a p b, split_on 47 path = a ++ p :: b -> a <> [] -> b <> [] -> p <> [].
Proof.
  intros uni_word pattern kwargs path H. unfold path_format in H.
  match type of H with (if ?b then _ else _) = _ => destruct b; [discriminate H|] end.
  destruct (str_format kwargs None (drop_plus pattern)) as [r|]; [|discriminate H]. cbn [bind] in H.
  destruct (has_sub [SLASH; SLASH] r) eqn:E; [discriminate H|]. injection H as <-.
  apply no_double_inner. exact E.
Qed.
Print Assumptions C24_no_empty_segment.

(** Through the serializer: every label's value can be read back from its place
    in the path, and it cannot start a query or a fragment, nor, unless it is
    greedy, a new segment. *)
Theorem C24_serialized : forall uni_word ps labels path, Forall good_piece ps -> NoDup (map fst labels) ->
  serialize_path uni_word (show ps) labels = Ok path ->
  exists written, path = fill written ps /\
    forall n, is_label n ps -> exists v, In (n, v) labels /\ decode (written n) = Some v /\
      ~ In 63 (written n) /\ ~ In 35 (written n) /\ (~ is_greedy n ps -> ~ In 47 (written n)).
Proof.
  intros uni_word ps labels path Hg Hnd H. unfold serialize_path in H.
  destruct (label_values uni_word (show ps) labels []) as [kwargs|] eqn:El; [|discriminate H]. cbn [bind] in H.
  apply C24_format in H; [|exact Hg]. destruct H as (H1 & H2 & H3 & H4).
  destruct (label_values_spec uni_word (show ps) labels [] kwargs El Hnd) as (A & B & C).
  exists (value kwargs). split; [exact H3|]. intros n Hn. destruct (H2 n Hn) as (q & Hq).
  destruct (C n q (dict_get_In _ _ _ Hq)) as [[]|(v & Hv & Ev)]. exists v. split; [exact Hv|].
  unfold value. rewrite Hq. unfold label_value in Ev. rewrite greedy_labels_show in Ev by exact Hg.
  destruct (mem_text n (greedy_of ps)) eqn:Em.
  - split; [eapply decode_urlquote; [apply safe_slash|exact Ev]|].
    split; [eapply urlquote_clean; [exact Ev|reflexivity|intros [X|[]]; discriminate X|discriminate]|].
    split; [eapply urlquote_clean; [exact Ev|reflexivity|intros [X|[]]; discriminate X|discriminate]|].
    intros Hng. exfalso. apply Hng. apply greedy_of_In, mem_text_In. exact Em.
  - split; [eapply decode_urlquote; [apply safe_nil|exact Ev]|].
    split; [eapply urlquote_clean; [exact Ev|reflexivity|intros []|discriminate]|].
    split; [eapply urlquote_clean; [exact Ev|reflexivity|intros []|discriminate]|].
    intros _. eapply urlquote_clean; [exact Ev|reflexivity|intros []|discriminate].
Qed.
Print Assumptions C24_serialized.

(** The pattern [/users/{id}/files/{path+}]. *)
Definition users_pattern : list (list piece) :=
  [[]; [Lit (lit "users")]; [Label (lit "id")]; [Lit (lit "files")]; [Greedy (lit "path")]].
Example C24_example :
  show (segments users_pattern) = lit "/users/{id}/files/{path+}" /\
  serialize_path (fun _ => false) (show (segments users_pattern)) [(lit "id", lit "a/b?"); (lit "path", lit "x/y z")]
  = Ok (lit "/users/a%2Fb%3F/files/x/y%20z") /\
  path_format (fun _ => false) (show (segments users_pattern)) [(lit "id", lit "a/b"); (lit "path", lit "x")]
  = Err ValueError /\
  path_format (fun _ => false) (show (segments users_pattern)) [(lit "id", []); (lit "path", lit "x")]
  = Err ValueError.
Proof. repeat split; vm_compute; reflexivity. Qed.
Lemma label_name_id : label_name (lit "id") /\ label_name (lit "path").
Proof.
  split; split.
  - intros c. vm_compute. intuition (subst; reflexivity).
  - exists 105. split; [left; reflexivity|lia].
  - intros c. vm_compute. intuition (subst; reflexivity).
  - exists 112. split; [left; reflexivity|lia].
Qed.
Example C24_segments_example : Forall good_piece (segments users_pattern) /\ Forall (Forall no_slash) users_pattern.
Proof.
  destruct label_name_id as [H1 H2]. split.
  - unfold users_pattern. cbn [segments app flat_map].
    repeat (apply Forall_cons; [first [exact H1|exact H2|split; vm_compute; intuition discriminate]|]).
    apply Forall_nil.
  - unfold users_pattern.
    repeat (apply Forall_cons; [repeat (apply Forall_cons; [first [exact I|vm_compute; intuition discriminate]|]); apply Forall_nil|]).
    apply Forall_nil.
Qed.

(** Full statement: no empty segment is ever introduced.  An empty label at the
    end of the pattern gives one. *)
Theorem C24_empty_end_refuted : exists path,
  path_format (fun _ => false) (lit "/users/{id}") [(lit "id", [])] = Ok path /\ split_on 47 path = [[]; lit "users"; []].
Proof. exists (lit "/users/"). split; vm_compute; reflexivity. Qed.
Print Assumptions C24_empty_end_refuted.

(** Nor is a dot segment kept out: the value [..] is written as it is, and
    means the parent segment to whoever normalises the path. *)
Theorem C24_dots_refuted :
  serialize_path (fun _ => false) (lit "/users/{id}/data") [(lit "id", lit "..")] = Ok (lit "/users/../data").
Proof. vm_compute. reflexivity. Qed.
Print Assumptions C24_dots_refuted.

(** ** C25: applying an endpoint *)

Lemma lstrip_slash q : exists w, q = w ++ lstrip_by is_slash q /\ forall c, In c w -> c = 47.
Proof.
  unfold lstrip_by. destruct (drop_while_split is_slash q) as (w & E & H). exists w. split; [exact E|].
  intros c Hc. apply H in Hc. unfold is_slash, SLASH in Hc. apply N.eqb_eq; exact Hc.
Qed.
Lemma lstrip_no_slash q : starts_with [47] (lstrip_by is_slash q) = false.
Proof.
  unfold lstrip_by. destruct (drop_while is_slash q) as [|c r] eqn:E; [reflexivity|].
  apply drop_while_head in E. unfold is_slash, SLASH in E. cbn [starts_with]. rewrite N.eqb_sym, E. reflexivity.
Qed.
Lemma parts_app_slash a b : filter nonempty (split_on 47 (a ++ 47 :: b))
  = filter nonempty (split_on 47 a) ++ filter nonempty (split_on 47 b).
Proof. rewrite split_on_app2, filter_app. reflexivity. Qed.
Lemma parts_lead w q : (forall c, In c w -> c = 47) ->
  filter nonempty (split_on 47 (w ++ q)) = filter nonempty (split_on 47 q).
Proof.
  induction w as [|c w IH]; intros H; [reflexivity|].
  assert (c = 47) as -> by (apply H; left; reflexivity).
  change ((47 :: w) ++ q) with ([] ++ 47 :: (w ++ q)). rewrite parts_app_slash.
  cbn [split_on filter nonempty app]. apply IH. intros c Hc; apply H; right; exact Hc.
Qed.
Lemma parts_lstrip q : filter nonempty (split_on 47 (lstrip_by is_slash q)) = filter nonempty (split_on 47 q).
Proof. destruct (lstrip_slash q) as (w & E & H). rewrite E at 2. symmetry. apply parts_lead; exact H. Qed.
Lemma ends_with_slash a : ends_with [47] a = true -> exists b, a = b ++ [47].
Proof.
  unfold ends_with. intros H. apply starts_with_spec in H. destruct H as (r & H). exists (rev r).
  rewrite <- (rev_involutive a), H. reflexivity.
Qed.
(** Joining: a base that ends with a slash (or is empty), then the rest. *)
Lemma path_join_shape a q : starts_with [47] q = false ->
  filter nonempty (split_on 47 (path_join a q)) = filter nonempty (split_on 47 a) ++ filter nonempty (split_on 47 q) /\
  ((a = [] /\ path_join a q = q) \/ exists base, path_join a q = base ++ 47 :: q).
Proof.
  intros H. unfold path_join, SLASH. rewrite H. destruct a as [|c a]; [split; [reflexivity|left; split; reflexivity]|].
  destruct (ends_with [47] (c :: a)) eqn:E.
  - apply ends_with_slash in E. destruct E as (b & ->). rewrite <- app_assoc. cbn [app]. split; [|right; eauto].
    rewrite !parts_app_slash. cbn [split_on filter nonempty]. rewrite app_nil_r. reflexivity.
  - cbn [app]. split; [|right; exists (c :: a); reflexivity].
    change (c :: a ++ 47 :: q) with ((c :: a) ++ 47 :: q). apply parts_app_slash.
Qed.

Definition absolute (p : option text) : option text :=
  match p with Some s => if starts_with [47] s then p else Some ([47] ++ s) | None => p end.
Lemma absolute_parts p : path_parts (absolute p) = path_parts p.
Proof.
  destruct p as [s|]; [|reflexivity]. unfold absolute. destruct (starts_with [47] s); [reflexivity|].
  unfold path_parts. apply (parts_lead [47]). intros c [<-|[]]; reflexivity.
Qed.
Lemma absolute_starts p s : absolute p = Some s -> exists r, s = 47 :: r.
Proof.
  destruct p as [t|]; [|intros H; discriminate H]. unfold absolute. destruct (starts_with [47] t) eqn:E.
  - intros H; injection H as <-. apply starts_with_spec in E. exact E.
  - intros H; injection H as <-. eexists; reflexivity.
Qed.

(** Applying an endpoint: scheme and host are the endpoint's; the path is
    absolute, has the endpoint's segments and then the request's, and ends with
    the request's path; the query is the endpoint's and then the request's; user,
    password, port and fragment are the endpoint's where it has them; method,
    body and headers stay. *)
Theorem C25_endpoint : forall host_ok e r r', apply_endpoint host_ok e r = Ok r' ->
  let u := e_uri e in let p := r_destination r in let d := r_destination r' in
  u_scheme d = u_scheme u /\ u_host d = u_host u /\
  (forall s, u_path d = Some s -> exists t, s = 47 :: t) /\
  path_parts (u_path d) = path_parts (u_path u) ++ path_parts (u_path p) /\
  (forall q, u_path p = Some q -> q <> [] ->
     exists base, u_path d = Some (base ++ 47 :: lstrip_by is_slash q)) /\
  text_of (u_query d) =
    (if truthy (u_query u) && truthy (u_query p) then text_of (u_query u) ++ [38] ++ text_of (u_query p)
     else text_of (u_query u) ++ text_of (u_query p)) /\
  u_username d = (if truthy (u_username u) then u_username u else u_username p) /\
  u_password d = (if truthy (u_password u) then u_password u else u_password p) /\
  u_port d = or_port (u_port u) (u_port p) /\
  u_fragment d = (if truthy (u_fragment u) then u_fragment u else u_fragment p) /\
  r_method r' = r_method r /\ r_body r' = r_body r /\ r_fields r' = r_fields r.
Proof.
  intros host_ok e r r' H u p d. unfold apply_endpoint in H.
  destruct (set_service_endpoint host_ok (e_uri e) (r_destination r)) as [d0|] eqn:E; [|discriminate H].
  cbn [bind] in H. injection H as <-. subst d. cbn [r_destination r_method r_body r_fields]. fold u p in E.
  unfold set_service_endpoint, make_uri in E.
  match type of E with (if ?b then _ else _) = _ => destruct b; [|discriminate E] end.
  injection E as <-. cbn [u_scheme u_host u_path u_query u_username u_password u_port u_fragment].
  set (joined := match u_path u with
                 | Some a => match u_path p with
                             | Some q => Some (path_join a (lstrip_by is_slash q))
                             | None => or_text (u_path p) (u_path u)
                             end
                 | None => or_text (u_path p) (u_path u)
                 end).
  assert (Ej : forall o, match o with
                 | Some s => if starts_with [SLASH] s then o else Some ([SLASH] ++ s)
                 | None => o end = absolute o) by (intros [s|]; reflexivity).
  rewrite Ej.
  assert (Parts : path_parts joined = path_parts (u_path u) ++ path_parts (u_path p)).
  { unfold joined, or_text. destruct (u_path u) as [a|], (u_path p) as [q|]; cbn [truthy].
    - unfold path_parts. destruct (path_join_shape a (lstrip_by is_slash q) (lstrip_no_slash q)) as [X _].
      rewrite X, parts_lstrip. reflexivity.
    - cbn [path_parts]. rewrite app_nil_r. reflexivity.
    - destruct q; reflexivity.
    - reflexivity. }
  split; [reflexivity|]. split; [reflexivity|].
  split; [intros s Hs; eapply absolute_starts; exact Hs|].
  split; [rewrite absolute_parts; exact Parts|].
  split.
  { intros q Hq Hne. unfold joined. rewrite Hq. destruct (u_path u) as [a|].
    - destruct (path_join_shape a (lstrip_by is_slash q) (lstrip_no_slash q)) as [_ [[-> X]|(base & X)]]; rewrite X.
      + exists []. unfold absolute. rewrite lstrip_no_slash. reflexivity.
      + unfold absolute. destruct (starts_with [47] (base ++ 47 :: lstrip_by is_slash q)); [eauto|].
        exists (47 :: base). reflexivity.
    - assert (or_text (Some q) None = Some q) as -> by (destruct q; [congruence|reflexivity]).
      destruct (lstrip_slash q) as (w & Ew & Hw). unfold absolute. destruct (starts_with [47] q) eqn:Es.
      + destruct w as [|c w].
        * cbn [app] in Ew. rewrite Ew, lstrip_no_slash in Es. discriminate Es.
        * assert (W : exists w', c :: w = w' ++ [47]).
          { destruct (exists_last (l := c :: w)) as (w' & z & Ez); [discriminate|]. exists w'. rewrite Ez. f_equal. f_equal.
            apply Hw. rewrite Ez. apply in_or_app; right; left; reflexivity. }
          destruct W as (w' & W). exists w'. rewrite Ew at 1. rewrite W, <- app_assoc. reflexivity.
      + exists []. destruct w as [|c w]; [cbn [app] in Ew; cbn [app]; congruence|].
        exfalso. rewrite (Hw c (or_introl eq_refl)) in Ew. rewrite Ew in Es. discriminate Es. }
  split.
  { unfold or_text. destruct (u_query u) as [[|a qa]|], (u_query p) as [[|b qb]|]; cbn [truthy andb text_of app];
      rewrite ?app_nil_r; reflexivity. }
  repeat split; reflexivity.
Qed.
Print Assumptions C25_endpoint.

(** It only fails on a host the URI class rejects. *)
Theorem C25_total : forall host_ok e r, host_ok (u_host (e_uri e)) = true -> exists r', apply_endpoint host_ok e r = Ok r'.
Proof.
  intros host_ok e r H. unfold apply_endpoint, set_service_endpoint, make_uri. cbn [u_host]. rewrite H.
  cbn [bind]. eexists; reflexivity.
Qed.
Print Assumptions C25_total.

Definition plain_uri (host : text) (path query : option text) : uri :=
  mkUri (lit "https") None None host None path query None.
Example C25_example :
  match apply_endpoint (fun _ => true)
          (mkEndpoint (plain_uri (lit "example.com") (Some (lit "/base")) (Some (lit "x=1"))) [])
          (mkRequest (plain_uri [] (Some (lit "/a/b/")) (Some (lit "y=2"))) (lit "GET") 0%nat []) with
  | Ok r => r_destination r = plain_uri (lit "example.com") (Some (lit "/base/a/b/")) (Some (lit "x=1&y=2"))
  | Err _ => False
  end.
Proof. vm_compute. reflexivity. Qed.

(** ** C66: host prefixes and endpoint headers *)

(** The serializer does fill in the declared prefix, and writes the labels so
    that they can be read back and hold nothing but unreserved characters and
    percent signs. *)
Theorem C66_prefix_partial : forall ps labels prefix, Forall good_piece ps -> (forall n, ~ In (Greedy n) ps) ->
  NoDup (map fst labels) -> host_prefix (show ps) labels = Ok prefix ->
  exists written, prefix = fill written ps /\
    forall n, is_label n ps -> exists v, In (n, v) labels /\ decode (written n) = Some v /\
      forall c, In c (written n) -> is_unreserved c = true \/ c = 37.
Proof.
  intros ps labels prefix Hg Hn Hnd H. unfold host_prefix in H.
  assert (Sp : forall labels acc kwargs, prefix_values labels acc = Ok kwargs ->
            forall n q, In (n, q) kwargs -> In (n, q) acc \/ exists v, In (n, v) labels /\ urlquote [46] v = Ok q).
  { clear. induction labels as [|[k v] rest IH]; intros acc kwargs; cbn [prefix_values].
    - intros H; injection H as <-. auto.
    - destruct (urlquote [46] v) as [q|] eqn:Eq; [|discriminate]. cbn [bind]. intros H n w Hin.
      destruct (IH _ _ H n w Hin) as [Hi|(x & Hx & Ex)]; [|right; exists x; split; [right; exact Hx|exact Ex]].
      apply dict_set_In in Hi. destruct Hi as [E|Hi]; [|left; exact Hi]. injection E as -> ->.
      right. exists v. split; [left; reflexivity|exact Eq]. }
  destruct (prefix_values labels []) as [kwargs|] eqn:El; [|discriminate H]. cbn [bind] in H.
  assert (Ep : map plain_piece ps = ps).
  { clear - Hn. induction ps as [|p ps IH]; [reflexivity|]. cbn [map]. rewrite IH.
    - destruct p; try reflexivity. exfalso. eapply Hn. left; reflexivity.
    - intros n Hx. eapply Hn. right; exact Hx. }
  rewrite <- Ep, (format_show (fun _ => false)) in H by exact Hg. destruct (forallb (bound kwargs) ps) eqn:Eb; [|discriminate H].
  injection H as <-. exists (value kwargs). split; [reflexivity|].
  intros n [Hl|Hl]; [|exfalso; eapply Hn; exact Hl].
  rewrite forallb_forall in Eb. specialize (Eb _ Hl). cbn [bound] in Eb. unfold dict_has in Eb.
  unfold value. destruct (dict_get n kwargs) as [q|] eqn:Eq; [|discriminate Eb].
  destruct (Sp _ _ _ El n q (dict_get_In _ _ _ Eq)) as [[]|(v & Hv & Ev)].
  exists v. split; [exact Hv|]. split; [eapply decode_urlquote; [apply safe_dot|exact Ev]|].
  intros c Hc. destruct (urlquote_chars _ _ _ _ Ev Hc) as [X|[[<-|[]]|X]]; auto.
Qed.
Print Assumptions C66_prefix_partial.
Example C66_prefix_example : host_prefix (lit "{id}-data.") [(lit "id", lit "a.b")] = Ok (lit "a.b-data.").
Proof. vm_compute. reflexivity. Qed.

(** Full statement: the prefix ends up in front of the endpoint's host.  It is
    replaced by the endpoint's host, whatever it is. *)
Theorem C66_prefix_refuted : forall host_ok e r r', apply_endpoint host_ok e r = Ok r' ->
  u_host (r_destination r) <> [] ->
  u_host (r_destination r') <> u_host (r_destination r) ++ u_host (e_uri e).
Proof.
  intros host_ok e r r' H Hne. apply C25_endpoint in H. destruct H as (_ & -> & _). intros E.
  apply Hne. apply (f_equal (@List.length N)) in E. rewrite app_length in E.
  destruct (u_host (r_destination r)); [reflexivity|cbn [List.length] in E; lia].
Qed.
Print Assumptions C66_prefix_refuted.

(** Full statement: the endpoint's headers are added.  They never are. *)
Theorem C66_headers_refuted : forall host_ok e r r' k f, apply_endpoint host_ok e r = Ok r' ->
  dict_get k (e_headers e) = Some f -> dict_get k (r_fields r) = None -> dict_get k (r_fields r') = None.
Proof. intros host_ok e r r' k f H _ Hk. apply C25_endpoint in H. destruct H as (_ & _ & _ & _ & _ & _ & _ & _ & _ & _ & _ & _ & ->). exact Hk. Qed.
Print Assumptions C66_headers_refuted.
Example C66_refuted_example :
  match apply_endpoint (fun _ => true)
          (mkEndpoint (plain_uri (lit "example.com") None None) [(lit "x-a", mkField (lit "X-A") [lit "1"] Header)])
          (mkRequest (plain_uri (lit "data.") (Some (lit "/")) None) (lit "GET") 0%nat []) with
  | Ok r => u_host (r_destination r) = lit "example.com" /\ r_fields r = []
  | Err _ => False
  end.
Proof. vm_compute. split; reflexivity. Qed.

(** ** C26: API key signing only adds the key *)

(** In a header: the named header is replaced, everything else stays. *)
Theorem C26_header : forall lower host_ok name scheme key r,
  exists r', api_key_sign lower host_ok name InHeader scheme key r = Ok r' /\
    r_destination r' = r_destination r /\ r_method r' = r_method r /\ r_body r' = r_body r /\
    dict_get (lower name) (r_fields r')
      = Some (mkField name [match scheme with Some s => s ++ [32] ++ key | None => key end] Header) /\
    (forall k, k <> lower name -> dict_get k (r_fields r') = dict_get k (r_fields r)).
Proof.
  intros lower host_ok name scheme key r. eexists. split; [reflexivity|].
  cbn [r_destination r_method r_body r_fields]. repeat split.
  - apply dict_get_set_eq.
  - intros k Hk. apply dict_get_set_ne; exact Hk.
Qed.
Print Assumptions C26_header.

(** In the query: what stays is everything but the path; the key is appended as
    it is. *)
Theorem C26_query_partial : forall lower host_ok name scheme key r r',
  api_key_sign lower host_ok name InQuery scheme key r = Ok r' ->
  let d := r_destination r in let d' := r_destination r' in
  u_scheme d' = u_scheme d /\ u_username d' = u_username d /\ u_password d' = u_password d /\
  u_host d' = u_host d /\ u_port d' = u_port d /\ u_fragment d' = u_fragment d /\
  u_query d' = Some (match text_of (u_query d) with [] => [] | q => q ++ [38] end ++ name ++ [61] ++ key) /\
  r_method r' = r_method r /\ r_body r' = r_body r /\ r_fields r' = r_fields r.
Proof.
  intros lower host_ok name scheme key r r' H d d'. unfold api_key_sign, make_uri in H.
  match type of H with context [if ?b then _ else _] => destruct b; [|discriminate H] end.
  cbn [bind] in H. injection H as <-. subst d d'.
  cbn [r_destination r_method r_body r_fields u_scheme u_username u_password u_host u_port u_fragment u_query].
  repeat split. destruct (u_query (r_destination r)) as [[|c q]|]; reflexivity.
Qed.
Print Assumptions C26_query_partial.
Example C26_query_example :
  match api_key_sign (fun s => s) (fun _ => true) (lit "k") InQuery None (lit "s3")
          (mkRequest (plain_uri (lit "h") (Some (lit "/p")) (Some (lit "a=1"))) (lit "GET") 0%nat []) with
  | Ok r => u_query (r_destination r) = Some (lit "a=1&k=s3")
  | Err _ => False
  end.
Proof. vm_compute. reflexivity. Qed.

(** Full statement: the path stays.  It is replaced by the password, that is,
    in general it is lost. *)
Theorem C26_path_refuted : forall lower host_ok name scheme key r r',
  api_key_sign lower host_ok name InQuery scheme key r = Ok r' ->
  u_path (r_destination r) <> u_password (r_destination r) ->
  u_path (r_destination r') <> u_path (r_destination r).
Proof.
  intros lower host_ok name scheme key r r' H Hne. unfold api_key_sign, make_uri in H.
  match type of H with context [if ?b then _ else _] => destruct b; [|discriminate H] end.
  cbn [bind] in H. injection H as <-. cbn [r_destination u_path]. congruence.
Qed.
Print Assumptions C26_path_refuted.
Example C26_path_example :
  match api_key_sign (fun s => s) (fun _ => true) (lit "k") InQuery None (lit "s3")
          (mkRequest (plain_uri (lit "h") (Some (lit "/p")) None) (lit "GET") 0%nat []) with
  | Ok r => u_path (r_destination r) = None
  | Err _ => False
  end.
Proof. vm_compute. reflexivity. Qed.

(** And the key is not percent encoded: a key with an ampersand adds a second
    parameter. *)
Theorem C26_unescaped_refuted : exists name key r r',
  api_key_sign (fun s => s) (fun _ => true) name InQuery None key r = Ok r' /\
  parse_query (text_of (u_query (r_destination r'))) = Some [(name, Some (lit "a")); (lit "admin", Some (lit "1"))].
Proof.
  exists (lit "k"), (lit "a&admin=1"), (mkRequest (plain_uri (lit "h") None None) (lit "GET") 0%nat []).
  eexists. split; vm_compute; reflexivity.
Qed.
Print Assumptions C26_unescaped_refuted.

(** ** C27: user agents *)

Lemma ua_allowed_token c : ua_allowed c = token_char c.
Proof.
  unfold ua_allowed, token_char, has.
  let l := eval vm_compute in (lit "!$%&'*+-.^_`|~") in change (lit "!$%&'*+-.^_`|~") with l.
  cbn [existsb]. rewrite orb_false_r, <- !orb_assoc. reflexivity.
Qed.
Lemma sanitize_chars h raw c : In c (sanitize h raw) -> token_char c = true \/ (h = true /\ c = 35).
Proof.
  unfold sanitize. intros H. apply in_map_iff in H. destruct H as (x & E & _).
  destruct (ua_allowed x || h && (x =? 35)) eqn:Ex; subst c; [|left; reflexivity].
  apply orb_true_iff in Ex. destruct Ex as [Ex|Ex]; [left; rewrite <- ua_allowed_token; exact Ex|right].
  apply andb_true_iff in Ex. destruct Ex as [-> Ex]. apply N.eqb_eq in Ex. auto.
Qed.
Lemma sanitize_not h raw c : token_char c = false -> c <> 35 -> ~ In c (sanitize h raw).
Proof. intros Ht Hc Hin. destruct (sanitize_chars _ _ _ Hin) as [E|[_ E]]; congruence. Qed.
Lemma sanitize_name_not raw c : token_char c = false -> ~ In c (sanitize false raw).
Proof. intros Ht Hin. destruct (sanitize_chars _ _ _ Hin) as [E|[E _]]; congruence. Qed.

Definition standard (c : component) : Prop := match c with Component _ _ _ => True | RawComponent _ => False end.
Definition clean_value (v : option text) : option text :=
  match v with None | Some [] => None | Some t => Some (sanitize true t) end.

(** Sanitising keeps the length, keeps allowed characters and leaves nothing
    but allowed characters (and [#] where it may stand). *)
Theorem C27_sanitize : forall h raw,
  List.length (sanitize h raw) = List.length raw /\
  (forall c, In c (sanitize h raw) -> token_char c = true \/ (h = true /\ c = 35)) /\
  ((forall c, In c raw -> token_char c = true) -> sanitize h raw = raw).
Proof.
  intros h raw. split; [apply map_length|]. split; [intros c; apply sanitize_chars|].
  intros H. unfold sanitize. rewrite <- (map_id raw) at 2. apply map_ext_in. intros c Hc.
  rewrite ua_allowed_token, (H c Hc). reflexivity.
Qed.
Print Assumptions C27_sanitize.

(** A user agent of standard components: its words are the components, one
    each and in order, each word can be read back, and no character outside of
    the allowed ones, slash, [#] and the separating blank occurs. *)
Theorem C27_words : forall u, Forall standard (in_order u) -> in_order u <> [] ->
  split_on 32 (user_agent_str u) = map component_str (in_order u) /\
  (forall p n v, In (Component p n v) (in_order u) ->
     read_word (component_str (Component p n v)) = Some (sanitize true p, sanitize false n, clean_value v)) /\
  (forall c, In c (user_agent_str u) -> token_char c = true \/ c = 47 \/ c = 35 \/ c = 32).
Proof.
  intros u Hs Hne.
  assert (Eo : ua_components u = in_order u) by (unfold in_order; cbn [List.concat]; rewrite app_nil_r; reflexivity).
  assert (Chars : forall x c, standard x -> In c (component_str x) -> token_char c = true \/ c = 47 \/ c = 35).
  { intros [p n v|t] c Hx; [|destruct Hx]. cbn [component_str]. clear.
    assert (A : forall h raw, In c (sanitize h raw) -> token_char c = true \/ c = 47 \/ c = 35).
    { intros h raw H. destruct (sanitize_chars _ _ _ H) as [E|[_ E]]; auto. }
    destruct v as [[|v0 v]|]; intros H; repeat (apply in_app_or in H; destruct H as [H|H]); eauto;
      destruct H as [<-|[]]; auto. }
  assert (Split : split_on 32 (user_agent_str u) = map component_str (in_order u)).
  { unfold user_agent_str. rewrite Eo. apply split_on_join.
    - destruct (in_order u); [congruence|discriminate].
    - intros w Hw. apply in_map_iff in Hw. destruct Hw as (x & <- & Hx). rewrite Forall_forall in Hs.
      intros Hin. destruct (Chars x 32 (Hs x Hx) Hin) as [E|[E|E]]; discriminate E. }
  split; [exact Split|]. split.
  - intros p n v _. unfold read_word. cbn [component_str].
    assert (P : ~ In 47 (sanitize true p)) by (apply sanitize_not; [reflexivity|discriminate]).
    assert (Nm : ~ In 35 (sanitize false n)) by (apply sanitize_name_not; reflexivity).
    destruct v as [[|v0 v]|]; cbn [app clean_value]; change SLASH with 47; rewrite (cut_at_app 47 _ _ P).
    + rewrite (cut_at_none 35 _ Nm). reflexivity.
    + rewrite (cut_at_app 35 _ _ Nm). reflexivity.
    + rewrite (cut_at_none 35 _ Nm). reflexivity.
  - intros c Hc. rewrite <- (join_split_on 32 (user_agent_str u)), Split in Hc. clear Split.
    clear Eo. induction (in_order u) as [|x l IH]; [destruct Hc|]. inversion Hs as [|? ? Hx Hl]; subst.
    destruct l as [|y l].
    + cbn [map join] in Hc. destruct (Chars x c Hx Hc) as [E|[E|E]]; auto.
    + cbn [map] in Hc. rewrite join_cons2 in Hc. apply in_app_or in Hc. destruct Hc as [Hc|Hc].
      * destruct (Chars x c Hx Hc) as [E|[E|E]]; auto.
      * apply in_app_or in Hc. destruct Hc as [[<-|[]]|Hc]; [auto|]. apply IH; [exact Hl|discriminate|exact Hc].
Qed.
Print Assumptions C27_words.

(** The user agent the clients build is of that form, whatever the platform
    reports, and stays so with the AWS additions unless a suffix is configured. *)
Theorem C27_built : forall lower p, Forall standard (in_order (build_user_agent lower p)) /\
  in_order (build_user_agent lower p) <> [].
Proof.
  intros lower p. split.
  - unfold in_order, build_user_agent, os_metadata.
    cbn [ua_sdk ua_internal ua_ua ua_api ua_os ua_language ua_env ua_config ua_feat ua_additional].
    destruct (pl_sdk p) as [[|? ?]|], (pl_name p) as [[|? ?]|], (pl_machine p) as [[|? ?]|], (pl_implementation p) as [[|? ?]|];
      repeat (match goal with |- context [if ?b then _ else _] => destruct b end);
      cbn [List.concat app]; repeat (apply Forall_cons; [exact I|]); apply Forall_nil.
  - unfold in_order, build_user_agent.
    cbn [List.concat ua_sdk ua_internal ua_ua ua_api ua_os ua_language ua_env ua_config ua_feat ua_additional].
    destruct (pl_sdk p) as [[|? ?]|]; discriminate.
Qed.
Print Assumptions C27_built.
Theorem C27_aws : forall version core crt app_id sdk service u, Forall standard (in_order u) ->
  let u' := aws_user_agent version core crt None app_id sdk service u in
  Forall standard (in_order u') /\ in_order u' <> [].
Proof.
  intros version core crt app_id sdk service u H u'. split; [|discriminate].
  unfold in_order in *. cbn [List.concat] in *. rewrite app_nil_r in *. repeat rewrite Forall_app in H.
  destruct H as (H1 & H2 & H3 & H4 & H5 & H6 & H7 & H8 & H9 & H10).
  unfold u', aws_user_agent. cbn [ua_sdk ua_internal ua_ua ua_api ua_os ua_language ua_env ua_config ua_feat ua_additional].
  repeat rewrite Forall_app.
  repeat split; auto; try (destruct crt); try (destruct app_id); repeat (apply Forall_cons; [exact I|]); apply Forall_nil.
Qed.
Print Assumptions C27_aws.
Example C27_example :
  user_agent_str (build_user_agent (fun s => s)
    (mkPlatform (Some (lit "darwin")) (Some (lit "10 (x)")) (Some (lit "arm64")) (Some (lit "3.12")) None (Some (lit "1.0"))))
  = lit "python/1.0 ua/2.1 os/macos#10--x- md/arch#arm64 lang/python#3.12".
Proof. vm_compute. reflexivity. Qed.

(** Full statement: whatever configuration provides.  A configured suffix is
    written as it is, line breaks included. *)
Theorem C27_suffix_refuted : forall version core crt app_id sdk service u suffix,
  exists before, user_agent_str (aws_user_agent version core crt (Some suffix) app_id sdk service u) = before ++ suffix.
Proof.
  intros version core crt app_id sdk service u suffix. unfold user_agent_str.
  assert (L : forall l, l <> [] -> exists before, join [32] (map component_str (l ++ [RawComponent suffix])) = before ++ suffix).
  { induction l as [|x l IH]; [congruence|]. intros _. destruct l as [|y l].
    - exists (component_str x ++ [32]). cbn [app map join component_str]. rewrite <- app_assoc. reflexivity.
    - destruct IH as (b & E); [discriminate|]. exists (component_str x ++ [32] ++ b).
      cbn [app map] in E |- *. rewrite join_cons2, E, <- !app_assoc. reflexivity. }
  set (u' := aws_user_agent version core crt (Some suffix) app_id sdk service u).
  assert (E : exists l, l <> [] /\ ua_components u' = l ++ [RawComponent suffix]).
  { unfold u', ua_components, aws_user_agent.
    cbn [ua_sdk ua_internal ua_ua ua_api ua_os ua_language ua_env ua_config ua_feat ua_additional].
    eexists. split; [|rewrite !app_assoc; reflexivity]. discriminate. }
  destruct E as (l & Hl & ->). apply L; exact Hl.
Qed.
Print Assumptions C27_suffix_refuted.
Example C27_suffix_example : token_char 13 = false /\ token_char 10 = false.
Proof. split; reflexivity. Qed.
