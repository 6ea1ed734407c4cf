(** Proofs about requests on the wire. *)
From Verif Require Import Base Base_Proofs Utf8_Model PyText_Model PyText_Proofs PyDict_Model PyDict_Proofs Fields_Model Http_Model Http_Spec Http_Proofs HttpPath_Proofs
  HttpVal_Model HttpVal_Spec HttpBind_Model HttpBind_Spec HttpBind_Proofs HttpRead_Spec HttpRead_Proofs ResponseWire_Model ResponseWire_Spec ResponseWire_Proofs RequestWire_Model RequestWire_Spec.
From Verif Require Transport_Model Transport_Spec Transport_Proofs Transport_Props Http_Props HttpBind_Props Uri_Model Fields_Props.
Local Open Scope N_scope.

(** ** The endpoint *)
Definition joined_query (u : uri) (q : text) : option text :=
  if truthy (u_query u) && truthy (Some q) then Some (text_of (u_query u) ++ 38 :: q) else or_text (Some q) (u_query u).
Lemma without_slash p : p <> [] -> without_last_slash p ++ [47] = if ends_with [47] p then p else p ++ [47].
Proof.
  intros N. unfold without_last_slash, ends_with. destruct (rev p) as [|c r] eqn:E.
  - exfalso. apply N. rewrite <- (rev_involutive p), E. reflexivity.
  - cbn [rev app starts_with]. destruct (N.eqb_spec c 47) as [->|K].
    + replace (47 =? 47) with true by reflexivity. cbn [andb starts_with]. rewrite <- (rev_involutive p), E. reflexivity.
    + assert (Z : (47 =? c) = false) by (apply N.eqb_neq; congruence). rewrite Z. reflexivity.
Qed.
Lemma joined_path p rest : starts_with [47] rest = false ->
  match (match p with Some p => Some (path_join p rest) | None => Some (47 :: rest) end) with
  | Some t => if starts_with [SLASH] t then Some t else Some ([SLASH] ++ t)
  | None => None
  end = Some (endpoint_base p ++ 47 :: rest).
Proof.
  intros S. destruct p as [p|]; [|reflexivity]. unfold path_join, SLASH. rewrite S. destruct p as [|c r]; [rewrite S; reflexivity|].
  cbv iota. change (endpoint_base (Some (c :: r))) with ((if c =? 47 then [] else [47]) ++ without_last_slash (c :: r)).
  pose proof (without_slash (c :: r) ltac:(discriminate)) as W.
  assert (J : (if ends_with [47] (c :: r) then (c :: r) ++ rest else (c :: r) ++ [47] ++ rest) = without_last_slash (c :: r) ++ 47 :: rest).
  { change (47 :: rest) with ([47] ++ rest). rewrite (app_assoc (without_last_slash (c :: r))), W. destruct (ends_with [47] (c :: r)); [reflexivity | now rewrite <- app_assoc]. }
  rewrite <- app_assoc, <- J. destruct (ends_with [47] (c :: r)); cbn [app starts_with]; rewrite (N.eqb_sym 47 c); destruct (c =? 47); reflexivity.
Qed.
Lemma applied host_ok e q m fs r rest : q_path q = 47 :: rest -> starts_with [47] rest = false ->
  apply_endpoint host_ok e (Http_Model.mkRequest (destination q) m 0 fs) = Ok r ->
  let u := e_uri e in
  r = Http_Model.mkRequest (mkUri (u_scheme u) (or_text (u_username u) None) (or_text (u_password u) None) (u_host u) (or_port (u_port u) None)
        (Some (endpoint_base (u_path u) ++ q_path q)) (joined_query u (q_query q)) (or_text (u_fragment u) None)) m 0 fs.
Proof.
  intros P S H u. unfold apply_endpoint, set_service_endpoint, make_uri in H. unfold destination in H. cbn [r_destination r_method r_body Http_Model.r_fields u_path u_query u_username u_password u_port u_fragment u_host] in H.
  fold u in H. destruct (host_ok (u_host u)); [|discriminate H]. cbn [bind] in H. injection H as <-. f_equal. rewrite P.
  assert (L : lstrip_by is_slash (47 :: rest) = rest).
  { unfold lstrip_by. destruct rest as [|c rest]; [reflexivity|]. cbn [drop_while]. unfold is_slash at 1. change (47 =? SLASH) with true. cbv iota.
    cbn [drop_while]. unfold is_slash, SLASH. cbn [starts_with] in S. rewrite andb_true_r in S. rewrite N.eqb_sym in S. now rewrite S. }
  rewrite L. f_equal.
  - rewrite <- (joined_path (u_path u) rest S). destruct (u_path u); reflexivity.
  - unfold joined_query, AMP. destruct (u_query u) as [[|a b]|], (q_query q) as [|c d]; reflexivity.
Qed.

(** ** The query *)
Lemma parse_joined u q a b : parse_query (or_empty (u_query u)) = Some a -> parse_query q = Some b ->
  parse_query (text_of (joined_query u q)) = Some (a ++ b).
Proof.
  intros A B. unfold joined_query, or_empty in *. destruct (u_query u) as [[|x y]|] eqn:U; cbn [truthy andb text_of].
  - destruct q; cbn in A, B; injection A as <-; [injection B as <-; reflexivity | exact B].
  - destruct q as [|c d].
    + cbn in B. injection B as <-. rewrite app_nil_r. exact A.
    + change (all_some (map decode_param (split_on 38 ((x :: y) ++ 38 :: c :: d))) = Some (a ++ b)).
      rewrite split_on_app2, map_app, all_some_app.
      change (all_some (map decode_param (split_on 38 (x :: y))) = Some a) in A. change (all_some (map decode_param (split_on 38 (c :: d))) = Some b) in B.
      now rewrite A, B.
  - destruct q; cbn in A, B; injection A as <-; [injection B as <-; reflexivity | exact B].
Qed.

(** A plus sign in the query is not one of a parameter's. *)
Lemma joined_no_plus l : forall s r, join_query_params l s = Ok r -> ~ In 43 s -> ~ In 43 r.
Proof.
  assert (U : forall s t, urlquote [] s = Ok t -> ~ In 43 t) by (intros s t E; apply (urlquote_clean [] s t 43 E); [reflexivity | intros [] | discriminate]).
  induction l as [|[k v] l IH]; intros s r; cbn [join_query_params]; [intros [= <-] N; exact N|]. unfold render_param. cbn [fst snd].
  destruct (urlquote [] k) as [k'|] eqn:K; [|destruct v; discriminate]. pose proof (U _ _ K) as NK.
  assert (S1 : forall s : text, ~ In 43 s -> ~ In 43 (match s with [] => [] | _ => s ++ [AMP] end)).
  { intros [|c s0] N; [intros []|]. intros I. apply in_app_or in I as [I|[I|[]]]; [exact (N I) | discriminate I]. }
  destruct v as [v|]; cbn [bind].
  - destruct (urlquote [] v) as [v'|] eqn:V; [|discriminate]. pose proof (U _ _ V) as NV. cbn [bind]. intros J N. apply (IH _ _ J).
    intros I. apply in_app_or in I as [I|I]; [exact (S1 s N I)|]. apply in_app_or in I as [I|I]; [exact (NK I)|]. destruct I as [I|I]; [discriminate I | exact (NV I)].
  - intros J N. apply (IH _ _ J). intros I. apply in_app_or in I as [I|I]; [exact (S1 s N I) | exact (NK I)].
Qed.
Lemma joined_query_no_plus u q : ~ In 43 (or_empty (u_query u)) -> ~ In 43 q -> ~ In 43 (or_empty (joined_query u q)).
Proof.
  intros A B. unfold joined_query. destruct (u_query u) as [[|x y]|], q as [|c d]; cbn [truthy andb or_empty or_text text_of] in *; try assumption.
  - intros I. apply in_app_or in I as [I|[I|I]]; [exact (A I) | discriminate I | exact (B I)].
Qed.

(** ** The fields *)
Section Serialized.
  Variables (pads : bool) (repr : Time_Model.float -> text) (lower : text -> text) (uni_word : N -> bool) (host_ok : text -> bool) (media_type : text).
  Variables (codec_value : nat * value -> result bytes) (codec_struct : list (nat * value) -> result bytes).
  Variables (o : operation) (ms : list member) (vals : list (nat * value)) (q : HttpBind_Model.request).
  Hypothesis H : serialize_request pads repr lower uni_word host_ok media_type codec_value codec_struct o ms vals = Ok q.
  Lemma serialized_fields : exists l, q_fields q = tuples_loop lower Header l [].
  Proof.
    unfold serialize_request in H. destruct (write_all _ no_acc vals) as [a|] eqn:E1; [|discriminate H]. cbn [bind] in H.
    destruct (payload_of _ _ _ _ _ _ _) as [[[bd ct] cl]|] eqn:E2; [|discriminate H]. cbn [bind] in H.
    unfold check_length in H. destruct (length_required _ && _); [discriminate H|]. cbn [bind] in H.
    destruct (str_format (a_host a) None _) as [host|] eqn:E3; [|discriminate H]. cbn [bind] in H.
    destruct (path_format uni_word (o_path o) (a_path a)) as [path|] eqn:E4; [|discriminate H]. cbn [bind] in H.
    destruct (join_query_params _ _) as [query|] eqn:E5; [|discriminate H]. cbn [bind] in H.
    destruct (host_ok host) eqn:E6; [|discriminate H]. injection H as <-. eexists. reflexivity.
  Qed.
  Lemma serialized_query : exists l, join_query_params l (or_empty (o_query o)) = Ok (q_query q).
  Proof.
    unfold serialize_request in H. destruct (write_all _ no_acc vals) as [a|] eqn:E1; [|discriminate H]. cbn [bind] in H.
    destruct (payload_of _ _ _ _ _ _ _) as [[[bd ct] cl]|] eqn:E2; [|discriminate H]. cbn [bind] in H.
    unfold check_length in H. destruct (length_required _ && _); [discriminate H|]. cbn [bind] in H.
    destruct (str_format (a_host a) None _) as [host|] eqn:E3; [|discriminate H]. cbn [bind] in H.
    destruct (path_format uni_word (o_path o) (a_path a)) as [path|] eqn:E4; [|discriminate H]. cbn [bind] in H.
    destruct (join_query_params _ _) as [query|] eqn:E5; [|discriminate H]. cbn [bind] in H.
    destruct (host_ok host) eqn:E6; [|discriminate H]. injection H as <-. eexists. exact E5.
  Qed.
  Lemma serialized_clean : clean lower (q_fields q).
  Proof. destruct serialized_fields as (l & ->). apply tuples_clean. Qed.
End Serialized.
Lemma clean_ok lower fs : clean lower fs -> Transport_Spec.fields_ok lower fs.
Proof. intros [N C]. split; [exact N|]. apply Forall_forall. intros [k f] I. now destruct (C k f I). Qed.
Lemma named_lines lower name hs : map snd (Transport_Spec.named lower name hs) = lines_named lower name hs.
Proof.
  unfold Transport_Spec.named, lines_named. f_equal. apply filter_ext. intros h. destruct (text_eqb (lower (fst h)) (lower name)) eqn:E.
  - apply text_eqb_eq in E. now rewrite E, text_eqb_refl.
  - symmetry. apply text_eqb_neq. apply text_eqb_neq in E. congruence.
Qed.
Lemma crt_lines lower netloc fs name : clean lower fs -> lower (lit "host") <> lower (lit "accept") ->
  lines_named lower name (fst (Transport_Model.marshal_request lower netloc fs)) =
  match header_values lower fs name with
  | [] => if text_eqb (lower name) (lower (lit "host")) then [netloc] else if text_eqb (lower name) (lower (lit "accept")) then [lit "*/*"] else []
  | l => l
  end.
Proof.
  intros C D. rewrite <- named_lines, (Transport_Props.C78_crt lower netloc fs name (clean_ok lower fs C) D). rewrite Transport_Proofs.field_of_get. unfold header_values.
  destruct (dict_get (lower name) fs) as [f|] eqn:G.
  - apply dict_get_In in G. destruct C as [_ C]. destruct (C _ _ G) as (_ & V & ->). rewrite map_map. cbn [snd]. rewrite map_id. destruct (f_values f); [contradiction | reflexivity].
  - destruct (text_eqb (lower name) (lower (lit "host"))); [reflexivity|]. destruct (text_eqb (lower name) (lower (lit "accept"))); reflexivity.
Qed.
Lemma aiohttp_lines lower fs name : clean lower fs -> lines_named lower name (Transport_Model.aiohttp_headers fs) = header_values lower fs name.
Proof.
  intros C. rewrite <- named_lines, (Transport_Props.C78_aiohttp lower fs name (clean_ok lower fs C)). rewrite Transport_Proofs.field_of_get. unfold header_values.
  destruct (dict_get (lower name) fs) as [f|]; [|reflexivity]. rewrite map_map. cbn [snd]. apply map_id.
Qed.

(** ** Paths *)
Lemma filled_no_mark label ps : Forall no_mark ps -> (forall n, is_label n ps -> ~ In 63 (label n)) -> ~ In 63 (fill label ps).
Proof.
  intros F L I. unfold fill in I. apply in_concat in I. destruct I as (x & X & C). apply in_map_iff in X. destruct X as (p & <- & P).
  rewrite Forall_forall in F. specialize (F p P). destruct p as [t|n|n]; cbn [fill_piece no_mark] in *; [tauto | |]; apply (L n); try assumption; [now left | now right].
Qed.
Lemma base_no_mark p : ~ In 63 (or_empty p) -> ~ In 63 (endpoint_base p).
Proof.
  destruct p as [[|c r]|]; [intros _ [] | | intros _ []]. cbn [or_empty endpoint_base]. intros N I. apply in_app_or in I. destruct I as [I|I].
  - destruct (c =? 47); [destruct I | destruct I as [I|[]]; discriminate I].
  - unfold without_last_slash in I. destruct (rev (c :: r)) as [|x l] eqn:E; [destruct I|]. destruct (x =? 47); [|now apply N].
    apply N. rewrite <- (rev_involutive (c :: r)), E. cbn [rev]. apply in_or_app. now left.
Qed.
Lemma cut_target (p : text) (q : option text) : ~ In 63 p -> cut_at 63 (Transport_Model.render_path (Some p) q) = (p, q).
Proof. intros N. unfold Transport_Model.render_path. destruct q as [q|]; [now apply cut_at_app | rewrite app_nil_r; now apply cut_at_none]. Qed.
