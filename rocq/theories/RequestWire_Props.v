(** What a service receives of an operation's input, through either client (C96). *)
From Verif Require Import Base Base_Proofs Utf8_Model PyText_Model PyText_Proofs PySort_Model PyDict_Model PyDict_Proofs Fields_Model Http_Model Http_Spec Http_Proofs HttpPath_Proofs
  HttpVal_Model HttpVal_Spec HttpBind_Model HttpBind_Spec HttpBind_Proofs RequestWire_Model RequestWire_Spec RequestWire_Proofs.
From Verif Require Streams_Model Transport_Model Transport_Spec Transport_Proofs Transport_Props Http_Props HttpBind_Props Uri_Model PyDecimal_Model.
Local Open Scope N_scope.

(** A request made of an input: schema and values fit, the patterns of path and host are
    well formed, the path starts with a slash and holds no question mark. *)
Definition serialized pads repr lower uni_word host_ok media_type codec_value codec_struct o ms vals ps hs q : Prop :=
  good_schema request_places ms /\ written ms vals /\
  o_path o = show ps /\ Forall good_piece ps /\ Forall no_mark ps /\ (exists t ps', ps = Lit (47 :: t) :: ps') /\
  or_empty (o_host_prefix o) = show hs /\ Forall good_piece hs /\ HttpBind_Props.no_greedy hs /\
  serialize_request pads repr lower uni_word host_ok media_type codec_value codec_struct o ms vals = Ok q.

Lemma ok_inj {A} (a b : A) : Ok a = Ok b -> a = b.
Proof. congruence. Qed.
Section Wire.
  Variables (pads : bool) (repr : Time_Model.float -> text) (lower : text -> text) (uni_word : N -> bool) (host_ok : text -> bool) (media_type : text).
  Variables (codec_value : nat * value -> result bytes) (codec_struct : list (nat * value) -> result bytes).
  Variables (o : operation) (ms : list member) (vals : list (nat * value)) (ps hs : list piece) (q : HttpBind_Model.request).
  Variables (method : text) (streams : N -> Transport_Model.body) (events : Transport_Model.body) (e : endpoint).
  Notation made := (serialized pads repr lower uni_word host_ok media_type codec_value codec_struct o ms vals ps hs q).

  Lemma made_request : made ->
    (exists ct cl, body_of media_type codec_value codec_struct true (o_omit_empty o) request_places ms vals (q_body q) ct cl /\
       fields_of pads repr lower request_places ms vals ct cl (q_fields q)) /\
    (exists params, contributions request_places ms (query_params pads repr) vals params /\
       parse_query (q_query q) =
       match parse_query (or_empty (o_query o)) with
       | Some base => Some (base ++ map (fun kv => (fst kv, Some (snd kv))) params)
       | None => None
       end) /\
    (exists label, q_path q = fill label ps /\ has_sub [47; 47]%N (q_path q) = false /\
       forall n, is_label n ps -> exists m v, set_at request_places ms vals AtPath m v /\ m_name m = n /\ label_of pads repr ps m v (label n) /\
         (~ is_greedy n ps -> ~ In 47%N (label n))).
  Proof.
    intros (G & W & Op & Gp & _ & _ & Oh & Gh & Ng & H).
    destruct (HttpBind_Props.C59_request _ _ _ _ _ _ _ _ _ _ _ _ _ _ G W Op Gp Oh Gh Ng H) as (A & B & C & _). auto.
  Qed.
  Lemma made_clean : made -> ResponseWire_Proofs.clean lower (q_fields q).
  Proof. intros (_ & _ & _ & _ & _ & _ & _ & _ & _ & H). exact (serialized_clean _ _ _ _ _ _ _ _ _ _ _ _ H). Qed.
  Lemma made_path : made -> exists rest, q_path q = 47 :: rest /\ starts_with [47] rest = false.
  Proof.
    intros M. pose proof M as (_ & _ & _ & _ & _ & (t & ps' & E) & _). destruct (made_request M) as (_ & _ & (label & P & D & _)).
    rewrite E in P. exists (t ++ fill label ps'). split; [exact P|]. rewrite P in D. change (fill label (Lit (47 :: t) :: ps')) with (47 :: (t ++ fill label ps')) in D.
    destruct (t ++ fill label ps') as [|c r]; [reflexivity|]. cbn [has_sub starts_with] in D |- *. apply orb_false_iff in D as [D _].
    change (47 =? 47) with true in D. cbn [andb] in D. exact D.
  Qed.
  Lemma made_labels : made -> plain_zeros ms vals -> exists label, q_path q = fill label ps /\
    forall n, is_label n ps -> label_says pads repr ms vals n (label n) /\ (~ is_greedy n ps -> ~ In 47 (label n)) /\ ~ In 63 (label n).
  Proof.
    intros M Z. destruct (made_request M) as (_ & _ & (label & P & _ & L)). exists label. split; [exact P|]. intros n I.
    destruct (L n I) as (m & v & A & N & (s & g & -> & Gr & T) & S).
    destruct (HttpBind_Props.C59_label pads repr g (m_leaf m) s (label n)) as (t & Q & D & NM & _); [|exact T|].
    - intros d ->. exact (Z m d A).
    - split; [|now split]. exists m, s, t. auto.
  Qed.
  Definition destined (r : Http_Model.request) : Prop :=
    let u := e_uri e in
    r = Http_Model.mkRequest (mkUri (u_scheme u) (or_text (u_username u) None) (or_text (u_password u) None) (u_host u) (or_port (u_port u) None)
        (Some (endpoint_base (u_path u) ++ q_path q)) (joined_query u (q_query q)) (or_text (u_fragment u) None)) method 0 (q_fields q).
  Lemma made_applied r : made -> apply_endpoint host_ok e (Http_Model.mkRequest (destination q) method 0 (q_fields q)) = Ok r -> destined r.
  Proof. intros M A. destruct (made_path M) as (rest & P & S). exact (applied host_ok e q method (q_fields q) r rest P S A). Qed.
  Lemma parse_nil s : parse_query s = Some [] -> s = [].
  Proof.
    destruct s as [|c s]; [reflexivity|]. unfold parse_query. destruct (split_on_cons 38 (c :: s)) as (p & l & ->). cbn [map all_some].
    destruct (decode_param p); [|discriminate]. destruct (all_some (map decode_param l)); discriminate.
  Qed.
  (** What holds of the joined query. *)
  Definition query_says (query : option text) (params : list (text * text)) : Prop :=
    (forall a b, parse_query (or_empty (u_query (e_uri e))) = Some a -> parse_query (or_empty (o_query o)) = Some b ->
       parse_query (or_empty query) = Some (all_params a b params)) /\
    (u_query (e_uri e) = None -> o_query o = None -> params = [] -> query = None).
  Lemma made_query : made -> exists params, contributions request_places ms (query_params pads repr) vals params /\ query_says (joined_query (e_uri e) (q_query q)) params.
  Proof.
    intros M. destruct (made_request M) as (_ & (params & C & P) & _). exists params. split; [exact C|]. split.
    - intros a b A B. rewrite B in P. exact (parse_joined (e_uri e) (q_query q) a _ A P).
    - intros U O ->. rewrite O in P. cbn in P. apply parse_nil in P. unfold joined_query. rewrite U, P. reflexivity.
  Qed.

  (** The connection goes to the endpoint.  The target is the path of the endpoint, followed
      by the path of the operation with its labels, each of them the text of its member;
      then, after the first question mark, the parameters of the endpoint, of the operation
      and of the members, in this order. *)
  Theorem C96_target w : made -> plain_zeros ms vals -> ~ In 63 (or_empty (u_path (e_uri e))) ->
    crt_send lower host_ok method streams events e q = Ok w ->
    s_method w = method /\ s_connect w = (u_scheme (e_uri e), u_host (e_uri e), match u_port (e_uri e) with Some 0 => None | p => p end) /\
    exists label params query,
      cut_at 63 (s_target w) = (endpoint_base (u_path (e_uri e)) ++ fill label ps, query) /\
      (forall n, is_label n ps -> label_says pads repr ms vals n (label n) /\ (~ is_greedy n ps -> ~ In 47 (label n))) /\
      contributions request_places ms (query_params pads repr) vals params /\
      (forall a b, parse_query (or_empty (u_query (e_uri e))) = Some a -> parse_query (or_empty (o_query o)) = Some b ->
         parse_query (or_empty query) = Some (all_params a b params)) /\
      (u_query (e_uri e) = None -> o_query o = None -> params = [] -> query = None).
  Proof.
    intros M Z NM H. unfold crt_send in H. destruct (apply_endpoint _ _ _) as [r|] eqn:A; [|discriminate H]. cbn [bind] in H. apply ok_inj in H. subst w.
    rewrite (made_applied r M A). cbn [s_method s_connect s_target r_method r_destination u_scheme u_host u_port u_path u_query].
    split; [reflexivity|]. split; [destruct (u_port (e_uri e)) as [[|x]|]; reflexivity|].
    destruct (made_labels M Z) as (label & P & L). destruct (made_query M) as (params & C & Q). exists label, params, (joined_query (e_uri e) (q_query q)).
    split.
    - rewrite P. apply cut_target. intros I. apply in_app_or in I as [I|I]; [exact (base_no_mark _ NM I)|]. revert I. apply filled_no_mark.
      + now destruct M as (_ & _ & _ & _ & F & _).
      + intros n I. now apply L.
    - split; [|split; [exact C | exact Q]]. intros n I. destruct (L n I) as (A1 & A2 & _). now split.
  Qed.

  (** Segment by segment: where the pattern has a label as a segment, the service finds just
      one segment and it is the text of the member, percent-decoded. *)
  Theorem C96_segments segs w : made -> plain_zeros ms vals -> ~ In 63 (or_empty (u_path (e_uri e))) ->
    segs <> [] -> ps = segments ([] :: segs) -> (forall seg, In seg segs -> (exists l, seg = [Lit l] /\ ~ In 47 l) \/ exists n, seg = [Label n]) ->
    crt_send lower host_ok method streams events e q = Ok w ->
    exists received, split_on 47 (fst (cut_at 63 (s_target w))) = split_on 47 (endpoint_base (u_path (e_uri e))) ++ received /\
      Forall2 (segment_says pads repr ms vals) segs received.
  Proof.
    intros M Z NM NE E K H. destruct (C96_target w M Z NM H) as (_ & _ & label & params & query & T & L & _). rewrite T. cbn [fst].
    assert (NG : forall n, ~ is_greedy n ps).
    { intros n G. rewrite E in G. unfold is_greedy in G. cbn [segments app] in G. apply in_flat_map in G as (seg & I & G). destruct G as [G|G]; [discriminate G|].
      destruct (K seg I) as [(l & -> & _)|(x & ->)]; destruct G as [G|[]]; discriminate G. }
    assert (F : fill label ps = 47 :: join [47] (map (fill label) segs)).
    { rewrite E, fill_segments by discriminate. cbn [map]. destruct segs as [|s0 segs0]; [contradiction|]. cbn [map]. rewrite join_cons2. reflexivity. }
    assert (LB : forall n, In [Label n] segs -> is_label n ps).
    { intros n I. left. rewrite E. cbn [segments app]. apply in_flat_map. exists [Label n]. split; [exact I|]. right. now left. }
    rewrite F, split_on_app2. exists (map (fill label) segs). split.
    - f_equal. apply split_on_join; [destruct segs; [contradiction | discriminate]|]. intros p I. apply in_map_iff in I as (seg & <- & I).
      destruct (K seg I) as [(l & -> & S)|(n & ->)]; unfold fill; cbn [map fill_piece List.concat]; rewrite app_nil_r; [exact S|].
      destruct (L n (LB n I)) as [_ S]. exact (S (NG n)).
    - assert (G : forall l, (forall seg, In seg l -> In seg segs) -> Forall2 (segment_says pads repr ms vals) l (map (fill label) l)).
      { induction l as [|seg l IH]; intros Sub; [constructor|]. cbn [map]. constructor; [|apply IH; intros s I; apply Sub; now right].
        pose proof (Sub seg (or_introl eq_refl)) as I. destruct (K seg I) as [(t & -> & S)|(n & ->)]; unfold fill; cbn [map fill_piece List.concat segment_says]; rewrite app_nil_r; [reflexivity|].
        now destruct (L n (LB n I)). }
      apply G. auto.
  Qed.

  (** The header lines: for every name those of the members and those that describe the
      body; where there are none for the host or for accept, one is filled in; no others. *)
  Theorem C96_lines w : made -> lower (lit "host") <> lower (lit "accept") -> crt_send lower host_ok method streams events e q = Ok w ->
    exists lines ct cl netloc, contributions request_places ms (header_lines pads repr) vals lines /\
      body_of media_type codec_value codec_struct true (o_omit_empty o) request_places ms vals (q_body q) ct cl /\
      (forall name, lines_named lower name (s_lines w) =
         match lines_named lower name (described lines ct cl) with
         | [] => if text_eqb (lower name) (lower (lit "host")) then [netloc] else if text_eqb (lower name) (lower (lit "accept")) then [lit "*/*"] else []
         | l => l
         end) /\
      (truthy (u_username (e_uri e)) = false -> exists h, (h = u_host (e_uri e) \/ h = [91] ++ u_host (e_uri e) ++ [93]) /\
         plain_host h (match u_port (e_uri e) with Some 0 => None | p => p end) netloc).
  Proof.
    intros M D H. unfold crt_send in H. destruct (apply_endpoint _ _ _) as [r|] eqn:A; [|discriminate H]. cbn [bind] in H. apply ok_inj in H. subst w.
    rewrite (made_applied r M A). cbn [s_lines r_destination Http_Model.r_fields].
    destruct (made_request M) as ((ct & cl & B & (lines & C & F)) & _).
    match goal with |- context [Uri_Model.uri_netloc ?d] => exists lines, ct, cl, (Uri_Model.uri_netloc d); set (dest := d) end.
    split; [exact C|]. split; [exact B|]. split.
    - intros name. rewrite (crt_lines lower _ (q_fields q) name (made_clean M) D). rewrite F. reflexivity.
    - intros U. unfold Uri_Model.uri_netloc, dest. cbn [u_username u_password u_host u_port]. unfold or_text. rewrite U.
      eexists. split; [|unfold plain_host; cbn [app]; replace (match u_port (e_uri e) with Some 0 => None | p => p end) with (or_port (u_port (e_uri e)) None) by (destruct (u_port (e_uri e)) as [[|x]|]; reflexivity); reflexivity].
      destruct (Uri_Model.host_type (u_host (e_uri e))); auto.
  Qed.

  (** Every such request is sent: the endpoint is refused only for its host. *)
  Theorem C96_total : made -> host_ok (u_host (e_uri e)) = true -> exists w, crt_send lower host_ok method streams events e q = Ok w.
  Proof.
    intros _ K. destruct (Http_Props.C25_total host_ok e (Http_Model.mkRequest (destination q) method 0 (q_fields q)) K) as (r & E). unfold crt_send. rewrite E. cbn [bind]. eauto.
  Qed.

  (** The body arrives whole, in chunks over HTTP/2 ... *)
  Lemma carried : Transport_Spec.content (request_body streams events (q_body q)) = body_says streams events (q_body q).
  Proof. destruct (q_body q) as [bs|s|]; [reflexivity | | reflexivity]. cbn [request_body body_says]. destruct (streams s); reflexivity. Qed.
  Lemma not_again : ~ body_starts_again streams events (q_body q) ->
    ~ Transport_Spec.restarting (request_body streams events (q_body q)) /\ forall c, request_body streams events (q_body q) <> Transport_Model.BRestart c.
  Proof.
    destruct (q_body q) as [bs|s|]; cbn [request_body body_starts_again]; intros N.
    - split; [intros (rem & c & E); discriminate E | discriminate].
    - split; [|discriminate]. intros (rem & c & E). apply N. unfold starts_again. destruct (streams s) as [b|b|r|c0|c0|w0]; try discriminate E; [right; eauto|].
      left. exists rem, c. exact E.
    - split; [intros R; apply N; now left | intros c E; apply N; right; eauto].
  Qed.
  Theorem C96_http2 w size : crt_send lower host_ok method streams events e q = Ok w -> (size <> 0)%Z -> ~ body_starts_again streams events (q_body q) ->
    exists n, forall fuel, (n <= fuel)%nat -> exists chunks, Transport_Model.create_body_generator fuel size (s_body w) = Some (Ok chunks) /\
      List.concat chunks = body_says streams events (q_body q).
  Proof.
    intros H S N. unfold crt_send in H. destruct (apply_endpoint _ _ _) as [r|]; [|discriminate H]. cbn [bind] in H. apply ok_inj in H. subst w. cbn [s_body].
    rewrite <- carried. apply Transport_Props.C77_http2; [exact S|]. now apply not_again.
  Qed.
  (** ... and from one reader over HTTP/1.1, if there is anything to be sent. *)
  Theorem C96_http1 w : crt_send lower host_ok method streams events e q = Ok w ->
    exists s, Transport_Model.create_body_stream (s_body w) = Ok s /\
    match s with Some r => Transport_Spec.content (Transport_Model.BReader r) = body_says streams events (q_body q) | None => body_says streams events (q_body q) = [] end.
  Proof.
    intros H. unfold crt_send in H. destruct (apply_endpoint _ _ _) as [r|]; [|discriminate H]. cbn [bind] in H. apply ok_inj in H. subst w. cbn [s_body].
    rewrite <- carried. destruct (Transport_Props.C77_http1 (request_body streams events (q_body q))) as (s & -> & K). exists s. split; [reflexivity|]. destruct s; [exact (proj2 K) | exact K].
  Qed.

  (** The length that is announced is that of the bytes that follow; none is announced for a
      body that is not in memory. *)
  Theorem C96_framing w : made -> lower (lit "host") <> lower (lit "accept") -> lower (lit "content-type") <> lower (lit "content-length") ->
    lower (lit "content-length") <> lower (lit "host") -> lower (lit "content-length") <> lower (lit "accept") ->
    (forall m p v lines k t, set_at request_places ms vals p m v -> header_lines pads repr m p v lines -> In (k, t) lines ->
       lower k <> lower (lit "content-type") /\ lower k <> lower (lit "content-length")) ->
    crt_send lower host_ok method streams events e q = Ok w ->
    let announced := lines_named lower (lit "content-length") (s_lines w) in
    announced = [] \/ (exists bs, q_body q = BBytes bs) /\ announced = [dec (N.of_nat (List.length (body_says streams events (q_body q))))].
  Proof.
    intros M D D2 D3 D4 K H. cbv zeta. unfold crt_send in H. destruct (apply_endpoint _ _ _) as [r|] eqn:A; [|discriminate H]. cbn [bind] in H. apply ok_inj in H. subst w.
    rewrite (made_applied r M A). cbn [s_lines r_destination Http_Model.r_fields]. rewrite crt_lines; [|exact (made_clean M) | exact D].
    pose proof M as (G & W & Op & Gp & _ & _ & Oh & Gh & Ng & H).
    destruct (HttpBind_Props.C59_content _ _ _ _ _ _ _ _ _ _ _ _ _ _ G W Op Gp Oh Gh Ng H D2 K) as (CL & _).
    apply text_eqb_neq in D3, D4. rewrite D3, D4.
    destruct (q_body q) as [bs|s|]; cbn [body_says].
    - destruct CL as [->|(-> & ->)]; [|now left]. right. split; [eauto|]. reflexivity.
    - rewrite CL. now left.
    - rewrite CL. now left.
  Qed.

  (** Through aiohttp: the same connection, path and lines, and the body; the parameters that
      have a value, grouped by their names. *)
  Theorem C96_aiohttp unquote_plus g : made -> plain_zeros ms vals ->
    (forall s t, ~ In 43 s -> decode s = Some t -> unquote_plus s = t) ->
    ~ body_starts_again streams events (q_body q) ->
    aiohttp_send lower host_ok unquote_plus method streams events e q = Ok g ->
    g_method g = method /\ g_connect g = (u_scheme (e_uri e), u_host (e_uri e), match u_port (e_uri e) with Some 0 => None | p => p end) /\
    (exists label, g_path g = endpoint_base (u_path (e_uri e)) ++ fill label ps /\
      forall n, is_label n ps -> label_says pads repr ms vals n (label n) /\ (~ is_greedy n ps -> ~ In 47 (label n))) /\
    (exists lines ct cl, contributions request_places ms (header_lines pads repr) vals lines /\
      body_of media_type codec_value codec_struct true (o_omit_empty o) request_places ms vals (q_body q) ct cl /\
      forall name, lines_named lower name (g_lines g) = lines_named lower name (described lines ct cl)) /\
    (exists params, contributions request_places ms (query_params pads repr) vals params /\
      forall a b k, parse_query (or_empty (u_query (e_uri e))) = Some a -> parse_query (or_empty (o_query o)) = Some b ->
        ~ In 43 (or_empty (u_query (e_uri e))) -> ~ In 43 (or_empty (o_query o)) ->
        (match dict_get k (g_params g) with Some vs => vs | None => [] end) =
        flat_map (fun p => match p with (n, Some (x :: v)) => if text_eqb n k then [x :: v] else [] | _ => [] end) (all_params a b params)) /\
    match g_body g with
    | Some w => exists n, forall fuel, (n <= fuel)%nat -> exists chunks w', Streams_Model.iter_pieces Transport_Model.w_read fuel Transport_Model.DEFAULT_CHUNK_SIZE w = Some (Ok (chunks, w')) /\ List.concat chunks = body_says streams events (q_body q)
    | None => body_says streams events (q_body q) = []
    end.
  Proof.
    intros M Z U N H. unfold aiohttp_send in H. destruct (apply_endpoint _ _ _) as [r|] eqn:A; [|discriminate H]. cbn [bind] in H.
    destruct (Transport_Model.aiohttp_body _ _) as [bd|] eqn:B; [|discriminate H]. cbn [bind] in H. apply ok_inj in H. subst g.
    cbn [g_method g_connect g_path g_lines g_params g_body].
    assert (BD : match bd with
      | Some w => exists n, forall fuel, (n <= fuel)%nat -> exists chunks w', Streams_Model.iter_pieces Transport_Model.w_read fuel Transport_Model.DEFAULT_CHUNK_SIZE w = Some (Ok (chunks, w')) /\ List.concat chunks = body_says streams events (q_body q)
      | None => body_says streams events (q_body q) = []
      end).
    { destruct (not_again N) as [N1 N2]. match type of B with Transport_Model.aiohttp_body ?f _ = _ => destruct (Transport_Props.C77_aiohttp f _ N1 N2) as (s & E & K) end.
      rewrite E in B. injection B as <-. rewrite carried in K. destruct s; [exact K | exact (proj2 K)]. }
    clear B. rewrite (made_applied r M A). cbn [r_method r_destination Http_Model.r_fields u_scheme u_host u_port u_path u_query].
    split; [reflexivity|]. split; [destruct (u_port (e_uri e)) as [[|x]|]; reflexivity|]. split; [|split; [|split; [|exact BD]]].
    - destruct (made_labels M Z) as (label & P & L). exists label. split; [now rewrite P|]. intros n I. destruct (L n I) as (A1 & A2 & _). now split.
    - destruct (made_request M) as ((ct & cl & Bo & (lines & C & F)) & _). exists lines, ct, cl. split; [exact C|]. split; [exact Bo|].
      intros name. rewrite aiohttp_lines by exact (made_clean M). apply F.
    - destruct (made_query M) as (params & C & (Q & _)). exists params. split; [exact C|]. intros a b k Ha Hb N1 N2. specialize (Q a b Ha Hb).
      assert (NP : ~ In 43 (or_empty (joined_query (e_uri e) (q_query q)))).
      { apply joined_query_no_plus; [exact N1|]. pose proof M as (_ & _ & _ & _ & _ & _ & _ & _ & _ & H). destruct (serialized_query _ _ _ _ _ _ _ _ _ _ _ _ H) as (l & J). exact (joined_no_plus _ _ _ J N2). }
      destruct (joined_query (e_uri e) (q_query q)) as [s|].
      + exact (Transport_Props.C78_query unquote_plus s _ k U NP Q).
      + cbn [or_empty] in Q. injection Q as <-. reflexivity.
  Qed.

  (** User and password of an endpoint, if it has them, are sent in the host line. *)
  Theorem C96_user_refuted w n p : made -> lower (lit "host") <> lower (lit "accept") ->
    (forall lines ct cl, contributions request_places ms (header_lines pads repr) vals lines -> lines_named lower (lit "host") (described lines ct cl) = []) ->
    u_username (e_uri e) = Some n -> n <> [] -> u_password (e_uri e) = Some p -> p <> [] ->
    crt_send lower host_ok method streams events e q = Ok w ->
    exists rest, lines_named lower (lit "host") (s_lines w) = [n ++ [58] ++ p ++ [64] ++ rest].
  Proof.
    intros M D NH Un Nn Up Np H. unfold crt_send in H. destruct (apply_endpoint _ _ _) as [r|] eqn:A; [|discriminate H]. cbn [bind] in H. apply ok_inj in H. subst w.
    rewrite (made_applied r M A). cbn [s_lines r_destination Http_Model.r_fields].
    destruct (made_request M) as ((ct & cl & B & (lines & C & F)) & _).
    rewrite (crt_lines lower _ (q_fields q) (lit "host") (made_clean M) D). rewrite F. specialize (NH lines ct cl C). unfold described in NH. rewrite NH, text_eqb_refl.
    unfold Uri_Model.uri_netloc. cbn [u_username u_password u_host u_port]. rewrite Un, Up. destruct n as [|x n]; [contradiction|]. destruct p as [|y p]; [contradiction|].
    change (or_text (Some (x :: n)) None) with (Some (x :: n)). change (or_text (Some (y :: p)) None) with (Some (y :: p)). cbv iota.
    match goal with |- exists _, [_ ++ ?a ++ ?b] = _ => exists (a ++ b); generalize (a ++ b) end. intros t. cbn [app]. rewrite <- !app_assoc. cbn [app]. rewrite <- !app_assoc. reflexivity.
  Qed.
  (** A stream of the input that can be iterated again is wrapped in a reader that starts it
      again for every read: over HTTP/2 too, the request never ends. *)
  Theorem C96_restarting_refuted w size s c : q_body q = BStream s -> streams s = Transport_Model.BRestart c -> List.concat c <> [] ->
    crt_send lower host_ok method streams events e q = Ok w -> forall fuel, Transport_Model.create_body_generator fuel size (s_body w) = None.
  Proof.
    intros B S N H fuel. unfold crt_send in H. destruct (apply_endpoint _ _ _) as [r|]; [|discriminate H]. cbn [bind] in H. apply ok_inj in H. subst w. cbn [s_body].
    rewrite B. cbn [request_body Transport_Model.create_body_generator]. rewrite S.
    destruct (Transport_Props.C77_restarting_refuted true c N) as (w & W & K). unfold Transport_Model.aiohttp_body in W. apply ok_inj in W. injection W as <-. now rewrite K.
  Qed.
End Wire.
Print Assumptions C96_target.
Print Assumptions C96_segments.
Print Assumptions C96_lines.
Print Assumptions C96_total.
Print Assumptions C96_http2.
Print Assumptions C96_http1.
Print Assumptions C96_framing.
Print Assumptions C96_aiohttp.
Print Assumptions C96_user_refuted.
Print Assumptions C96_restarting_refuted.

(** ** An example *)
Import HttpBind_Props.
Definition ex_endpoint : endpoint := mkEndpoint (mkUri (lit "https") None None (lit "h.example") (Some 8443) (Some (lit "/base/")) (Some (lit "v=1")) None) [].
Definition ex_streams (n : N) : Transport_Model.body := Transport_Model.BBytes [].
Definition ex_w : sent := Eval vm_compute in
  match crt_send ex_lower (fun _ => true) (lit "PUT") ex_streams (Transport_Model.BIter []) ex_endpoint ex_q with Ok w => w | Err _ => mkSent ([], [], None) [] [] [] (Transport_Model.BBytes []) end.
Definition ex_segs : list (list piece) := [[Lit (lit "items")]; [Label (lit "id")]].
Definition ex_ps : list piece := segments ([] :: ex_segs).
Definition ex_hs : list piece := [Label (lit "acct"); Lit (lit ".")].
Lemma ex_made : serialized true (fun _ => []) ex_lower (fun _ => false) (fun _ => true) (lit "application/json") ex_one ex_struct ex_op ex_members ex_values ex_ps ex_hs ex_q.
Proof.
  destruct C59_request_example as (G & W & H & _). split; [exact G|]. split; [exact W|]. split; [reflexivity|]. split; [|split; [|split; [|split; [reflexivity|split; [|split]]]]].
  - repeat (constructor; [first [split; intros I; vm_compute in I; each_member; discriminate
      | split; [intros c I; vm_compute in I; each_member; subst c; reflexivity | exists 105%N; split; [now left | lia]]]|]). constructor.
  - repeat (constructor; [first [exact Logic.I | intros I; vm_compute in I; each_member; discriminate]|]). constructor.
  - exists [], [Lit (lit "items"); Lit [47]; Label (lit "id")]. reflexivity.
  - constructor; [|constructor; [|constructor]].
    + split; [intros c I; vm_compute in I; each_member; subst c; reflexivity|]. exists 97%N. split; [now left|lia].
    + split; intros I; vm_compute in I; each_member; discriminate.
  - intros n I. unfold ex_hs in I. each_member; discriminate.
  - exact H.
Qed.
Lemma ex_zeros : plain_zeros ex_members ex_values.
Proof. intros m d (i & I & N & P). exfalso. unfold ex_values in I. each_member; discriminate. Qed.
Example C96_ex :
  crt_send ex_lower (fun _ => true) (lit "PUT") ex_streams (Transport_Model.BIter []) ex_endpoint ex_q = Ok ex_w /\
  s_connect ex_w = (lit "https", lit "h.example", Some 8443) /\ s_target ex_w = lit "/base/items/a%2Fb?v=1&list&page=2" /\
  s_lines ex_w = [(lit "X-Tag", lit "4"); (lit "X-Tag", lit "5"); (lit "x-meta-k", lit "v"); (lit "content-type", lit "application/json"); (lit "content-length", lit "2");
                  (lit "host", lit "h.example:8443"); (lit "accept", lit "*/*")] /\
  body_says ex_streams (Transport_Model.BIter []) (q_body ex_q) = [4; 6].
Proof. repeat (split; [vm_compute; reflexivity|]). vm_compute. reflexivity. Qed.
Lemma ex_path_ok : ~ In 63 (or_empty (u_path (e_uri ex_endpoint))).
Proof. intros I. vm_compute in I. each_member; discriminate. Qed.
Example C96_target_ex : exists label params query, cut_at 63 (s_target ex_w) = (lit "/base" ++ fill label ex_ps, query) /\ label_says true (fun _ => []) ex_members ex_values (lit "id") (label (lit "id")) /\
    contributions request_places ex_members (query_params true (fun _ => [])) ex_values params /\ parse_query (or_empty query) = Some (all_params [(lit "v", Some (lit "1"))] [(lit "list", None)] params).
Proof.
  destruct C96_ex as (E & _).
  destruct (C96_target true (fun _ => []) ex_lower (fun _ => false) (fun _ => true) (lit "application/json") ex_one ex_struct ex_op ex_members ex_values ex_ps ex_hs ex_q
    (lit "PUT") ex_streams (Transport_Model.BIter []) ex_endpoint ex_w ex_made ex_zeros ex_path_ok E) as (_ & _ & label & params & query & T & L & C & Q & _).
  exists label, params, query. split; [exact T|]. split; [apply (L (lit "id")); left; right; right; right; now left|]. split; [exact C|]. apply Q; vm_compute; reflexivity.
Qed.
Example C96_segments_ex : exists a b, split_on 47 (fst (cut_at 63 (s_target ex_w))) = [[]; lit "base"; a; b] /\ a = lit "items" /\ label_says true (fun _ => []) ex_members ex_values (lit "id") b.
Proof.
  destruct C96_ex as (E & _).
  destruct (C96_segments true (fun _ => []) ex_lower (fun _ => false) (fun _ => true) (lit "application/json") ex_one ex_struct ex_op ex_members ex_values ex_ps ex_hs ex_q
    (lit "PUT") ex_streams (Transport_Model.BIter []) ex_endpoint ex_segs ex_w ex_made ex_zeros ex_path_ok) as (rc & S & F); [discriminate | reflexivity | | exact E |].
  - intros seg I. unfold ex_segs in I. each_member; subst seg; [left | right]; eexists; [split|]; try reflexivity. intros I. vm_compute in I. each_member; discriminate.
  - unfold ex_segs in F. inversion F as [|? a ? l A F1]; subst. inversion F1 as [|? b ? l' B F2]; subst. inversion F2; subst. exists a, b. split; [exact S|]. now split.
Qed.

(** A member of the query whose value is empty does not reach the service through aiohttp. *)
Definition blank_ms : list member := [mkMember (lit "p") (ShScalar KText) false (Some (lit "prefix")) false None None false false false false false None None].
Theorem C96_blank_refuted : exists q g,
  serialize_request true (fun _ => []) ex_lower (fun _ => false) (fun _ => true) (lit "application/json") ex_one ex_struct (mkOperation (lit "/") None None true 200) blank_ms [(0%nat, VOne (HText []))] = Ok q /\
  aiohttp_send ex_lower (fun _ => true) (fun s => s) (lit "GET") ex_streams (Transport_Model.BIter []) ex_endpoint q = Ok g /\
  contributions request_places blank_ms (query_params true (fun _ => [])) [(0%nat, VOne (HText []))] [(lit "prefix", [])] /\
  g_params g = [(lit "v", [lit "1"])].
Proof.
  set (q := match serialize_request true (fun _ => []) ex_lower (fun _ => false) (fun _ => true) (lit "application/json") ex_one ex_struct (mkOperation (lit "/") None None true 200) blank_ms [(0%nat, VOne (HText []))] with
            | Ok q => q | Err _ => ex_q end).
  vm_compute in q.
  set (g := match aiohttp_send ex_lower (fun _ => true) (fun s => s) (lit "GET") ex_streams (Transport_Model.BIter []) ex_endpoint q with
            | Ok g => g | Err _ => mkGiven ([], [], None) (None, None) [] [] [] [] None end).
  vm_compute in g. exists q, g. split; [vm_compute; reflexivity|]. split; [vm_compute; reflexivity|]. split; [|vm_compute; reflexivity].
  exists [[(lit "prefix", [])]]. split; [reflexivity|]. constructor; [|constructor]. exists (nth 0 blank_ms (blank_member [] ShMap)), (AtQuery (lit "prefix")).
  split; [reflexivity|]. split; [now left|]. exists [[]]. split; [reflexivity|]. exists []. split; reflexivity.
Qed.
Print Assumptions C96_blank_refuted.
Example C96_aiohttp_ex : match aiohttp_send ex_lower (fun _ => true) (fun s => s) (lit "PUT") ex_streams (Transport_Model.BIter []) ex_endpoint ex_q with
  | Ok g => g_path g = lit "/base/items/a%2Fb" /\ g_params g = [(lit "v", [lit "1"]); (lit "page", [lit "2"])] /\ ~ body_starts_again ex_streams (Transport_Model.BIter []) (q_body ex_q)
  | Err _ => False
  end.
Proof. vm_compute. repeat split. intros []. Qed.
