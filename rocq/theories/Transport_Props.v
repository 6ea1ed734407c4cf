(** C76-C78: bodies are read whole, bodies are sent whole, headers and queries are sent. *)
From Verif Require Import Base Base_Proofs Utf8_Model PyText_Model PyText_Proofs PyDict_Model PyDict_Proofs Fields_Model Fields_Props Streams_Model Http_Spec Transport_Model Transport_Spec Transport_Proofs.
From Coq Require Import Lia.
Local Open Scope N_scope.

(** ** C76 *)
(** Every body that is not a synchronous reader is consumed whole by [consume_body_async]. *)
Theorem C76_async b : ~ sync_reader b -> read_streaming_blob_async b = Ok (Got (content b)).
Proof.
  intros NS. destruct b as [b|b|r|c|c|[rem [r|c|c]]]; cbn [read_streaming_blob_async read_streaming_blob content w_src w_rem]; try reflexivity.
  - unfold rd_read, rd_left. cbn [Z.ltb bind]. change (Z.ltb (-1) 0) with true. cbv iota zeta. cbn [bind].
    destruct (d_async r) eqn:A; [reflexivity | exfalso; apply NS; now exists r].
  - now rewrite fold_concat.
  - now rewrite fold_concat.
Qed.
Print Assumptions C76_async.
(** Bytes, byte arrays and synchronous readers are consumed whole by [consume_body]; async
    iterables are refused. *)
Theorem C76_sync b :
  (sync_reader b \/ (exists s, b = BBytes s \/ b = BArray s) -> read_streaming_blob b = Ok (Got (content b))) /\
  (forall c, b = BIter c \/ b = BRestart c -> read_streaming_blob b = Err (OtherErr 40)).
Proof.
  split.
  - intros [(r & -> & A)|(s & [->| ->])]; cbn [read_streaming_blob content]; try reflexivity. now rewrite A.
  - intros c [->| ->]; reflexivity.
Qed.
Print Assumptions C76_sync.
(** But no synchronous reader can be consumed by [consume_body_async] ... *)
Theorem C76_reader_refuted b : sync_reader b -> read_streaming_blob_async b = Err TypeError.
Proof. intros (r & -> & A). cbn [read_streaming_blob_async]. unfold rd_read. cbn [bind]. now rewrite A. Qed.
Print Assumptions C76_reader_refuted.
(** ... and instead of refusing an asynchronous one, [consume_body] returns a coroutine. *)
Theorem C76_coroutine_refuted b : (exists r, b = BReader r /\ d_async r = true) \/ (exists w, b = BWrapped w) -> read_streaming_blob b = Ok Coroutine.
Proof. intros [(r & -> & A)|(w & ->)]; cbn [read_streaming_blob]; [now rewrite A | reflexivity]. Qed.
Print Assumptions C76_coroutine_refuted.
Definition ex_rd := mkRd (lit "hello world") 6 [0%nat; 2%nat] true false false.
Example C76_ex : read_streaming_blob_async (BReader ex_rd) = Ok (Got (lit "world")) /\ read_streaming_blob (BReader (bytes_io (lit "abc"))) = Ok (Got (lit "abc"))
  /\ read_streaming_blob_async (BIter [lit "a"; []; lit "b"]) = Ok (Got (lit "ab")) /\ sync_reader (BReader (bytes_io (lit "abc"))).
Proof. repeat split. now exists (bytes_io (lit "abc")). Qed.
(** A response of the CRT is read up to its end. *)
Theorem C76_response chunks rest : Forall (fun c => c <> []) chunks -> read_streaming_blob_async (BIter (response_chunks (chunks ++ [] :: rest))) = Ok (Got (List.concat chunks)).
Proof.
  intros F. cbn [read_streaming_blob_async]. rewrite fold_concat. cbn [app]. do 3 f_equal. induction F as [|c cs N F IH]; [reflexivity|]. destruct c as [|x c]; [contradiction|]. cbn [app response_chunks]. now rewrite IH.
Qed.
Print Assumptions C76_response.
Example C76_response_ex : response_chunks [lit "ab"; lit "c"; []] = [lit "ab"; lit "c"].
Proof. reflexivity. Qed.

(** ** C77 *)
(** Over HTTP/2, the chunks of every body make up just its content, whatever sizes its
    reads return. *)
Theorem C77_http2 size b : (size <> 0)%Z -> ~ restarting b ->
  exists n, forall fuel, (n <= fuel)%nat -> exists chunks, create_body_generator fuel size b = Some (Ok chunks) /\ List.concat chunks = content b.
Proof.
  intros K NR. assert (D : (DEFAULT_CHUNK_SIZE <> 0)%Z) by discriminate.
  assert (RD : forall k r fuel, (k <> 0)%Z -> (S (List.length (content (BReader r))) <= fuel)%nat -> exists l r', iter_pieces rd_read fuel k r = Some (Ok (l, r')) /\ List.concat l = content (BReader r)).
  { intros k r fuel Hk F. apply (pieces_all rd_read (fun r => content (BReader r)) (fun _ => True)); [|exact Logic.I | lia].
    intros s _. destruct (rd_read_ok k s Hk) as (out & s' & H & E & N). exists out, s'. auto. }
  assert (WR : forall w fuel, w_good w -> (S (List.length (content (BWrapped w))) <= fuel)%nat -> exists l w', iter_pieces w_read fuel DEFAULT_CHUNK_SIZE w = Some (Ok (l, w')) /\ List.concat l = content (BWrapped w)).
  { intros w fuel G F. apply (pieces_all w_read w_left w_good); [|exact G | unfold w_left; lia]. intros s Gs. now apply w_read_ok. }
  exists (S (List.length (content b))). intros fuel F. destruct b as [b|b|r|c|c|w]; cbn [create_body_generator].
  1, 2: exists [b]; split; [reflexivity | apply app_nil_r].
  2, 3: now exists c.
  - destruct (d_iter r) eqn:I; [|destruct (d_async r) eqn:A].
    + destruct (RD DEFAULT_CHUNK_SIZE r fuel D F) as (l & r' & -> & C). now exists l.
    + destruct (RD size r fuel K F) as (l & r' & -> & C). now exists l.
    + destruct (WR (wrap (BReader r)) fuel Logic.I F) as (l & w' & -> & C). now exists l.
  - destruct (WR w fuel) as (l & w' & -> & C); [|exact F | now exists l]. destruct w as [rem [r|c|c]]; [exact Logic.I | exact Logic.I | exfalso; apply NR; now exists rem, c].
Qed.
Print Assumptions C77_http2.
(** Over HTTP/1.1, what the connection reads from is a synchronous reader of just the
    content; there is none only for an empty body. *)
Theorem C77_http1 b : exists s, create_body_stream b = Ok s /\
  match s with Some r => d_async r = false /\ content (BReader r) = content b | None => content b = [] end.
Proof.
  assert (B : forall b, ~ sync_reader b -> exists s, (do g <- read_streaming_blob_async b; match g with Got [] => Ok None | Got s => Ok (Some (bytes_io s)) | Coroutine => Err TypeError end) = Ok s /\
     match s with Some r => d_async r = false /\ content (BReader r) = content b | None => content b = [] end).
  { intros b' NS. rewrite (C76_async b' NS). cbn [bind]. destruct (content b') as [|x l] eqn:E; eexists; (split; [reflexivity|]); [reflexivity | split; reflexivity]. }
  destruct b as [b|b|r|c|c|w]; try (apply B; intros (r' & E & _); discriminate).
  unfold create_body_stream. destruct (d_async r) eqn:A; [apply B; intros (r' & E & A'); injection E as <-; congruence|].
  exists (Some r). split; [reflexivity|]. now split.
Qed.
Print Assumptions C77_http1.
(** With aiohttp, the reader that is sent from iterates over just the content; there is
    none only if the content is empty and neither length nor encoding was given. *)
Theorem C77_aiohttp framed b : ~ restarting b -> (forall c, b <> BRestart c) ->
  exists s, aiohttp_body framed b = Ok s /\
  match s with
  | Some w => exists n, forall fuel, (n <= fuel)%nat -> exists chunks w', iter_pieces w_read fuel DEFAULT_CHUNK_SIZE w = Some (Ok (chunks, w')) /\ List.concat chunks = content b
  | None => framed = false /\ content b = []
  end.
Proof.
  intros NR NB. assert (D : (DEFAULT_CHUNK_SIZE <> 0)%Z) by discriminate.
  assert (WC : content (BWrapped (wrap b)) = content b) by (destruct b; try reflexivity).
  assert (G : w_good (wrap b)) by (destruct b as [b|b|r|c|c|[rem [r|c|c]]]; try exact Logic.I; [now apply (NB c) | exfalso; apply NR; now exists rem, c]).
  assert (IT : forall w, w_good w -> content (BWrapped w) = content b -> exists n, forall fuel, (n <= fuel)%nat -> exists chunks w', iter_pieces w_read fuel DEFAULT_CHUNK_SIZE w = Some (Ok (chunks, w')) /\ List.concat chunks = content b).
  { intros w Gw C. exists (S (List.length (content b))). intros fuel F. rewrite <- C. apply (pieces_all w_read w_left w_good); [|exact Gw | unfold w_left; rewrite C; lia]. intros s Gs. now apply w_read_ok. }
  unfold aiohttp_body. destruct framed; [exists (Some (wrap b)); split; [reflexivity | now apply IT]|]. unfold prepare_body. cbv zeta.
  set (w := wrap b) in *. destruct (w_seekable w) eqn:S; cbn [negb]; [|exists (Some w); split; [reflexivity | now apply IT]].
  destruct w as [rem [r|c|c]]; cbn in S; try discriminate. unfold w_seek. cbn [w_src w_rem d_seek d_pos d_data]. rewrite S. cbn [bind].
  change (Z.eqb 0 1) with false. change (Z.eqb 0 2) with false. change (Z.eqb 1 1) with true. change (Z.eqb 2 1) with false. change (Z.eqb 2 2) with true. cbv iota. cbn [w_src w_rem d_seek d_pos d_data d_chop d_async d_iter bind].
  rewrite !Z.add_0_r, Z.add_0_l, !Nat2Z.id. destruct (Nat.eqb_spec (d_pos r) (List.length (d_data r))) as [E|E].
  - exists None. split; [reflexivity|]. split; [reflexivity|]. rewrite <- WC. cbn [content w_src]. rewrite E. apply skipn_all.
  - eexists. split; [reflexivity|]. apply IT; [exact Logic.I | rewrite <- WC; reflexivity].
Qed.
Print Assumptions C77_aiohttp.
(** An async iterable that can be iterated more than once is started again for every read:
    given to aiohttp, a body of this kind that is not empty never ends. *)
Theorem C77_restarting_refuted framed c : List.concat c <> [] ->
  exists w, aiohttp_body framed (BRestart c) = Ok (Some w) /\ forall fuel, iter_pieces w_read fuel DEFAULT_CHUNK_SIZE w = None.
Proof.
  intros N. exists (mkWrapped [] (SRestart c)). split; [destruct framed; reflexivity|]. intros fuel.
  assert (G : forall w, (exists rem c, w = mkWrapped rem (SRestart c) /\ List.concat c <> []) -> iter_pieces w_read fuel DEFAULT_CHUNK_SIZE w = None).
  { induction fuel as [|fuel IH]; intros w H; [reflexivity|]. cbn [iter_pieces]. destruct (w_restart_more DEFAULT_CHUNK_SIZE w eq_refl H) as (x & out & w' & -> & H'). now rewrite (IH w' H'). }
  apply G. eauto.
Qed.
Print Assumptions C77_restarting_refuted.
Example C77_ex : create_body_generator 9 3 (BReader (mkRd (lit "hello world") 2 [0%nat; 9%nat] true false false)) = Some (Ok [lit "l"; lit "lo "; lit "wor"; lit "ld"])
  /\ create_body_stream (BIter [[]; []]) = Ok None /\ aiohttp_body false (BReader (mkRd (lit "abc") 3 [] false false true)) = Ok None
  /\ create_body_stream (BReader (mkRd (lit "abc") 1 [] false false true)) = Ok (Some (mkRd (lit "abc") 1 [] false false true)) /\ ~ restarting (BReader ex_rd).
Proof. do 4 (split; [vm_compute; reflexivity|]). intros (rem & c & E). discriminate. Qed.

(** ** C78 *)
(** The CRT client sends each header of the request with its values, in order and under its
    own name, and no other but a host and an accept if they are missing; trailers are not
    among them. *)
Theorem C78_crt lower netloc e name : fields_ok lower e -> lower (lit "host") <> lower (lit "accept") ->
  named lower name (fst (marshal_request lower netloc e)) =
  match field_of lower e name with
  | Some f => match f_kind f with Header => map (fun v => (f_name f, v)) (f_values f) | Trailer => [] end
  | None => if text_eqb (lower name) (lower (lit "host")) then [(lit "host", netloc)]
            else if text_eqb (lower name) (lower (lit "accept")) then [(lit "accept", lit "*/*")] else []
  end.
Proof.
  intros F NE. unfold marshal_request. cbv zeta. cbn [fst]. set (e1 := add_absent lower (lit "host") netloc e). set (e2 := add_absent lower (lit "accept") (lit "*/*") e1).
  assert (F1 : fields_ok lower e1) by now apply add_absent_ok. assert (F2 : fields_ok lower e2) by now apply add_absent_ok.
  pose proof (sent_named lower (fun f => position_eqb (f_kind f) Header) e2 name F2) as H. unfold sent in H. rewrite H. clear H.
  unfold e2. rewrite add_absent_of by exact F1. unfold e1. rewrite add_absent_of by exact F. destruct (field_of lower e name) as [f|]; [destruct (f_kind f); reflexivity|].
  destruct (text_eqb (lower name) (lower (lit "host"))); [reflexivity|]. destruct (text_eqb (lower name) (lower (lit "accept"))); reflexivity.
Qed.
Print Assumptions C78_crt.
(** So a server that groups the headers by name, as our own clients do with a response, has
    all values of every header. *)
Theorem C78_crt_seen lower netloc e name f : fields_ok lower e -> lower (lit "host") <> lower (lit "accept") -> field_of lower e name = Some f -> f_kind f = Header -> f_values f <> [] ->
  exists g, dict_get (lower name) (tuples_loop lower Header (fst (marshal_request lower netloc e)) []) = Some g /\ f_values g = f_values f.
Proof.
  intros F NE H K V. pose proof (C78_crt lower netloc e name F NE) as S. rewrite H, K in S. destruct (C22_tuples lower Header (fst (marshal_request lower netloc e))) as (_ & _ & T). specialize (T name).
  assert (Q : map snd (filter (fun nv => text_eqb (lower name) (lower (fst nv))) (fst (marshal_request lower netloc e))) = f_values f).
  { replace (filter (fun nv => text_eqb (lower name) (lower (fst nv))) (fst (marshal_request lower netloc e))) with (named lower name (fst (marshal_request lower netloc e))).
    - rewrite S, map_map. cbn [snd]. apply map_id.
    - unfold named. apply filter_ext. intros h. destruct (text_eqb (lower (fst h)) (lower name)) eqn:E.
      + apply text_eqb_eq in E. now rewrite E, text_eqb_refl.
      + symmetry. apply text_eqb_neq. apply text_eqb_neq in E. congruence. }
  destruct (dict_get (lower name) _) as [g|] eqn:G.
  - exists g. split; [reflexivity|]. now rewrite T.
  - exfalso. apply V. rewrite <- Q, T. reflexivity.
Qed.
Print Assumptions C78_crt_seen.
(** aiohttp is given every field, trailers too, and nothing else. *)
Theorem C78_aiohttp lower e name : fields_ok lower e ->
  named lower name (aiohttp_headers e) = match field_of lower e name with Some f => map (fun v => (f_name f, v)) (f_values f) | None => [] end.
Proof. intros F. exact (sent_named lower (fun _ => true) e name F). Qed.
Print Assumptions C78_aiohttp.
(** The CRT client leaves the host it has filled in among the fields of the request.  A
    retry copies the request but not its fields: when it goes to another endpoint, it still
    names the first as its host. *)
Theorem C78_retry_refuted lower first second e : fields_ok lower e -> lower (lit "host") <> lower (lit "accept") -> field_of lower e (lit "host") = None ->
  named lower (lit "host") (fst (marshal_request lower second (snd (marshal_request lower first e)))) = [(lit "host", first)].
Proof.
  intros F NE H. set (e' := snd (marshal_request lower first e)).
  assert (F1 : fields_ok lower (add_absent lower (lit "host") first e)) by now apply add_absent_ok.
  assert (F' : fields_ok lower e') by now apply add_absent_ok.
  rewrite C78_crt by assumption. unfold e', marshal_request. cbv zeta. cbn [snd]. rewrite add_absent_of by exact F1. rewrite add_absent_of by exact F.
  rewrite H, text_eqb_refl. reflexivity.
Qed.
Print Assumptions C78_retry_refuted.
Definition ex_lower (s : text) : text := map (fun c => if (65 <=? c) && (c <=? 90) then c + 32 else c) s.
Definition ex_e := [(lit "x-a", mkField (lit "X-A") [lit "1"; lit "2"] Header); (lit "x-t", mkField (lit "X-T") [lit "3"] Trailer)].
Example C78_ex : fst (marshal_request ex_lower (lit "example.com:81") ex_e) = [(lit "X-A", lit "1"); (lit "X-A", lit "2"); (lit "host", lit "example.com:81"); (lit "accept", lit "*/*")]
  /\ fields_ok ex_lower ex_e /\ field_of ex_lower ex_e (lit "host") = None.
Proof.
  split; [vm_compute; reflexivity|]. split; [|reflexivity]. split; [|repeat constructor].
  constructor; [intros [E|[]]; vm_compute in E; discriminate E | constructor; [intros [] | constructor]].
Qed.
(** A path without a question mark and a query are sent so that both can be told apart. *)
Theorem C78_target (p p' : text) (q q' : option text) : ~ In 63 p -> ~ In 63 p' -> render_path (Some p) q = render_path (Some p') q' -> p = p' /\ q = q'.
Proof.
  intros N N' H. unfold render_path in H. assert (C : forall (p : text) (q : option text), ~ In 63 p -> cut_at 63 (p ++ match q with Some q => 63 :: q | None => [] end) = (p, q)).
  { intros x [y|] Nx; [now apply cut_at_app | rewrite app_nil_r; now apply PyText_Proofs.cut_at_none]. }
  pose proof (C p q N) as A. pose proof (C p' q' N') as B. assert (E : (p, q) = (p', q')) by (rewrite <- A, <- B; f_equal; exact H). now injection E as -> ->.
Qed.
Print Assumptions C78_target.
(** aiohttp is given the parameters of the query that have a value, grouped by name, the
    values of each name in order. *)
Lemma decode_nil s t : decode s = Some t -> t = [] -> s = [].
Proof.
  unfold decode. destruct (unquote s) as [bs|] eqn:U; [|discriminate]. destruct (utf8_decode bs) as [x|] eqn:D; [|discriminate]. intros [= ->] ->.
  assert (B : bs = []).
  { destruct bs as [|b0 r0]; [reflexivity|]. exfalso. cbn [utf8_decode] in D.
    repeat match type of D with
    | context [if ?c then _ else _] => destruct c; try discriminate
    | context [match ?l with [] => _ | _ :: _ => _ end] => is_var l; destruct l; try discriminate
    | context [bind (utf8_decode ?l) _] => destruct (utf8_decode l); cbn [bind] in D; try discriminate
    end. }
  subst bs. destruct s as [|c r]; [reflexivity|]. exfalso. cbn [unquote] in U. destruct (c =? 37).
  - destruct r as [|a [|b r']]; try discriminate. destruct (hex_value a), (hex_value b), (unquote r'); discriminate.
  - destruct (c <? 128); [destruct (unquote r); discriminate | discriminate].
Qed.
Theorem C78_query (unquote_plus : text -> text) q ps k :
  (forall s t, ~ In 43 s -> decode s = Some t -> unquote_plus s = t) -> ~ In 43 q -> parse_query q = Some ps ->
  (match dict_get k (parse_qs unquote_plus q) with Some vs => vs | None => [] end) =
  flat_map (fun p => match p with (n, Some (x :: v)) => if text_eqb n k then [x :: v] else [] | _ => [] end) ps.
Proof.
  intros U NP P. unfold parse_qs. destruct (parse_qs_group (parse_qsl unquote_plus q) [] (NoDup_nil _)) as [_ G]. rewrite (G k). clear G. cbn [dict_get app].
  unfold parse_qsl, parse_query in *. destruct q as [|c q0]; [injection P as <-; reflexivity|]. cbn [truthy].
  assert (NS : forall s, In s (split_on 38 (c :: q0)) -> ~ In 43 s).
  { assert (SP : forall (q : text) s, In s (split_on 38 q) -> forall x, In x s -> In x q).
    { intros q1. induction q1 as [|y q1 IH]; cbn [split_on]; intros s I x X; [destruct I as [<-|[]]; destruct X|]. destruct (y =? 38).
      - destruct I as [<-|I]; [destruct X | right; now apply (IH s)].
      - destruct (split_on 38 q1) as [|a l] eqn:E; [destruct I as [<-|[]]; destruct X as [->|[]]; now left|]. destruct I as [<-|I].
        + destruct X as [->|X]; [now left | right; apply (IH a); [now left | exact X]].
        + right. apply (IH s); [now right | exact X]. }
    intros s I H. exact (NP (SP _ s I _ H)). }
  revert ps P NS. generalize (split_on 38 (c :: q0)). clear - U. intros l. induction l as [|s l IH]; intros ps P NS; [injection P as <-; reflexivity|].
  cbn [map all_some] in P. destruct (decode_param s) as [pr|] eqn:D; [|discriminate]. destruct (all_some (map decode_param l)) as [ps'|] eqn:A; [|discriminate]. injection P as <-.
  cbn [flat_map]. rewrite filter_app, map_app. apply f_equal2; [|apply (IH ps' eq_refl); intros s' I; apply NS; now right].
  assert (Ns : ~ In 43 s) by (apply NS; now left). assert (CI : forall s n v, cut_at 61 s = (n, v) -> (forall x, In x n -> In x s) /\ (forall w x, v = Some w -> In x w -> In x s)).
  { clear. intros s. induction s as [|y s IH]; intros n v; cbn [cut_at]; [intros [= <- <-]; split; [intros x [] | intros w x [=]]|]. destruct (y =? 61).
    - intros [= <- <-]. split; [intros x [] | intros w x [= <-] X; now right].
    - destruct (cut_at 61 s) as [a b]. intros [= <- <-]. destruct (IH a b eq_refl) as [I1 I2]. split; [intros x [->|X]; [now left | right; now apply I1] | intros w x E X; right; now apply (I2 w)]. }
  unfold decode_param in D. destruct s as [|y s]; [cbn in D; injection D as <-; reflexivity|]. cbn [truthy]. destruct (cut_at 61 (y :: s)) as [n v] eqn:C. destruct (CI _ _ _ C) as [I1 I2].
  destruct v as [v|].
  - destruct (decode n) as [n'|] eqn:Dn; [|discriminate]. destruct (decode v) as [v'|] eqn:Dv; [|discriminate]. injection D as <-.
    destruct v as [|z v]; cbn [truthy].
    + cbn in Dv. injection Dv as <-. reflexivity.
    + destruct v' as [|x v']; [exfalso; pose proof (decode_nil _ _ Dv eq_refl); discriminate|]. cbn [filter map fst].
      rewrite (U n n'), (U (z :: v) (x :: v')); try assumption; [| intros X; exact (Ns (I2 _ _ eq_refl X)) | intros X; exact (Ns (I1 _ X))].
      destruct (text_eqb n' k); reflexivity.
  - destruct (decode n) as [n'|]; [|discriminate]. injection D as <-. reflexivity.
Qed.
Print Assumptions C78_query.
(** Parameters without a value do not reach the service through aiohttp. *)
Theorem C78_blank_refuted (unquote_plus : text -> text) : exists q, parse_query q = Some [(lit "acl", None); (lit "prefix", Some [])] /\ parse_qs unquote_plus q = [].
Proof. exists (lit "acl&prefix="). split; reflexivity. Qed.
Print Assumptions C78_blank_refuted.
Example C78_query_ex : parse_qs (fun s => s) (lit "a=1&b=2&acl&a=3&c=") = [(lit "a", [lit "1"; lit "3"]); (lit "b", [lit "2"])].
Proof. vm_compute. reflexivity. Qed.
