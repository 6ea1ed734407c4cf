(** C32, C67 and C68: signing a request. *)
From Verif Require Import Base Base_Proofs Utf8_Model PyText_Model PyText_Proofs PyDict_Model PyDict_Proofs PySort_Model Header_Model
  Sign_Model Sign_Spec Sign_Proofs Sign2_Proofs.
From Coq Require Import Sorting.Sorted Sorting.Permutation.
Local Open Scope N_scope.

(** A request for the examples, and another one that says the same: parameters and
    headers in another order, other case, another user agent, other chunks. *)
Definition x_lower : text -> text := map lower_char.
Definition x_upper : text -> text := map (fun c => if (97 <=? c) && (c <=? 122) then c - 32 else c).
Definition x_sha (b : bytes) : bytes := [N.of_nat (List.length b) mod 256; fold_left N.add b 0 mod 256].
Definition x_hmac (k m : bytes) : bytes := x_sha (k ++ m).
Definition x_replace (b : bytes) : text := match utf8_decode b with Ok t => t | Err _ => [65533] end.
Definition x_uri (query : string) : uri :=
  mkUri (lit "https") None None (lit "example.com") (Some 443) (Some (lit "/a/../b")) (Some (lit query)).
Definition x_fields (l : list (string * list string)) : fields :=
  fold_left (fun fs e => set_field x_lower (mkField (lit (fst e)) (map lit (snd e))) fs) l [].
Definition x_request : request :=
  mkRequest (x_uri "b=2&a=1&&c") (lit "PUT") (Seek (lit "xhello") 1)
    (x_fields [("Content-Type", ["text/plain"]); ("X-B", [" p  q "; "r"]); ("User-Agent", ["one"])])%string.
Definition x_request2 : request :=
  mkRequest (x_uri "c&a=1&&b=2") (lit "put") (Once [lit "he"; lit "llo"])
    (x_fields [("x-b", [" p  q "; "r"]); ("CONTENT-type", ["text/plain"])])%string.
Definition x_props : sigprops := mkSigProps (lit "us-east-1") (lit "s3") (Some (lit "20260102T030405Z")) None (Some true) None.
Definition x_ident : ident := mkIdent (lit "AKID") (lit "secret") (Some (lit "token")) false.
Definition x_sign : ident -> sigprops -> request -> body * result request :=
  sign x_lower x_upper x_sha x_hmac x_replace false [].
Definition x_signed : request := Eval vm_compute in match snd (x_sign x_ident x_props x_request) with Ok s => s | Err _ => x_request end.

Lemma x_lower_ok : lowers_ascii x_lower. Proof. intros s _. reflexivity. Qed.
Lemma x_wf l : wf_fields x_lower (x_fields l).
Proof.
  unfold x_fields. assert (G : forall fs, wf_fields x_lower fs -> wf_fields x_lower
    (fold_left (fun fs e => set_field x_lower (mkField (lit (fst e)) (map lit (snd e))) fs) l fs)).
  { induction l as [|e l IH]; intros fs W; cbn [fold_left]; [exact W|]. now apply IH, wf_set. }
  apply G. split; [constructor | intros k f []].
Qed.

(** The collections the API builds are well formed: from the empty one, by setting
    fields. *)
Theorem C32_fields_wf lower : wf_fields lower [] /\
  forall f fs, wf_fields lower fs -> wf_fields lower (set_field lower f fs).
Proof. split; [split; [constructor | intros k f []] | intros f fs; apply wf_set]. Qed.
Print Assumptions C32_fields_wf.

(** C32: the signature depends on the request only up to the order of headers and
    query parameters, the case of names and method, the headers that are never
    signed, and the way the body is delivered. *)
Theorem C32_order_independent lower upper sha256 hmac utf8_replace async now i p r r' s :
  lowers_ascii lower -> wf_fields lower (r_fields r) -> wf_fields lower (r_fields r') ->
  same_request lower upper r r' ->
  snd (sign lower upper sha256 hmac utf8_replace async now i p r) = Ok s ->
  exists s' v, snd (sign lower upper sha256 hmac utf8_replace async now i p r') = Ok s' /\
    same_request lower upper s s' /\
    header lower (r_fields s) (lit "authorization") [v] /\ header lower (r_fields s') (lit "authorization") [v].
Proof. intros L W1 W2 R E. exact (sign_same lower upper sha256 hmac utf8_replace async L now i p r r' s W1 W2 R E). Qed.
Print Assumptions C32_order_independent.
Example C32_order_independent_ex : same_request x_lower x_upper x_request x_request2 /\
  snd (x_sign x_ident x_props x_request) = Ok x_signed.
Proof.
  split; [|vm_compute; reflexivity]. split; [|split; [vm_compute; reflexivity | split]].
  - split; [reflexivity|]. repeat (split; [reflexivity|]). vm_compute. apply NoDup_Permutation.
    + repeat constructor; cbn [In]; intros H; repeat destruct H as [H | H]; discriminate H || destruct H.
    + repeat constructor; cbn [In]; intros H; repeat destruct H as [H | H]; discriminate H || destruct H.
    + intros x. cbn [In]. tauto.
  - right. split; [exact I|]. split; [exact I | vm_compute; reflexivity].
  - intros n vs NE. split; intros [k [f [J [E V]]]]; vm_compute in J.
    + destruct J as [J | [J | [J | []]]]; injection J as <- <-; subst n vs.
      * exists (lit "content-type"), (mkField (lit "CONTENT-type") [lit "text/plain"]). split; [vm_compute; tauto | split; vm_compute; reflexivity].
      * exists (lit "x-b"), (mkField (lit "x-b") [lit " p  q "; lit "r"]). split; [vm_compute; tauto | split; vm_compute; reflexivity].
      * elim NE. vm_compute. tauto.
    + destruct J as [J | [J | []]]; injection J as <- <-; subst n vs.
      * exists (lit "x-b"), (mkField (lit "X-B") [lit " p  q "; lit "r"]). split; [vm_compute; tauto | split; vm_compute; reflexivity].
      * exists (lit "content-type"), (mkField (lit "Content-Type") [lit "text/plain"]). split; [vm_compute; tauto | split; vm_compute; reflexivity].
Qed.

(** C32: the canonical request holds the method, the canonical path, the sorted
    parameters, one line for every signable header and the host in order of their
    names, those names, and the payload. *)
Theorem C32_canonical_request lower upper sha256 utf8_replace async p r c fs b :
  lowers_ascii lower -> wf_fields lower (r_fields r) ->
  snd (canonical_request lower upper sha256 utf8_replace async p r) = Ok (c, fs, b) ->
  exists payload, Canonical lower upper utf8_replace p r fs payload c /\
    (async = false -> payload = payload_line sha256 (r_dest r) p (r_body r)).
Proof.
  intros L W E. destruct (canonical_spec lower upper sha256 utf8_replace async L p r c fs b W E) as [h [P C]].
  exists h. split; [exact C|]. intros ->. unfold format_canonical_payload in P.
  assert (CL := compute_line sha256 (r_dest r) p (r_body r)).
  destruct (compute_payload_hash sha256 (r_dest r) p (r_body r)) as [o [[ph b0]|]]; [|discriminate P].
  cbn in P. injection P as -> _ _. now apply (CL h b0).
Qed.
Print Assumptions C32_canonical_request.
Example C32_canonical_request_ex :
  exists fs b, snd (canonical_request x_lower x_upper x_sha x_replace false x_props x_request) = Ok
   (lit "PUT" ++ [10] ++ lit "/b" ++ [10] ++ lit "a=1&b=2&c=" ++ [10] ++ lit "content-type:text/plain" ++ [10] ++ lit "host:example.com"
    ++ [10] ++ lit "x-amz-content-sha256:0514" ++ [10] ++ lit "x-b:p q ,r" ++ [10] ++ [10]
    ++ lit "content-type;host;x-amz-content-sha256;x-b" ++ [10] ++ lit "0514", fs, b).
Proof. do 2 eexists. vm_compute. reflexivity. Qed.

(** C32: what the caller passed is left as it was, unless its body can be read
    only once; and the signed request has the same body. *)
Theorem C32_caller_untouched lower upper sha256 hmac utf8_replace async now i p r :
  (forall chunks, r_body r <> Once chunks) ->
  fst (sign lower upper sha256 hmac utf8_replace async now i p r) = r_body r.
Proof. apply sign_old. Qed.
Print Assumptions C32_caller_untouched.
Theorem C32_same_body lower upper sha256 hmac utf8_replace async now i p r s :
  snd (sign lower upper sha256 hmac utf8_replace async now i p r) = Ok s -> contents (r_body s) = contents (r_body r).
Proof. apply sign_body. Qed.
Print Assumptions C32_same_body.
Example C32_caller_untouched_ex : fst (x_sign x_ident x_props x_request) = Seek (lit "xhello") 1 /\
  contents (r_body x_signed) = lit "hello".
Proof. split; vm_compute; reflexivity. Qed.
Theorem C32_caller_untouched_refuted :
  ~ (forall i p r, contents (fst (x_sign i p r)) = contents (r_body r)).
Proof. intros H. specialize (H x_ident x_props x_request2). discriminate H. Qed.
Print Assumptions C32_caller_untouched_refuted.

(** C32: signing a signed request again changes nothing. *)
Theorem C32_signing_again lower upper sha256 hmac utf8_replace async now i p r s :
  lowers_ascii lower -> wf_fields lower (r_fields r) ->
  snd (sign lower upper sha256 hmac utf8_replace async now i p r) = Ok s ->
  sign lower upper sha256 hmac utf8_replace async now i p s = (r_body s, Ok s).
Proof. intros L W E. exact (sign_again lower upper sha256 hmac utf8_replace async L now i p r s W E). Qed.
Print Assumptions C32_signing_again.
Example C32_signing_again_ex : x_sign x_ident x_props x_signed = (Seek (lit "xhello") 1, Ok x_signed).
Proof. vm_compute. reflexivity. Qed.

(** C67: a signed request carries all that is needed to check its signature: the
    date it was signed with, the session token, the names of the headers that were
    signed, and a signature of its own canonical request. *)
Theorem C67_verifiable_partial lower upper sha256 hmac utf8_replace async now i p r s :
  lowers_ascii lower -> wf_fields lower (r_fields r) ->
  ~ has_header lower (r_fields r) (lit "date") -> ~ has_header lower (r_fields r) (lit "x-amz-date") ->
  ~ has_header lower (r_fields r) (lit "x-amz-security-token") ->
  snd (sign lower upper sha256 hmac utf8_replace async now i p r) = Ok s ->
  exists date payload c sts sig lines,
    header lower (r_fields s) (lit "x-amz-date") [date] /\
    (forall t, i_token i = Some t -> header lower (r_fields s) (lit "x-amz-security-token") [t]) /\
    Canonical lower upper utf8_replace p s (r_fields s) payload c /\
    (async = false -> payload = payload_line sha256 (r_dest s) p (r_body s)) /\
    StringToSign sha256 (sp_region p) (sp_service p) date c sts /\
    Signature hmac (i_secret i) (sp_region p) (sp_service p) date sts sig /\
    signed_lines lower (r_dest s) (r_fields s) lines /\
    header lower (r_fields s) (lit "authorization")
      [lit "AWS4-HMAC-SHA256 Credential=" ++ i_access i ++ lit "/" ++ firstn 8 date ++ lit "/" ++ sp_region p ++ lit "/" ++ sp_service p
       ++ lit "/aws4_request, SignedHeaders=" ++ join [59] (map fst lines) ++ lit ", Signature=" ++ sig].
Proof. intros L W H1 H2 H3 E. exact (sign_verifiable lower upper sha256 hmac utf8_replace async L now i p r s W H1 H2 H3 E). Qed.
Print Assumptions C67_verifiable_partial.
Example C67_verifiable_ex : ~ has_header x_lower (r_fields x_request) (lit "date") /\
  header x_lower (r_fields x_signed) (lit "x-amz-date") [lit "20260102T030405Z"] /\
  header x_lower (r_fields x_signed) (lit "x-amz-security-token") [lit "token"].
Proof.
  split; [|split].
  - intros [vs [k [f [I [E _]]]]]. cbn in I. repeat destruct I as [I | I]; try (injection I as <- <-; discriminate E); destruct I.
  - exists (lit "x-amz-date"), (mkField (lit "X-Amz-Date") [lit "20260102T030405Z"]). split; [|now split]. cbn. tauto.
  - exists (lit "x-amz-security-token"), (mkField (lit "X-Amz-Security-Token") [lit "token"]). split; [|now split]. cbn. tauto.
Qed.
(** A date or a token that is already there is not replaced, so that the request
    says another date than the one it was signed with, or another token. *)
Definition x_dated : request :=
  mkRequest (x_uri "a=1") (lit "GET") NoBody
    (x_fields [("X-Amz-Date", ["20200101T000000Z"]); ("X-Amz-Security-Token", ["old"])])%string.
Theorem C67_date_refuted :
  ~ (forall p r s date, sp_date p = Some date -> wf_fields x_lower (r_fields r) ->
       snd (x_sign x_ident p r) = Ok s -> header x_lower (r_fields s) (lit "x-amz-date") [date]).
Proof.
  intros H. destruct (snd (x_sign x_ident x_props x_dated)) as [s|] eqn:E; [|vm_compute in E; discriminate E].
  destruct (H x_props x_dated s _ eq_refl (x_wf _) E) as [k [f [I [A B]]]].
  vm_compute in E. injection E as <-. cbn in I.
  repeat destruct I as [I | I]; try (injection I as <- <-; discriminate A || discriminate B); destruct I.
Qed.
Print Assumptions C67_date_refuted.
Theorem C67_token_refuted :
  ~ (forall p r s t, i_token x_ident = Some t -> wf_fields x_lower (r_fields r) ->
       snd (x_sign x_ident p r) = Ok s -> header x_lower (r_fields s) (lit "x-amz-security-token") [t]).
Proof.
  intros H. destruct (snd (x_sign x_ident x_props x_dated)) as [s|] eqn:E; [|vm_compute in E; discriminate E].
  destruct (H x_props x_dated s _ eq_refl (x_wf _) E) as [k [f [I [A B]]]].
  vm_compute in E. injection E as <-. cbn in I.
  repeat destruct I as [I | I]; try (injection I as <- <-; discriminate A || discriminate B); destruct I.
Qed.
Print Assumptions C67_token_refuted.

(** C68: the header lines that are sent are the ones that were signed: of every
    header with one value, and the host unless the port is the scheme's own. *)
Theorem C68_headers_sent_partial lower u fs n v :
  lowers_ascii lower -> wf_fields lower fs -> ~ In n UNSIGNED -> header lower fs n [v] ->
  exists name, In (name, v) (marshal_headers lower u fs) /\ lower name = n /\
    forall w, In (name, w) (marshal_headers lower u fs) -> w = v.
Proof. intros L. now apply marshal_single. Qed.
Print Assumptions C68_headers_sent_partial.
Theorem C68_host_sent_partial lower u fs lines :
  lowers_ascii lower -> wf_fields lower fs -> signed_lines lower u fs lines ->
  ~ has_header lower fs (lit "host") -> (forall port, u_port u = Some port -> default_port (u_scheme u) <> Some port) ->
  forall v, In (lit "host", v) (marshal_headers lower u fs) <-> In (lit "host", v) lines.
Proof. intros L. now apply marshal_host. Qed.
Print Assumptions C68_host_sent_partial.
Example C68_host_sent_ex :
  In (lit "host", lit "h:8443") (marshal_headers x_lower (mkUri (lit "https") None None (lit "h") (Some 8443) None None) []) /\
  In (lit "host", lit "h:8443") (normalize_signing_fields x_lower (mkUri (lit "https") None None (lit "h") (Some 8443) None None) []).
Proof. split; vm_compute; now left. Qed.
(** With the default port spelled out, the host that is signed is not the host
    that is sent. *)
Theorem C68_host_refuted :
  ~ (forall u fs v, wf_fields x_lower fs -> In (lit "host", v) (normalize_signing_fields x_lower u fs) ->
       In (lit "host", v) (marshal_headers x_lower u fs)).
Proof.
  intros H. specialize (H (x_uri "") [] (lit "example.com") (x_wf [])).
  assert (X : In (lit "host", lit "example.com") (normalize_signing_fields x_lower (x_uri "") [])) by (vm_compute; now left).
  specialize (H X). vm_compute in H. repeat destruct H as [H | H]; discriminate H || destruct H.
Qed.
Print Assumptions C68_host_refuted.
(** Of a header with several values, the signed line is not made of the sent ones:
    a value with a comma is quoted in the one and bare in the other. *)
Theorem C68_list_refuted :
  ~ (forall u fs n vs, wf_fields x_lower fs -> ~ In n UNSIGNED -> header x_lower fs n vs ->
       In (n, join [44] (map snd (filter (fun kv => text_eqb (x_lower (fst kv)) n) (marshal_headers x_lower u fs))))
         (normalize_signing_fields x_lower u fs)).
Proof.
  intros H. specialize (H (x_uri "") (x_fields [("x-list", ["a,b"; "c"])]) (lit "x-list") [lit "a,b"; lit "c"] (x_wf _))%string.
  assert (NE : ~ In (lit "x-list") UNSIGNED) by (cbn; intros I; repeat destruct I as [I | I]; discriminate I || destruct I).
  assert (HD : header x_lower (x_fields [("x-list", ["a,b"; "c"])])%string (lit "x-list") [lit "a,b"; lit "c"]).
  { exists (lit "x-list"), (mkField (lit "x-list") [lit "a,b"; lit "c"]). split; [now left | now split]. }
  specialize (H NE HD). vm_compute in H. repeat destruct H as [H | H]; discriminate H || destruct H.
Qed.
Print Assumptions C68_list_refuted.
