(** C104: what a service that follows the published rules computes from a signed
    request is the signature in it. *)
From Verif Require Import Base Base_Proofs Utf8_Model PyText_Model PyText_Proofs PyDict_Model PyDict_Proofs Encode_Spec Encode_Proofs
  Sign_Model Sign_Spec Sign_Proofs Sign2_Proofs Sign_Props SignPath_Spec SignPath_Proofs SigRules_Spec SigRules_Proofs.
From Coq Require Import Sorting.Sorted Sorting.Permutation Lia.
Local Open Scope N_scope.

(** C104: the rules give a message one signature and one list of signed headers,
    whatever the order in which headers and parameters are looked at. *)
Theorem C104_one sha256 hmac utf8_replace unsigned region service date secret m names sig names' sig' :
  Signed sha256 hmac utf8_replace unsigned region service date secret m names sig ->
  Signed sha256 hmac utf8_replace unsigned region service date secret m names' sig' -> names = names' /\ sig = sig'.
Proof. apply signed_fun. Qed.
Print Assumptions C104_one.

(** C104: a signed request carries its date and its token, and the Authorization
    header has the list of signed headers and the signature that the rules give,
    with either signer: if it came without a date, token or digest of its own, is
    no event stream, and the path, the host and the values of headers are such
    that the rules leave no choice. *)
Theorem C104_rules_partial lower upper sha256 hmac utf8_replace async now i p r s m :
  lowers_ascii lower -> (forall x, Forall (fun b => b < 256) (sha256 x)) -> (forall k x, Forall (fun b => b < 256) (hmac k x)) ->
  Hex (sha256 []) (lit "e3b0c44298fc1c149afbf4c8996fb92427ae41e4649b934ca495991b7852b855") ->
  wf_fields lower (r_fields r) ->
  (forall n, In n [lit "date"; lit "x-amz-date"; lit "x-amz-security-token"; lit "x-amz-content-sha256"] -> ~ has_header lower (r_fields r) n) ->
  (forall vs, header lower (r_fields r) (lit "content-type") vs -> exists v, vs = [v] /\ v <> lit "application/vnd.amazon.eventstream") ->
  sp_encode_path p <> Some false -> u_username (r_dest r) = None ->
  snd (sign lower upper sha256 hmac utf8_replace async now i p r) = Ok s -> carries lower upper s m -> plain_message m ->
  exists unsigned date names sig,
    (unsigned = true <-> m_scheme m = lit "https" /\ sp_payload_signing p = Some false) /\
    In (lit "x-amz-date", [date]) (m_headers m) /\
    (forall t, i_token i = Some t -> In (lit "x-amz-security-token", [t]) (m_headers m)) /\
    In (lit "authorization", [lit "AWS4-HMAC-SHA256 Credential=" ++ i_access i ++ lit "/" ++ firstn 8 date ++ lit "/" ++ sp_region p ++ lit "/"
      ++ sp_service p ++ lit "/aws4_request, SignedHeaders=" ++ names ++ lit ", Signature=" ++ sig]) (m_headers m) /\
    Signed sha256 hmac utf8_replace unsigned (sp_region p) (sp_service p) date (i_secret i) m names sig.
Proof.
  intros L SB HB SE W NH CT NE U E C P.
  assert (H1 := NH (lit "date") ltac:(now left)). assert (H2 := NH (lit "x-amz-date") ltac:(right; now left)).
  assert (H3 := NH (lit "x-amz-security-token") ltac:(right; right; now left)).
  assert (H4 := NH (lit "x-amz-content-sha256") ltac:(right; right; right; now left)).
  assert (E' : snd (sign lower upper sha256 hmac utf8_replace false now i p r) = Ok s).
  { destruct async; [|exact E]. now rewrite <- (sign_async lower upper sha256 hmac utf8_replace L now i p r W H4 CT). }
  assert (D : r_dest s = r_dest r) by (now destruct (sign_cases lower upper sha256 hmac utf8_replace false now i p r s E') as [c [fs [b [sts [sig [_ [_ [_ ->]]]]]]]]).
  exists (text_eqb (u_scheme (r_dest s)) (lit "https") && negb (get_or true (sp_payload_signing p)))%bool.
  destruct (sign_rules lower upper sha256 hmac utf8_replace L SB HB SE now i p r s m _ W H1 H2 H3 NE ltac:(now rewrite D) eq_refl E' C P)
    as [date [names [sig [A [B [F G]]]]]].
  exists date, names, sig. split; [|auto]. destruct C as [_ [-> _]].
  rewrite Bool.andb_true_iff, text_eqb_eq, Bool.negb_true_iff. destruct (sp_payload_signing p) as [[|]|]; cbn [get_or]; split; intros [X Y]; split; congruence.
Qed.
Print Assumptions C104_rules_partial.

(** A request that meets the conditions, with toy functions for the digests. *)
Definition y_sha (b : bytes) : bytes :=
  match b with
  | [] => [0xe3; 0xb0; 0xc4; 0x42; 0x98; 0xfc; 0x1c; 0x14; 0x9a; 0xfb; 0xf4; 0xc8; 0x99; 0x6f; 0xb9; 0x24;
           0x27; 0xae; 0x41; 0xe4; 0x64; 0x9b; 0x93; 0x4c; 0xa4; 0x95; 0x99; 0x1b; 0x78; 0x52; 0xb8; 0x55]
  | _ => x_sha b
  end.
Definition y_request : request :=
  mkRequest (mkUri (lit "https") None None (lit "example.com") (Some 8443) (Some (lit "/a b/../c")) (Some (lit "b=2&a=%C3%A9&&c"))) (lit "get") NoBody
    (x_fields [("X-B", [" p  q "; "r"]); ("User-Agent", ["one"])])%string.
Definition y_signed : request := Eval vm_compute in
  match snd (sign x_lower x_upper y_sha x_hmac x_replace true [] x_ident x_props y_request) with Ok s => s | Err _ => y_request end.
Definition y_message : message := Eval vm_compute in
  mkMessage (x_upper (r_method y_signed)) (u_scheme (r_dest y_signed)) (u_host (r_dest y_signed)) (u_port (r_dest y_signed)) (u_path (r_dest y_signed))
    (u_query (r_dest y_signed)) (map (fun e => (x_lower (f_name (snd e)), f_values (snd e))) (r_fields y_signed)) (contents (r_body y_signed)).
Lemma y_bytes x : Forall (fun b => b < 256) (y_sha x).
Proof.
  assert (G : forall b, Forall (fun b => b < 256) (x_sha b)).
  { intros b. unfold x_sha. repeat constructor; now apply N.mod_lt. }
  destruct x as [|c x]; [|apply G]. unfold y_sha. repeat constructor.
Qed.
Lemma visible_check s : forallb (fun c => (c =? 9) || ((32 <=? c) && (c <=? 126)))%bool s = true -> visible s.
Proof.
  intros F. apply Forall_forall. intros c I. rewrite forallb_forall in F. specialize (F c I).
  rewrite Bool.orb_true_iff, Bool.andb_true_iff, N.eqb_eq, !N.leb_le in F. exact F.
Qed.
Example C104_rules_ex :
  snd (sign x_lower x_upper y_sha x_hmac x_replace true [] x_ident x_props y_request) = Ok y_signed /\
  carries x_lower x_upper y_signed y_message /\ plain_message y_message /\ wf_fields x_lower (r_fields y_request) /\
  Hex (y_sha []) (lit "e3b0c44298fc1c149afbf4c8996fb92427ae41e4649b934ca495991b7852b855") /\
  In (lit "x-amz-date", [lit "20260102T030405Z"]) (m_headers y_message).
Proof.
  split; [vm_compute; reflexivity|]. split; [|split; [|split; [|split]]].
  - repeat (split; [reflexivity|]). split; [|reflexivity]. intros n vs. split.
    + intros I. unfold header. cbn [y_message m_headers In] in I.
      assert (G : In (n, vs) (map (fun e => (x_lower (f_name (snd e)), f_values (snd e))) (r_fields y_signed))) by exact I.
      apply in_map_iff in G. destruct G as [[k f] [G J]]. injection G as <- <-. now exists k, f.
    + intros [k [f [I [<- <-]]]].
      change (m_headers y_message) with (map (fun e => (x_lower (f_name (snd e)), f_values (snd e))) (r_fields y_signed)).
      apply in_map_iff. now exists (k, f).
  - split; [|split].
    + intros path [= <-]. exists [lit "a b"; lit ".."], (lit "c"). split; [reflexivity|].
      split; [|split; [|discriminate]].
      * constructor; [|constructor; [|constructor]]; (split; [discriminate|]); cbn; intros H; repeat destruct H as [H | H]; discriminate H || destruct H.
      * cbn. intros H. repeat destruct H as [H | H]; discriminate H || destruct H.
    + apply visible_check. reflexivity.
    + intros n vs I _. cbn [y_message m_headers In] in I. unfold plain_values.
      repeat (destruct I as [I | I]; [injection I as <- <-; split;
        [repeat (constructor; [apply visible_check; reflexivity|]); constructor
        | intros N; try (now elim (N _ eq_refl)); repeat (constructor; [split; cbn; intros H; repeat destruct H as [H | H]; discriminate H || destruct H|]); constructor]|]).
      destruct I.
  - apply x_wf.
  - apply hex_iff; [apply y_bytes | reflexivity].
  - vm_compute. tauto.
Qed.

(** C104: with path encoding switched off, as for Amazon S3, a path without dot
    segments is signed as it is. *)
Theorem C104_unencoded_partial path p : sp_encode_path p = Some false -> dot_free path ->
  format_canonical_path (Some path) p = Ok path.
Proof. intros E D. unfold format_canonical_path. rewrite E. cbn [get_or]. f_equal. now apply normal_id. Qed.
Print Assumptions C104_unencoded_partial.
Example C104_unencoded_ex : dot_free (lit "/my-object//example//photo.user").
Proof. split; vm_compute; intros H; repeat destruct H as [H | H]; discriminate H || destruct H. Qed.
(** The rules do not normalise the path then: an object whose name has dot segments
    is signed as another one. *)
Theorem C104_unencoded_refuted :
  ~ (forall path p, sp_encode_path p = Some false -> absolute path -> format_canonical_path (Some path) p = Ok path).
Proof.
  intros H. specialize (H (lit "/a/../b") (mkSigProps [] [] None None None (Some false)) eq_refl (ex_intro _ (lit "a/../b") eq_refl)). discriminate H.
Qed.
Print Assumptions C104_unencoded_refuted.
