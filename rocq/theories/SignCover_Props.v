(** C89: what a request signature covers. *)
From Verif Require Import Base Utf8_Model PyText_Model PyDict_Model Header_Model
  Sign_Model Sign_Spec Sign_Proofs Sign2_Proofs Sign_Props SignCover_Spec SignCover_Proofs.
From Coq Require Import Sorting.Sorted Sorting.Permutation.
Local Open Scope N_scope.

(** C32: the words in a header line are those of its value. *)
Theorem C32_words s ws : Words s ws <-> ws = words s.
Proof. split; [apply words_fun | intros ->; apply words_spec]. Qed.
Print Assumptions C32_words.
Example C32_words_ex : Words (lit " p  q ") [lit "p"; lit "q"].
Proof. now apply C32_words. Qed.

(** C89: two requests with the same canonical request have the same method, path
    and parameters, the same signed headers with the same words in their values,
    and the same payload line. *)
Theorem C89_canonical lower upper sha256 utf8_replace async p r r' c fs fs' b b' :
  lowers_ascii lower -> wf_fields lower (r_fields r) -> wf_fields lower (r_fields r') ->
  plain lower upper p r -> plain lower upper p r' ->
  snd (canonical_request lower upper sha256 utf8_replace async p r) = Ok (c, fs, b) ->
  snd (canonical_request lower upper sha256 utf8_replace async p r') = Ok (c, fs', b') ->
  agree lower upper utf8_replace p (mkRequest (r_dest r) (r_method r) b fs) (mkRequest (r_dest r') (r_method r') b' fs').
Proof.
  intros L W W' [P1 [P2 P3]] [P1' [P2' P3']] E E'.
  destruct (canonical_spec lower upper sha256 utf8_replace async L p r c fs b W E) as [h [P C]].
  destruct (canonical_spec lower upper sha256 utf8_replace async L p r' c fs' b' W' E') as [h' [P' C']].
  assert (N := payload_names lower sha256 async L _ _ _ _ _ _ _ W P2 P). assert (N' := payload_names lower sha256 async L _ _ _ _ _ _ _ W' P2' P').
  assert (Q : plain lower upper p (mkRequest (r_dest r) (r_method r) b fs)) by (split; [exact P1 | split; [exact N | exact P3]]).
  assert (Q' : plain lower upper p (mkRequest (r_dest r') (r_method r') b' fs')) by (split; [exact P1' | split; [exact N' | exact P3']]).
  exact (proj1 (canonical_cover lower upper utf8_replace p _ _ h h' c Q Q' C C')).
Qed.
Print Assumptions C89_canonical.
Lemma x_header_In fs n vs : header x_lower fs n vs -> exists k f, In (k, f) fs /\ x_lower (f_name f) = n.
Proof. intros [k [f [I [E _]]]]. now exists k, f. Qed.
Lemma x_plain : plain x_lower x_upper x_props x_request /\ plain x_lower x_upper x_props x_request2.
Proof.
  assert (G : forall r, ~ In 10 (x_upper (r_method r)) ->
     forallb (fun e => negb (has 10 (x_lower (f_name (snd e)))) && negb (has 58 (x_lower (f_name (snd e))))) (r_fields r) = true ->
     plain x_lower x_upper x_props r).
  { intros r M F. split; [exact M|]. split; [|discriminate]. intros n vs H. apply x_header_In in H. destruct H as [k [f [I <-]]].
    rewrite forallb_forall in F. specialize (F _ I). cbn [snd] in F. apply andb_prop in F. destruct F as [F1 F2].
    split; apply PyText_Proofs.has_notIn; now apply negb_true_iff. }
  split; apply G; first [vm_compute; reflexivity | vm_compute; intros I; repeat destruct I as [I | I]; discriminate I || destruct I].
Qed.
Definition x_canonical : text := Eval vm_compute in
  match snd (canonical_request x_lower x_upper x_sha x_replace false x_props x_request) with Ok (c, _, _) => c | Err _ => [] end.
Example C89_canonical_ex : exists fs fs' b b',
  snd (canonical_request x_lower x_upper x_sha x_replace false x_props x_request) = Ok (x_canonical, fs, b) /\
  snd (canonical_request x_lower x_upper x_sha x_replace false x_props x_request2) = Ok (x_canonical, fs', b').
Proof. do 4 eexists. split; vm_compute; reflexivity. Qed.

(** C89: two signed requests with the same Authorization header, by the same
    identity for the same date, region and service, say the same in everything
    signed, unless SHA-256 takes two different canonical requests to the same
    digest or HMAC two different strings to sign. *)
Theorem C89_signature lower upper sha256 hmac utf8_replace async now i p r r' s s' v :
  lowers_ascii lower -> (forall x, Forall (fun b => b < 256) (sha256 x)) -> (forall k x, Forall (fun b => b < 256) (hmac k x)) ->
  wf_fields lower (r_fields r) -> wf_fields lower (r_fields r') -> plain lower upper p r -> plain lower upper p r' ->
  snd (sign lower upper sha256 hmac utf8_replace async now i p r) = Ok s ->
  snd (sign lower upper sha256 hmac utf8_replace async now i p r') = Ok s' ->
  header lower (r_fields s) (lit "authorization") [v] -> header lower (r_fields s') (lit "authorization") [v] ->
  let date := get_or now (sp_date p) in
  exists x x' key m m',
    hashed lower upper sha256 utf8_replace p date s x m /\ hashed lower upper sha256 utf8_replace p date s' x' m' /\
    signing_key hmac (i_secret i) p date key /\
    ((hmac key m = hmac key m' -> m = m') -> (sha256 x = sha256 x' -> x = x') ->
     agree lower upper utf8_replace p s s' /\ (async = false -> same_digest sha256 p s s')).
Proof.
  intros L SB HB W W' P P' E E' H H' date.
  destruct (sign_covers lower upper sha256 hmac utf8_replace async L SB HB now i p r r' s s' v W W' P P' E E' H H')
    as [x [x' [key [m [m' [A [B [C [D [F G]]]]]]]]]].
  exists x, x', key, m, m'. repeat (split; [assumption|]). intros X Y. auto.
Qed.
Print Assumptions C89_signature.
Example C89_signature_ex :
  exists s s' v, snd (x_sign x_ident x_props x_request) = Ok s /\ snd (x_sign x_ident x_props x_request2) = Ok s' /\
    dict_get (lit "authorization") (r_fields s) = Some (mkField (lit "Authorization") [v]) /\
    dict_get (lit "authorization") (r_fields s') = Some (mkField (lit "Authorization") [v]).
Proof.
  exists x_signed.
  destruct (snd (x_sign x_ident x_props x_request2)) as [s'|] eqn:E; [|vm_compute in E; discriminate E].
  vm_compute in E. injection E as <-. do 2 eexists. repeat split; vm_compute; reflexivity.
Qed.

(** The text of a value is covered only up to its white space, and a list of
    values only up to the text it makes. *)
Definition x_get (values : list string) : request :=
  mkRequest (x_uri "a=1") (lit "GET") NoBody (x_fields [("X-B", values)])%string.
Definition x_auth (r : request) : option (list text) :=
  match snd (x_sign x_ident x_props r) with
  | Ok s => option_map f_values (dict_get (lit "authorization") (r_fields s))
  | Err _ => None
  end.
Theorem C89_exact_values_refuted :
  x_auth (x_get ["p q"]%string) = x_auth (x_get [" p  q"]%string) /\
  x_auth (x_get ["p,q"]%string) = x_auth (x_get ["p"; "q"]%string) /\
  x_auth (x_get ["p q"]%string) <> None.
Proof. repeat split; vm_compute; solve [reflexivity | discriminate]. Qed.
Print Assumptions C89_exact_values_refuted.
(** The asynchronous signer takes a payload digest that is already in the headers
    for granted: two bodies then have the same signature. *)
Definition x_preset (body : body) : request :=
  mkRequest (x_uri "a=1") (lit "PUT") body (x_fields [("X-Amz-Content-SHA256", ["e3b0"])])%string.
Theorem C89_preset_digest_refuted :
  let auth b := match snd (sign x_lower x_upper x_sha x_hmac x_replace true [] x_ident x_props (x_preset b)) with
                | Ok s => option_map f_values (dict_get (lit "authorization") (r_fields s)) | Err _ => None end in
  auth (Seek (lit "one") 0) = auth (Seek (lit "other") 0) /\ auth (Seek (lit "one") 0) <> None /\
  x_sha (lit "one") <> x_sha (lit "other").
Proof. repeat split; vm_compute; solve [reflexivity | discriminate]. Qed.
Print Assumptions C89_preset_digest_refuted.
