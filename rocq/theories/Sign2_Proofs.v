(** Proofs about whole calls of the signer. *)
From Verif Require Import Base Base_Proofs Utf8_Model PyText_Model PyText_Proofs PyDict_Model PyDict_Proofs
  PySort_Model PySort_Proofs Header_Model Sign_Model Sign_Spec Sign_Proofs.
From Coq Require Import Sorting.Sorted Sorting.Permutation.
Local Open Scope N_scope.

Lemma dict_set_same {A} k (v : A) d : dict_get k d = Some v -> dict_set k v d = d.
Proof.
  induction d as [|[k' v'] d IH]; cbn [dict_get dict_set]; [discriminate|]. destruct (text_eqb k k') eqn:E.
  - intros [= ->]. reflexivity.
  - intros H. now rewrite IH.
Qed.

Section P.
  Variables (lower upper : text -> text) (sha256 : bytes -> bytes) (hmac : bytes -> bytes -> bytes)
    (utf8_replace : bytes -> text) (async : bool).
  Hypothesis L : lowers_ascii lower.
  Notation canonical_request := (canonical_request lower upper sha256 utf8_replace async).
  Notation sign := (sign lower upper sha256 hmac utf8_replace async).
  Notation payload_of := (format_canonical_payload lower sha256 async).

  Lemma same_target_refl u : same_target u u.
  Proof. repeat split. unfold same_query. destruct (u_query u); reflexivity. Qed.

  Lemma payload_wf u p b fs h fs' nb : wf_fields lower fs -> snd (payload_of u p b fs) = Ok (h, fs', nb) -> wf_fields lower fs'.
  Proof.
    intros W E. destruct (payload_same lower sha256 async L u u p b b fs fs h fs' nb) as [gs [nb' [_ [_ [_ [X _]]]]]]; try assumption.
    - apply same_target_refl.
    - now left.
    - intros n vs _. reflexivity.
  Qed.

  (** What the payload line is, for the synchronous signer. *)
  Definition payload_line (u : uri) (p : sigprops) (b : body) : text :=
    if text_eqb (u_scheme u) (lit "https") && negb (get_or true (sp_payload_signing p)) then UNSIGNED_PAYLOAD
    else match b with NoBody => EMPTY_SHA256_HASH | _ => EventIO_Model.hexlify (sha256 (contents b)) end.

  Lemma compute_line u p b h nb : snd (compute_payload_hash sha256 u p b) = Ok (h, nb) ->
    h = payload_line u p b /\ contents nb = contents b.
  Proof.
    unfold compute_payload_hash, payload_line, should_sign_payload.
    destruct (text_eqb (u_scheme u) (lit "https")); cbn [negb andb].
    - destruct (get_or true (sp_payload_signing p)); cbn [negb].
      + destruct b; cbn [snd contents]; intros [= <- <-]; now split.
      + cbn [snd]. intros [= <- <-]. now split.
    - destruct b; cbn [snd contents]; intros [= <- <-]; now split.
  Qed.
  Lemma compute_old u p b : fst (compute_payload_hash sha256 u p b) = match b with
    | Once cs => if text_eqb (u_scheme u) (lit "https") && negb (get_or true (sp_payload_signing p)) then b else Once []
    | _ => b end.
  Proof.
    unfold compute_payload_hash, should_sign_payload. destruct (text_eqb (u_scheme u) (lit "https")); cbn [negb andb].
    - destruct (get_or true (sp_payload_signing p)); cbn [negb]; destruct b; reflexivity.
    - destruct b; reflexivity.
  Qed.
  Lemma compute_again u p b h nb : snd (compute_payload_hash sha256 u p b) = Ok (h, nb) ->
    compute_payload_hash sha256 u p nb = (nb, Ok (h, nb)).
  Proof.
    unfold compute_payload_hash. destruct (negb (should_sign_payload u p)).
    - cbn. now intros [= <- <-].
    - destruct b; cbn [snd contents]; intros [= <- <-]; reflexivity.
  Qed.

  Lemma payload_contents u p b fs h fs' nb : snd (payload_of u p b fs) = Ok (h, fs', nb) -> contents nb = contents b.
  Proof.
    unfold format_canonical_payload. intros E.
    assert (G : snd (let (old, res) := compute_payload_hash sha256 u p b in
        (old, do '(ph, b0) <- res; Ok (ph, if get_or false (sp_checksum p) then set_field lower (mkField SHA_HEADER [ph]) fs else fs, b0)))
        = Ok (h, fs', nb) -> contents nb = contents b).
    { intros X. assert (C := compute_line u p b). destruct (compute_payload_hash sha256 u p b) as [o [[ph b0]|]]; [|discriminate X].
      cbn in X. injection X as -> _ <-. now apply (C h b0). }
    destruct async; [|now apply G]. destruct (get_field lower SHA_HEADER fs) as [[nm vs]|].
    - destruct vs as [|v [|v2 vs]].
      + destruct (is_event_stream lower fs); [now injection E as _ _ <- | now apply G].
      + now injection E as _ _ <-.
      + destruct (is_event_stream lower fs); [now injection E as _ _ <- | now apply G].
    - destruct (is_event_stream lower fs); [now injection E as _ _ <- | now apply G].
  Qed.
  Lemma payload_old u p b fs : (forall cs, b <> Once cs) -> fst (payload_of u p b fs) = b.
  Proof.
    intros N. unfold format_canonical_payload.
    assert (G : fst (let (old, res) := compute_payload_hash sha256 u p b in
        (old, do '(ph, b0) <- res; Ok (ph, if get_or false (sp_checksum p) then set_field lower (mkField SHA_HEADER [ph]) fs else fs, b0))) = b).
    { assert (C := compute_old u p b). destruct (compute_payload_hash sha256 u p b) as [o res]. cbn in *. subst o.
      destruct b; try reflexivity. now elim (N chunks). }
    destruct async; [|apply G]. destruct (get_field lower SHA_HEADER fs) as [[nm vs]|].
    - destruct vs as [|v [|v2 vs]]; try reflexivity; destruct (is_event_stream lower fs); try reflexivity; apply G.
    - destruct (is_event_stream lower fs); try reflexivity; apply G.
  Qed.

  (** ** The canonical request *)
  Lemma canonical_spec p r c fs b : wf_fields lower (r_fields r) -> snd (canonical_request p r) = Ok (c, fs, b) ->
    exists payload, snd (payload_of (r_dest r) p (r_body r) (r_fields r)) = Ok (payload, fs, b) /\
      Canonical lower upper utf8_replace p r fs payload c.
  Proof.
    intros W E. unfold Sign_Model.canonical_request in E. assert (PW := payload_wf (r_dest r) p (r_body r) (r_fields r)).
    destruct (payload_of (r_dest r) p (r_body r) (r_fields r)) as [o [[[h fs1] b1]|]]; [|discriminate E].
    cbn [snd] in *. revert E. cbn - [format_canonical_path format_canonical_query format_canonical_fields normalize_signing_fields].
    destruct (format_canonical_path (u_path (r_dest r)) p) as [path|] eqn:P; [|discriminate].
    cbn - [format_canonical_path format_canonical_query format_canonical_fields normalize_signing_fields].
    destruct (format_canonical_query utf8_replace (u_query (r_dest r))) as [q|] eqn:Q; [|discriminate].
    cbn - [format_canonical_fields normalize_signing_fields].
    intros X. injection X as <- <- <-. exists h. split; [reflexivity|].
    exists path, q, (normalize_signing_fields lower (r_dest r) fs1). repeat match goal with |- _ /\ _ => split end.
    - exact P.
    - now apply query_spec.
    - apply lines_spec. now apply (PW h fs1 b1).
    - reflexivity.
  Qed.

  Lemma sign_cases now i p r s : snd (sign now i p r) = Ok s ->
    let date := get_or now (sp_date p) in
    let r1 := mkRequest (r_dest r) (r_method r) (r_body r) (apply_required_fields lower date i (r_fields r)) in
    exists c fs b sts sig,
      snd (canonical_request p r1) = Ok (c, fs, b) /\
      string_to_sign sha256 c date p = Ok sts /\ signature hmac sts (i_secret i) date p = Ok sig /\
      s = mkRequest (r_dest r) (r_method r) b
            (set_field lower (mkField (lit "Authorization")
               [authorization_value (i_access i ++ [47] ++ scope date p) (map fst (normalize_signing_fields lower (r_dest r) fs)) sig]) fs).
  Proof.
    unfold Sign_Model.sign. destruct (i_expired i); [discriminate|]. cbv zeta.
    destruct (canonical_request p _) as [old [[[c fs] b]|]]; [|discriminate]. cbn - [string_to_sign signature authorization_value normalize_signing_fields set_field].
    destruct (string_to_sign sha256 c (get_or now (sp_date p)) p) as [sts|] eqn:S; [|discriminate]. cbn - [string_to_sign signature authorization_value normalize_signing_fields set_field].
    destruct (signature hmac sts (i_secret i) (get_or now (sp_date p)) p) as [sig|] eqn:G; [|discriminate].
    intros [= <-]. exists c, fs, b, sts, sig. repeat split; assumption.
  Qed.

  Lemma header_auth fs v : wf_fields lower fs -> header lower (set_field lower (mkField (lit "Authorization") [v]) fs) (lit "authorization") [v].
  Proof. intros W. apply header_set; [exact W|]. left. cbn [f_name f_values]. now rewrite (auth_lower lower L). Qed.

  Lemma sign_same now i p r r' s : wf_fields lower (r_fields r) -> wf_fields lower (r_fields r') -> same_request lower upper r r' ->
    snd (sign now i p r) = Ok s ->
    exists s' v, snd (sign now i p r') = Ok s' /\ same_request lower upper s s' /\
      header lower (r_fields s) (lit "authorization") [v] /\ header lower (r_fields s') (lit "authorization") [v].
  Proof.
    intros W1 W2 R E. destruct (sign_cases _ _ _ _ _ E) as [c [fs [b [sts [sig [C [S [G ->]]]]]]]].
    destruct R as [T [M [B H]]]. set (date := get_or now (sp_date p)) in *.
    assert (W1' := apply_wf lower date i _ W1). assert (W2' := apply_wf lower date i _ W2).
    assert (H' := apply_same lower L date i _ _ W1 W2 H).
    destruct (canonical_same lower upper sha256 utf8_replace async L p
      (mkRequest (r_dest r) (r_method r) (r_body r) (apply_required_fields lower date i (r_fields r)))
      (mkRequest (r_dest r') (r_method r') (r_body r') (apply_required_fields lower date i (r_fields r'))) c fs b W1' W2'
      (conj T (conj M (conj B H'))) C) as [gs [nb' [C' [SB [SH [W3 W4]]]]]].
    unfold Sign_Model.sign. assert (X : i_expired i = false).
    { unfold Sign_Model.sign in E. destruct (i_expired i); [discriminate E | reflexivity]. }
    rewrite X. cbv zeta. fold date.
    destruct (canonical_request p (mkRequest (r_dest r') (r_method r') (r_body r') (apply_required_fields lower date i (r_fields r')))) as [old res].
    cbn [snd] in C'. subst res. cbn - [string_to_sign signature authorization_value normalize_signing_fields set_field].
    rewrite S. cbn - [string_to_sign signature authorization_value normalize_signing_fields set_field]. rewrite G.
    cbn - [string_to_sign signature authorization_value normalize_signing_fields set_field].
    eexists _, _. split; [reflexivity|]. cbn [r_dest r_method r_body r_fields].
    rewrite <- (lines_same lower (r_dest r) (r_dest r') fs gs W3 W4 T SH).
    split; [|split; now apply header_auth].
    split; [exact T|]. split; [exact M|]. split; [exact SB|]. now apply same_set.
  Qed.

  (** ** The caller's body *)
  Lemma sign_body now i p r s : snd (sign now i p r) = Ok s -> contents (r_body s) = contents (r_body r).
  Proof.
    intros E. destruct (sign_cases _ _ _ _ _ E) as [c [fs [b [sts [sig [C [_ [_ ->]]]]]]]]. cbn [r_body].
    unfold Sign_Model.canonical_request in C. cbn [r_dest r_body r_fields] in C. set (fs1 := apply_required_fields _ _ _ _) in C.
    assert (PC := payload_contents (r_dest r) p (r_body r) fs1). destruct (payload_of _ _ _ _) as [o [[[h fs2] b1]|]]; [|discriminate C].
    cbn [snd] in *. revert C. cbn - [format_canonical_path format_canonical_query format_canonical_fields normalize_signing_fields].
    destruct (format_canonical_path (u_path (r_dest r)) p) as [path|]; [|discriminate].
    cbn - [format_canonical_path format_canonical_query format_canonical_fields normalize_signing_fields].
    destruct (format_canonical_query utf8_replace (u_query (r_dest r))) as [q|]; [|discriminate].
    cbn - [format_canonical_fields normalize_signing_fields]. intros [= _ <- <-]. now apply (PC h fs2 b1).
  Qed.
  Lemma sign_old now i p r : (forall cs, r_body r <> Once cs) -> fst (sign now i p r) = r_body r.
  Proof.
    intros N. unfold Sign_Model.sign. destruct (i_expired i); [reflexivity|]. cbv zeta. unfold Sign_Model.canonical_request.
    cbn [r_dest r_body r_fields]. set (fs1 := apply_required_fields _ _ _ _).
    assert (PO := payload_old (r_dest r) p (r_body r) fs1 N). destruct (payload_of _ _ _ _) as [o res]. cbn in *. exact PO.
  Qed.

  (** ** Signing again *)
  Lemma in_set n f fs : in_fields lower n fs = true -> in_fields lower n (set_field lower f fs) = true.
  Proof.
    unfold in_fields, set_field, dict_has. destruct (text_eq_dec (lower n) (lower (f_name f))) as [-> | D].
    - now rewrite dict_get_set_eq.
    - now rewrite dict_get_set_ne.
  Qed.
  Lemma in_set_same f fs : in_fields lower (f_name f) (set_field lower f fs) = true.
  Proof. unfold in_fields, set_field, dict_has. now rewrite dict_get_set_eq. Qed.
  Lemma get_set_same f fs : get_field lower (f_name f) (set_field lower f fs) = Some f.
  Proof. apply dict_get_set_eq. Qed.
  Lemma get_set_other n f fs : lower n <> lower (f_name f) -> get_field lower n (set_field lower f fs) = get_field lower n fs.
  Proof. apply dict_get_set_ne. Qed.
  Lemma set_again f fs : get_field lower (f_name f) fs = Some f -> set_field lower f fs = fs.
  Proof. apply dict_set_same. Qed.

  Definition complete (i : ident) (fs : fields) : Prop :=
    (in_fields lower (lit "Date") fs || in_fields lower (lit "X-Amz-Date") fs)%bool = true /\
    match i_token i with Some _ => in_fields lower (lit "X-Amz-Security-Token") fs = true | None => True end.
  Lemma complete_id date i fs : complete i fs -> apply_required_fields lower date i fs = fs.
  Proof.
    intros [A B]. unfold apply_required_fields.
    assert (X : (negb (in_fields lower (lit "Date") fs) && negb (in_fields lower (lit "X-Amz-Date") fs))%bool = false).
    { rewrite <- negb_orb, A. reflexivity. }
    rewrite X. destruct (i_token i); [|reflexivity]. rewrite B. reflexivity.
  Qed.
  Lemma complete_set i f fs : complete i fs -> complete i (set_field lower f fs).
  Proof.
    intros [A B]. split.
    - apply orb_true_iff in A as [A | A]; apply orb_true_iff; [left | right]; now apply in_set.
    - destruct (i_token i); [now apply in_set | exact I].
  Qed.
  Lemma complete_apply date i fs : complete i (apply_required_fields lower date i fs).
  Proof.
    unfold apply_required_fields.
    set (fs1 := if (_ && _)%bool then _ else fs).
    assert (A : (in_fields lower (lit "Date") fs1 || in_fields lower (lit "X-Amz-Date") fs1)%bool = true).
    { unfold fs1. destruct (_ && _)%bool eqn:E.
      - apply orb_true_iff. right. exact (in_set_same (mkField (lit "X-Amz-Date") [date]) fs).
      - rewrite <- negb_orb in E. now apply negb_false_iff in E. }
    unfold complete. destruct (i_token i) as [t|]; [|now split].
    destruct (in_fields lower (lit "X-Amz-Security-Token") fs1) eqn:E; cbn [negb]; [now split|]. split.
    - apply orb_true_iff in A as [A | A]; apply orb_true_iff; [left | right]; now apply in_set.
    - exact (in_set_same (mkField (lit "X-Amz-Security-Token") [t]) fs1).
  Qed.
  Lemma payload_complete i u p b fs h fs' nb : complete i fs -> snd (payload_of u p b fs) = Ok (h, fs', nb) -> complete i fs'.
  Proof.
    intros C. unfold format_canonical_payload.
    assert (G : snd (let (old, res) := compute_payload_hash sha256 u p b in
        (old, do '(ph, b0) <- res; Ok (ph, if get_or false (sp_checksum p) then set_field lower (mkField SHA_HEADER [ph]) fs else fs, b0)))
        = Ok (h, fs', nb) -> complete i fs').
    { intros X. destruct (compute_payload_hash sha256 u p b) as [o [[ph b0]|]]; [|discriminate X].
      cbn in X. injection X as -> <- <-. destruct (get_or false _); [now apply complete_set | exact C]. }
    assert (Ev : snd (b, Ok (EVENT_STREAM_HASH, set_field lower (mkField SHA_HEADER [EVENT_STREAM_HASH]) fs, b)) = Ok (h, fs', nb) -> complete i fs').
    { intros X. injection X as _ <- _. now apply complete_set. }
    destruct async; [|exact G]. destruct (get_field lower SHA_HEADER fs) as [[nm vs]|].
    - destruct vs as [|v [|v2 vs]].
      + destruct (is_event_stream lower fs); [exact Ev | exact G].
      + intros X. injection X as _ <- _. exact C.
      + destruct (is_event_stream lower fs); [exact Ev | exact G].
    - destruct (is_event_stream lower fs); [exact Ev | exact G].
  Qed.

  Lemma lower_ne a b : ascii a -> ascii b -> map lower_char a <> map lower_char b -> lower a <> lower b.
  Proof. intros A B D. now rewrite (L a A), (L b B). Qed.
  Lemma sha_auth : lower SHA_HEADER <> lower (lit "Authorization").
  Proof. apply lower_ne; [repeat constructor | repeat constructor | discriminate]. Qed.
  Lemma type_auth : lower (lit "Content-Type") <> lower (lit "Authorization").
  Proof. apply lower_ne; [repeat constructor | repeat constructor | discriminate]. Qed.

  Lemma payload_again u p b fs h fs' nb v : wf_fields lower fs -> snd (payload_of u p b fs) = Ok (h, fs', nb) ->
    let fs'' := set_field lower (mkField (lit "Authorization") [v]) fs' in
    payload_of u p nb fs'' = (nb, Ok (h, fs'', nb)).
  Proof.
    intros W E fs''.
    assert (GS : get_field lower SHA_HEADER fs'' = get_field lower SHA_HEADER fs') by (apply get_set_other; exact sha_auth).
    assert (GT : get_field lower (lit "Content-Type") fs'' = get_field lower (lit "Content-Type") fs') by (apply get_set_other; exact type_auth).
    assert (ET : is_event_stream lower fs'' = is_event_stream lower fs') by (unfold is_event_stream; now rewrite GT).
    unfold format_canonical_payload in *.
    pose (comp := fun (b0 : body) (fs0 : fields) => let (old, res) := compute_payload_hash sha256 u p b0 in
        (old, do '(ph, b1) <- res; Ok (ph, if get_or false (sp_checksum p) then set_field lower (mkField SHA_HEADER [ph]) fs0 else fs0, b1))).
    fold (comp b fs) in E. fold (comp nb fs'').
    assert (K1 : snd (comp b fs) = Ok (h, fs', nb) ->
      fs' = (if get_or false (sp_checksum p) then set_field lower (mkField SHA_HEADER [h]) fs else fs) /\
      comp nb fs'' = (nb, Ok (h, if get_or false (sp_checksum p) then set_field lower (mkField SHA_HEADER [h]) fs'' else fs'', nb))).
    { intros X. unfold comp in X |- *. assert (CA := compute_again u p b).
      destruct (compute_payload_hash sha256 u p b) as [o [[ph b0]|]]; [|discriminate X]. cbn in X. injection X as -> <- <-.
      split; [reflexivity|]. rewrite (CA h b0 eq_refl). reflexivity. }
    assert (K2 : snd (comp b fs) = Ok (h, fs', nb) -> comp nb fs'' = (nb, Ok (h, fs'', nb))).
    { intros X. destruct (K1 X) as [F ->]. do 2 f_equal. f_equal. f_equal. destruct (get_or false (sp_checksum p)); [|reflexivity].
      apply set_again. cbn [f_name]. rewrite GS, F. exact (get_set_same (mkField SHA_HEADER [h]) fs). }
    destruct async; [|now apply K2].
    assert (Ev : forall (D : snd (b, Ok (EVENT_STREAM_HASH, set_field lower (mkField SHA_HEADER [EVENT_STREAM_HASH]) fs, b)) = Ok (h, fs', nb)),
      get_field lower SHA_HEADER fs' = Some (mkField SHA_HEADER [h])).
    { intros D. injection D as <- <- _. exact (get_set_same (mkField SHA_HEADER [EVENT_STREAM_HASH]) fs). }
    assert (Cp : forall (D : snd (comp b fs) = Ok (h, fs', nb))
        (N : forall nm w, get_field lower SHA_HEADER fs <> Some (mkField nm [w])) (T : is_event_stream lower fs = false),
      match get_field lower SHA_HEADER fs'' with
      | Some (mkField _ [w]) => (nb, Ok (w, fs'', nb))
      | _ => if is_event_stream lower fs'' then (nb, Ok (EVENT_STREAM_HASH, set_field lower (mkField SHA_HEADER [EVENT_STREAM_HASH]) fs'', nb)) else comp nb fs''
      end = (nb, Ok (h, fs'', nb))).
    { intros D N T. destruct (K1 D) as [F _]. rewrite GS, ET. destruct (get_or false (sp_checksum p)) eqn:Ch.
      - rewrite F. change (get_field lower SHA_HEADER (set_field lower (mkField SHA_HEADER [h]) fs)) with (get_field lower (f_name (mkField SHA_HEADER [h])) (set_field lower (mkField SHA_HEADER [h]) fs)).
        rewrite get_set_same. reflexivity.
      - rewrite F, T. destruct (get_field lower SHA_HEADER fs) as [[nm [|w [|w2 ws]]]|]; try (now apply K2). now elim (N nm w). }
    destruct (get_field lower SHA_HEADER fs) as [[nm vs]|] eqn:G0.
    - destruct vs as [|w [|w2 vs]].
      + destruct (is_event_stream lower fs) eqn:T; [rewrite GS, (Ev E); reflexivity|]. apply Cp; [assumption | intros ? ? X; discriminate X || congruence | first [assumption | reflexivity]].
      + injection E as <- <- <-. rewrite GS, G0. reflexivity.
      + destruct (is_event_stream lower fs) eqn:T; [rewrite GS, (Ev E); reflexivity|]. apply Cp; [assumption | intros ? ? X; discriminate X || congruence | first [assumption | reflexivity]].
    - destruct (is_event_stream lower fs) eqn:T; [rewrite GS, (Ev E); reflexivity|]. apply Cp; [assumption | intros ? ? X; discriminate X || congruence | first [assumption | reflexivity]].
  Qed.

  Lemma same_auth fs v : wf_fields lower fs -> same_headers lower (set_field lower (mkField (lit "Authorization") [v]) fs) fs.
  Proof.
    intros W n vs N. rewrite header_set by exact W. cbn [f_name f_values]. rewrite (auth_lower lower L). split.
    - intros [[-> _] | [_ H]]; [|exact H]. elim N. cbn. do 2 right. now left.
    - intros H. right. split; [|exact H]. intros ->. apply N. cbn. do 2 right. now left.
  Qed.

  Lemma sign_again now i p r s : wf_fields lower (r_fields r) -> snd (sign now i p r) = Ok s -> sign now i p s = (r_body s, Ok s).
  Proof.
    intros W E. assert (X : i_expired i = false).
    { unfold Sign_Model.sign in E. destruct (i_expired i); [discriminate E | reflexivity]. }
    destruct (sign_cases _ _ _ _ _ E) as [c [fs [b [sts [sig [C [S [G ->]]]]]]]]. clear E.
    set (date := get_or now (sp_date p)) in *. set (u := r_dest r) in *.
    assert (W1 := apply_wf lower date i _ W).
    set (v := authorization_value _ _ _). set (fs'' := set_field lower (mkField (lit "Authorization") [v]) fs).
    assert (C0 := C). unfold Sign_Model.canonical_request in C. cbn [r_dest r_body r_fields r_method] in C.
    assert (PA := payload_again u p (r_body r) (apply_required_fields lower date i (r_fields r))).
    assert (PC := payload_complete i u p (r_body r) (apply_required_fields lower date i (r_fields r))).
    assert (PW := payload_wf u p (r_body r) (apply_required_fields lower date i (r_fields r))).
    destruct (payload_of u p (r_body r) _) as [o [[[h fs2] b1]|]]; [|discriminate C].
    cbn [snd] in *. revert C. cbn - [format_canonical_path format_canonical_query format_canonical_fields normalize_signing_fields].
    destruct (format_canonical_path (u_path u) p) as [path|] eqn:P; [|discriminate].
    cbn - [format_canonical_path format_canonical_query format_canonical_fields normalize_signing_fields].
    destruct (format_canonical_query utf8_replace (u_query u)) as [q|] eqn:Q; [|discriminate].
    cbn - [format_canonical_fields normalize_signing_fields]. intros Y. injection Y as Ec <- <-.
    specialize (PA h fs2 b1 v W1 eq_refl). cbn zeta in PA. fold fs'' in PA.
    specialize (PC h fs2 b1 (complete_apply _ _ _) eq_refl). specialize (PW h fs2 b1 W1 eq_refl).
    unfold Sign_Model.sign. rewrite X. cbv zeta. cbn [r_dest r_method r_body r_fields]. fold date.
    assert (CI : complete i fs'') by now apply complete_set.
    rewrite (complete_id date i fs'' CI). unfold Sign_Model.canonical_request. cbn [r_dest r_method r_body r_fields].
    rewrite PA. cbn - [format_canonical_path format_canonical_query format_canonical_fields normalize_signing_fields string_to_sign signature authorization_value set_field].
    rewrite P. cbn - [format_canonical_path format_canonical_query format_canonical_fields normalize_signing_fields string_to_sign signature authorization_value set_field].
    rewrite Q. cbn - [format_canonical_path format_canonical_query format_canonical_fields normalize_signing_fields string_to_sign signature authorization_value set_field].
    assert (LS : normalize_signing_fields lower u fs'' = normalize_signing_fields lower u fs2).
    { apply lines_same; try assumption; [now apply wf_set | apply same_target_refl | now apply same_auth]. }
    rewrite LS.
    match goal with |- context [string_to_sign sha256 ?t date p] => replace t with c end.
    rewrite S. cbn - [format_canonical_path format_canonical_query format_canonical_fields normalize_signing_fields string_to_sign signature authorization_value set_field].
    rewrite G. cbn - [format_canonical_path format_canonical_query format_canonical_fields normalize_signing_fields string_to_sign signature authorization_value set_field].
    fold v. assert (SA : set_field lower (mkField (lit "Authorization") [v]) fs'' = fs'').
    { apply set_again. cbn [f_name]. exact (get_set_same (mkField (lit "Authorization") [v]) fs2). }
    transitivity (b1, Ok (mkRequest u (r_method r) b1 (set_field lower (mkField (lit "Authorization") [v]) fs''))); [reflexivity | now rewrite SA].
  Qed.

  (** ** Checking a signed request *)
  Lemma lines_respect u fs gs lines : same_headers lower fs gs -> signed_lines lower u fs lines -> signed_lines lower u gs lines.
  Proof.
    intros S [A B]. split; [exact A|]. intros n v. rewrite B. unfold host_line, has_header.
    split; (intros [[H1 [vs [H2 H3]]] | [H1 [H2 H3]]];
      [left; split; [exact H1|]; exists vs; split; [now apply S | exact H3]
      |right; repeat split; try assumption; intros [vs H4]; apply H2; exists vs; apply S; [exact host_signable | exact H4]]).
  Qed.
  Lemma same_sym fs gs : same_headers lower fs gs -> same_headers lower gs fs.
  Proof. intros S n vs N. symmetry. now apply S. Qed.
  Lemma in_has n fs : wf_fields lower fs -> in_fields lower n fs = true <-> has_header lower fs (lower n).
  Proof.
    intros W. unfold in_fields, dict_has, has_header. split.
    - destruct (dict_get (lower n) fs) as [f|] eqn:E; [|discriminate]. intros _. exists (f_values f).
      apply (header_get lower fs (lower n) W). now exists f.
    - intros [vs H]. apply (header_get lower fs (lower n) W) in H as [f [-> _]]. reflexivity.
  Qed.
  Lemma header_set_other f fs n vs : wf_fields lower fs -> n <> lower (f_name f) ->
    header lower fs n vs -> header lower (set_field lower f fs) n vs.
  Proof. intros W N H. apply header_set; [exact W|]. right. now split. Qed.
  Lemma low s : ascii s -> forall t, map lower_char s = t -> lower s = t.
  Proof. intros A t <-. now apply L. Qed.

  (** Headers that the payload step does not touch. *)
  Lemma payload_keeps u p b fs h fs' nb n vs : wf_fields lower fs -> n <> lower SHA_HEADER ->
    snd (payload_of u p b fs) = Ok (h, fs', nb) -> header lower fs n vs -> header lower fs' n vs.
  Proof.
    intros W N E H. unfold format_canonical_payload in E.
    assert (G : snd (let (old, res) := compute_payload_hash sha256 u p b in
        (old, do '(ph, b0) <- res; Ok (ph, if get_or false (sp_checksum p) then set_field lower (mkField SHA_HEADER [ph]) fs else fs, b0)))
        = Ok (h, fs', nb) -> header lower fs' n vs).
    { intros X. destruct (compute_payload_hash sha256 u p b) as [o [[ph b0]|]]; [|discriminate X].
      cbn in X. injection X as -> <- <-. destruct (get_or false _); [now apply header_set_other | exact H]. }
    assert (Ev : snd (b, Ok (EVENT_STREAM_HASH, set_field lower (mkField SHA_HEADER [EVENT_STREAM_HASH]) fs, b)) = Ok (h, fs', nb) -> header lower fs' n vs).
    { intros X. injection X as _ <- _. now apply header_set_other. }
    destruct async; [|now apply G]. destruct (get_field lower SHA_HEADER fs) as [[nm w]|].
    - destruct w as [|v [|v2 w]].
      + destruct (is_event_stream lower fs); [now apply Ev | now apply G].
      + injection E as _ <- _. exact H.
      + destruct (is_event_stream lower fs); [now apply Ev | now apply G].
    - destruct (is_event_stream lower fs); [now apply Ev | now apply G].
  Qed.

  Lemma apply_date date i fs : wf_fields lower fs ->
    ~ has_header lower fs (lit "date") -> ~ has_header lower fs (lit "x-amz-date") ->
    ~ has_header lower fs (lit "x-amz-security-token") ->
    header lower (apply_required_fields lower date i fs) (lit "x-amz-date") [date] /\
    forall t, i_token i = Some t -> header lower (apply_required_fields lower date i fs) (lit "x-amz-security-token") [t].
  Proof.
    intros W H1 H2 H3. unfold apply_required_fields.
    assert (A1 : in_fields lower (lit "Date") fs = false).
    { destruct (in_fields lower (lit "Date") fs) eqn:E; [|reflexivity]. apply in_has in E; [|exact W].
      rewrite (low (lit "Date")) with (t := lit "date") in E by (repeat constructor). now elim H1. }
    assert (A2 : in_fields lower (lit "X-Amz-Date") fs = false).
    { destruct (in_fields lower (lit "X-Amz-Date") fs) eqn:E; [|reflexivity]. apply in_has in E; [|exact W].
      rewrite (low (lit "X-Amz-Date")) with (t := lit "x-amz-date") in E by (repeat constructor). now elim H2. }
    rewrite A1, A2. cbn [negb andb].
    set (fs1 := set_field lower (mkField (lit "X-Amz-Date") [date]) fs).
    assert (W1 : wf_fields lower fs1) by now apply wf_set.
    assert (LD : lower (lit "X-Amz-Date") = lit "x-amz-date") by (apply low; repeat constructor).
    assert (LT : lower (lit "X-Amz-Security-Token") = lit "x-amz-security-token") by (apply low; repeat constructor).
    assert (D1 : header lower fs1 (lit "x-amz-date") [date]).
    { apply header_set; [exact W|]. left. cbn [f_name f_values]. now rewrite LD. }
    assert (A3 : in_fields lower (lit "X-Amz-Security-Token") fs1 = false).
    { destruct (in_fields lower (lit "X-Amz-Security-Token") fs1) eqn:E; [|reflexivity]. apply in_has in E; [|exact W1].
      rewrite LT in E. destruct E as [vs E]. apply header_set in E; [|exact W]. cbn [f_name f_values] in E. rewrite LD in E.
      destruct E as [[E _] | [_ E]]; [discriminate E|]. elim H3. now exists vs. }
    destruct (i_token i) as [t|]; [|split; [exact D1 | intros t X; discriminate X]].
    rewrite A3. cbn [negb]. split.
    - apply header_set_other; [exact W1| |exact D1]. cbn [f_name]. rewrite LT. discriminate.
    - intros t' [= <-]. apply header_set; [exact W1|]. left. cbn [f_name f_values]. now rewrite LT.
  Qed.

  Lemma canonical_payload p r c fs b : snd (canonical_request p r) = Ok (c, fs, b) ->
    exists h, snd (payload_of (r_dest r) p (r_body r) (r_fields r)) = Ok (h, fs, b).
  Proof.
    intros E. unfold Sign_Model.canonical_request in E.
    destruct (payload_of (r_dest r) p (r_body r) (r_fields r)) as [o [[[h fs1] b1]|]]; [|discriminate E].
    cbn [snd] in *. revert E. cbn - [format_canonical_path format_canonical_query format_canonical_fields normalize_signing_fields].
    destruct (format_canonical_path (u_path (r_dest r)) p) as [path|] eqn:P; [|discriminate].
    cbn - [format_canonical_path format_canonical_query format_canonical_fields normalize_signing_fields].
    destruct (format_canonical_query utf8_replace (u_query (r_dest r))) as [q|] eqn:Q; [|discriminate].
    cbn - [format_canonical_fields normalize_signing_fields].
    intros X. injection X as <- <- <-. now exists h.
  Qed.

  Lemma sign_verifiable now i p r s : wf_fields lower (r_fields r) ->
    ~ has_header lower (r_fields r) (lit "date") -> ~ has_header lower (r_fields r) (lit "x-amz-date") ->
    ~ has_header lower (r_fields r) (lit "x-amz-security-token") ->
    snd (sign now i p r) = Ok s ->
    exists date payload c sts sig lines,
      header lower (r_fields s) (lit "x-amz-date") [date] /\
      (forall t, i_token i = Some t -> header lower (r_fields s) (lit "x-amz-security-token") [t]) /\
      Canonical lower upper utf8_replace p s (r_fields s) payload c /\
      (async = false -> payload = payload_line (r_dest s) p (r_body s)) /\
      StringToSign sha256 (sp_region p) (sp_service p) date c sts /\
      Signature hmac (i_secret i) (sp_region p) (sp_service p) date sts sig /\
      signed_lines lower (r_dest s) (r_fields s) lines /\
      header lower (r_fields s) (lit "authorization")
        [lit "AWS4-HMAC-SHA256 Credential=" ++ i_access i ++ lit "/" ++ firstn 8 date ++ lit "/" ++ sp_region p ++ lit "/" ++ sp_service p
         ++ lit "/aws4_request, SignedHeaders=" ++ join [59] (map fst lines) ++ lit ", Signature=" ++ sig].
  Proof.
    intros W H1 H2 H3 E. destruct (sign_cases _ _ _ _ _ E) as [c [fs [b [sts [sig [C [S [G ->]]]]]]]].
    set (date := get_or now (sp_date p)) in *.
    assert (W1 := apply_wf lower date i _ W). destruct (apply_date date i _ W H1 H2 H3) as [HD HT].
    destruct (canonical_spec p (mkRequest (r_dest r) (r_method r) (r_body r) (apply_required_fields lower date i (r_fields r))) c fs b W1 C) as [payload [P K]]. cbn [r_dest r_body r_fields] in P.
    assert (W2 := payload_wf _ _ _ _ _ _ _ W1 P).
    set (lines := normalize_signing_fields lower (r_dest r) fs) in *.
    set (auth := mkField (lit "Authorization") _).
    assert (SH : same_headers lower fs (set_field lower auth fs)) by (apply same_sym; now apply same_auth).
    assert (NS : forall x, x <> lit "x-amz-content-sha256" -> x <> lower SHA_HEADER).
    { intros x X Y. apply X. rewrite Y. apply low; repeat constructor. }
    exists date, payload, c, sts, sig, lines. cbn [r_dest r_body r_fields r_method].
    repeat match goal with |- _ /\ _ => split end.
    - apply SH; [cbn; intros I; repeat destruct I as [I | I]; discriminate I || destruct I|].
      eapply payload_keeps; [exact W1 | apply NS; discriminate | exact P | exact HD].
    - intros t T. apply SH; [cbn; intros I; repeat destruct I as [I | I]; discriminate I || destruct I|].
      eapply payload_keeps; [exact W1 | apply NS; discriminate | exact P | now apply HT].
    - destruct K as [path [query [ls [K1 [K2 [K3 K4]]]]]]. exists path, query, ls. cbn [r_dest r_method] in *.
      split; [exact K1|]. split; [exact K2|]. split; [|exact K4]. eapply lines_respect; [exact SH | exact K3].
    - intros As. unfold format_canonical_payload in P. rewrite As in P.
      assert (CL := compute_line (r_dest r) p (r_body r)). assert (CA := compute_again (r_dest r) p (r_body r)).
      destruct (compute_payload_hash sha256 (r_dest r) p (r_body r)) as [o [[ph b0]|]]; [|discriminate P].
      cbn in P. injection P as -> _ ->. specialize (CA payload b eq_refl).
      apply (compute_line (r_dest r) p b payload b). now rewrite CA.
    - unfold string_to_sign in S. destruct (utf8_encode c) as [bs|] eqn:Ec; [|discriminate S]. cbn [bind] in S. injection S as <-.
      exists bs. split; [exact Ec|]. unfold scope, LF. rewrite <- !app_assoc. reflexivity.
    - unfold signature, hash in G.
      repeat match type of G with context [utf8_encode ?t] => destruct (utf8_encode t) eqn:?; cbn [bind] in G; [|discriminate G] end.
      injection G as <-. do 6 eexists. repeat (split; [eassumption || reflexivity|]). reflexivity.
    - eapply lines_respect; [exact SH|]. now apply lines_spec.
    - assert (HA := header_auth fs (authorization_value (i_access i ++ [47] ++ scope date p) (map fst lines) sig) W2).
      fold auth in HA. unfold authorization_value, scope in HA. rewrite <- !app_assoc in HA. exact HA.
  Qed.

  (** ** Sending *)
  Lemma marshal_In u fs name v : wf_fields lower fs ->
    In (name, v) (marshal_headers lower u fs) <->
    exists gs f, wf_fields lower gs /\
      gs = (let fs := if in_fields lower (lit "host") fs then fs else set_field lower (mkField (lit "host") [netloc u]) fs in
            if in_fields lower (lit "accept") fs then fs else set_field lower (mkField (lit "accept") [lit "*/*"]) fs) /\
      dict_get (lower name) gs = Some f /\ f_name f = name /\ In v (f_values f).
  Proof.
    intros W. unfold marshal_headers. cbv zeta.
    set (fs1 := if in_fields lower (lit "host") fs then fs else _).
    assert (W1 : wf_fields lower fs1) by (unfold fs1; destruct (in_fields _ _ _); [assumption | now apply wf_set]).
    set (gs := if in_fields lower (lit "accept") fs1 then fs1 else _).
    assert (W2 : wf_fields lower gs) by (unfold gs; destruct (in_fields _ _ fs1); [assumption | now apply wf_set]).
    rewrite in_flat_map. split.
    - intros [[k f] [I J]]. cbn [snd] in J. apply in_map_iff in J as [w [J1 J2]]. injection J1 as <- <-.
      exists gs, f. split; [exact W2|]. split; [reflexivity|]. split; [|now split].
      destruct W2 as [N K]. apply dict_In_get; [exact N|]. now rewrite <- (K k f I).
    - intros [gs' [f [_ [-> [E [<- J]]]]]]. apply dict_get_In in E. exists (lower (f_name f), f). split; [exact E|].
      cbn [snd]. apply in_map_iff. exists v. now split.
  Qed.
  Lemma marshal_single u fs n v : wf_fields lower fs -> ~ In n UNSIGNED -> header lower fs n [v] ->
    exists name, In (name, v) (marshal_headers lower u fs) /\ lower name = n /\
      forall w, In (name, w) (marshal_headers lower u fs) -> w = v.
  Proof.
    intros W NE H. apply (header_get lower fs n W) in H as [f [E V]].
    assert (Nf : lower (f_name f) = n) by (destruct W as [_ K]; symmetry; apply K; now apply dict_get_In).
    assert (LH : lower (lit "host") = lit "host") by (apply low; repeat constructor).
    assert (LA : lower (lit "accept") = lit "accept") by (apply low; repeat constructor).
    set (fs1 := if in_fields lower (lit "host") fs then fs else set_field lower (mkField (lit "host") [netloc u]) fs).
    set (gs := if in_fields lower (lit "accept") fs1 then fs1 else set_field lower (mkField (lit "accept") [lit "*/*"]) fs1).
    assert (E1 : dict_get n fs1 = Some f).
    { unfold fs1. destruct (in_fields lower (lit "host") fs) eqn:I; [exact E|]. unfold set_field. cbn [f_name]. rewrite LH.
      rewrite dict_get_set_ne; [exact E|]. intros ->. unfold in_fields, dict_has in I. rewrite LH, E in I. discriminate I. }
    assert (E2 : dict_get n gs = Some f).
    { unfold gs. destruct (in_fields lower (lit "accept") fs1) eqn:I; [exact E1|]. unfold set_field. cbn [f_name]. rewrite LA.
      rewrite dict_get_set_ne; [exact E1|]. intros ->. apply NE. cbn. now left. }
    exists (f_name f). split; [|split; [exact Nf|]].
    - apply marshal_In; [exact W|]. exists gs, f. split.
      + unfold gs, fs1. destruct (in_fields lower (lit "host") fs); destruct (in_fields lower (lit "accept") _); repeat apply wf_set; assumption.
      + split; [reflexivity|]. rewrite Nf, V. split; [exact E2|]. split; [reflexivity | now left].
    - intros w I. apply marshal_In in I; [|exact W]. destruct I as [gs' [f' [_ [-> [E' [_ I]]]]]].
      rewrite Nf in E'. cbv zeta in E'. fold fs1 in E'. fold gs in E'. rewrite E2 in E'. injection E' as <-. rewrite V in I. now destruct I as [<- | []].
  Qed.
  Lemma marshal_host u fs lines : wf_fields lower fs -> signed_lines lower u fs lines ->
    ~ has_header lower fs (lit "host") -> (forall port, u_port u = Some port -> default_port (u_scheme u) <> Some port) ->
    forall v, In (lit "host", v) (marshal_headers lower u fs) <-> In (lit "host", v) lines.
  Proof.
    intros W [_ Ls] NH NP v.
    assert (LH : lower (lit "host") = lit "host") by (apply low; repeat constructor).
    assert (LA : lower (lit "accept") = lit "accept") by (apply low; repeat constructor).
    assert (NF : normalize_host_field u = netloc u).
    { unfold normalize_host_field. destruct (u_port u) as [port|] eqn:P; [|reflexivity].
      destruct (default_port (u_scheme u)) as [d|] eqn:D; [|reflexivity]. destruct (N.eqb_spec port d) as [-> |]; [|reflexivity].
      now elim (NP d). }
    assert (In0 : in_fields lower (lit "host") fs = false).
    { destruct (in_fields lower (lit "host") fs) eqn:I; [|reflexivity]. apply in_has in I; [|exact W]. rewrite LH in I. now elim NH. }
    rewrite Ls. rewrite marshal_In by exact W. rewrite In0. cbv zeta.
    set (fs1 := set_field lower (mkField (lit "host") [netloc u]) fs).
    assert (W1 : wf_fields lower fs1) by now apply wf_set.
    set (gs := if in_fields lower (lit "accept") fs1 then fs1 else _).
    assert (G1 : dict_get (lit "host") gs = Some (mkField (lit "host") [netloc u])).
    { assert (G0 : dict_get (lit "host") fs1 = Some (mkField (lit "host") [netloc u])).
      { unfold fs1, set_field. cbn [f_name]. rewrite LH. apply dict_get_set_eq. }
      unfold gs. destruct (in_fields lower (lit "accept") fs1); [exact G0|]. unfold set_field. cbn [f_name]. rewrite LA.
      rewrite dict_get_set_ne by discriminate. exact G0. }
    rewrite LH. split.
    - intros [gs' [f [_ [-> [E [_ I]]]]]]. rewrite G1 in E. injection E as <-. destruct I as [<- | []]. right. repeat split; [exact NH | now rewrite NF].
    - intros [[_ [vs [H _]]] | [_ [_ ->]]]; [elim NH; now exists vs|]. rewrite NF. exists gs, (mkField (lit "host") [netloc u]).
      split; [unfold gs; destruct (in_fields lower (lit "accept") fs1); [exact W1 | now apply wf_set]|].
      split; [reflexivity|]. split; [exact G1|]. split; [reflexivity | now left].
  Qed.
End P.
