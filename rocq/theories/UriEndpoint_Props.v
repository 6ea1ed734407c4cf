(** Endpoints. *)
From Verif Require Import Base Base_Proofs PyText_Model PyText_Proofs PySort_Model PySort_Proofs Http_Model Uri_Model Uri_Spec Uri_Proofs UriParts_Proofs UriEndpoint_Proofs Uri_Props.
Local Open Scope N_scope.

(** ** C86: endpoints *)

Section Endpoints.
  Variable bracketed_host_ok : text -> bool.
  Variable nfkc_ok : text -> bool.
  Variable lower : text -> text.
  (** [str.lower] on ASCII text *)
  Hypothesis lower_ascii : forall s, Forall (fun c => c < 128) s -> lower s = map down s.

  Lemma hostname_down a ui h p b : authority a ui h p -> h <> [] ->
    (h = lit "[" ++ b ++ lit "]" /\ b <> []) \/ (h = b /\ ~ In 91 b) -> Forall literal_char b -> hostname lower a = Some (down_to_percent b).
  Proof.
    intros A Nh B L. assert (E : hostinfo a = (b, match p with Some [] => None | _ => p end)).
    { destruct B as [[-> _]|[-> B]]; [|now apply (hostinfo_name a ui)]. apply (hostinfo_literal a ui); [exact A|]. apply literal_lacks; [exact L | cbn; tauto]. }
    unfold hostname. rewrite E. cbn [fst]. assert (Nb : b <> []) by (destruct B as [[_ B]|[-> _]]; auto). destruct b as [|c b]; [congruence|].
    unfold down_to_percent. destruct (cut_at 37 (c :: b)) as [x y] eqn:Ex. f_equal. f_equal. apply lower_ascii.
    destruct (down_to_percent_read (c :: b)) as (x' & y' & E1 & N1 & Y & _).
    assert (x = x') as ->.
    { destruct Y as [->|(z & ->)]; rewrite E1 in Ex; [rewrite app_nil_r, cut_at_none in Ex by exact N1 | rewrite cut_at_app in Ex by exact N1]; congruence. }
    rewrite E1 in L. apply Forall_app in L. destruct L as [L _]. eapply Forall_impl; [|exact L]. intros d D. apply literal_no in D. lia.
  Qed.

  Lemma urlparse_parts s sch a path query frag :
    parts_of s = mkParts (Some sch) (Some a) path query frag -> (forall c, In c s -> 32 < c) -> scheme_name sch ->
    urlparse bracketed_host_ok nfkc_ok s
    = if netloc_ok bracketed_host_ok a then
        if is_ascii a || nfkc_ok a then
          Ok (mkParsed (map lower_letter sch) a (if mem_text (map lower_letter sch) uses_params && has 59 path then split_params path else path) (match query with Some q => q | None => [] end))
        else Err ValueError
      else Err ValueError.
  Proof.
    intros Hp Hs Hsch. apply parts_of_inv in Hp. destruct Hp as (Es & _ & _ & Aa & Pp & Pq & Qq).
    destruct Hsch as (c0 & r0 & Esch & Lc & Fr).
    assert (Sc : ascii_letter c0 = true /\ forallb scheme_char (c0 :: r0) = true /\ ~ In 58 (c0 :: r0)).
    { assert (Lt : forall c, letter c -> ascii_letter c = true).
      { intros c C. unfold ascii_letter, between. unfold letter in C. apply orb_true_iff. destruct C as [C|C]; [left | right]; apply andb_true_intro; split; apply N.leb_le; lia. }
      split; [auto|]. assert (F : Forall (fun d => letter d \/ a_digit d \/ In d (lit "+-.")) (c0 :: r0)) by (constructor; auto). split.
      - apply forallb_forall. intros d D. rewrite Forall_forall in F. specialize (F d D). unfold scheme_char. destruct F as [F|[F|F]].
        + apply Lt in F. unfold ascii_letter in F. now rewrite F.
        + unfold a_digit in F. rewrite <- !orb_assoc. apply orb_true_iff. right. apply orb_true_iff. right. apply orb_true_iff. left. unfold between. apply andb_true_intro. split; apply N.leb_le; lia.
        + apply has_In in F. rewrite F. apply orb_true_r.
      - intros D. rewrite Forall_forall in F. specialize (F 58 D). unfold letter, a_digit in F. cbn in F. lia. }
    destruct Sc as (Sc1 & Sc2 & Sc3).
    unfold urlparse. replace (lstrip_by (fun c => c <=? 32) s) with s.
      2:{ unfold lstrip_by. destruct s as [|c s]; [reflexivity|]. cbn [drop_while]. specialize (Hs c (or_introl eq_refl)). apply N.leb_gt in Hs. now rewrite Hs. }
      replace (filter (fun c => negb (has c [9; 13; 10])) s) with s.
      2:{ clear - Hs. induction s as [|c s IH]; [reflexivity|]. cbn [filter]. rewrite <- IH by (intros d D; apply Hs; now right). specialize (Hs c (or_introl eq_refl)).
          assert (Nc : ~ In c [9; 13; 10]) by (cbn; lia). apply has_notIn in Nc. now rewrite Nc. }
      assert (C0 : forall r, cut_at 58 ((c0 :: r0) ++ [58] ++ r) = (c0 :: r0, Some r)) by (intros r; now apply (cut_at_app 58 (c0 :: r0) r)).
      rewrite Es, Esch. rewrite C0. rewrite Sc1, Sc2. cbn [andb].
      assert (Sw : forall r, starts_with (lit "//") (lit "//" ++ r) = true) by (intros r; apply starts_with_spec; eauto). rewrite Sw.
      change (skipn 2 (lit "//" ++ a ++ path ++ part_text 63 query ++ part_text 35 frag)) with (a ++ path ++ part_text 63 query ++ part_text 35 frag).
      rewrite split_netloc_app; [|exact Aa|].
      2:{ destruct Pp as [->|(r & ->)]; [|cbn; tauto]. destruct query; [cbn; tauto|]. destruct frag; [cbn; tauto | exact I]. }
      destruct (netloc_ok bracketed_host_ok a); [|reflexivity]. cbn [bind].
      assert (C1 : fst (cut_at 35 (path ++ part_text 63 query ++ part_text 35 frag)) = path ++ part_text 63 query).
      { assert (N1 : ~ In 35 (path ++ part_text 63 query)).
        { intros J. apply in_app_or in J. destruct J as [J|J]; [apply (Pq 35 J); cbn; tauto|]. destruct query as [q|]; [|destruct J]. destruct J as [J|J]; [discriminate J|]. now apply (Qq q 35). }
        destruct frag as [f|]; cbn [part_text].
        - rewrite app_assoc, cut_at_app by exact N1. reflexivity.
        - rewrite app_nil_r, cut_at_none by exact N1. reflexivity. }
      rewrite C1. assert (C2 : cut_at 63 (path ++ part_text 63 query) = (path, query)).
      { assert (N1 : ~ In 63 path) by (intros J; apply (Pq 63 J); cbn; tauto). destruct query as [q|]; cbn [part_text]; [now apply cut_at_app | rewrite app_nil_r; now apply cut_at_none]. }
      rewrite C2. reflexivity.
  Qed.

  (** A text whose parts are a scheme, an authority, a path and a query resolves to
      the URI with this scheme and host in lower case, this port, path and query. *)
  Theorem C86_static s sch a ui h port path query frag :
    parts_of s = mkParts (Some sch) (Some a) path query frag ->
    (forall c, In c s -> 32 < c) -> scheme_name sch -> authority a ui h port -> h <> [] ->
    (forall b, h = lit "[" ++ b ++ lit "]" -> ipv6_zone short_number zone_marks b /\ bracketed_host_ok b = true) ->
    match port with Some p => number_of p <= 65535 | None => True end -> ~ In 59 path ->
    exists h', host_read h h' /\
      static_endpoint bracketed_host_ok nfkc_ok lower (Some (Some (EText s)))
        = Ok (mkUri (map down sch) None None h' (port_read port) (Some path) (Some (match query with Some q => q | None => [] end)) None).
  Proof.
    intros Hp Hs Hsch A Nh Hb Hport Hpath.
    assert (B : exists b, ((h = lit "[" ++ b ++ lit "]" /\ b <> [] /\ bracketed_host_ok b = true /\ ipv6_zone short_number zone_marks b) \/ (h = b /\ ~ In 91 b /\ reg_name b)) /\ Forall literal_char b).
    { destruct A as (_ & _ & H & _). destruct H as [H|(b & B & E)].
      - exists h. apply reg_chars in H as H'. apply name_literal in H'. destruct H' as [H' _]. split; [|exact H']. right. split; [reflexivity|]. split; [|exact H].
        apply literal_lacks; [exact H' | cbn; tauto].
      - exists b. destruct (Hb b E) as [Hz Hk]. split; [|now apply ipv6_zone_chars]. left. split; [exact E|]. split; [|auto].
        intros ->. destruct Hz as (x & z & X & _ & Ez). symmetry in Ez. apply app_eq_nil in Ez. destruct Ez as [-> _]. now apply ipv6_colon in X. }
    destruct B as (b & B & L). exists (down_to_percent b). split.
    { destruct (down_to_percent_read b) as (x & y & E1 & N1 & Y & E2). exists b, x, y. split; [|auto]. destruct B as [(-> & _)|(-> & B & _)]; auto. }
    assert (Hh : hostname lower a = Some (down_to_percent b)).
    { apply (hostname_down a ui h port); auto. destruct B as [(-> & B & _)|(-> & B & _)]; auto. }
    assert (Hi : port_of a = Ok (port_read port)).
    { unfold port_of. assert (E : snd (hostinfo a) = match port with Some [] => None | _ => port end).
      { destruct B as [(-> & _)|(-> & B & _)]; [|now rewrite (hostinfo_name a ui b port)]. rewrite (hostinfo_literal a ui b port); [reflexivity | exact A|].
        apply literal_lacks; [exact L | cbn; tauto]. }
      rewrite E. destruct port as [[|c r]|]; [reflexivity| |reflexivity]. destruct A as (_ & _ & _ & P). rewrite (digits_number _ P). unfold port_read, number_of in *.
      apply N.leb_le in Hport. now rewrite Hport. }
    assert (Ho : host_ok (down_to_percent b) = true).
    { apply host_ok_spec. destruct B as [(_ & _ & _ & B)|(_ & _ & B)]; [right; now apply down_ipv6|]. left. left. left. now apply down_reg. }
    assert (Hn : netloc_ok bracketed_host_ok a = true).
    { destruct B as [(-> & _ & B & _)|(-> & B & _)]; [|now apply (netloc_name _ a ui b port)]. apply (netloc_literal _ a ui b port); auto; apply literal_lacks; auto; cbn; tauto. }
    assert (Hasc : is_ascii a = true).
    { apply forallb_forall. intros c C. apply N.ltb_lt. destruct A as (Ea & U & H & P). rewrite Ea in C. apply in_app_or in C. destruct C as [C|C].
      - destruct ui as [x|]; [|destruct C]. apply in_app_or in C. destruct C as [C|[<-|[]]]; [|cbn; lia]. apply info_chars in U. rewrite Forall_forall in U. apply U, literal_no in C. lia.
      - apply in_app_or in C. destruct C as [C|C]; [|apply port_digits in C; [unfold a_digit in C; lia | exact P]].
        assert (Lh : In c b \/ c = 91 \/ c = 93).
        { destruct B as [(-> & _)|(-> & _)]; [|now left]. apply in_app_or in C. destruct C as [[<-|[]]|C]; [auto|]. apply in_app_or in C. destruct C as [C|[<-|[]]]; auto. }
        destruct Lh as [Lh|Lh]; [|lia]. rewrite Forall_forall in L. apply L, literal_no in Lh. lia. }
    unfold static_endpoint, resolve_static_uri. rewrite (urlparse_parts s sch a path query frag Hp Hs Hsch), Hn, Hasc. cbn [orb].
    apply has_notIn in Hpath. rewrite Hpath, andb_false_r.
    cbn [bind p_netloc p_scheme p_path p_query]. rewrite Hh, Hi. cbn [bind]. unfold make_uri. cbn [u_host]. rewrite Ho. reflexivity.
  Qed.

  (** An authority with one kind of bracket only is refused. *)
  Theorem C86_brackets s sch a path query frag :
    parts_of s = mkParts (Some sch) (Some a) path query frag -> (forall c, In c s -> 32 < c) -> scheme_name sch ->
    (In 91 a /\ ~ In 93 a) \/ (In 93 a /\ ~ In 91 a) ->
    static_endpoint bracketed_host_ok nfkc_ok lower (Some (Some (EText s))) = Err ValueError.
  Proof.
    intros Hp Hs Hsch H. unfold static_endpoint, resolve_static_uri. rewrite (urlparse_parts s sch a path query frag Hp Hs Hsch).
    unfold netloc_ok. destruct H as [[A B]|[A B]]; apply has_In in A; apply has_notIn in B; now rewrite A, B.
  Qed.

  (** A URI is used as it is; without one the resolver raises. *)
  Theorem C86_given u :
    static_endpoint bracketed_host_ok nfkc_ok lower (Some (Some (EUri u))) = Ok u
    /\ static_endpoint bracketed_host_ok nfkc_ok lower (Some None) = Err (OtherErr 62)
    /\ static_endpoint bracketed_host_ok nfkc_ok lower None = Err (OtherErr 62).
  Proof. split; [reflexivity | split; reflexivity]. Qed.
  (** Whatever the text: a URI whose host was checked, or an error. *)
  Theorem C86_checked s :
    (exists u, static_endpoint bracketed_host_ok nfkc_ok lower (Some (Some (EText s))) = Ok u
       /\ make_uri host_ok u = Ok u /\ u_username u = None /\ u_password u = None /\ u_fragment u = None /\ (forall p, u_port u = Some p -> p <= 65535))
    \/ (exists e, In e [ValueError; OtherErr 62; SmithyErr] /\ static_endpoint bracketed_host_ok nfkc_ok lower (Some (Some (EText s))) = Err e).
  Proof.
    unfold static_endpoint, resolve_static_uri. destruct (urlparse bracketed_host_ok nfkc_ok s) as [p|e] eqn:E.
    - cbn [bind]. destruct (hostname lower (p_netloc p)) as [h|]; [|right; exists (OtherErr 62); split; [cbn; tauto | reflexivity]].
      assert (P : (exists o, port_of (p_netloc p) = Ok o /\ forall n, o = Some n -> n <= 65535) \/ port_of (p_netloc p) = Err ValueError).
      { unfold port_of. destruct (snd (hostinfo (p_netloc p))) as [t|]; [|left; exists None; split; [reflexivity | discriminate]]. destruct (digits_val 0 t) as [n|]; [|now right].
        destruct (n <=? 65535) eqn:L; [left | now right]. exists (Some n). split; [reflexivity|]. intros m [= <-]. now apply N.leb_le. }
      destruct P as [(o & -> & P)|P]; [|rewrite P; right; exists ValueError; split; [cbn; tauto | reflexivity]]. cbn [bind]. unfold make_uri. cbn [u_host].
      destruct (host_ok h) eqn:H; [left | right; exists SmithyErr; split; [cbn; tauto | reflexivity]]. eexists. split; [reflexivity|]. cbn [u_host u_username u_password u_fragment u_port]. rewrite H. auto 10.
    - right. exists e. split; [|reflexivity]. assert (e = ValueError) as ->; [|cbn; tauto]. unfold urlparse in E. revert E.
      repeat (match goal with |- context [let (_, _) := ?x in _] => destruct x end). destruct (starts_with _ _).
      + destruct (netloc_ok _ _); cbn [bind]; [|congruence]. destruct (cut_at 63 _). destruct (is_ascii _ || nfkc_ok _); congruence.
      + cbn [bind]. destruct (cut_at 63 _). cbn [is_ascii forallb orb]. discriminate.
  Qed.

  (** The regional resolver: an endpoint that was given first, then the region's. *)
  Definition regional_host (prefix region : text) : text := prefix ++ lit "." ++ region ++ lit ".amazonaws.com".
  Theorem C86_regional prefix region :
    reg_name prefix ->
    (forall u r, regional_endpoint bracketed_host_ok nfkc_ok lower prefix (Some (Some (EUri u))) r = Ok u)
    /\ (forall s r, regional_endpoint bracketed_host_ok nfkc_ok lower prefix (Some (Some (EText s))) r = static_endpoint bracketed_host_ok nfkc_ok lower (Some (Some (EText s))))
    /\ (reg_name region -> exists u, regional_endpoint bracketed_host_ok nfkc_ok lower prefix None (Some (Some region)) = Ok u
          /\ build u = lit "https://" ++ regional_host prefix region
          /\ parts_of (build u) = mkParts (Some (lit "https")) (Some (regional_host prefix region)) [] None None
          /\ authority (regional_host prefix region) None (regional_host prefix region) None)
    /\ (~ reg_name region -> regional_endpoint bracketed_host_ok nfkc_ok lower prefix None (Some (Some region)) = Err SmithyErr)
    /\ regional_endpoint bracketed_host_ok nfkc_ok lower prefix None (Some None) = Err (OtherErr 62)
    /\ regional_endpoint bracketed_host_ok nfkc_ok lower prefix None None = Err (OtherErr 62).
  Proof.
    intros Hp. assert (No37 : ~ (unreserved 37 \/ sub_delim 37)) by (unfold unreserved, letter, a_digit, sub_delim; cbn; lia).
    assert (Dot : encoded (fun c => unreserved c \/ sub_delim c) [46]) by (apply encoded_one; left; unfold unreserved; cbn; lia).
    assert (Tail : encoded (fun c => unreserved c \/ sub_delim c) (lit ".amazonaws.com")).
    { assert (En : forall (P : N -> Prop) s, Forall P s -> encoded P s).
      { intros P s F. induction F as [|c s C F IH]; [apply encoded_nil|]. apply (encoded_app P [c] s); [now apply encoded_one | exact IH]. }
      apply En. repeat (apply Forall_cons || apply Forall_nil); left; unfold unreserved, letter; cbn; lia. }
    assert (Iff : host_ok (regional_host prefix region) = true <-> reg_name region).
    { rewrite host_ok_spec. split.
      - intros H. assert (R : reg_name (regional_host prefix region)).
        { assert (Six : ~ In 58 prefix) by (apply reg_chars, name_literal in Hp; tauto).
          assert (Lit : forall b, regional_host prefix region <> lit "[" ++ b).
          { intros b E. unfold regional_host in E. destruct prefix as [|c p]; [discriminate E|]. injection E as -> _. apply reg_chars in Hp. inversion Hp as [|? ? X _]; subst. apply name_no in X. destruct X as (X & _). apply X. cbn. tauto. }
          destruct H as [[H|(b & E & _)]|H].
          - destruct H as [H|(x & _ & E)]; [exact H|]. now apply Lit in E.
          - exfalso. unfold regional_host in E. rewrite !app_assoc in E. change (lit ".amazonaws.com") with (lit ".amazonaws.co" ++ [109]) in E. rewrite app_assoc in E. apply app_inj_tail in E. destruct E as [_ E]. discriminate E.
          - exfalso. apply Six. apply (ipv6_colon_first _ prefix (region ++ lit ".amazonaws.com") H). reflexivity. }
        unfold reg_name, regional_host in R. apply encoded_rest in R; [|exact No37 | exact Hp]. apply (encoded_rest _ [46]) in R; [|exact No37 | exact Dot].
        apply (encoded_before _ 46 region (lit "amazonaws.com")); [unfold hexdig, a_digit; lia | exact No37 | exact R].
      - intros R. left. left. left. unfold reg_name, regional_host. apply encoded_app; [exact Hp|]. apply encoded_app; [exact Dot|]. now apply encoded_app. }
    split; [reflexivity|]. split.
    { intros s r. unfold regional_endpoint, static_endpoint. destruct (resolve_static_uri _ _ _ (Some (Some (EText s)))) as [[u|]|e] eqn:E; try reflexivity.
      exfalso. unfold resolve_static_uri in E. destruct (urlparse _ _ s); [|discriminate E]. cbn [bind] in E. destruct (hostname _ _); [|discriminate E].
      destruct (port_of _); [|discriminate E]. cbn [bind] in E. destruct (make_uri _ _); discriminate E. }
    assert (Er : regional_endpoint bracketed_host_ok nfkc_ok lower prefix None (Some (Some region))
      = make_uri host_ok (mkUri (lit "https") None None (regional_host prefix region) None None None None)) by reflexivity.
    split; [|split; [|split; reflexivity]].
    - intros R. apply Iff in R as Ho. exists (mkUri (lit "https") None None (regional_host prefix region) None None None None). rewrite Er. unfold make_uri at 1. cbn [u_host]. rewrite Ho.
      split; [reflexivity|].
      assert (Rn : reg_name (regional_host prefix region)) by (unfold reg_name, regional_host; apply encoded_app; [exact Hp|]; apply encoded_app; [exact Dot|]; now apply encoded_app).
      assert (W : well_formed (mkUri (lit "https") None None (regional_host prefix region) None None None None)).
      { unfold well_formed. cbn [u_scheme u_username u_password u_host u_path u_query]. split; [discriminate|]. split; [intros c I J; cbn in I, J; lia|].
        split; [discriminate|]. split; [discriminate|]. split; [unfold regional_host; destruct prefix; discriminate|]. split; [|split; discriminate].
        apply reg_chars in Rn. eapply Forall_notin; [exact Rn|]. intros X. apply name_no in X. lia. }
      assert (Mk : forall u, u_host u = regional_host prefix region -> make_uri host_ok u = Ok u) by (intros u Eu; unfold make_uri; now rewrite Eu, Ho).
      pose proof (Mk (mkUri (lit "https") None None (regional_host prefix region) None None None None) eq_refl) as Mu.
      destruct (C85_build _ Mu W) as (a & h & Pa & Hw & Au & _).
      cbn [u_scheme u_username u_password u_host u_port u_path u_query u_fragment userinfo_written path_written part_written] in Pa, Hw, Au.
      assert (h = regional_host prefix region) as ->.
      { destruct Hw as [[Hw _]|[_ Hw]]; [|exact Hw]. exfalso. destruct Hw as (x & z & X & _ & Ez). apply reg_chars, name_literal in Rn. destruct Rn as [_ Rn]. apply Rn. rewrite Ez.
        apply in_or_app. left. now apply ipv6_colon. }
      assert (a = regional_host prefix region) as -> by (destruct Au as (-> & _); cbn [app]; apply app_nil_r).
      split; [|split; [exact Pa | exact Au]]. apply parts_of_inv in Pa. destruct Pa as (-> & _). cbn [part_text]. rewrite !app_nil_r. reflexivity.
    - intros R. rewrite Er. unfold make_uri. cbn [u_host]. destruct (host_ok (regional_host prefix region)) eqn:E; [|reflexivity]. elim R. now apply Iff.
  Qed.
End Endpoints.
Print Assumptions C86_static.
Print Assumptions C86_brackets.
Print Assumptions C86_given.
Print Assumptions C86_checked.
Print Assumptions C86_regional.

(** ** Cases *)
Definition ex_static (s : text) : result uri := static_endpoint (fun _ => true) (fun _ => true) (map down) (Some (Some (EText s))).
Lemma all_of (P : N -> Prop) s : Forall P s -> encoded P s.
Proof. intros F. induction F as [|c s C F IH]; [apply encoded_nil|]. apply (encoded_app P [c] s); [now apply encoded_one | exact IH]. Qed.
Example C86_ex :
  parts_of (lit "HTTPS://me@Api.Example.com:8443/V1?x=Y#f") = mkParts (Some (lit "HTTPS")) (Some (lit "me@Api.Example.com:8443")) (lit "/V1") (Some (lit "x=Y")) (Some (lit "f"))
  /\ scheme_name (lit "HTTPS") /\ authority (lit "me@Api.Example.com:8443") (Some (lit "me")) (lit "Api.Example.com") (Some (lit "8443"))
  /\ ex_static (lit "HTTPS://me@Api.Example.com:8443/V1?x=Y#f") = Ok (mkUri (lit "https") None None (lit "api.example.com") (Some 8443) (Some (lit "/V1")) (Some (lit "x=Y")) None)
  /\ ex_static (lit "https://[FE80::A%25En0]/") = Ok (mkUri (lit "https") None None (lit "fe80::a%25En0") None (Some (lit "/")) (Some []) None)
  /\ ex_static (lit "example.com") = Err (OtherErr 62).
Proof.
  split; [vm_compute; reflexivity|]. split; [|split; [|split; [vm_compute; reflexivity | split; vm_compute; reflexivity]]].
  - exists 72, (lit "TTPS"). split; [reflexivity|]. split; [unfold letter; lia|]. repeat (apply Forall_cons || apply Forall_nil); left; unfold letter; cbn; lia.
  - split; [reflexivity|]. split; [|split; [left|]].
    + apply all_of. repeat (apply Forall_cons || apply Forall_nil); left; unfold unreserved, letter; cbn; lia.
    + apply all_of. repeat (apply Forall_cons || apply Forall_nil); left; unfold unreserved, letter; cbn; lia.
    + repeat (apply Forall_cons || apply Forall_nil); unfold a_digit; cbn; lia.
Qed.
Example C86_brackets_ex : authority_of (parts_of (lit "https://[2001:db8::1/")) = Some (lit "[2001:db8::1") /\ ex_static (lit "https://[2001:db8::1/") = Err ValueError.
Proof. split; reflexivity. Qed.
Example C86_region_ex : reg_name (lit "bedrock-runtime") /\ reg_name (lit "us-east-1") /\ ~ reg_name (lit "x@evil.com/").
Proof.
  split; [|split].
  1,2: apply all_of; repeat (apply Forall_cons || apply Forall_nil); left; unfold unreserved, letter, a_digit; cbn; lia.
  intros H. apply reg_chars in H. rewrite Forall_forall in H. assert (I : In 64 (lit "x@evil.com/")) by (cbn; tauto). apply H, name_no in I. destruct I as (I & _). apply I. cbn. tauto.
Qed.
(** A parameter of the last segment is lost: the path is not the text's path. *)
Theorem C86_params_refuted : exists s u, path_of (parts_of s) = lit "/a/b;v=1" /\ ex_static s = Ok u /\ u_path u = Some (lit "/a/b").
Proof. exists (lit "https://h/a/b;v=1"), (mkUri (lit "https") None None (lit "h") None (Some (lit "/a/b")) (Some []) None). repeat split; vm_compute; reflexivity. Qed.
Print Assumptions C86_params_refuted.
(** A user and a password are lost. *)
Theorem C86_user_refuted : exists s u, authority_of (parts_of s) = Some (lit "user:secret@h") /\ ex_static s = Ok u /\ uri_netloc u = lit "h".
Proof. exists (lit "https://user:secret@h/"), (mkUri (lit "https") None None (lit "h") None (Some (lit "/")) (Some []) None). repeat split; vm_compute; reflexivity. Qed.
Print Assumptions C86_user_refuted.
(** Not every failure is an endpoint resolution error. *)
Theorem C86_errors_refuted : ex_static (lit "https://h:99999/") = Err ValueError /\ ex_static (lit "https://h:x/") = Err ValueError /\ ex_static (lit "https://[v1.a:b]/") = Err SmithyErr
  /\ ex_static (lit "https://a_b c/") = Err SmithyErr.
Proof. vm_compute. repeat split. Qed.
Print Assumptions C86_errors_refuted.
