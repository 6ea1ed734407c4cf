(** Hosts, and the text of a URI. *)
From Verif Require Import Base Base_Proofs PyText_Model PyText_Proofs PySort_Model PySort_Proofs Http_Model Uri_Model Uri_Spec Uri_Proofs UriParts_Proofs.
Local Open Scope N_scope.

(** ** C84: hosts *)

(** A URI can be made exactly for the hosts of the grammar, also with a newline
    after them, and for IPv6 addresses without brackets. *)
Theorem C84_accepted u :
  (make_uri host_ok u = Ok u <->
     code_host (u_host u) \/ (exists b, u_host u = b ++ [10] /\ code_host b) \/ ipv6_zone short_number zone_marks (u_host u))
  /\ (make_uri host_ok u = Ok u \/ make_uri host_ok u = Err SmithyErr).
Proof.
  unfold make_uri. pose proof (host_ok_spec (u_host u)) as H. unfold and_newline in H. destruct (host_ok (u_host u)).
  - split; [|now left]. split; [intros _; destruct H as [H _]; specialize (H eq_refl); tauto | reflexivity].
  - split; [|now right]. split; [discriminate|]. intros X. assert (false = true) by (apply H; tauto). discriminate.
Qed.
Print Assumptions C84_accepted.

Lemma octet_short s : octet s -> short_number s.
Proof.
  assert (D : forall n, n < 10 -> a_digit (48 + n)) by (unfold a_digit; intros; lia).
  intros (n & L & ->). unfold short_number. destruct (n <? 10) eqn:A; [apply N.ltb_lt in A; cbn; split; [lia | auto]|].
  destruct (n <? 100) eqn:B; [apply N.ltb_lt in B|apply N.ltb_ge in B]; cbn [List.length]; (split; [lia|]);
    repeat (apply Forall_cons || apply Forall_nil); apply D; try (apply N.mod_upper_bound; discriminate); apply N.div_lt_upper_bound; lia.
Qed.
Lemma dotted_octets s : dotted octet s -> dotted short_number s.
Proof. intros (a & b & c & d & A & B & C & D & ->). exists a, b, c, d. repeat (split; [now apply octet_short|]). reflexivity. Qed.
Lemma groups_octets gs n : groups octet gs n -> groups short_number gs n.
Proof. intros [H|(hs & v & -> & F & D & L)]; [now left|]. right. exists hs, v. repeat (split; auto). now apply dotted_octets. Qed.
Lemma ipv6_octets s : ipv6 octet s -> ipv6 short_number s.
Proof.
  intros [(gs & G & ->)|(b & a & n & F & G & L & ->)]; [left | right].
  - exists gs. split; [now apply groups_octets | reflexivity].
  - exists b, a, n. repeat (split; auto). now apply groups_octets.
Qed.
Lemma zone_more s : zone [lit "%25"] s -> zone zone_marks s.
Proof. intros [->|(m & z & [<-|[]] & Ne & E & ->)]; [now left|]. right. exists (lit "%25"), z. split; [now left | auto]. Qed.
(** Every host of RFC 3986 and RFC 6874 can be used, unless it is a future IP
    address spelt with a capital V. *)
Theorem C84_rfc u : rfc_host (u_host u) -> (forall r, u_host u <> lit "[V" ++ r) -> make_uri host_ok u = Ok u.
Proof.
  intros H V. apply C84_accepted. left. destruct H as [H|[H|(a & A & E)]].
  - now left.
  - left. now apply dotted_reg, dotted_octets.
  - right. exists a. split; [|exact E]. destruct A as [(x & z & X & Z & ->)|(v & hs & cs & I & R)].
    + left. exists x, z. split; [now apply ipv6_octets|]. split; [now apply zone_more | reflexivity].
    + right. exists v, hs, cs. split; [|exact R]. destruct I as [I|[I|[]]]; [now left|]. exfalso.
      destruct R as (_ & _ & _ & _ & ->). apply (V ((hs ++ lit "." ++ cs) ++ lit "]")). rewrite E, <- I. reflexivity.
Qed.
Print Assumptions C84_rfc.
(** A host that was accepted has no character that ends it or separates it from
    other parts, but for a newline at its end. *)
Definition host_char (c : N) : Prop := unreserved c \/ sub_delim c \/ In c (lit "%:[]").
Theorem C84_characters u c : make_uri host_ok u = Ok u -> In c (u_host u) ->
  (host_char c /\ ~ In c (lit "/?#@\ <>{}|^`") /\ 32 < c < 127) \/ (c = 10 /\ exists b, u_host u = b ++ [10] /\ ~ In 10 b).
Proof.
  intros H I. apply C84_accepted in H.
  assert (L : forall s, Forall literal_char s -> forall c, In c s -> host_char c /\ ~ In c (lit "/?#@\ <>{}|^`") /\ 32 < c < 127).
  { intros s F d D. rewrite Forall_forall in F. specialize (F d D). split; [|apply literal_no in F; destruct F as (F & _ & B); split; [|exact B]].
    - unfold literal_char in F. unfold host_char. destruct F as [F|[F|[->| ->]]]; auto; right; right; cbn; tauto.
    - intros J. apply F. cbn in J |- *. tauto. }
  assert (C : forall s, code_host s -> forall c, In c s -> host_char c /\ ~ In c (lit "/?#@\ <>{}|^`") /\ 32 < c < 127).
  { intros s S d D. apply code_host_cases in S. destruct S as [[S _]|(a & A & ->)]; [now apply (L s)|].
    apply in_app_or in D. destruct D as [[<-|[]]|D]; [split; [right; right; cbn; tauto | cbn; lia]|].
    apply in_app_or in D. destruct D as [D|[<-|[]]]; [now apply (L a) | split; [right; right; cbn; tauto | cbn; lia]]. }
  destruct H as [H|[(b & E & B)|H]].
  - left. now apply (C (u_host u)).
  - rewrite E in I. apply in_app_or in I. destruct I as [I|[<-|[]]]; [left; now apply (C b)|]. right. split; [reflexivity|]. exists b. split; [exact E|].
    intros J. apply (C b B) in J. lia.
  - left. apply ipv6_zone_chars in H. now apply (L (u_host u)).
Qed.
Print Assumptions C84_characters.
(** The kind of a host. *)
Theorem C84_kind h :
  (host_type h = IPv6 <-> ipv6_zone short_number zone_marks h)
  /\ (host_type h = IPv4 <-> dotted short_number h \/ exists b, h = b ++ [10] /\ dotted short_number b)
  /\ (host_type h = UNKNOWN <-> host_ok h = false).
Proof.
  assert (M4 : IPv4_MATCHER h = true <-> dotted short_number h \/ exists b, h = b ++ [10] /\ dotted short_number b) by apply (anchored_iff _ _ _ dotted_spec).
  assert (Not : (dotted short_number h \/ exists b, h = b ++ [10] /\ dotted short_number b) -> ~ ipv6_zone short_number zone_marks h).
  { intros H (a & z & A & Z & E). assert (I : In 58 h) by (rewrite E; apply in_or_app; left; now apply ipv6_colon).
    assert (Q : forall s, dotted short_number s -> ~ In 58 s).
    { intros s S. apply dotted_chars in S. eapply Forall_notin; [exact S|]. unfold quad_char, a_digit. lia. }
    destruct H as [H|(b & -> & H)]; [now apply (Q h)|]. apply in_app_or in I. destruct I as [I|[I|[]]]; [now apply (Q b) | discriminate I]. }
  assert (D4 : (dotted short_number h \/ exists b, h = b ++ [10] /\ dotted short_number b) -> HOST_MATCHER h = true).
  { intros H. apply (anchored_iff _ _ _ host_spec). destruct H as [H|(b & -> & H)]; [left; left; now apply dotted_reg|]. right. exists b. split; [reflexivity | left; now apply dotted_reg]. }
  rewrite <- ipv6_matcher_spec in *. rewrite <- M4 in *. unfold host_type, host_ok.
  destruct (IPv6_MATCHER (bracketed h)) eqn:E6, (IPv4_MATCHER h) eqn:E4, (HOST_MATCHER h) eqn:EH; cbn [orb];
    try (exfalso; apply Not; reflexivity); try (specialize (D4 eq_refl); discriminate D4);
    (split; [split; [try discriminate; try reflexivity | try discriminate; try reflexivity]|split; split; try discriminate; try reflexivity]).
Qed.
Print Assumptions C84_kind.

Example C84_ex :
  map host_ok [lit "bedrock-runtime.us-east-1.amazonaws.com"; lit "127.0.0.1"; lit "fe80::1"; lit "[::ffff:10.0.0.1]"; lit "1:2:3:4:5:6:7:8"; lit "fe80::1%25eth0"; lit "a%2fb"; []]
    = [true; true; true; true; true; true; true; true]
  /\ map host_ok [lit "a/b"; lit "u@h"; lit "h:80"; lit "1::2::3"; lit "1:2:3:4:5:6:7"; lit "a%2"; lit "a b"; lit "12345::"] = [false; false; false; false; false; false; false; false]
  /\ map host_type [lit "a.b"; lit "127.0.0.1"; lit "::1"; lit "a/b"] = [DOMAIN; IPv4; IPv6; UNKNOWN].
Proof. vm_compute. repeat split. Qed.
Example C84_rfc_ex : rfc_host (lit "[::1]") /\ ~ rfc_host (lit "a/b").
Proof.
  assert (Z1 : h16 (lit "1")) by (split; [cbn; lia | constructor; [left; unfold a_digit; cbn; lia | constructor]]).
  split.
  - right. right. exists (lit "::1"). split; [|reflexivity]. left. exists (lit "::1"), []. split; [|split; [now left | reflexivity]].
    right. exists [], [lit "1"], 1%nat. split; [constructor|]. split; [left; split; [constructor; [exact Z1 | constructor] | reflexivity]|]. split; [cbn; lia | reflexivity].
  - intros H. pose proof (C84_rfc (mkUri [] None None (lit "a/b") None None None None) H) as A.
    assert (V : forall r, lit "a/b" <> lit "[V" ++ r) by discriminate. specialize (A V). vm_compute in A. discriminate A.
Qed.
(** A newline at the end is let through, and reaches the authority. *)
Theorem C84_newline_refuted : exists u, make_uri host_ok u = Ok u /\ In 10 (uri_netloc u) /\ ~ rfc_host (u_host u).
Proof.
  exists (mkUri (lit "https") None None (lit "a.b" ++ [10]) None None None None). split; [reflexivity|]. split; [vm_compute; tauto|].
  intros H. cbn [u_host] in H. assert (C : forall s, rfc_host s -> ~ In 10 s).
  { intros s S I.
    destruct S as [S|[S|(a & A & ->)]].
    - apply reg_chars in S. rewrite Forall_forall in S. apply S, name_no in I. lia.
    - apply dotted_octets, dotted_chars in S. rewrite Forall_forall in S. apply S in I. unfold quad_char, a_digit in I. lia.
    - apply in_app_or in I. destruct I as [[I|[]]|I]; [discriminate I|]. apply in_app_or in I. destruct I as [I|[I|[]]]; [|discriminate I].
      destruct A as [(x & z & X & Z & ->)|(v & hs & cs & W & _ & F & _ & G & ->)].
      + apply ipv6_octets in X. apply zone_more in Z. assert (Y : ipv6_zone short_number zone_marks (x ++ z)) by (exists x, z; auto).
        apply ipv6_zone_chars in Y. rewrite Forall_forall in Y. apply Y, literal_no in I. lia.
      + apply in_app_or in I. destruct I as [[->|[]]|I]; [cbn in W; lia|]. apply in_app_or in I. rewrite Forall_forall in F, G. destruct I as [I|I].
        * apply F, hexdig_unreserved in I. assert (L : literal_char 10) by now left. apply literal_no in L. lia.
        * apply in_app_or in I. destruct I as [[I|[]]|I]; [discriminate I|]. apply G in I. assert (L : literal_char 10) by (unfold literal_char; tauto). apply literal_no in L. lia. }
  apply (C _ H). vm_compute. tauto.
Qed.
Print Assumptions C84_newline_refuted.
(** IPv4 numbers up to 999 are taken inside an IPv6 address; zones without [%25]
    are; a capital V is not. *)
Theorem C84_lax_refuted : host_ok (lit "::999.0.0.1") = true /\ host_ok (lit "fe80::1%eth0") = true /\ host_ok (lit "[V1.a]") = false
  /\ ip_literal octet [lit "%25"] (lit "vV") (lit "[V1.a]").
Proof.
  repeat (split; [vm_compute; reflexivity|]). exists (lit "V1.a"). split; [|reflexivity]. right. exists 86, (lit "1"), (lit "a").
  split; [cbn; tauto|]. split; [discriminate|]. split; [constructor; [left; unfold a_digit; cbn; lia | constructor]|]. split; [discriminate|].
  split; [constructor; [left; left; unfold letter; cbn; lia | constructor] | reflexivity].
Qed.
Print Assumptions C84_lax_refuted.

(** ** C85: the text of a URI *)

Lemma encoded_weaken (P Q : N -> Prop) s : (forall c, P c -> Q c) -> encoded P s -> encoded Q s.
Proof.
  intros H (parts & -> & F). exists parts. split; [reflexivity|]. eapply Forall_impl; [|exact F]. intros p [(c & E & C)|R]; [left; eauto | now right].
Qed.
Lemma encoded_app P a b : encoded P a -> encoded P b -> encoded P (a ++ b).
Proof. intros (x & -> & X) (y & -> & Y). exists (x ++ y). split; [now rewrite concat_app | now apply Forall_app]. Qed.
Lemma encoded_one (P : N -> Prop) c : P c -> encoded P [c].
Proof. intros H. exists [[c]]. split; [reflexivity|]. constructor; [left; eauto | constructor]. Qed.
Lemma encoded_nil P : encoded P [].
Proof. exists []. split; [reflexivity | constructor]. Qed.
Lemma userinfo_encoded u : well_formed u ->
  match userinfo_written (u_username u) (u_password u) with Some x => encoded (fun c => unreserved c \/ sub_delim c \/ c = 58) x | None => True end.
Proof.
  intros (_ & _ & U & P & _). destruct (u_username u) as [n|]; [|exact I]. cbn [userinfo_written]. apply encoded_app.
  - eapply encoded_weaken; [|apply (U n eq_refl)]. intros c []; auto.
  - destruct (u_password u) as [p|]; [|apply encoded_nil]. apply encoded_app; [apply encoded_one; auto | now apply P].
Qed.
Lemma host_written_accepted u : make_uri host_ok u = Ok u -> ~ In 10 (u_host u) ->
  exists h, host_written (u_host u) h /\ h = match host_type (u_host u) with IPv6 => bracketed (u_host u) | _ => u_host u end.
Proof.
  intros M N. pose proof (C84_kind (u_host u)) as (K6 & _). apply C84_accepted in M.
  destruct M as [M|[(b & E & _)|M]].
  - exists (u_host u). split; [now right|]. destruct (host_type (u_host u)) eqn:T; try reflexivity. exfalso.
    destruct K6 as [K6 _]. specialize (K6 eq_refl). pose proof K6 as K. apply ipv6_zone_chars in K. destruct K6 as (a & z & A & _ & E).
    assert (In 58 (u_host u)) by (rewrite E; apply in_or_app; left; now apply ipv6_colon).
    apply code_host_cases in M. destruct M as [[_ M]|(x & _ & M)]; [auto|]. apply (literal_lacks 91) in K; [|cbn; tauto].
    apply K. rewrite M. now left.
  - elim N. rewrite E. apply in_or_app. right. now left.
  - exists (bracketed (u_host u)). split; [left; auto|]. destruct K6 as [_ K6]. now rewrite (K6 M).
Qed.
Lemma host_written_code h s : host_written h s -> code_host s.
Proof. intros [[H ->]|[H ->]]; [|exact H]. right. exists h. split; [now left | reflexivity]. Qed.
Lemma uri_netloc_authority u : make_uri host_ok u = Ok u -> well_formed u ->
  exists h, host_written (u_host u) h
    /\ authority (uri_netloc u) (userinfo_written (u_username u) (u_password u)) h (match u_port u with Some p => Some (dec p) | None => None end).
Proof.
  intros M W. destruct (host_written_accepted u M) as (h & H & E); [apply W|]. exists h. split; [exact H|].
  split; [|split; [now apply userinfo_encoded|split; [now apply (host_written_code (u_host u))|]]].
  - unfold uri_netloc. rewrite <- E. unfold userinfo_written. destruct (u_port u) as [q|], (u_username u) as [n|]; try reflexivity; destruct (u_password u) as [p|]; rewrite <- ?app_assoc; reflexivity.
  - destruct (u_port u); [|exact I]. apply Forall_forall. intros c C. now apply dec_digits in C.
Qed.
Lemma authority_lacks s ui h p c : authority s ui h p -> In c s -> ~ In c (lit "/?#").
Proof.
  intros (-> & U & H & P) I J. assert (K : In c [64; 47; 63; 35]) by (cbn in J |- *; tauto).
  apply in_app_or in I. destruct I as [I|I].
  - destruct ui as [x|]; [|destruct I]. apply in_app_or in I. destruct I as [I|[<-|[]]]; [|cbn in J; lia]. apply info_chars in U.
    revert I. apply literal_lacks; [exact U | cbn in J |- *; tauto].
  - apply in_app_or in I. destruct I as [I|I]; [revert I; now apply host_lacks|]. apply port_digits in I; [|exact P]. unfold a_digit in I. cbn in J. lia.
Qed.
Lemma path_written_eq c r : path_written (Some (c :: r)) = if c =? 47 then c :: r else 47 :: c :: r.
Proof. cbn. destruct c as [|c]; [reflexivity|]. repeat (destruct c as [c|c|]; try reflexivity). Qed.
Lemma path_written_no p c : (forall q d, p = Some q -> In d q -> ~ In d (lit "?#")) -> In c (path_written p) -> ~ In c (lit "?#").
Proof.
  intros H I. destruct p as [[|d r]|]; try destruct I. rewrite path_written_eq in I. destruct (d =? 47).
  - now apply (H (d :: r)).
  - destruct I as [<-|J]; [cbn; lia|]. now apply (H (d :: r)).
Qed.
Lemma path_written_abs p : path_written p = [] \/ exists r, path_written p = 47 :: r.
Proof. destruct p as [[|d r]|]; try (now left). right. rewrite path_written_eq. destruct (N.eqb_spec d 47) as [->|]; eauto. Qed.

(** The text of a URI, taken apart again, has the URI's scheme, authority, path,
    query and fragment; the authority has its user, host and port, and can be
    read in no other way. *)
Theorem C85_build u : make_uri host_ok u = Ok u -> well_formed u ->
  exists a h,
    parts_of (build u) = mkParts (Some (u_scheme u)) (Some a) (path_written (u_path u)) (part_written (u_query u)) (part_written (u_fragment u))
    /\ host_written (u_host u) h
    /\ authority a (userinfo_written (u_username u) (u_password u)) h (match u_port u with Some p => Some (dec p) | None => None end)
    /\ (forall ui' h' p', authority a ui' h' p' ->
          ui' = userinfo_written (u_username u) (u_password u) /\ h' = h /\ p' = match u_port u with Some p => Some (dec p) | None => None end).
Proof.
  intros M W. destruct (uri_netloc_authority u M W) as (h & H & A). exists (uri_netloc u), h.
  split; [|split; [exact H|split; [exact A|]]].
  - assert (Nn : uri_netloc u <> []).
    { destruct A as (-> & _). intros E. apply app_eq_nil in E. destruct E as [_ E]. apply app_eq_nil in E. destruct E as [E _].
      destruct W as (_ & _ & _ & _ & W & _). destruct H as [[_ ->]|[_ ->]]; [discriminate E | auto]. }
    destruct W as (S1 & S2 & _ & _ & _ & _ & P & Q). rewrite <- parts_of_text; auto.
    + f_equal. unfold build, urlunsplit. replace (text_eqb (uri_netloc u) []) with false by (destruct (uri_netloc u); [congruence | reflexivity]).
      cbn [negb orb]. destruct (u_scheme u) as [|s0 s1] eqn:ES; [congruence|]. rewrite <- !app_assoc. f_equal. f_equal. f_equal. f_equal.
      f_equal; [|f_equal; [destruct (u_query u) as [[|]|]; reflexivity | destruct (u_fragment u) as [[|]|]; reflexivity]].
      destruct (u_path u) as [[|c r]|]; try reflexivity. now rewrite path_written_eq.
    + intros c I. now apply (authority_lacks _ _ _ _ c A).
    + apply path_written_abs.
    + intros c I. revert I. apply path_written_no. exact P.
    + intros q c E I. apply (Q q); [|exact I]. destruct (u_query u) as [[|d r]|]; cbn in E; congruence.
  - intros ui' h' p' A'. apply (authority_unique _ _ _ _ _ _ _ A' A).
Qed.
Print Assumptions C85_build.

Lemma info_split a b x y : ~ In 58 a -> ~ In 58 x ->
  a ++ match b with Some p => lit ":" ++ p | None => [] end = x ++ match y with Some p => lit ":" ++ p | None => [] end -> a = x /\ b = y.
Proof.
  intros A X E. destruct b as [b|], y as [y|]; rewrite ?app_nil_r in E.
  - apply first_cut in E; auto. destruct E as [-> ->]. auto.
  - exfalso. symmetry in E. now apply no_cut in E.
  - exfalso. now apply no_cut in E.
  - auto.
Qed.
(** Two URIs with the same text have the same parts. *)
Theorem C85_injective u v : make_uri host_ok u = Ok u -> well_formed u -> make_uri host_ok v = Ok v -> well_formed v -> build u = build v ->
  u_scheme u = u_scheme v /\ u_username u = u_username v /\ (u_username u <> None -> u_password u = u_password v)
  /\ (u_host u = u_host v \/ u_host u = lit "[" ++ u_host v ++ lit "]" \/ lit "[" ++ u_host u ++ lit "]" = u_host v)
  /\ u_port u = u_port v /\ path_written (u_path u) = path_written (u_path v)
  /\ part_written (u_query u) = part_written (u_query v) /\ part_written (u_fragment u) = part_written (u_fragment v).
Proof.
  intros Mu Wu Mv Wv E. destruct (C85_build u Mu Wu) as (a & h & Pu & Hu & Au & _), (C85_build v Mv Wv) as (b & k & Pv & Hv & Av & _).
  rewrite E, Pv in Pu. injection Pu as Es Ea Ep Eq Ef. subst b. destruct (authority_unique _ _ _ _ _ _ _ Au Av) as (Ei & Eh & Eo). subst k.
  assert (UP : u_username u = u_username v /\ (u_username u <> None -> u_password u = u_password v)).
  { destruct Wu as (_ & _ & Uu & _), Wv as (_ & _ & Uv & _). destruct (u_username u) as [n|] eqn:En, (u_username v) as [m|] eqn:Em; try discriminate Ei.
    - cbn [userinfo_written] in Ei. injection Ei as Ei. apply info_split in Ei.
      + destruct Ei as [-> ->]. auto.
      + specialize (Uu n eq_refl). apply reg_chars, name_literal in Uu. tauto.
      + specialize (Uv m eq_refl). apply reg_chars, name_literal in Uv. tauto.
    - split; [reflexivity | congruence]. }
  split; [congruence|]. split; [apply UP|]. split; [apply UP|]. split; [|split; [|split; [congruence | split; congruence]]].
  - destruct Hu as [[_ Hu]|[_ Hu]], Hv as [[_ Hv]|[_ Hv]]; rewrite Hu in Hv.
    + left. injection Hv as Hv. now apply app_inv_tail in Hv.
    + right. right. exact Hv.
    + right. left. exact Hv.
    + left. exact Hv.
  - destruct (u_port u) as [p|], (u_port v) as [q|]; try discriminate Eo; [|reflexivity]. injection Eo as Eo. apply dec_inj in Eo. now subst.
Qed.
Print Assumptions C85_injective.

Definition example_uri : uri := mkUri (lit "https") (Some (lit "user")) (Some (lit "p:w")) (lit "fe80::1") (Some 8443) (Some (lit "a/b")) (Some (lit "x=1&y")) (Some []).
Example C85_ex : make_uri host_ok example_uri = Ok example_uri /\ well_formed example_uri /\ build example_uri = lit "https://user:p:w@[fe80::1]:8443/a/b?x=1&y".
Proof.
  assert (En : forall (P : N -> Prop) s, Forall P s -> encoded P s).
  { intros P s F. induction F as [|c s C F IH]; [apply encoded_nil|]. apply (encoded_app P [c] s); [now apply encoded_one | exact IH]. }
  split; [vm_compute; reflexivity|]. split; [|vm_compute; reflexivity]. unfold well_formed. cbn [u_scheme u_username u_password u_host u_path u_query example_uri].
  split; [discriminate|]. split; [intros c I J; cbn in I, J; lia|].
  split; [intros n [= <-]; apply En; repeat (apply Forall_cons || apply Forall_nil); left; left; unfold letter; cbn; lia|].
  split; [intros n [= <-]; apply En; repeat (apply Forall_cons || apply Forall_nil); unfold unreserved, letter; cbn; lia|].
  split; [discriminate|]. split; [cbn; lia|]. split; intros p c [= <-] I; cbn in I; [intros J; cbn in J|]; lia.
Qed.
(** The user is not checked: with a slash in it, the text has another host. *)
Theorem C85_user_refuted : exists u, make_uri host_ok u = Ok u /\ u_host u = lit "example.com" /\
  exists a, authority_of (parts_of (build u)) = Some a /\ authority a None (lit "evil.com") None.
Proof.
  exists (mkUri (lit "https") (Some (lit "evil.com/")) None (lit "example.com") None None None None). split; [vm_compute; reflexivity|]. split; [reflexivity|].
  exists (lit "evil.com"). split; [vm_compute; reflexivity|]. split; [reflexivity|]. split; [exact I|]. split; [|exact I]. left.
  exists [[101]; [118]; [105]; [108]; [46]; [99]; [111]; [109]]. split; [reflexivity|].
  repeat (apply Forall_cons || apply Forall_nil); left; eexists; (split; [reflexivity|]); left; unfold unreserved, letter; cbn; lia.
Qed.
Print Assumptions C85_user_refuted.
(** Without a host, a path of two slashes becomes one. *)
Theorem C85_path_refuted : exists u, make_uri host_ok u = Ok u /\ u_host u = [] /\ u_path u = Some (lit "//evil.com/x") /\
  parts_of (build u) = mkParts (Some (lit "https")) (Some (lit "evil.com")) (lit "/x") None None.
Proof. exists (mkUri (lit "https") None None [] None (Some (lit "//evil.com/x")) None None). repeat split; vm_compute; reflexivity. Qed.
Print Assumptions C85_path_refuted.
