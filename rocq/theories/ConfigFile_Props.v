(** C34, C35: shared configuration files. *)
From Verif Require Import Base Base_Proofs PyText_Model PyText_Proofs PyDict_Model PyDict_Proofs
  ConfigFile_Model ConfigFile_Spec ConfigFile_Proofs ConfigDoc_Proofs ConfigDoc2_Proofs ConfigMerge_Proofs
  ConfigText_Proofs.
Local Open Scope N_scope.

(** ** C34 *)

(** A text written from lines that say [d] is read back as [d]. *)
Theorem C34_roundtrip ls last d :
  Forall (fun l => one_line (fst l)) ls -> one_line last -> Doc (written_lines ls last) d ->
  exists m, parse_content (written ls last) = Parsed m /\ holds m d.
Proof.
  intros Hls Hlast HD. exists (meaning d). split; [|apply meaning_holds].
  apply parse_content_doc. rewrite splitlines_written by assumption. exact HD.
Qed.
Print Assumptions C34_roundtrip.

(** Every text is either a document, read as what it says, or is refused at its
    first bad line: the lines before it are a document, and no document starts
    with the lines up to it.  No other exception is raised. *)
Theorem C34_every_text content : exists ls, Lines content ls
  /\ (forall ls', Lines content ls' -> ls' = ls)
  /\ ((exists m d, parse_content content = Parsed m /\ Doc ls d /\ holds m d)
      \/ (exists n w, parse_content content = BadLine n w
          /\ (1 <= n <= List.length ls)%nat
          /\ (exists d, Doc (firstn (n - 1) ls) d)
          /\ (forall rest d, ~ Doc (firstn n ls ++ rest) d))).
Proof.
  exists (splitlines content). split; [apply splitlines_Lines|].
  split; [intros ls' H; symmetry; apply Lines_splitlines, H|].
  destruct (parse_complete (splitlines content)) as [(d & HD & _)|(n & w & HP & H)].
  - left. exists (meaning d), d. split; [apply parse_content_doc, HD|]. split; [exact HD|apply meaning_holds].
  - right. exists n, w. split; [|exact H]. unfold parse_content. rewrite HP. reflexivity.
Qed.
Print Assumptions C34_every_text.

(** The grammar is unambiguous: two readings of the same lines answer alike. *)
Theorem C34_unambiguous ls d d' : Doc ls d -> Doc ls d' ->
  first_occurrences (map fst d) = first_occurrences (map fst d')
  /\ forall n k, match property_of (text_eqb n) k d, property_of (text_eqb n) k d' with
                 | Some (Text x), Some (Text y) => x = y
                 | Some (Table x), Some (Table y) => forall s, sub_of s x = sub_of s y
                 | None, None => True
                 | _, _ => False
                 end.
Proof.
  intros H H'. apply parse_sound in H. apply parse_sound in H'. rewrite H in H'. injection H' as E.
  apply (f_equal p_sections) in E. rewrite !state_sections in E. split.
  - rewrite <- !keys_meaning, E. reflexivity.
  - intros n k. pose proof (look_meaning d n k) as L. pose proof (look_meaning d' n k) as L'. rewrite <- E in L'.
    unfold opt_same in L, L'. destruct (look n k (meaning d)) as [v|].
    + destruct (property_of (text_eqb n) k d) as [c|]; [|destruct L].
      destruct (property_of (text_eqb n) k d') as [c'|]; [|destruct L'].
      destruct v; destruct c; cbn [content_of same_content] in L; try destruct L;
        destruct c'; cbn [content_of same_content] in L'; try destruct L'; [reflexivity|].
      intros s. rewrite <- L, <- L'. reflexivity.
    + destruct (property_of (text_eqb n) k d); [destruct L|]. destruct (property_of (text_eqb n) k d'); [destruct L'|exact I].
Qed.
Print Assumptions C34_unambiguous.

Ltac by_property l k v := exact (parse_property 0 (hd 0 l) (tl l) (Some (k, v)) ltac:(vm_compute; discriminate) eq_refl eq_refl eq_refl eq_refl).

Definition l1 : text := lit "# settings".
Definition l2 : text := lit "[profile dev] ; mine".
Definition l3 : text := lit "Region = us-west-2 # home".
Definition l4 : text := lit "s3 =".
Definition l5 : text := lit "  Max_Size = 20 # kept".
Definition l6 : text := [].
Definition l7 : text := lit "note = a".
Definition l8 : text := lit "    b # c".
Definition dev_doc : doc :=
  [(lit "profile dev",
    [Plain (lit "region") [lit "us-west-2"]; Group (lit "s3") [(lit "max_size", lit "20 # kept")];
     Plain (lit "note") [lit "a"; lit "b # c"]])].

Lemma dev_Doc : Doc [l1; l2; l3; l4; l5; l6; l7; l8] dev_doc.
Proof.
  assert (P3 : property l3 (lit "region") (lit "us-west-2")).
  { by_property l3 (lit "region") (lit "us-west-2"). }
  assert (P4 : property l4 (lit "s3") []).
  { by_property l4 (lit "s3") (@nil N). }
  assert (P7 : property l7 (lit "note") (lit "a")).
  { by_property l7 (lit "note") (lit "a"). }
  assert (H2 : header l2 (lit "profile dev")) by exact (parse_header 0 (hd 0 l2) (tl l2) _ eq_refl eq_refl eq_refl).
  assert (S5 : sub_property l5 (lit "max_size") (lit "20 # kept")).
  { exists (lit "Max_Size"). split; [|split].
    - split; [exists 32; eexists; split; [reflexivity|left; reflexivity]|].
      exists (lit "  Max_Size "), (lit " 20 # kept"). split; [reflexivity|].
      split; [apply has_notIn; reflexivity|]. split; [apply Trim_strip; reflexivity|]. split; [discriminate|].
      apply Trim_strip; reflexivity.
    - apply ident_chars_spec. reflexivity.
    - apply Lower_spec. reflexivity. }
  assert (C8 : continuation l8 (lit "b # c")).
  { split; [exists 32; eexists; split; [reflexivity|left; reflexivity]|]. split; [discriminate|].
    apply Trim_strip. reflexivity. }
  pose proof (D_noise [] [] l1 D_start (or_intror (ex_intro _ 35 (ex_intro _ _ (conj eq_refl (or_introl eq_refl)))))) as D1.
  pose proof (D_header _ _ l2 _ D1 H2) as D2.
  pose proof (D_plain _ [] _ [] l3 _ _ D2 P3 ltac:(discriminate)) as D3.
  pose proof (D_empty _ [] _ _ l4 _ D3 P4) as D4.
  pose proof (D_sub_first _ [] _ [Plain (lit "region") [lit "us-west-2"]] _ l5 _ _ D4 S5) as D5.
  pose proof (D_noise _ _ l6 D5 (or_introl (fun c (H : In c []) => match H with end))) as D6.
  pose proof (D_plain _ [] _ _ l7 _ _ D6 P7 ltac:(discriminate)) as D7.
  exact (D_more _ [] _ [Plain (lit "region") [lit "us-west-2"]; Group (lit "s3") [(lit "max_size", lit "20 # kept")]] _ _ l8 _ D7 C8).
Qed.
Lemma one_line_dec l : forallb (fun c => negb (is_break c)) l = true -> one_line l.
Proof.
  intros H c Hc Hb. rewrite forallb_forall in H. specialize (H c Hc).
  cbn [In] in Hb. repeat (destruct Hb as [<-|Hb]; [discriminate H|]). destruct Hb.
Qed.
Example C34_roundtrip_ex :
  parse_content (written [(l1, false); (l2, true); (l3, true); (l4, false); (l5, false); (l6, true); (l7, false)] l8)
  = Parsed [(lit "profile dev", [(lit "region", PStr (lit "us-west-2"));
                                 (lit "s3", PMap [(lit "max_size", lit "20 # kept")]);
                                 (lit "note", PStr (lit "a" ++ [10] ++ lit "b # c"))])]
  /\ exists m, parse_content (written [(l1, false); (l2, true); (l3, true); (l4, false); (l5, false); (l6, true); (l7, false)] l8)
               = Parsed m /\ holds m dev_doc.
Proof.
  split; [reflexivity|]. apply C34_roundtrip.
  - repeat constructor; apply one_line_dec; reflexivity.
  - apply one_line_dec; reflexivity.
  - exact dev_Doc.
Qed.
Example C34_every_text_ex :
  parse_content (lit "[a]" ++ [10] ++ lit "x = 1" ++ [10] ++ lit "oops" ++ [10] ++ lit "[b]") = BadLine 3 NoEquals
  /\ parse_content (lit "x = 1") = BadLine 1 OrphanProperty
  /\ parse_content (lit "[a]" ++ [10] ++ lit "  x = 1") = BadLine 2 ContinuationWithoutProperty
  /\ parse_content (lit "[a" ++ [10]) = BadLine 1 NoBracket.
Proof. repeat split. Qed.

(** The lines are those of [str.splitlines]: a line separator inside a value cuts
    it, and what follows is read as a line of its own. *)
Theorem C34_line_separator_refuted : exists value content,
  content = lit "[a]" ++ [10] ++ lit "k = " ++ value /\ ~ In 10 value /\ ~ In 13 value
  /\ parse_content content = Parsed [(lit "a", [(lit "k", PStr (lit "x"))]); (lit "b", [])].
Proof.
  exists (lit "x" ++ [8232] ++ lit "[b]"). eexists. split; [reflexivity|].
  split; [apply has_notIn; reflexivity|]. split; [apply has_notIn; reflexivity|]. reflexivity.
Qed.
Print Assumptions C34_line_separator_refuted.

(** ** C35 *)

(** For every property of every profile, the value of the credentials file if it
    has one, otherwise the one of the config file. *)
Theorem C35_credentials_win config creds m mc mr :
  load_config config creds = Parsed m -> load_config config None = Parsed mc -> load_config None creds = Parsed mr ->
  (forall p k, look p k (m_profiles m)
     = match look p k (m_profiles mr) with Some v => Some v | None => look p k (m_profiles mc) end)
  /\ (forall p, dict_has p (m_profiles m) = (dict_has p (m_profiles mc) || dict_has p (m_profiles mr))%bool)
  /\ m_sso m = m_sso mc /\ m_services m = m_services mc
  /\ m_sso mr = [] /\ m_services mr = [].
Proof.
  unfold load_config. destruct (parse_config_file config) as [rc| |] eqn:Ec; try discriminate.
  destruct (parse_config_file creds) as [rr| |] eqn:Er; try discriminate. cbn [parse_config_file].
  intros Hm Hc Hr.
  assert (I : forall A (x y : A), Parsed x = Parsed y -> y = x) by (intros A x y H; injection H as H; auto).
  apply I in Hm as ->. apply I in Hc as ->. apply I in Hr as ->.
  destruct (parse_file_inv _ _ Ec) as (dc & -> & Nc). destruct (parse_file_inv _ _ Er) as (dr & -> & Nr).
  rewrite (standardize_config (meaning dc)), (standardize_credentials (meaning dr)).
  unfold merge. cbn [s_profiles s_sso s_services m_profiles m_sso m_services].
  set (A := gather _ (meaning dc) []). set (B := gather _ (meaning dr) []).
  assert (WA : wf A) by (apply gather_wf, wf_nil). assert (WB : wf B) by (apply gather_wf, wf_nil).
  change (standardize [] CONFIG) with (mkStd [] [] []). change (standardize [] CREDENTIALS) with (mkStd [] [] []).
  cbn [s_profiles s_sso s_services m_profiles m_sso m_services].
  split; [|split; [|auto]].
  - intros p k. rewrite (look_merge_profiles A B p k WA WB), (look_merge_profiles A [] p k WA wf_nil),
      (look_merge_profiles [] B p k wf_nil WB). rewrite look_nil. destruct (look p k B); reflexivity.
  - intros p. rewrite (merge_profiles_has A B p (proj1 WA)), (merge_profiles_has A [] p (proj1 WA)),
      (merge_profiles_has [] B p (proj1 wf_nil)). rewrite Bool.orb_false_r. reflexivity.
Qed.
Print Assumptions C35_credentials_win.

(** What the config file gives to a profile: the value of the sections named
    [profile p], or [default] for the default profile without such a section.
    When the name is spelled with different spaces, the last spelling wins. *)
Theorem C35_config_profile content ls d p sel k m :
  Lines content ls -> Doc ls d -> load_config (Some content) None = Parsed m ->
  (forall n, In n (map fst d) -> (sel n = true <-> config_section (map fst d) n p)) ->
  opt_same (look p k (m_profiles m)) (profile_value sel k d)
  /\ (dict_has p (m_profiles m) = true <-> exists n, In n (map fst d) /\ config_section (map fst d) n p).
Proof.
  intros HS HD HL Hsel. apply Lines_splitlines in HS as <-. unfold load_config, parse_config_file in HL. rewrite (parse_content_doc content d HD) in HL.
  assert (I : forall A (x y : A), Parsed x = Parsed y -> y = x) by (intros A x y H; injection H as H; auto).
  apply I in HL as ->. rewrite standardize_config, hpd_meaning. unfold merge. cbn [s_profiles m_profiles].
  change (standardize [] CREDENTIALS) with (mkStd [] [] []). cbn [s_profiles].
  set (f := to_profile _). assert (W : wf (gather f (meaning d) [])) by (apply gather_wf, wf_nil).
  pose proof (Doc_names _ _ HD) as Hn.
  assert (Hf : forall n, In n (map fst d) -> (f n = Some p <-> config_section (map fst d) n p)).
  { intros n Hi. apply to_profile_spec; [exact Hn|apply Hn, Hi]. }
  split.
  - rewrite look_merge_profiles by (exact W || exact wf_nil). rewrite look_nil.
    apply (gathered_values f sel p k _ d HD). intros n Hi. rewrite (Hf n Hi), (Hsel n Hi). reflexivity.
  - rewrite merge_profiles_has by exact (proj1 W). rewrite Bool.orb_false_r, gather_has. cbn [dict_has dict_get orb].
    rewrite <- (existsb_map fst (fun n => match f n with Some p' => text_eqb p p' | None => false end)).
    change (map fst (meaning d)) with (dict_keys (meaning d)). rewrite existsb_exists, keys_meaning. split.
    + intros (n & Hi & E). rewrite first_occurrences_In in Hi. exists n. split; [exact Hi|]. apply (Hf n Hi).
      destruct (f n) as [p'|]; [|discriminate]. apply text_eqb_eq in E as ->. reflexivity.
    + intros (n & Hi & E). exists n. split; [apply first_occurrences_In, Hi|]. rewrite (proj2 (Hf n Hi) E). apply text_eqb_refl.
Qed.
Print Assumptions C35_config_profile.

(** What the credentials file gives to a profile: the last definition in the
    sections with its name. *)
Theorem C35_credentials_profile content ls d p k m :
  Lines content ls -> Doc ls d -> load_config None (Some content) = Parsed m ->
  (identifier p -> opt_same (look p k (m_profiles m)) (property_of (text_eqb p) k d))
  /\ (dict_has p (m_profiles m) = true <-> identifier p /\ In p (map fst d)).
Proof.
  intros HS HD HL. apply Lines_splitlines in HS as <-. unfold load_config, parse_config_file in HL. rewrite (parse_content_doc content d HD) in HL.
  assert (I : forall A (x y : A), Parsed x = Parsed y -> y = x) by (intros A x y H; injection H as H; auto).
  apply I in HL as ->. rewrite standardize_credentials. unfold merge. cbn [s_profiles m_profiles].
  change (standardize [] CONFIG) with (mkStd [] [] []). cbn [s_profiles].
  set (f := to_credentials). assert (W : wf (gather f (meaning d) [])) by (apply gather_wf, wf_nil).
  pose proof (Doc_names _ _ HD) as Hn.
  assert (Hf : forall n, In n (map fst d) -> (f n = Some p <-> n = p /\ identifier p)).
  { intros n Hi. apply to_credentials_spec, Hn, Hi. }
  split.
  - intros Hid. rewrite look_merge_profiles by (exact W || exact wf_nil). rewrite look_nil.
    assert (H : opt_same (look p k (gather f (meaning d) [])) (property_of (text_eqb p) k d)).
    { apply (gathered_value f (text_eqb p) p k _ d HD).
      - intros n Hi. rewrite (Hf n Hi), text_eqb_eq. split; [intros [-> _]; reflexivity|intros ->; auto].
      - intros a b _ _ Ea Eb. apply text_eqb_eq in Ea. apply text_eqb_eq in Eb. congruence. }
    destruct (look p k (gather f (meaning d) [])); exact H.
  - rewrite merge_profiles_has by exact (proj1 wf_nil). cbn [dict_has dict_get orb]. rewrite gather_has. cbn [dict_has dict_get orb].
    rewrite <- (existsb_map fst (fun n => match f n with Some p' => text_eqb p p' | None => false end)).
    change (map fst (meaning d)) with (dict_keys (meaning d)). rewrite existsb_exists, keys_meaning. split.
    + intros (n & Hi & E). rewrite first_occurrences_In in Hi. destruct (f n) as [p'|] eqn:Ef; [|discriminate].
      apply text_eqb_eq in E as <-. apply (Hf n Hi) in Ef. destruct Ef as [<- Hid]. auto.
    + intros [Hid Hi]. exists p. split; [apply first_occurrences_In, Hi|]. rewrite (proj2 (Hf p Hi) (conj eq_refl Hid)).
      apply text_eqb_refl.
Qed.
Print Assumptions C35_credentials_profile.

(** The sso-session and services sections, likewise from the config file only. *)
Theorem C35_sso_services content ls d p sel k m (sso : bool) :
  Lines content ls -> Doc ls d -> load_config (Some content) None = Parsed m ->
  (forall n, In n (map fst d) ->
     (sel n = true <-> prefixed (if sso then lit "sso-session" else lit "services") n p)) ->
  opt_same (look p k (if sso then m_sso m else m_services m)) (profile_value sel k d).
Proof.
  intros HS HD HL Hsel. apply Lines_splitlines in HS as <-. unfold load_config, parse_config_file in HL. rewrite (parse_content_doc content d HD) in HL.
  assert (I : forall A (x y : A), Parsed x = Parsed y -> y = x) by (intros A x y H; injection H as H; auto).
  apply I in HL as ->. rewrite standardize_config. unfold merge. cbn [s_sso s_services m_sso m_services].
  pose proof (Doc_names _ _ HD) as Hn.
  destruct sso; apply (gathered_values _ sel p k _ d HD); intros n Hi; rewrite (Hsel n Hi).
  - apply to_sso_spec, Hn, Hi.
  - apply to_services_spec, Hn, Hi.
Qed.
Print Assumptions C35_sso_services.

(** With one spelling this is the last definition in the file. *)
Theorem C35_one_spelling ls d sel k : Doc ls d ->
  (forall a b, In a (map fst d) -> In b (map fst d) -> sel a = true -> sel b = true -> a = b) ->
  profile_value sel k d = property_of sel k d.
Proof. intros _. apply one_spelling. Qed.
Print Assumptions C35_one_spelling.

(** The look-ups of the merged view. *)
Theorem C35_get m p key k : Lower key k ->
  get m p key = match look p k (m_profiles m) with Some (PStr v) => Some v | _ => None end
  /\ forall sub s, Lower sub s ->
     get_sub_property m p key sub = match look p k (m_profiles m) with Some (PMap d) => dict_get s d | _ => None end.
Proof.
  intros H. apply Lower_spec in H. unfold get, get_sub_property, look. rewrite H. split.
  - destruct (dict_get p (m_profiles m)); reflexivity.
  - intros sub s Hs. apply Lower_spec in Hs. rewrite Hs. destruct (dict_get p (m_profiles m)); reflexivity.
Qed.
Print Assumptions C35_get.

Definition nl (ls : list text) : text := join [10] ls.
Definition cfg : text := nl [lit "[default]"; lit "region = a"; lit "[profile default]"; lit "region = b"; lit "output = json";
  lit "[sso-session corp]"; lit "url = x"].
Definition crd : text := nl [lit "[default]"; lit "region = c"; lit "key = d"; lit "[sso-session corp]"; lit "url = y"].
Definition both : merged :=
  mkMerged [(lit "default", [(lit "region", PStr (lit "c")); (lit "output", PStr (lit "json")); (lit "key", PStr (lit "d"))])]
           [(lit "corp", [(lit "url", PStr (lit "x"))])] [].
Example C35_credentials_win_ex :
  load_config (Some cfg) (Some crd) = Parsed both
  /\ get both (lit "default") (lit "Region") = Some (lit "c")
  /\ (exists mc, load_config (Some cfg) None = Parsed mc /\ get mc (lit "default") (lit "region") = Some (lit "b"))
  /\ (exists mr, load_config None (Some crd) = Parsed mr /\ get mr (lit "default") (lit "region") = Some (lit "c")).
Proof. repeat split; try reflexivity; eexists; split; reflexivity. Qed.
Example C35_config_profile_ex : exists m,
  load_config (Some (nl [l1; l2; l3; l4; l5; l6; l7; l8])) None = Parsed m
  /\ opt_same (look (lit "dev") (lit "region") (m_profiles m)) (Some (Text (lit "us-west-2"))).
Proof.
  eexists. split; [reflexivity|].
  refine (proj1 (C35_config_profile (nl [l1; l2; l3; l4; l5; l6; l7; l8]) [l1; l2; l3; l4; l5; l6; l7; l8] dev_doc (lit "dev") (fun _ => true) (lit "region") _ (splitlines_Lines _) _ eq_refl _)).
  - exact dev_Doc.
  - intros n [<-|[]]. split; [intros _|reflexivity]. left. exists 32, []. split; [reflexivity|].
    split; [left; reflexivity|]. split; [intros ? []|]. apply ident_chars_spec. reflexivity.
Qed.

(** With two spellings of the name the last definition does not win: sections are
    merged in the order of the first occurrence of each spelling. *)
Theorem C35_later_wins_refuted : exists content m,
  content = nl [lit "[profile a]"; lit "x = 1"; lit "[profile  a]"; lit "x = 2"; lit "[profile a]"; lit "x = 3"]
  /\ load_config (Some content) None = Parsed m /\ get m (lit "a") (lit "x") = Some (lit "2").
Proof. eexists. eexists. split; [reflexivity|]. split; reflexivity. Qed.
Print Assumptions C35_later_wins_refuted.
