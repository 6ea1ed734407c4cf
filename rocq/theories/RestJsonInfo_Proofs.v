(** Proofs about REST JSON error information. *)
From Verif Require Import Base PyText_Model PyText_Proofs Base_Proofs RestJsonInfo_Model RestJsonInfo_Spec.
Open Scope N_scope.

Section Picks.
  Variable named : text -> Prop.
  Lemma blank_cons k v l : blank named ((k, v) :: l) <-> (named k -> v = JStr []) /\ blank named l.
  Proof.
    unfold blank. split.
    - intros H. split; [intros N1; apply (H k v); [now left | exact N1]|]. intros k1 v1 I N1. apply (H k1 v1); [now right | exact N1].
    - intros (A & B) k1 v1 [[= <- <-]|I] N1; [now apply A | now apply (B k1)].
  Qed.
  Lemma picks_skip k v l o : (named k -> v = JStr []) -> picks named ((k, v) :: l) o <-> picks named l o.
  Proof.
    intros S1. split.
    - intros H. inversion H as [before k1 t after Nt Nk B E Eo | l1 B E Eo]; subst.
      + destruct before as [|[k2 v2] before]; cbn in E.
        * injection E as E1 E2 E3; subst. specialize (S1 Nk). congruence.
        * injection E as E1 E2 E3; subst. apply blank_cons in B. now apply picks_one.
      + apply blank_cons in B. now apply picks_none.
    - intros [before k1 t after Nt Nk B | l1 B].
      + change ((k, v) :: before ++ (k1, JStr t) :: after) with (((k, v) :: before) ++ (k1, JStr t) :: after).
        apply picks_one; auto. now apply blank_cons.
      + apply picks_none. now apply blank_cons.
  Qed.
  Lemma picks_here k t l o : named k -> t <> [] -> picks named ((k, JStr t) :: l) o <-> o = Some t.
  Proof.
    intros Nk Nt. split.
    - intros H. inversion H as [before k1 t1 after Nt1 Nk1 B E Eo | l1 B E Eo]; subst.
      + destruct before as [|[k2 v2] before]; cbn in E; [injection E as E1 E2 E3; congruence|].
        injection E as E1 E2 E3; subst. apply blank_cons in B as (B & _). specialize (B Nk). now injection B.
      + apply blank_cons in B as (B & _). specialize (B Nk). now injection B.
    - intros ->. apply (picks_one named [] k t l); auto. intros ? ? [].
  Qed.
  Lemma picks_other k v l o : named k -> (forall t, v <> JStr t) -> ~ picks named ((k, v) :: l) o.
  Proof.
    intros Nk Nt H. inversion H as [before k1 t1 after Nt1 Nk1 B E Eo | l1 B E Eo]; subst.
    - destruct before as [|[k2 v2] before]; cbn in E; [injection E as E1 E2 E3; subst; now apply (Nt t1)|].
      injection E as E1 E2 E3; subst. apply blank_cons in B as (B & _). exact (Nt [] (B Nk)).
    - apply blank_cons in B as (B & _). exact (Nt [] (B Nk)).
  Qed.
End Picks.

Definition trim (o : option text) : option text := match o with Some [] => None | o => o end.
Lemma missing_trim o : missing o = true <-> trim o = None.
Proof. destruct o as [[|]|]; cbn; split; congruence. Qed.

Section Scan.
  Variable lower : text -> text.

  Lemma has_name_In l k : has_name l k = true <-> In k l.
  Proof.
    unfold has_name. rewrite existsb_exists. split.
    - intros (x & I & E). apply text_eqb_eq in E. now subst.
    - intros I. exists k. split; [exact I | apply text_eqb_refl].
  Qed.

  (** One of the two searches on its own. *)
  Fixpoint search (keys : list text) (items : list (text * jval)) (o : option text) : result (option text) :=
    match items with
    | [] => Ok o
    | (k, v) :: r =>
      do o1 <- (if missing o && has_name keys (lower k) then do t <- expect_str v; Ok (Some t) else Ok o);
      search keys r o1
    end.
  Lemma scan_search items : forall c m r,
    scan lower items c m = Ok r <-> search code_keys items c = Ok (fst r) /\ search message_keys items m = Ok (snd r).
  Proof.
    induction items as [|[k v] items IH]; intros c m [c1 m1]; cbn [scan search fst snd].
    - split; [intros [= -> ->]; now split | now intros ([= ->] & [= ->])].
    - destruct (if missing c && has_name code_keys (lower k) then _ else _) as [c2|e]; cbn [bind]; [|split; [discriminate | now intros ([=] & _)]].
      destruct (if missing m && has_name message_keys (lower k) then _ else _) as [m2|e]; cbn [bind]; [|split; [discriminate | now intros (_ & [=])]].
      apply IH.
  Qed.
  Lemma search_full keys items o : missing o = false -> search keys items o = Ok o.
  Proof. intros H. induction items as [|[k v] items IH]; [reflexivity|]. cbn [search]. rewrite H. exact IH. Qed.
  Lemma search_iff keys items : forall o q, missing o = true ->
    (exists r, search keys items o = Ok r /\ trim r = q) <-> picks (fun k => In (lower k) keys) items q.
  Proof.
    induction items as [|[k v] items IH]; intros o q M; cbn [search].
    - split.
      + intros (r & [= <-] & T). apply missing_trim in M. rewrite M in T. subst q. apply picks_none. intros ? ? [].
      + intros H. exists o. split; [reflexivity|]. apply missing_trim in M. rewrite M.
        inversion H as [before k1 t1 after Nt1 Nk1 B E Eo | l1 B E Eo]; subst; [now destruct before | reflexivity].
    - rewrite M. cbn [andb]. destruct (has_name keys (lower k)) eqn:Hn.
      + apply has_name_In in Hn. destruct v as [[|c t]|m|b]; cbn [expect_str bind].
        * rewrite picks_skip by reflexivity. now apply IH.
        * rewrite picks_here by (auto; discriminate). rewrite search_full by reflexivity. cbn. split.
          -- now intros (r & [= <-] & <-).
          -- intros ->. eexists. split; reflexivity.
        * split; [now intros (r & [=] & _)|]. intros H. destruct (picks_other (fun k => In (lower k) keys) k (JObj m) items q Hn) in H; [discriminate | exact H].
        * split; [now intros (r & [=] & _)|]. intros H. destruct (picks_other (fun k => In (lower k) keys) k (JOther b) items q Hn) in H; [discriminate | exact H].
      + cbn [bind]. rewrite picks_skip; [now apply IH|]. intros I. apply has_name_In in I. congruence.
  Qed.

  Lemma header_some fields c : header_code lower fields = Ok (Some c) <-> header_says lower fields c.
  Proof.
    unfold header_says. induction fields as [|f fields IH]; cbn [header_code].
    - split; [discriminate|]. intros (b & f & a & v & E & _). now destruct b.
    - destruct (text_eqb (lower (f_name f)) code_header) eqn:E.
      + apply text_eqb_eq in E. split.
        * destruct (f_values f) as [|x v] eqn:V; [discriminate|]. intros [= ->]. exists [], f, fields, v. split; [reflexivity|]. split; [exact E|]. split; [exact V | constructor].
        * intros (b & g & a & v & Eq & En & Ev & B). destruct b as [|h b]; cbn in Eq; injection Eq as <- Eq.
          -- now rewrite Ev.
          -- inversion B; subst. contradiction.
      + rewrite IH. split.
        * intros (b & g & a & v & -> & En & Ev & B). exists (f :: b), g, a, v. split; [reflexivity|]. split; [exact En|]. split; [exact Ev|].
          constructor; [|exact B]. intros Eq. apply text_eqb_eq in Eq. unfold code_header in E. congruence.
        * intros (b & g & a & v & Eq & En & Ev & B). destruct b as [|h b]; cbn in Eq; injection Eq as <- Eq.
          -- apply text_eqb_eq in En. unfold code_header in E. congruence.
          -- subst. inversion B; subst. now exists b, g, a, v.
  Qed.
  Lemma header_none fields : header_code lower fields = Ok None <-> Forall (fun g => lower (f_name g) <> lit "x-amzn-errortype") fields.
  Proof.
    induction fields as [|f fields IH]; cbn [header_code]; [split; auto|].
    destruct (text_eqb (lower (f_name f)) code_header) eqn:E.
    - apply text_eqb_eq in E. split; [destruct (f_values f); discriminate|]. intros H. inversion H; subst. contradiction.
    - rewrite IH. split; [|intros H; now inversion H]. intros H. constructor; [|exact H].
      intros Eq. apply text_eqb_eq in Eq. unfold code_header in E. congruence.
  Qed.
  Lemma header_silent_iff fields : header_silent lower fields <-> exists o, header_code lower fields = Ok o /\ missing o = true.
  Proof.
    unfold header_silent. rewrite <- header_some, <- header_none. split.
    - intros [H|H]; eexists; (split; [exact H | reflexivity]).
    - intros ([[|x c]|] & H & M); [now left | discriminate | now right].
  Qed.

  (** The code before it is normalised. *)
  Lemma code_iff fields m q : (exists o r, header_code lower fields = Ok o /\ search code_keys m o = Ok r /\ trim r = q) <-> code_source lower fields m q.
  Proof.
    split.
    - intros (o & r & H & S1 & T). destruct (missing o) eqn:M.
      + apply from_body; [apply header_silent_iff; now exists o|]. apply (search_iff code_keys m o q M). now exists r.
      + rewrite search_full in S1 by exact M. injection S1 as <-. destruct o as [[|x c]|]; try discriminate. cbn in T. subst q.
        apply from_header; [discriminate | now apply header_some].
    - intros [c Nc H|q1 S1 P].
      + apply header_some in H. exists (Some c), (Some c). split; [exact H|]. assert (M : missing (Some c) = false) by (destruct c; [congruence | reflexivity]).
        split; [now apply search_full|]. destruct c; [congruence | reflexivity].
      + apply header_silent_iff in S1 as (o & H & M). apply (search_iff code_keys m o q1 M) in P as (r & S1 & T). exists o, r. auto.
  Qed.
End Scan.

Section Info.
  Variable lower : text -> text.
  Variable loads : bytes -> parsed.

  (** The entries looked at, as the code finds them. *)
  Lemma entries_iff body check m :
    body_entries loads body check m <->
    exists j, read_body loads check body = Ok j /\
      match j with None => m = [] | Some v => if truthy v then v = JObj m else m = [] end.
  Proof.
    unfold read_body. split.
    - intros [b | | b m1 Nb L | b v Nb L V | b Nb L].
      + now exists None.
      + now exists None.
      + exists (Some (JObj m1)). destruct b; [congruence|]. rewrite L. split; [reflexivity|]. now destruct m1.
      + exists (Some v). destruct b; [congruence|]. rewrite L. split; [reflexivity|]. destruct V as [->| ->]; reflexivity.
      + exists None. destruct b; [congruence|]. rewrite L. auto.
    - intros (j & R & J). destruct check; [|injection R as <-; subst; constructor].
      destruct body as [|x b]; [injection R as <-; subst; constructor|].
      destruct (loads (x :: b)) as [v| |e] eqn:L; [injection R as <- | injection R as <- | discriminate].
      + destruct v as [[|y t]|[|y n]|[|]]; cbn in J; try discriminate; subst.
        * apply (entries_other _ _ (JStr [])); [discriminate | exact L | now left].
        * apply entries_object; [discriminate | exact L].
        * injection J as <-. apply entries_object; [discriminate | exact L].
        * apply (entries_other _ _ (JOther false)); [discriminate | exact L | now right].
      + subst. apply entries_not_json; [discriminate | exact L].
  Qed.

  Definition shown (q : option text) : text := or_unknown (match q with Some c => Some (normalize c) | None => None end).
  Lemma shown_trim o : or_unknown (match o with Some ((_ :: _) as c) => Some (normalize c) | o => o end) = shown (trim o).
  Proof. now destruct o as [[|]|]. Qed.
  Lemma unknown_trim o : or_unknown o = or_unknown (trim o).
  Proof. now destruct o as [[|]|]. Qed.

  Lemma info_iff fields body check i :
    parse_info lower loads fields body check = Ok i <->
    exists m q n, body_entries loads body check m /\ code_source lower fields m q /\ picks (message_name lower) m n /\
      i_code i = shown q /\ i_message i = or_unknown n /\ read_body loads check body = Ok (i_body i).
  Proof.
    unfold parse_info. split.
    - intros H. destruct (header_code lower fields) as [o|e] eqn:Hc; [|discriminate]. cbn [bind] in H.
      destruct (read_body loads check body) as [j|e] eqn:R; [|discriminate]. cbn [bind] in H.
      set (pr := match j with None => Ok (o, None) | Some v => _ end) in H. destruct pr as [p|e] eqn:P; [|discriminate]. cbn [bind] in H. injection H as <-.
      cbn [i_code i_message i_body].
      assert (exists m, match j with None => m = [] | Some v => if truthy v then v = JObj m else m = [] end /\
        search lower code_keys m o = Ok (fst p) /\ search lower message_keys m None = Ok (snd p)) as (m & J & S1 & S2).
      { unfold pr in P. destruct j as [v|]; [destruct (truthy v) eqn:T|].
        - destruct v as [t|m|b]; [discriminate| |discriminate]. exists m. split; [reflexivity|]. now apply scan_search.
        - injection P as <-. now exists [].
        - injection P as <-. now exists []. }
      exists m, (trim (fst p)), (trim (snd p)). split; [apply entries_iff; now exists j|].
      split; [apply code_iff; exists o, (fst p); auto|].
      split; [apply (search_iff lower message_keys m None (trim (snd p)) eq_refl); now exists (snd p)|].
      split; [now destruct (fst p) as [[|]|]|]. split; [apply unknown_trim | reflexivity].
    - intros (m & q & n & E & C & N1 & Ic & Im & Ib). destruct i as [ic im ib]. cbn [i_code i_message i_body] in *.
      apply entries_iff in E as (j & R & J). apply code_iff in C as (o & r & Hc & S1 & T).
      apply (search_iff lower message_keys m None n eq_refl) in N1 as (r2 & S2 & T2).
      rewrite Hc. cbn [bind]. rewrite R in *. injection Ib as <-. cbn [bind].
      assert ((match j with None => Ok (o, None) | Some v => if truthy v then match v with JObj m => scan lower m o None | _ => Err AttributeError end else Ok (o, None) end) = Ok (r, r2)) as ->.
      { destruct j as [v|]; [destruct (truthy v) eqn:Tv|].
        - subst v. now apply scan_search.
        - subst m. cbn in S1, S2. congruence.
        - subst m. cbn in S1, S2. congruence. }
      cbn [bind fst snd]. rewrite Ic, Im, <- T, <- T2, <- (unknown_trim r2). do 2 f_equal. now destruct r as [[|]|].
  Qed.

  (** The name in a code. *)
  Lemma plain_normal n : plain n -> normalize n = n.
  Proof.
    intros (H & C). unfold normalize. assert (existsb (N.eqb 35) n = false) as ->.
    { apply Bool.not_true_iff_false. intros E. apply existsb_exists in E as (x & I & E). apply N.eqb_eq in E. subst. now apply H. }
    now rewrite split_on_none.
  Qed.
  Lemma has_hash s : In 35 s -> existsb (N.eqb 35) s = true.
  Proof. intros I. apply existsb_exists. exists 35. auto. Qed.
  Lemma no_hash s : ~ In 35 s -> existsb (N.eqb 35) s = false.
  Proof.
    intros H. apply Bool.not_true_iff_false. intros E. apply existsb_exists in E as (x & I & E). apply N.eqb_eq in E. subst. now apply H.
  Qed.
  Lemma normal_uri n u : plain n -> ~ In 35 u -> normalize (n ++ 58 :: u) = n.
  Proof.
    intros (H & C) U. unfold normalize. rewrite no_hash.
    - now rewrite split_on_app.
    - intros I. apply in_app_or in I as [I|[E|I]]; [now apply H | discriminate | now apply U].
  Qed.
  Lemma normal_namespace a s : plain a -> normalize (a ++ 35 :: s) = hd [] (split_on 58 (hd [] (split_on 35 s))).
  Proof.
    intros (H & C). unfold normalize. rewrite has_hash by (apply in_or_app; right; now left). rewrite split_on_app by exact H.
    cbn [nth]. destruct (split_on_cons 35 s) as (p & ps & ->). reflexivity.
  Qed.
  Lemma normal_named a n : plain a -> plain n -> normalize (a ++ 35 :: n) = n.
  Proof. intros A (H & C). rewrite normal_namespace by exact A. rewrite (split_on_none 35) by exact H. cbn [hd]. now rewrite split_on_none. Qed.
  Lemma normal_both a n u : plain a -> plain n -> normalize (a ++ 35 :: n ++ 58 :: u) = n.
  Proof.
    intros A (H & C). rewrite normal_namespace by exact A.
    assert (exists w, hd [] (split_on 35 (n ++ 58 :: u)) = n ++ 58 :: w) as (w & ->).
    { destruct (in_dec N.eq_dec 35 u) as [I|I].
      - apply in_split in I as (x & y & E).
        assert (exists x y, u = x ++ 35 :: y /\ ~ In 35 x) as (x1 & y1 & -> & Nx).
        { clear -E. revert u y E. induction x as [|z x IH]; intros u y ->; [exists [], y; split; [reflexivity | intros []]|].
          destruct (N.eq_dec z 35) as [->|Ne]; [exists [], (x ++ 35 :: y); split; [reflexivity | intros []]|].
          destruct (IH _ y eq_refl) as (x1 & y1 & E1 & N1). exists (z :: x1), y1. cbn. rewrite E1. split; [reflexivity|].
          intros [E2|I]; [congruence | now apply N1]. }
        exists x1. replace (n ++ 58 :: x1 ++ 35 :: y1) with ((n ++ 58 :: x1) ++ 35 :: y1) by (rewrite <- app_assoc; reflexivity).
        rewrite split_on_app; [reflexivity|]. intros I. apply in_app_or in I as [I|[E1|I]]; [now apply H | discriminate | now apply Nx].
      - exists u. rewrite (split_on_none 35); [reflexivity|]. intros J. apply in_app_or in J as [J|[E1|J]]; [now apply H | discriminate | now apply I]. }
    rewrite split_on_app by exact C. reflexivity.
  Qed.
End Info.

Section Code.
  Lemma code_named c n : names_error c n -> n <> [] -> (In 35 c -> exists a s, c = a ++ 35 :: s /\ plain a) -> shown (Some c) = n.
  Proof.
    intros H Ne L. unfold shown, or_unknown. assert (normalize c = n) as ->; [|now destruct n].
    destruct H as [n P|n u P|a n A P|a n u A P].
    - now apply plain_normal.
    - apply normal_uri; [exact P|]. intros I. destruct L as (a & s & E & (Ha & Ca)); [apply in_or_app; right; now right|].
      assert (In 58 a); [|contradiction]. clear -E P Ha. revert a E Ha. induction n as [|x n IH]; intros [|y a] E Ha; cbn in E.
      + discriminate.
      + injection E as <- _. now left.
      + injection E as -> _. destruct P as (P & _). destruct P. now left.
      + injection E as -> E. right. apply (IH (conj (fun I => proj1 P (or_intror I)) (fun I => proj2 P (or_intror I))) a E). intros I. apply Ha. now right.
    - now apply normal_named.
    - now apply normal_both.
  Qed.
End Code.

Lemma picks_functional named l : forall o o1, picks named l o -> picks named l o1 -> o = o1.
Proof.
  assert (B : forall b b1 k k1 t t1 a a1, t <> [] -> t1 <> [] -> named k -> named k1 -> blank named b -> blank named b1 ->
    b ++ (k, JStr t) :: a = b1 ++ (k1, JStr t1) :: a1 -> t = t1).
  { induction b as [|[x v] b IH]; intros [|[x1 v1] b1] k k1 t t1 a a1 Nt Nt1 Nk Nk1 Bb Bb1 E; cbn in E.
    - now injection E.
    - injection E as -> <- _. apply blank_cons in Bb1 as (Q & _). specialize (Q Nk). congruence.
    - injection E as -> -> _. apply blank_cons in Bb as (Q & _). specialize (Q Nk1). congruence.
    - injection E as -> -> E. apply blank_cons in Bb as (_ & Bb). apply blank_cons in Bb1 as (_ & Bb1). exact (IH b1 k k1 t t1 a a1 Nt Nt1 Nk Nk1 Bb Bb1 E). }
  intros o o1 H H1. inversion H as [b k t a Nt Nk Bb E Eo | l1 Bb E Eo]; inversion H1 as [b1 k1 t1 a1 Nt1 Nk1 Bb1 E1 Eo1 | l2 Bb1 E1 Eo1]; subst.
  - f_equal. symmetry in E1. exact (B _ _ _ _ _ _ _ _ Nt Nt1 Nk Nk1 Bb Bb1 E1).
  - exfalso. assert (Q : JStr t = JStr []) by (apply (Bb1 k); [apply in_or_app; right; now left | exact Nk]). congruence.
  - exfalso. assert (Q : JStr t1 = JStr []) by (apply (Bb k1); [apply in_or_app; right; now left | exact Nk1]). congruence.
  - reflexivity.
Qed.

Section Sources.
  Variable lower : text -> text.
  Variable loads : bytes -> parsed.
  Lemma entries_functional body check m m1 : body_entries loads body check m -> body_entries loads body check m1 -> m = m1.
  Proof.
    rewrite !entries_iff. intros (j & R & J) (j1 & R1 & J1). assert (j1 = j) as -> by congruence.
    destruct j as [v|]; [destruct (truthy v)|]; congruence.
  Qed.
  Lemma code_functional fields m q q1 : code_source lower fields m q -> code_source lower fields m q1 -> q = q1.
  Proof. rewrite <- !code_iff. intros (o & r & H & S1 & T) (o1 & r1 & H1 & S2 & T1). congruence. Qed.

  Lemma message_spec fields body check i m :
    parse_info lower loads fields body check = Ok i -> body_entries loads body check m ->
    (forall t, picks (message_name lower) m (Some t) -> i_message i = t) /\
    (picks (message_name lower) m None -> i_message i = lit "Unknown").
  Proof.
    intros H E. apply info_iff in H as (m1 & q & n & E1 & _ & P & _ & Im & _). rewrite (entries_functional _ _ _ _ E1 E) in P. clear E1. split.
    - intros t P1. rewrite (picks_functional _ _ _ _ P P1) in Im. rewrite Im.
      inversion P1 as [b k t1 a Nt| ]; subst. cbn. destruct t; [congruence | reflexivity].
    - intros P1. rewrite (picks_functional _ _ _ _ P P1) in Im. exact Im.
  Qed.
  Lemma code_spec fields body check i m :
    parse_info lower loads fields body check = Ok i -> body_entries loads body check m ->
    (forall c n, code_source lower fields m (Some c) -> names_error c n -> n <> [] ->
       (In 35 c -> exists a s, c = a ++ 35 :: s /\ plain a) -> i_code i = n) /\
    (code_source lower fields m None -> i_code i = lit "Unknown").
  Proof.
    intros H E. apply info_iff in H as (m1 & q & n & E1 & C & _ & Ic & _). rewrite (entries_functional _ _ _ _ E1 E) in C. clear E1. split.
    - intros c n1 C1 N1 Ne L. rewrite (code_functional _ _ _ _ C C1) in Ic. rewrite Ic. now apply code_named.
    - intros C1. rewrite (code_functional _ _ _ _ C C1) in Ic. exact Ic.
  Qed.
  Lemma uri_refuted n u rest after body :
    plain n -> plain u -> u <> [] ->
    (forall f, f = mkField (lit "x-amzn-errortype") [n ++ 58 :: rest ++ 35 :: u] ->
     lower (f_name f) = lit "x-amzn-errortype" -> ~ In 35 rest ->
     exists i, parse_info lower loads (f :: after) body false = Ok i /\ i_code i = u).
  Proof.
    intros Pn Pu Ne f -> L R. unfold parse_info. cbn [header_code f_name f_values]. cbn [f_name] in L. rewrite L.
    assert (text_eqb (lit "x-amzn-errortype") code_header = true) as -> by reflexivity. cbn [read_body bind fst snd].
    eexists. split; [reflexivity|]. cbn [i_code].
    set (c := n ++ 58 :: rest ++ 35 :: u). assert (Nc : c <> []) by (unfold c; now destruct n).
    assert (Q : normalize c = u).
    { unfold normalize. rewrite has_hash by (unfold c; apply in_or_app; right; right; apply in_or_app; right; now left).
      unfold c. replace (n ++ 58 :: rest ++ 35 :: u) with ((n ++ 58 :: rest) ++ 35 :: u) by (rewrite <- app_assoc; reflexivity).
      rewrite split_on_app; [|intros I; apply in_app_or in I as [I|[E|I]]; [now apply (proj1 Pn) | discriminate | now apply R]].
      rewrite (split_on_none 35) by exact (proj1 Pu). cbn [nth]. now rewrite (split_on_none 58) by exact (proj2 Pu). }
    clearbody c. destruct c; [congruence|]. rewrite Q. cbn. destruct u; [congruence | reflexivity].
  Qed.
End Sources.
