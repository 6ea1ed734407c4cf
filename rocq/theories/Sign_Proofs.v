(** Proofs about request signing. *)
From Verif Require Import Base Base_Proofs Utf8_Model Utf8_Proofs PyText_Model PyText_Proofs PyDict_Model PyDict_Proofs
  PySort_Model PySort_Proofs Header_Model Sign_Model Sign_Spec.
From Coq Require Import Sorting.Sorted Sorting.Permutation.
Local Open Scope N_scope.

Lemma result_map_map_r {A B} (f : A -> result B) l l' : Permutation l l' -> forall r, map_r f l = Ok r ->
  exists r', map_r f l' = Ok r' /\ Permutation r r'.
Proof.
  induction 1 as [|x l l' H IH|x y l|l l' l'' H1 IH1 H2 IH2]; intros r E; cbn [map_r] in *.
  - injection E as <-. exists []. split; [reflexivity | constructor].
  - destruct (f x) as [y|]; [|discriminate]. cbn in *. destruct (map_r f l) as [ys|]; [|discriminate]. cbn in E.
    destruct (IH ys eq_refl) as [r' [-> P]]. injection E as <-. cbn. eexists; split; [reflexivity | now constructor].
  - destruct (f y) as [y'|]; [|discriminate]. cbn in *. destruct (f x) as [x'|]; [|discriminate]. cbn in *.
    destruct (map_r f l) as [ys|]; [|discriminate]. cbn in *. injection E as <-. eexists; split; [reflexivity | constructor].
  - destruct (IH1 _ E) as [r1 [E1 P1]]. destruct (IH2 _ E1) as [r2 [E2 P2]]. exists r2. split; [exact E2|]. now transitivity r1.
Qed.
Lemma map_r_Forall2 {A B} (f : A -> result B) l : forall r, map_r f l = Ok r -> Forall2 (fun x y => f x = Ok y) l r.
Proof.
  induction l as [|x l IH]; intros r E; cbn [map_r] in E; [injection E as <-; constructor|].
  destruct (f x) as [y|] eqn:F; [|discriminate]. cbn in E. destruct (map_r f l) as [ys|]; [|discriminate]. cbn in E.
  injection E as <-. constructor; [exact F | now apply IH].
Qed.
Lemma Forall2_weaken {A B} (P Q : A -> B -> Prop) l l' : (forall x y, P x y -> Q x y) -> Forall2 P l l' -> Forall2 Q l l'.
Proof. intros H F. induction F; constructor; auto. Qed.
Lemma filter_perm {A} (f : A -> bool) l l' : Permutation l l' -> Permutation (filter f l) (filter f l').
Proof.
  induction 1; cbn [filter].
  - constructor.
  - destruct (f x); [now constructor | assumption].
  - destruct (f x), (f y); try reflexivity. constructor.
  - etransitivity; eassumption.
Qed.

Lemma sorted_pairs_perm l l' : Permutation l l' -> sorted pair_leb l = sorted pair_leb l'.
Proof.
  apply sorted_of_perm; [exact pair_leb_total | exact pair_leb_trans | exact pair_leb_antisym].
Qed.

Lemma dict_has_In {A} k (d : list (text * A)) : dict_has k d = true <-> In k (map fst d).
Proof.
  unfold dict_has. destruct (dict_get k d) eqn:E.
  - split; [intros _; apply dict_get_In in E; apply in_map_iff; eexists; split; [|exact E]; reflexivity | reflexivity].
  - apply dict_get_None in E. split; [discriminate | intros I; now elim E].
Qed.

Lemma cut_inv c s a b : cut_at c s = (a, Some b) -> s = a ++ c :: b /\ ~ In c a.
Proof.
  revert a. induction s as [|x s IH]; intros a; cbn [cut_at]; [discriminate|].
  destruct (N.eqb_spec x c) as [->|Hx].
  - intros [= <- <-]. split; [reflexivity|intros []].
  - destruct (cut_at c s) as [a' [b'|]]; [|discriminate]. intros [= <- <-].
    destruct (IH a' eq_refl) as [-> H]. split; [reflexivity|]. intros [E|E]; [exact (Hx E)|exact (H E)].
Qed.
Lemma cut_inv_none c s a : cut_at c s = (a, None) -> ~ In c s.
Proof.
  revert a. induction s as [|x s IH]; intros a; cbn [cut_at]; [intros _ []|].
  destruct (N.eqb_spec x c) as [->|Hx]; [discriminate|].
  destruct (cut_at c s) as [a' [b'|]]; [discriminate|]. intros _ [E|E]; [exact (Hx E)|exact (IH a' eq_refl E)].
Qed.
Lemma Forall2_map_l {A B C} (f : A -> B) (P : B -> C -> Prop) l : forall r, Forall2 P (map f l) r -> Forall2 (fun x y => P (f x) y) l r.
Proof.
  induction l as [|x l IH]; intros r H; inversion H; subst; constructor; auto.
Qed.

Section Q.
  Variable utf8_replace : bytes -> text.
  Lemma hex_val_spec c v : hex_val c = Some v <-> hex_digit c v.
  Proof.
    unfold hex_val, hex_digit.
    destruct ((48 <=? c) && (c <=? 57))%bool eqn:E1; [apply andb_true_iff in E1; rewrite !N.leb_le in E1;
      split; [intros [= <-]; lia | intros H; f_equal; lia]|].
    apply andb_false_iff in E1. rewrite !N.leb_gt in E1.
    destruct ((65 <=? c) && (c <=? 70))%bool eqn:E2; [apply andb_true_iff in E2; rewrite !N.leb_le in E2;
      split; [intros [= <-]; lia | intros H; f_equal; lia]|].
    apply andb_false_iff in E2. rewrite !N.leb_gt in E2.
    destruct ((97 <=? c) && (c <=? 102))%bool eqn:E3; [apply andb_true_iff in E3; rewrite !N.leb_le in E3;
      split; [intros [= <-]; lia | intros H; f_equal; lia]|].
    apply andb_false_iff in E3. rewrite !N.leb_gt in E3. split; [discriminate | intros H; lia].
  Qed.
  Lemma octets_spec s : Octets s (unquote_to_bytes s).
  Proof.
    assert (H : forall n s, (List.length s <= n)%nat -> Octets s (unquote_to_bytes s)).
    { induction n as [|n IH]; intros [|c r] Hn; cbn [List.length] in Hn; try lia; try constructor.
      cbn [unquote_to_bytes]. destruct (c =? 37) eqn:E.
      - apply N.eqb_eq in E as ->. destruct r as [|a [|b r]].
        + apply O_char; [right; intros (a & b & r' & x & y & [=] & _) | constructor].
        + apply O_char; [right; intros (a' & b & r' & x & y & [=] & _) | apply IH; cbn [List.length] in *; lia].
        + destruct (hex_val a) as [x|] eqn:Ea; [destruct (hex_val b) as [y|] eqn:Eb|].
          * apply hex_val_spec in Ea. apply hex_val_spec in Eb. apply O_escape; [assumption..|]. apply IH. cbn [List.length] in *. lia.
          * apply O_char; [right | apply IH; cbn [List.length] in *; lia].
            intros (a' & b' & r' & x' & y' & [= <- <- <-] & _ & Hb). apply hex_val_spec in Hb. congruence.
          * apply O_char; [right | apply IH; cbn [List.length] in *; lia].
            intros (a' & b' & r' & x' & y' & [= <- <- <-] & Ha & _). apply hex_val_spec in Ha. congruence.
      - apply N.eqb_neq in E. apply O_char; [left; exact E | apply IH; lia]. }
    exact (H _ s (Nat.le_refl _)).
  Qed.
  (** The runs, and the first of them. *)
  Lemma runs_spec s :
    List.concat (map snd (ascii_runs s)) = s
    /\ match ascii_runs s with
       | [] => s = []
       | (a, w) :: rs => exists c, head s = Some c /\ a = (c <? 128)%N
       end.
  Proof.
    induction s as [|c s [IH1 IH2]]; [split; reflexivity|]. cbn [ascii_runs]. destruct (ascii_runs s) as [|[a w] rs] eqn:E.
    - rewrite IH2 in *. split; [reflexivity|]. exists c. split; reflexivity.
    - destruct (Bool.eqb (c <? 128) a) eqn:Eb.
      + split; [cbn [map snd List.concat app] in *; rewrite IH1; reflexivity|]. exists c. split; reflexivity.
      + split; [cbn [map snd List.concat app] in *; rewrite IH1; reflexivity|]. exists c. split; reflexivity.
  Qed.
  Definition chunk (r : bool * text) : text := if fst r : bool then utf8_replace (unquote_to_bytes (snd r)) else snd r.
  (** A run of ASCII is a whole one: the next begins with another character. *)
  Inductive Runs : list (bool * text) -> Prop :=
  | R_nil : Runs []
  | R_ascii w rs : w <> [] -> ascii w -> (rs = [] \/ exists c w' rs', rs = (false, c :: w') :: rs' /\ 128 <= c) -> Runs rs -> Runs ((true, w) :: rs)
  | R_other w rs : w <> [] -> Forall (fun c => 128 <= c) w -> Runs rs -> Runs ((false, w) :: rs).
  Lemma runs_runs s : Runs (ascii_runs s).
  Proof.
    induction s as [|c s IH]; [constructor|]. cbn [ascii_runs]. destruct (ascii_runs s) as [|[a w] rs] eqn:E.
    - destruct (c <? 128) eqn:Ec.
      + apply N.ltb_lt in Ec. constructor; [discriminate | repeat constructor; exact Ec | left; reflexivity | constructor].
      + apply N.ltb_ge in Ec. constructor; [discriminate | repeat constructor; exact Ec | constructor].
    - inversion IH as [|? ? H1 H2 H3 H4|? ? H1 H2 H4]; subst; destruct (c <? 128) eqn:Ec; cbn [Bool.eqb];
        [apply N.ltb_lt in Ec | apply N.ltb_ge in Ec | apply N.ltb_lt in Ec | apply N.ltb_ge in Ec].
      + constructor; [discriminate | constructor; [exact Ec | exact H2] | exact H3 | exact H4].
      + constructor; [discriminate | repeat constructor; exact Ec | exact IH].
      + constructor; [discriminate | repeat constructor; exact Ec | right | exact IH].
        destruct w as [|x w]; [congruence|]. inversion H2; subst. exists x, w, rs. split; [reflexivity|assumption].
      + constructor; [discriminate | constructor; [exact Ec | exact H2] | exact H4].
  Qed.
  Lemma runs_decoded rs : Runs rs -> Decoded utf8_replace (List.concat (map snd rs)) (List.concat (map chunk rs)).
  Proof.
    induction 1 as [|w rs H1 H2 H3 H4 IH|w rs H1 H2 H4 IH]; cbn [map List.concat snd].
    - constructor.
    - change (chunk (true, w)) with (utf8_replace (unquote_to_bytes w)). apply De_ascii; [exact H1 | exact H2 | | apply octets_spec | exact IH].
      destruct H3 as [->|(c & w' & rs' & -> & Hc)]; [left; reflexivity|right]. exists c, (w' ++ List.concat (map snd rs')). split; [reflexivity|exact Hc].
    - change (chunk (false, w)) with w. clear H1. induction H2 as [|c w Hc _ IHw]; [exact IH|]. apply De_other; assumption.
  Qed.
  Lemma replace_plus s : replace_char 43 [32] s = map (fun c => if c =? 43 then 32 else c) s.
  Proof. induction s as [|c s IH]; [reflexivity|]. unfold replace_char in *. cbn [flat_map map]. rewrite IH. destruct (c =? 43); reflexivity. Qed.
  Lemma unquote_spec s : stands_for utf8_replace s (unquote utf8_replace (replace_char 43 [32] s)).
  Proof.
    rewrite replace_plus. eexists. split; [reflexivity|]. set (u := map _ s). unfold unquote. destruct (has 37 u) eqn:E.
    - right. apply has_In in E. split; [exact E|]. pose proof (runs_decoded _ (runs_runs u)) as D. rewrite (proj1 (runs_spec u)) in D. exact D.
    - left. split; [|reflexivity]. intros H. apply has_In in H. congruence.
  Qed.
  Lemma parameter_spec part : parameter utf8_replace part (fst (qsl_pair utf8_replace part)) (snd (qsl_pair utf8_replace part)).
  Proof.
    unfold qsl_pair. destruct (cut_at 61 part) as [a [b|]] eqn:E; cbn [fst snd get_or].
    - left. apply cut_inv in E. destruct E as [-> N]. exists a, b. split; [reflexivity|]. split; [exact N|]. split; apply unquote_spec.
    - right. pose proof (cut_inv_none _ _ _ E) as N. rewrite (cut_at_none 61 part N) in E. injection E as <-. split; [exact N|]. split; [apply unquote_spec|reflexivity].
  Qed.
End Q.

Section P.
  Variables (lower upper : text -> text) (sha256 : bytes -> bytes) (hmac : bytes -> bytes -> bytes)
    (utf8_replace : bytes -> text) (async : bool).
  Hypothesis L : lowers_ascii lower.

  (** ** Queries *)

  Lemma query_perm q q' line : Permutation (split_on 38 q) (split_on 38 q') ->
    format_canonical_query utf8_replace (Some q) = Ok line -> format_canonical_query utf8_replace (Some q') = Ok line.
  Proof.
    intros P E. cbn [format_canonical_query] in *.
    assert (P2 : Permutation (parse_qsl utf8_replace q) (parse_qsl utf8_replace q')).
    { unfold parse_qsl. now apply Permutation_map, filter_perm. }
    destruct (map_r quote_pair (parse_qsl utf8_replace q)) as [ps|] eqn:M; [|discriminate]. cbn in E. injection E as <-.
    destruct (result_map_map_r _ _ _ P2 _ M) as [ps' [-> P3]]. cbn. now rewrite (sorted_pairs_perm _ _ P3).
  Qed.
  Lemma same_query_eq a b line : same_query a b -> format_canonical_query utf8_replace a = Ok line ->
    format_canonical_query utf8_replace b = Ok line.
  Proof.
    destruct a, b; cbn [same_query]; try contradiction; [apply query_perm | trivial].
  Qed.
  Lemma query_spec q line : format_canonical_query utf8_replace q = Ok line -> query_line utf8_replace q line.
  Proof.
    destruct q as [q|]; cbn [format_canonical_query query_line]; [|now intros [= <-]].
    destruct (map_r quote_pair (parse_qsl utf8_replace q)) as [ps|] eqn:M; [|discriminate]. cbn. intros [= <-].
    exists (sorted pair_leb ps). split; [|split; [reflexivity|]].
    - apply sorted_sorted; [exact pair_leb_total | exact pair_leb_trans].
    - exists ps. split; [symmetry; apply sorted_perm|]. apply map_r_Forall2 in M. unfold parse_qsl in M.
      assert (F : filter (fun p => negb (text_eqb p [])) (split_on 38 q)
                = filter (fun p => match p with [] => false | _ => true end) (split_on 38 q))
        by (apply filter_ext; intros [|x l]; reflexivity).
      rewrite F. clear F. apply Forall2_map_l in M. eapply Forall2_weaken; [|exact M].
      intros part [k' v'] E. pose proof (parameter_spec utf8_replace part) as PS. exists (fst (qsl_pair utf8_replace part)), (snd (qsl_pair utf8_replace part)).
      split; [exact PS|]. destruct (qsl_pair utf8_replace part) as [k v]. unfold quote_pair in E. cbn [fst snd] in *.
      destruct (urlquote [] k); [|discriminate]. cbn in E. destruct (urlquote [] v); [|discriminate]. cbn in E.
      injection E as <- <-. now split.
  Qed.

  (** ** Headers *)
  Lemma signable_ok n : is_signable_header n = true <-> ~ In n UNSIGNED.
  Proof.
    unfold is_signable_header. change Sign_Model.EXCLUDED with UNSIGNED. rewrite negb_true_iff. split.
    - intros E I. assert (X : existsb (text_eqb n) UNSIGNED = true) by (apply existsb_exists; exists n; split; [exact I | apply text_eqb_refl]).
      congruence.
    - intros N. destruct (existsb (text_eqb n) UNSIGNED) eqn:E; [|reflexivity]. elim N.
      apply existsb_exists in E as [x [I X]]. apply text_eqb_eq in X. now subst.
  Qed.

  Definition sig_step (d : list (text * text)) (e : text * field) : list (text * text) :=
    let name := lower (f_name (snd e)) in
    if is_signable_header name then dict_set name (as_string (f_values (snd e))) d else d.

  Lemma signable_gen fs : forall d, NoDup (map fst fs) -> (forall k f, In (k, f) fs -> k = lower (f_name f)) ->
    NoDup (map fst d) -> (forall k f, In (k, f) fs -> ~ In k (map fst d)) ->
    let d' := fold_left sig_step fs d in
    NoDup (map fst d') /\
    forall n v, In (n, v) d' <-> In (n, v) d \/ (~ In n UNSIGNED /\ exists vs, header lower fs n vs /\ v = as_string vs).
  Proof.
    induction fs as [|[k f] fs IH]; intros d N K D F d'; unfold d'; clear d'; cbn [fold_left].
    - split; [exact D|]. intros n v. split; [now left|]. intros [H | [_ [vs [[k [f [[] _]]] _]]]]. exact H.
    - cbn [map fst] in N. inversion N as [|? ? N1 N2]; subst.
      assert (Ek : k = lower (f_name f)) by (apply K; now left).
      assert (K' : forall k f, In (k, f) fs -> k = lower (f_name f)) by (intros; apply K; now right).
      assert (Fk : ~ In k (map fst d)) by (apply (F k f); now left).
      assert (St : sig_step d (k, f) = if is_signable_header k then dict_set k (as_string (f_values f)) d else d).
      { unfold sig_step. cbn [snd]. now rewrite <- Ek. }
      rewrite St. clear St. destruct (is_signable_header k) eqn:S.
      + assert (Es : dict_set k (as_string (f_values f)) d = d ++ [(k, as_string (f_values f))]) by now apply dict_set_new.
        rewrite Es. destruct (IH (d ++ [(k, as_string (f_values f))])) as [I1 I2]; try assumption.
        * rewrite <- Es. now apply dict_set_NoDup.
        * intros k2 f2 I. rewrite map_app, in_app_iff. intros [J | [J | []]]; [now elim (F k2 f2 (or_intror I))|].
          cbn in J. subst k2. apply N1. apply in_map_iff. exists (k, f2). split; [reflexivity | exact I].
        * split; [exact I1|]. intros n v. rewrite I2, in_app_iff. split.
          -- intros [[H | [H | []]] | [H1 [vs [[k2 [f2 [H2 [H3 H4]]]] H5]]]].
             ++ now left.
             ++ injection H as <- <-. right. split; [now apply signable_ok|]. exists (f_values f). split; [|reflexivity].
                exists k, f. split; [now left | now split].
             ++ right. split; [exact H1|]. exists vs. split; [|exact H5]. exists k2, f2. split; [now right | now split].
          -- intros [H | [H1 [vs [[k2 [f2 [[H2 | H2] [H3 H4]]]] H5]]]].
             ++ now do 2 left.
             ++ injection H2 as <- <-. left. right. left. subst n vs v. now rewrite Ek.
             ++ right. split; [exact H1|]. exists vs. split; [|exact H5]. exists k2, f2. now split.
      + destruct (IH d N2 K' D) as [I1 I2].
        * intros k2 f2 I. apply (F k2 f2). now right.
        * split; [exact I1|]. intros n v. rewrite I2. split.
          -- intros [H | [H1 [vs [[k2 [f2 [H2 H3]]] H5]]]]; [now left|]. right. split; [exact H1|].
             exists vs. split; [|exact H5]. exists k2, f2. split; [now right | exact H3].
          -- intros [H | [H1 [vs [[k2 [f2 [[H2 | H2] [H3 H4]]]] H5]]]]; [now left| |].
             ++ injection H2 as <- <-. exfalso. apply signable_ok in H1. congruence.
             ++ right. split; [exact H1|]. exists vs. split; [|exact H5]. exists k2, f2. now split.
  Qed.

  Lemma signable_spec fs : wf_fields lower fs ->
    NoDup (map fst (signable lower fs)) /\
    forall n v, In (n, v) (signable lower fs) <-> ~ In n UNSIGNED /\ exists vs, header lower fs n vs /\ v = as_string vs.
  Proof.
    intros [N K]. destruct (signable_gen fs [] N K) as [H1 H2]; [constructor | intros k f _ [] |].
    split; [exact H1|]. intros n v. unfold signable. rewrite (H2 n v). split; [intros [[] | H]; exact H | now right].
  Qed.

  Lemma host_signable : ~ In (lit "host") UNSIGNED.
  Proof. cbn. intros H. repeat destruct H as [H | H]; discriminate H || destruct H. Qed.

  Definition unsorted (u : uri) (fs : fields) : list (text * text) :=
    let d := signable lower fs in
    if dict_has (lit "host") d then d else dict_set (lit "host") (normalize_host_field u) d.
  Lemma unsorted_spec u fs : wf_fields lower fs ->
    NoDup (map fst (unsorted u fs)) /\
    forall n v, In (n, v) (unsorted u fs) <->
      (~ In n UNSIGNED /\ exists vs, header lower fs n vs /\ v = as_string vs) \/ host_line lower u fs n v.
  Proof.
    intros W. destruct (signable_spec fs W) as [D1 D2]. unfold unsorted.
    assert (HH : dict_has (lit "host") (signable lower fs) = true <-> has_header lower fs (lit "host")).
    { rewrite dict_has_In, in_map_iff. split.
      - intros [[n v] [E I]]. cbn in E. subst n. apply D2 in I as [_ [vs [I _]]]. now exists vs.
      - intros [vs I]. exists (lit "host", as_string vs). split; [reflexivity|]. apply D2. split; [exact host_signable|]. now exists vs. }
    destruct (dict_has (lit "host") (signable lower fs)) eqn:E.
    - split; [exact D1|]. intros n v. rewrite D2. split; [now left|]. intros [H | [_ [H _]]]; [exact H|].
      elim H. now apply HH.
    - assert (NI : ~ In (lit "host") (map fst (signable lower fs))).
      { intros I. apply dict_has_In in I. congruence. }
      split; [now apply dict_set_NoDup|]. intros n v. rewrite (dict_set_new _ _ _ NI), in_app_iff, D2. split.
      + intros [H | [H | []]]; [now left|]. injection H as <- <-. right. repeat split. intros H. apply HH in H. congruence.
      + intros [H | [-> [_ ->]]]; [now left | right; now left].
  Qed.

  Lemma sorted_strict l : NoDup (map fst l) -> StronglySorted before (sorted pair_leb l).
  Proof.
    intros N. assert (S := sorted_sorted pair_leb pair_leb_total pair_leb_trans l).
    assert (N' : NoDup (map fst (sorted pair_leb l))).
    { eapply Permutation_NoDup; [|exact N]. apply Permutation_map. symmetry. apply sorted_perm. }
    clear N. induction S as [|x l' S IH F]; [constructor|]. cbn [map] in N'. inversion N' as [|? ? N1 N2]; subst.
    constructor; [now apply IH|]. apply Forall_forall. intros y I. rewrite Forall_forall in F. specialize (F y I).
    assert (D : fst x <> fst y) by (intros E; apply N1; rewrite E; now apply in_map).
    split; [|exact D]. unfold Le, pair_leb in F. rewrite (proj2 (text_eqb_neq _ _) D) in F. exact F.
  Qed.

  Lemma lines_spec u fs : wf_fields lower fs -> signed_lines lower u fs (normalize_signing_fields lower u fs).
  Proof.
    intros W. destruct (unsorted_spec u fs W) as [D1 D2]. unfold normalize_signing_fields. fold (unsorted u fs). split.
    - now apply sorted_strict.
    - intros n v. rewrite <- D2. split; apply Permutation_in; [|symmetry]; apply sorted_perm.
  Qed.

  Lemma strict_unique l : forall l', StronglySorted before l -> StronglySorted before l' ->
    (forall x, In x l <-> In x l') -> l = l'.
  Proof.
    induction l as [|x l IH]; intros l' S S' H.
    - destruct l' as [|y l']; [reflexivity|]. destruct (proj2 (H y) (or_introl eq_refl)).
    - destruct l' as [|y l']; [destruct (proj1 (H x) (or_introl eq_refl))|].
      inversion S as [|? ? S1 F]; subst. inversion S' as [|? ? S1' F']; subst. rewrite Forall_forall in F, F'.
      assert (E : x = y).
      { destruct (proj1 (H x) (or_introl eq_refl)) as [E | I]; [now symmetry|].
        destruct (proj2 (H y) (or_introl eq_refl)) as [E | J]; [exact E|].
        destruct (F' x I) as [A1 A2]. destruct (F y J) as [B1 B2]. elim A2. now apply text_leb_antisym. }
      subst y. f_equal. apply IH; try assumption. intros z. split; intros I.
      + destruct (proj1 (H z) (or_intror I)) as [<- | J]; [|exact J]. destruct (F x I) as [_ X]. now elim X.
      + destruct (proj2 (H z) (or_intror I)) as [<- | J]; [|exact J]. destruct (F' x I) as [_ X]. now elim X.
  Qed.

  Lemma host_same u u' : same_target u u' -> normalize_host_field u = normalize_host_field u'.
  Proof.
    intros [A [B [C [D [E [F _]]]]]]. unfold normalize_host_field, netloc. cbn [u_scheme u_username u_password u_host u_port].
    rewrite A, B, C, D, E. reflexivity.
  Qed.
  Lemma lines_same u u' fs gs : wf_fields lower fs -> wf_fields lower gs -> same_target u u' -> same_headers lower fs gs ->
    normalize_signing_fields lower u fs = normalize_signing_fields lower u' gs.
  Proof.
    intros W1 W2 T S. destruct (lines_spec u fs W1) as [A1 A2]. destruct (lines_spec u' gs W2) as [B1 B2].
    apply strict_unique; try assumption. intros [n v]. rewrite A2, B2. unfold host_line, has_header.
    rewrite (host_same _ _ T). split; (intros [[H1 [vs [H2 H3]]] | [H1 [H2 H3]]];
      [left; split; [exact H1|]; exists vs; split; [now apply S | exact H3]
      |right; repeat split; try assumption; intros [vs H4]; apply H2; exists vs; apply S; [exact host_signable | exact H4]]).
  Qed.

  (** ** Collections *)
  Lemma header_get fs n : wf_fields lower fs -> forall vs, header lower fs n vs <-> exists f, dict_get n fs = Some f /\ f_values f = vs.
  Proof.
    intros [N K] vs. split.
    - intros [k [f [I [E V]]]]. exists f. split; [|exact V]. apply dict_In_get; [exact N|]. rewrite <- E, <- (K k f I). exact I.
    - intros [f [E V]]. apply dict_get_In in E. exists n, f. split; [exact E|]. split; [symmetry; now apply K | exact V].
  Qed.
  Lemma wf_set f fs : wf_fields lower fs -> wf_fields lower (set_field lower f fs).
  Proof.
    intros [N K]. split; [now apply dict_set_NoDup|]. intros k g I. apply dict_set_In in I as [I | I]; [now injection I as -> -> | now apply K].
  Qed.
  Lemma header_set f fs n vs : wf_fields lower fs ->
    header lower (set_field lower f fs) n vs <-> (n = lower (f_name f) /\ vs = f_values f) \/ (n <> lower (f_name f) /\ header lower fs n vs).
  Proof.
    intros W. rewrite (header_get _ n (wf_set f fs W)), (header_get fs n W). unfold set_field.
    destruct (text_eq_dec n (lower (f_name f))) as [-> | D].
    - rewrite dict_get_set_eq. split; [intros [g [[= <-] <-]]; now left|]. intros [[_ ->] | [X _]]; [now exists f | now elim X].
    - rewrite dict_get_set_ne by exact D. split; [intros H; right; now split|]. intros [[X _] | [_ H]]; [now elim D | exact H].
  Qed.
  Lemma same_set f fs gs : wf_fields lower fs -> wf_fields lower gs -> same_headers lower fs gs ->
    same_headers lower (set_field lower f fs) (set_field lower f gs).
  Proof.
    intros W1 W2 S n vs NE. rewrite !header_set by assumption. rewrite (S n vs NE). reflexivity.
  Qed.
  Lemma same_get fs gs name : wf_fields lower fs -> wf_fields lower gs -> same_headers lower fs gs -> ~ In (lower name) UNSIGNED ->
    (exists f g, get_field lower name fs = Some f /\ get_field lower name gs = Some g /\ f_values f = f_values g)
    \/ (get_field lower name fs = None /\ get_field lower name gs = None).
  Proof.
    intros W1 W2 S NE. unfold get_field.
    assert (H1 := header_get fs (lower name) W1). assert (H2 := header_get gs (lower name) W2).
    destruct (dict_get (lower name) fs) as [f|] eqn:E1.
    - assert (H : header lower gs (lower name) (f_values f)) by (apply S; [exact NE|]; apply H1; now exists f).
      apply H2 in H as [g [E2 V]]. left. exists f, g. now repeat split.
    - destruct (dict_get (lower name) gs) as [g|] eqn:E2; [|now right].
      assert (H : header lower fs (lower name) (f_values g)) by (apply S; [exact NE|]; apply H2; now exists g).
      apply H1 in H as [f [E _]]. discriminate E.
  Qed.
  Lemma same_in fs gs name : wf_fields lower fs -> wf_fields lower gs -> same_headers lower fs gs -> ~ In (lower name) UNSIGNED ->
    in_fields lower name fs = in_fields lower name gs.
  Proof.
    intros W1 W2 S NE. unfold in_fields, dict_has.
    destruct (same_get fs gs name W1 W2 S NE) as [[f [g [E1 [E2 _]]]] | [E1 E2]]; unfold get_field in *; now rewrite E1, E2.
  Qed.

  Lemma not_excluded s : ascii s -> existsb (text_eqb (map lower_char s)) UNSIGNED = false -> ~ In (lower s) UNSIGNED.
  Proof.
    intros A E I. rewrite (L s A) in I.
    assert (X : existsb (text_eqb (map lower_char s)) UNSIGNED = true) by (apply existsb_exists; eexists; split; [exact I | apply text_eqb_refl]).
    congruence.
  Qed.
  Ltac ascii_tac := repeat constructor.
  Lemma date_ok : ~ In (lower (lit "Date")) UNSIGNED.
  Proof. apply not_excluded; [ascii_tac | reflexivity]. Qed.
  Lemma xdate_ok : ~ In (lower (lit "X-Amz-Date")) UNSIGNED.
  Proof. apply not_excluded; [ascii_tac | reflexivity]. Qed.
  Lemma token_ok : ~ In (lower (lit "X-Amz-Security-Token")) UNSIGNED.
  Proof. apply not_excluded; [ascii_tac | reflexivity]. Qed.
  Lemma sha_ok : ~ In (lower SHA_HEADER) UNSIGNED.
  Proof. apply not_excluded; [ascii_tac | reflexivity]. Qed.
  Lemma type_ok : ~ In (lower (lit "Content-Type")) UNSIGNED.
  Proof. apply not_excluded; [ascii_tac | reflexivity]. Qed.
  Lemma auth_lower : lower (lit "Authorization") = lit "authorization".
  Proof. rewrite L; [reflexivity | ascii_tac]. Qed.

  Lemma apply_wf date i fs : wf_fields lower fs -> wf_fields lower (apply_required_fields lower date i fs).
  Proof.
    intros W. unfold apply_required_fields.
    destruct (_ && _)%bool; (destruct (i_token i); [destruct (negb _)|]); repeat apply wf_set; assumption.
  Qed.
  Lemma apply_same date i fs gs : wf_fields lower fs -> wf_fields lower gs -> same_headers lower fs gs ->
    same_headers lower (apply_required_fields lower date i fs) (apply_required_fields lower date i gs).
  Proof.
    intros W1 W2 S. unfold apply_required_fields.
    rewrite (same_in fs gs (lit "Date")), (same_in fs gs (lit "X-Amz-Date")) by first [assumption | exact date_ok | exact xdate_ok].
    set (b := (_ && _)%bool).
    set (fs1 := if b then _ else fs). set (gs1 := if b then _ else gs).
    assert (A : wf_fields lower fs1) by (unfold fs1; destruct b; [now apply wf_set | assumption]).
    assert (B : wf_fields lower gs1) by (unfold gs1; destruct b; [now apply wf_set | assumption]).
    assert (C : same_headers lower fs1 gs1) by (unfold fs1, gs1; destruct b; [now apply same_set | assumption]).
    destruct (i_token i); [|exact C].
    rewrite (same_in fs1 gs1 (lit "X-Amz-Security-Token")) by first [assumption | exact token_ok].
    destruct (negb (in_fields lower (lit "X-Amz-Security-Token") gs1)); [now apply same_set | exact C].
  Qed.

  (** ** Payload *)
  Lemma hash_same u u' p b b' h nb : same_target u u' -> same_body b b' -> snd (compute_payload_hash sha256 u p b) = Ok (h, nb) ->
    exists nb', snd (compute_payload_hash sha256 u' p b') = Ok (h, nb') /\ same_body nb nb'.
  Proof.
    intros T B E. unfold compute_payload_hash, should_sign_payload in *. destruct T as [T _]. rewrite <- T.
    destruct (negb _).
    { cbn in *. injection E as <- <-. exists b'. now split. }
    destruct B as [<- | [S1 [S2 C]]]; [exists nb; split; [exact E | now left]|].
    rewrite <- C. destruct b; try (destruct S1); destruct b'; try (destruct S2); cbn [snd contents] in *; injection E as <- <-;
      (eexists; split; [reflexivity|]); first [now left | right; repeat split; assumption || (cbn [contents] in *; now rewrite ?C)
         | cbn [contents skipn] in *; right; repeat split; now rewrite C].
  Qed.

  Ltac fields_tac := repeat match goal with |- _ /\ _ => split end; first [assumption | apply same_set; assumption | apply wf_set; assumption].
  Lemma payload_same u u' p b b' fs gs h fs' nb : wf_fields lower fs -> wf_fields lower gs -> same_target u u' -> same_body b b' ->
    same_headers lower fs gs ->
    snd (format_canonical_payload lower sha256 async u p b fs) = Ok (h, fs', nb) ->
    exists gs' nb', snd (format_canonical_payload lower sha256 async u' p b' gs) = Ok (h, gs', nb') /\
      same_body nb nb' /\ same_headers lower fs' gs' /\ wf_fields lower fs' /\ wf_fields lower gs'.
  Proof.
    intros W1 W2 T B S. unfold format_canonical_payload.
    assert (G : forall
      (compute := let (old, res) := compute_payload_hash sha256 u p b in
        (old, do '(ph, b0) <- res; Ok (ph, if get_or false (sp_checksum p) then set_field lower (mkField SHA_HEADER [ph]) fs else fs, b0)))
      (compute' := let (old, res) := compute_payload_hash sha256 u' p b' in
        (old, do '(ph, b0) <- res; Ok (ph, if get_or false (sp_checksum p) then set_field lower (mkField SHA_HEADER [ph]) gs else gs, b0))),
      snd compute = Ok (h, fs', nb) -> exists gs' nb', snd compute' = Ok (h, gs', nb') /\
      same_body nb nb' /\ same_headers lower fs' gs' /\ wf_fields lower fs' /\ wf_fields lower gs').
    { intros compute compute' E. unfold compute, compute' in *. assert (HS := hash_same u u' p b b').
      destruct (compute_payload_hash sha256 u p b) as [o [[ph b0]|]]; [|discriminate E].
      destruct (compute_payload_hash sha256 u' p b') as [o' res']. cbn in E, HS. injection E as -> <- <-.
      destruct (HS h b0 T B eq_refl) as [nb' [-> SB]]. cbn. eexists _, nb'. split; [reflexivity|]. split; [exact SB|].
      destruct (get_or false (sp_checksum p)); fields_tac. }
    destruct async; [|exact G].
    destruct (same_get fs gs SHA_HEADER W1 W2 S sha_ok) as [[f [g [E1 [E2 V]]]] | [E1 E2]]; rewrite E1, E2.
    - destruct f as [nf vf], g as [ng vg]. cbn in V. subst vg.
      assert (R : forall (P Q : Prop), True) by trivial. clear R.
      assert (Hev : is_event_stream lower fs = is_event_stream lower gs).
      { unfold is_event_stream. destruct (same_get fs gs (lit "Content-Type") W1 W2 S type_ok) as [[f [g [F1 [F2 V]]]] | [F1 F2]]; rewrite F1, F2; [now rewrite V | reflexivity]. }
      rewrite <- Hev. destruct vf as [|v [|v2 vf]].
      + destruct (is_event_stream lower fs); [|exact G].
        cbn. intros [= <- <- <-]. eexists _, b'. split; [reflexivity|]. split; [exact B|].
        fields_tac.
      + cbn. intros [= <- <- <-]. exists gs, b'. split; [reflexivity|]. fields_tac.
      + destruct (is_event_stream lower fs); [|exact G].
        cbn. intros [= <- <- <-]. eexists _, b'. split; [reflexivity|]. split; [exact B|].
        fields_tac.
    - assert (Hev : is_event_stream lower fs = is_event_stream lower gs).
      { unfold is_event_stream. destruct (same_get fs gs (lit "Content-Type") W1 W2 S type_ok) as [[f [g [F1 [F2 V]]]] | [F1 F2]]; rewrite F1, F2; [now rewrite V | reflexivity]. }
      rewrite <- Hev. destruct (is_event_stream lower fs); [|exact G].
      cbn. intros [= <- <- <-]. eexists _, b'. split; [reflexivity|]. split; [exact B|].
      fields_tac.
  Qed.

  Lemma canonical_same p r r' c fs nb : wf_fields lower (r_fields r) -> wf_fields lower (r_fields r') -> same_request lower upper r r' ->
    snd (canonical_request lower upper sha256 utf8_replace async p r) = Ok (c, fs, nb) ->
    exists gs nb', snd (canonical_request lower upper sha256 utf8_replace async p r') = Ok (c, gs, nb') /\
      same_body nb nb' /\ same_headers lower fs gs /\ wf_fields lower fs /\ wf_fields lower gs.
  Proof.
    intros W1 W2 [T [M [B S]]] E. unfold canonical_request in *.
    assert (PS := payload_same (r_dest r) (r_dest r') p (r_body r) (r_body r') (r_fields r) (r_fields r')).
    destruct (format_canonical_payload lower sha256 async (r_dest r) p (r_body r) (r_fields r)) as [o [[[h fs1] b1]|]]; [|discriminate E].
    destruct (format_canonical_payload lower sha256 async (r_dest r') p (r_body r') (r_fields r')) as [o' res']. cbn [snd] in *.
    destruct (PS h fs1 b1 W1 W2 T B S eq_refl) as [gs [nb' [-> [SB [SH [W3 W4]]]]]]. clear PS.
    cbn [snd] in *. revert E. cbn - [format_canonical_path format_canonical_query format_canonical_fields normalize_signing_fields].
    assert (P : u_path (r_dest r) = u_path (r_dest r')) by apply T. rewrite <- P.
    destruct (format_canonical_path (u_path (r_dest r)) p) as [path|]; [|discriminate].
    cbn - [format_canonical_path format_canonical_query format_canonical_fields normalize_signing_fields].
    destruct (format_canonical_query utf8_replace (u_query (r_dest r))) as [q|] eqn:Q; [|discriminate].
    assert (Q' : format_canonical_query utf8_replace (u_query (r_dest r')) = Ok q) by (eapply same_query_eq; [apply T | exact Q]).
    rewrite Q'. cbn - [format_canonical_fields normalize_signing_fields].
    intros X. injection X as <- <- <-. exists gs, nb'. rewrite <- M, (lines_same _ _ fs1 gs W3 W4 T SH).
    split; [reflexivity|]. fields_tac.
  Qed.
End P.
