(** Reading an endpoint's text. *)
From Verif Require Import Base Base_Proofs PyText_Model PyText_Proofs PySort_Model Http_Model Uri_Model Uri_Spec Uri_Proofs UriParts_Proofs.
Local Open Scope N_scope.

(** ** The parts of a text *)
Lemma upto_any_inv stop s a b : upto_any stop s = (a, b) ->
  s = a ++ b /\ (forall c, In c a -> ~ In c stop) /\ match b with [] => True | c :: _ => In c stop end.
Proof.
  revert a b. induction s as [|c s IH]; cbn [upto_any]; intros a b E.
  - injection E as <- <-. split; [reflexivity|]. split; [intros c [] | exact I].
  - destruct (existsb (N.eqb c) stop) eqn:X.
    + injection E as <- <-. split; [reflexivity|]. split; [intros d []|]. apply existsb_exists in X. destruct X as (d & D & Q). apply N.eqb_eq in Q. now subst.
    + destruct (upto_any stop s) as [x y]. destruct (IH x y eq_refl) as (-> & A & B). injection E as <- <-. split; [reflexivity|]. split; [|exact B].
      intros d [<-|D]; [|now apply A]. intros I. enough (existsb (N.eqb c) stop = true) by congruence. apply existsb_exists. exists c. split; [exact I | apply N.eqb_refl].
Qed.
Lemma match58 {A} (c : N) (x y : A) : match c with 58 => x | _ => y end = if c =? 58 then x else y.
Proof. destruct c as [|c]; [reflexivity|]. repeat (destruct c as [c|c|]; try reflexivity). Qed.
Lemma match47 {A} (c : N) (x y : A) : match c with 47 => x | _ => y end = if c =? 47 then x else y.
Proof. destruct c as [|c]; [reflexivity|]. repeat (destruct c as [c|c|]; try reflexivity). Qed.
Lemma match63 {A} (c : N) (x y : A) : match c with 63 => x | _ => y end = if c =? 63 then x else y.
Proof. destruct c as [|c]; [reflexivity|]. repeat (destruct c as [c|c|]; try reflexivity). Qed.
Lemma match35 {A} (c : N) (x y : A) : match c with 35 => x | _ => y end = if c =? 35 then x else y.
Proof. destruct c as [|c]; [reflexivity|]. repeat (destruct c as [c|c|]; try reflexivity). Qed.

Lemma parts_of_inv s sch auth path query frag : parts_of s = mkParts (Some sch) (Some auth) path query frag ->
  s = sch ++ [58] ++ lit "//" ++ auth ++ path ++ part_text 63 query ++ part_text 35 frag
  /\ sch <> [] /\ (forall c, In c sch -> ~ In c (lit ":/?#")) /\ (forall c, In c auth -> ~ In c (lit "/?#"))
  /\ (path = [] \/ exists r, path = 47 :: r) /\ (forall c, In c path -> ~ In c (lit "?#")) /\ (forall q c, query = Some q -> In c q -> c <> 35).
Proof.
  unfold parts_of. destruct (upto_any (lit ":/?#") s) as [a b] eqn:E1. apply upto_any_inv in E1. destruct E1 as (-> & A & _).
  assert (No : forall o s1, (let '(auth, s) := match s1 with 47 :: 47 :: r => let (a, r) := upto_any (lit "/?#") r in (Some a, r) | _ => (None, s1) end in
    let '(path, s) := upto_any (lit "?#") s in
    let '(query, s) := match s with 63 :: r => let (q, r) := upto_any (lit "#") r in (Some q, r) | _ => (None, s) end in
    mkParts o auth path query (match s with 35 :: r => Some r | _ => None end)) = mkParts (Some sch) (Some auth) path query frag -> o = Some sch /\ exists r, s1 = 47 :: 47 :: r).
  { intros o s1 H. assert (X : (exists r, s1 = 47 :: 47 :: r) \/
      match s1 with 47 :: 47 :: r => let (a, r) := upto_any (lit "/?#") r in (Some a, r) | _ => (None, s1) end = (None, s1)).
    { destruct s1 as [|c [|d r]]; [now right | right; rewrite match47; now destruct (c =? 47)|]. rewrite !match47.
      destruct (N.eqb_spec c 47) as [->|]; [|now right]. destruct (N.eqb_spec d 47) as [->|]; [left; eauto | now right]. }
    destruct X as [(r & ->)|X].
    - split; [|eauto]. revert H. repeat (match goal with |- context [match ?x with (_, _) => _ end] => destruct x end). congruence.
    - rewrite X in H. revert H. repeat (match goal with |- context [match ?x with (_, _) => _ end] => destruct x end). congruence. }
  destruct a as [|c0 a]; [intros H; now apply No in H|]. destruct b as [|d b]; [intros H; now apply No in H|]. rewrite match58.
  destruct (N.eqb_spec d 58) as [->|]; [|intros H; now apply No in H].
  assert (Na : c0 :: a <> []) by discriminate. set (a0 := c0 :: a) in *. clearbody a0. clear c0 a. rename a0 into a.
  intros H. pose proof (No _ _ H) as [_ (r' & ->)]. clear No. revert H. cbn beta iota.
  destruct (upto_any (lit "/?#") r') as [a2 b2] eqn:E4. apply upto_any_inv in E4. destruct E4 as (-> & A2 & B2).
  destruct (upto_any (lit "?#") b2) as [a3 b3] eqn:E5. apply upto_any_inv in E5. destruct E5 as (-> & A3 & B3).
  assert (Pa : a3 = [] \/ exists r, a3 = 47 :: r).
  { destruct a3 as [|c a3]; [now left|]. right. exists a3. cbn [app] in B2. specialize (A3 c (or_introl eq_refl)). f_equal. cbn in B2, A3. lia. }
  assert (Q : exists qo b4, match b3 with 63 :: r => let (q, r) := upto_any (lit "#") r in (Some q, r) | _ => (None, b3) end = (qo, b4)
    /\ b3 = part_text 63 qo ++ b4 /\ (forall q c, qo = Some q -> In c q -> c <> 35) /\ match b4 with [] => True | c :: _ => c = 35 end).
  { destruct b3 as [|c b3]; [exists None, []; split; [reflexivity | split; [reflexivity | split; [discriminate | exact I]]]|]. rewrite match63.
    destruct (N.eqb_spec c 63) as [->|Nc].
    - destruct (upto_any (lit "#") b3) as [q b4] eqn:E6. apply upto_any_inv in E6. destruct E6 as (-> & A6 & B6). exists (Some q), b4. split; [reflexivity|].
      split; [reflexivity|]. split; [intros q' d [= <-] D ->; apply (A6 35 D); now left|]. destruct b4; [exact I|]. cbn in B6. lia.
    - exists None, (c :: b3). split; [reflexivity|]. split; [reflexivity|]. split; [discriminate|]. cbn in B3. lia. }
  destruct Q as (qo & b4 & -> & -> & Q & B4). intros H.
  assert (F : match b4 with 35 :: r => Some r | _ => None end = frag /\ a = sch /\ a2 = auth /\ a3 = path /\ qo = query).
  { destruct b4 as [|c b4]; [injection H as <- <- <- <- <-; auto|]. rewrite match35 in H |- *. subst c. cbn [N.eqb Pos.eqb] in H |- *. injection H as <- <- <- <- <-. auto. }
  destruct F as (F & -> & -> & -> & ->). assert (b4 = part_text 35 frag) as ->.
  { destruct b4 as [|c b4]; [now subst frag|]. subst c. now subst frag. }
  split; [reflexivity|]. auto 10.
Qed.

(** ** urlparse *)
Lemma split_netloc_app a b : (forall c, In c a -> ~ In c (lit "/?#")) -> match b with [] => True | c :: _ => In c (lit "/?#") end -> split_netloc (a ++ b) = (a, b).
Proof.
  intros A B. induction a as [|c a IH]; cbn [app].
  - destruct b as [|c b]; [reflexivity|]. cbn [split_netloc]. apply has_In in B. now rewrite B.
  - cbn [split_netloc]. assert (N : ~ In c (lit "/?#")) by (apply A; now left). apply has_notIn in N. rewrite N, IH; [reflexivity|].
    intros d D. apply A. now right.
Qed.
Lemma after_last_cut c x y : ~ In c y -> after_last c (x ++ c :: y) = y.
Proof.
  intros H. unfold after_last. rewrite rev_app_distr. cbn [rev]. rewrite <- app_assoc. cbn [app]. rewrite cut_at_app; [apply rev_involutive|]. now rewrite <- in_rev.
Qed.
Lemma after_last_none c y : ~ In c y -> after_last c y = y.
Proof. intros H. unfold after_last. rewrite cut_at_none; [apply rev_involutive|]. now rewrite <- in_rev. Qed.
Lemma after_last_auth a ui h p : authority a ui h p -> after_last 64 a = h ++ port_text p.
Proof.
  intros (-> & U & H & P). assert (N : ~ In 64 (h ++ port_text p)).
  { intros I. apply in_app_or in I. destruct I as [I|I]; [revert I; apply host_lacks; [exact H | cbn; tauto]|].
    apply port_digits in I; [|exact P]. unfold a_digit in I. lia. }
  destruct ui as [x|].
  - rewrite <- app_assoc. apply after_last_cut. exact N.
  - apply after_last_none. exact N.
Qed.
Lemma port_lacks p c : match p with Some p => Forall a_digit p | None => True end -> c <> 58 -> ~ a_digit c -> ~ In c (port_text p).
Proof. intros P N D I. apply port_digits in I; tauto. Qed.
Lemma hostinfo_name a ui h p : authority a ui h p -> ~ In 91 h -> hostinfo a = (h, match p with Some [] => None | _ => p end).
Proof.
  intros A N. unfold hostinfo. rewrite (after_last_auth _ _ _ _ A). destruct A as (_ & _ & H & P).
  apply code_host_cases in H. destruct H as [[_ H]|(b & _ & ->)]; [|elim N; now left].
  rewrite cut_at_none.
  - destruct p as [p|]; cbn [port_text]; [|rewrite app_nil_r, cut_at_none by exact H; reflexivity]. change (lit ":" ++ p) with (58 :: p). rewrite (cut_at_app 58 h p H). now destruct p.
  - intros I. apply in_app_or in I. destruct I as [I|I]; [auto|]. apply port_digits in I; [|exact P]. unfold a_digit in I. lia.
Qed.
Lemma hostinfo_literal a ui b p : authority a ui ([91] ++ b ++ [93]) p -> ~ In 93 b -> hostinfo a = (b, match p with Some [] => None | _ => p end).
Proof.
  intros A Nb. unfold hostinfo. rewrite (after_last_auth _ _ _ _ A). cbn [app]. rewrite <- app_assoc. change (cut_at 91 (91 :: b ++ [93] ++ port_text p)) with (@nil N, Some (b ++ [93] ++ port_text p)).
  cbn [app]. rewrite (cut_at_app 93 b _ Nb). destruct p as [p|]; [|reflexivity]. cbn [port_text]. change (cut_at 58 (lit ":" ++ p)) with (@nil N, Some p).
  cbn [snd]. now destruct p.
Qed.
Lemma netloc_name bho a ui h p : authority a ui h p -> ~ In 91 h -> netloc_ok bho a = true.
Proof.
  intros (-> & U & H & P) N. assert (L : forall c, c = 91 \/ c = 93 -> ~ In c (match ui with Some x => x ++ lit "@" | None => [] end ++ h ++ port_text p)).
  { intros c C I. apply in_app_or in I. destruct I as [I|I].
    - destruct ui as [x|]; [|destruct I]. apply in_app_or in I. destruct I as [I|[<-|[]]]; [|cbn in C; lia]. apply info_chars in U. revert I. apply literal_lacks; [exact U | cbn; lia].
    - apply in_app_or in I. destruct I as [I|I].
      + apply code_host_cases in H. destruct H as [[H _]|(b & _ & ->)]; [|elim N; now left]. revert I. apply literal_lacks; [exact H | cbn; lia].
      + apply port_digits in I; [|exact P]. unfold a_digit in I. lia. }
  unfold netloc_ok. change (match p with Some p0 => lit ":" ++ p0 | None => [] end) with (port_text p). pose proof (L 91 (or_introl eq_refl)) as L1. pose proof (L 93 (or_intror eq_refl)) as L2. apply has_notIn in L1, L2.
  now rewrite L1, L2.
Qed.
Lemma netloc_literal bho a ui b p : authority a ui ([91] ++ b ++ [93]) p -> ~ In 91 b -> ~ In 93 b -> bho b = true -> netloc_ok bho a = true.
Proof.
  intros A N1 N2 B. assert (I1 : In 91 a /\ In 93 a).
  { destruct A as (-> & _). split; apply in_or_app; right; cbn [app]; [now left|]. right. rewrite <- app_assoc. apply in_or_app. right. now left. }
  destruct I1 as [I1 I2]. apply has_In in I1, I2. unfold netloc_ok. rewrite I1, I2. cbn [negb andb]. unfold bracketed_netloc_ok. rewrite (after_last_auth _ _ _ _ A).
  cbn [app]. rewrite <- app_assoc. change (cut_at 91 (91 :: b ++ [93] ++ port_text p)) with (@nil N, Some (b ++ [93] ++ port_text p)). cbn [app].
  rewrite (cut_at_app 93 b _ N2), B. destruct p; reflexivity.
Qed.
Lemma digits_number p : Forall a_digit p -> forall n, digits_val n p = Some (fold_left (fun n c => 10 * n + (c - 48)) p n).
Proof.
  intros F. induction F as [|c p C F IH]; intros n; [reflexivity|]. cbn [digits_val fold_left]. unfold a_digit in C.
  replace ((48 <=? c) && (c <=? 57)) with true by (symmetry; apply andb_true_intro; split; apply N.leb_le; lia). apply IH.
Qed.
Lemma down_eq c : lower_letter c = down c.
Proof. unfold lower_letter, down, between. reflexivity. Qed.

(** ** Lower case keeps hosts *)
Lemma map_down_digits s : Forall a_digit s -> map down s = s.
Proof.
  intros F. induction F as [|c s C F IH]; [reflexivity|]. cbn [map]. rewrite IH. f_equal. unfold down. unfold a_digit in C.
  replace (65 <=? c) with false by (symmetry; apply N.leb_gt; lia). reflexivity.
Qed.
Lemma down_hexdig c : hexdig c -> hexdig (down c).
Proof.
  unfold down. destruct (65 <=? c) eqn:A, (c <=? 90) eqn:B; cbn [andb]; auto. apply N.leb_le in A, B. unfold hexdig, a_digit. lia.
Qed.
Lemma down_unreserved c : unreserved c -> unreserved (down c).
Proof.
  unfold down. destruct (65 <=? c) eqn:A, (c <=? 90) eqn:B; cbn [andb]; auto. apply N.leb_le in A, B. unfold unreserved, letter. lia.
Qed.
Lemma down_sub_delim c : sub_delim c -> sub_delim (down c).
Proof.
  unfold down. destruct (65 <=? c) eqn:A, (c <=? 90) eqn:B; cbn [andb]; auto. apply N.leb_le in A, B. unfold sub_delim. cbn. lia.
Qed.
Lemma h16_down s : h16 s -> h16 (map down s).
Proof. intros [L F]. split; [now rewrite map_length|]. apply Forall_map. eapply Forall_impl; [|exact F]. apply down_hexdig. Qed.
Lemma dotted_down s : dotted short_number s -> map down s = s.
Proof.
  intros (a & b & c & d & [_ A] & [_ B] & [_ C] & [_ D] & ->). rewrite !map_app. rewrite (map_down_digits a), (map_down_digits b), (map_down_digits c), (map_down_digits d) by auto. reflexivity.
Qed.
Lemma groups_down gs n : groups short_number gs n -> groups short_number (map (map down) gs) n.
Proof.
  assert (H : forall l, Forall h16 l -> Forall h16 (map (map down) l)) by (intros l F; apply Forall_map; eapply Forall_impl; [|exact F]; apply h16_down).
  intros [[F ->]|(hs & v & -> & F & D & ->)]; [left | right].
  - split; [auto | now rewrite map_length].
  - exists (map (map down) hs), v. rewrite map_app, map_length. cbn [map]. rewrite (dotted_down v D). auto.
Qed.
Lemma join_down gs : map down (join (lit ":") gs) = join (lit ":") (map (map down) gs).
Proof.
  induction gs as [|g gs IH]; [reflexivity|]. destruct gs as [|k gs]; [reflexivity|]. change (map (map down) (g :: k :: gs)) with (map down g :: map down k :: map (map down) gs).
  rewrite !join_cons2, !map_app, IH. reflexivity.
Qed.
Lemma ipv6_down s : ipv6 short_number s -> ipv6 short_number (map down s).
Proof.
  intros [(gs & G & ->)|(b & a & n & F & G & L & ->)]; [left | right].
  - exists (map (map down) gs). split; [now apply groups_down | apply join_down].
  - exists (map (map down) b), (map (map down) a), n. rewrite map_length, !map_app, !join_down. split; [|split; [now apply groups_down | split; [exact L | reflexivity]]].
    apply Forall_map. eapply Forall_impl; [|exact F]. apply h16_down.
Qed.
(** Lower case up to the first percent sign. *)
Definition down_to_percent (h : text) : text := let (x, y) := cut_at 37 h in map down x ++ match y with Some z => 37 :: z | None => [] end.
Lemma down_reg h : reg_name h -> reg_name (down_to_percent h).
Proof.
  intros (parts & -> & F). unfold reg_name. unfold down_to_percent. induction F as [|p ps P F IH].
  - exists []. split; [reflexivity | constructor].
  - cbn [List.concat]. destruct P as [(c & -> & C)|(a & b & -> & A & B)].
    + assert (N : c <> 37) by (intros ->; revert C; unfold unreserved, letter, a_digit, sub_delim; cbn; lia).
      cbn [app cut_at]. apply N.eqb_neq in N. rewrite N. destruct (cut_at 37 (List.concat ps)) as [x y]. cbn [map app].
      destruct IH as (qs & E & Q). exists ([down c] :: qs). cbn [List.concat app]. split; [now rewrite E|]. constructor; [|exact Q]. left. exists (down c).
      split; [reflexivity|]. destruct C as [C|C]; [left; now apply down_unreserved | right; now apply down_sub_delim].
    + exists ([37; a; b] :: ps). cbn [app cut_at N.eqb Pos.eqb map List.concat]. split; [reflexivity|]. constructor; [right; eauto | exact F].
Qed.
Lemma ipv6_no37 a : ipv6 short_number a -> ~ In 37 a.
Proof. intros A. apply ipv6_chars in A. eapply Forall_notin; [exact A|]. unfold six_char, hexdig, a_digit. lia. Qed.
Lemma down_ipv6 h : ipv6_zone short_number zone_marks h -> ipv6_zone short_number zone_marks (down_to_percent h).
Proof.
  intros (a & z & A & Z & ->). pose proof (ipv6_no37 a A) as N. exists (map down a), z. split; [now apply ipv6_down|]. split; [exact Z|].
  unfold down_to_percent. destruct Z as [->|(m & y & M & _ & _ & ->)].
  - rewrite app_nil_r, cut_at_none by exact N. reflexivity.
  - assert (exists r, m ++ y = 37 :: r) as (r & ->) by (destruct M as [<-|[<-|[]]]; cbn [lit app]; eexists; reflexivity).
    rewrite (cut_at_app 37 a r N). reflexivity.
Qed.
Lemma down_not_nil h : h <> [] -> down_to_percent h <> [].
Proof.
  unfold down_to_percent. destruct h as [|c h]; [congruence|]. intros _. cbn [cut_at]. destruct (c =? 37); [discriminate|]. destruct (cut_at 37 h). discriminate.
Qed.
Lemma down_to_percent_read h : exists x y, h = x ++ y /\ ~ In 37 x /\ (y = [] \/ exists z, y = 37 :: z) /\ down_to_percent h = map down x ++ y.
Proof.
  unfold down_to_percent. destruct (in_dec N.eq_dec 37 h) as [I|I].
  - destruct (cut_at 37 h) as [x y] eqn:E. exists x, match y with Some z => 37 :: z | None => [] end.
    revert x y E. clear I. induction h as [|c h IH]; intros x y E; cbn [cut_at] in E.
    + injection E as <- <-. split; [reflexivity|]. split; [intros []|]. auto.
    + destruct (N.eqb_spec c 37) as [->|N].
      * injection E as <- <-. split; [reflexivity|]. split; [intros []|]. split; [right; eauto | reflexivity].
      * destruct (cut_at 37 h) as [x' y'] eqn:E'. injection E as <- <-. destruct (IH x' y' eq_refl) as (Eh & N' & Y & _). split; [cbn [app]; now rewrite <- Eh|].
        split; [intros [->|J]; auto|]. split; [exact Y | reflexivity].
  - rewrite cut_at_none by exact I. exists h, []. rewrite !app_nil_r. auto.
Qed.

(** ** Dots come after colons *)
Lemma groups_dots gs n : groups short_number gs n -> exists p q, join (lit ":") gs = p ++ q /\ ~ In 46 p /\ ~ In 58 q.
Proof.
  assert (H : forall l, Forall h16 l -> ~ In 46 (join (lit ":") l)).
  { intros l F. assert (G : Forall (fun c => hexdig c \/ c = 58) (join (lit ":") l)).
    { apply join_chars; [now right|]. eapply Forall_impl; [|exact F]. intros g Hg. apply h16_chars in Hg. eapply Forall_impl; [|exact Hg]. auto. }
    eapply Forall_notin; [exact G|]. unfold hexdig, a_digit. lia. }
  intros [[F _]|(hs & v & -> & F & D & _)].
  - exists (join (lit ":") gs), []. rewrite app_nil_r. split; [reflexivity|]. split; [now apply H | intros []].
  - exists (colons hs), v. split; [apply join_last|]. split.
    + assert (G : Forall (fun c => hexdig c \/ c = 58) (colons hs)).
      { clear D. induction F as [|g l G F IH]; [constructor|]. cbn [colons map List.concat]. apply Forall_app. split; [|exact IH]. apply Forall_app. split.
        - apply h16_chars in G. eapply Forall_impl; [|exact G]. auto.
        - constructor; [now right | constructor]. }
      eapply Forall_notin; [exact G|]. unfold hexdig, a_digit. lia.
    + apply dotted_chars in D. eapply Forall_notin; [exact D|]. unfold quad_char, a_digit. lia.
Qed.
Lemma ipv6_dots s : ipv6 short_number s -> exists p q, s = p ++ q /\ ~ In 46 p /\ ~ In 58 q.
Proof.
  intros [(gs & G & ->)|(b & a & n & F & G & L & ->)]; [now apply (groups_dots gs 8)|].
  destruct (groups_dots a n G) as (p & q & E & P & Q). exists (join (lit ":") b ++ lit "::" ++ p), q. split; [rewrite E, <- !app_assoc; reflexivity|]. split; [|exact Q].
  intros I. apply in_app_or in I. destruct I as [I|I].
  - assert (G1 : Forall (fun c => hexdig c \/ c = 58) (join (lit ":") b)).
    { apply join_chars; [now right|]. eapply Forall_impl; [|exact F]. intros g Hg. apply h16_chars in Hg. eapply Forall_impl; [|exact Hg]. auto. }
    rewrite Forall_forall in G1. apply G1 in I. unfold hexdig, a_digit in I. lia.
  - apply in_app_or in I. destruct I as [I|I]; [cbn in I; lia | auto].
Qed.
(** An IPv6 address has a colon before any dot. *)
Lemma ipv6_colon_first s x y : ipv6_zone short_number zone_marks s -> s = x ++ 46 :: y -> In 58 x.
Proof.
  intros (a & z & A & Z & E) E'. pose proof (ipv6_colon a A) as C. destruct (ipv6_dots a A) as (p & q & -> & P & Q).
  assert (Cp : In 58 p) by (apply in_app_or in C; tauto). rewrite E' in E. rewrite <- app_assoc in E. clear - Cp P E.
  revert x E. induction p as [|c p IH]; intros x E; [destruct Cp|]. destruct x as [|d x]; cbn [app] in E; injection E as Ec E; subst.
  - elim P. now left.
  - destruct Cp as [->|Cp]; [now left|]. right. apply IH; auto. intros I. apply P. now right.
Qed.
(** ** Parts of a name *)
Lemma encoded_rest (P : N -> Prop) a b : ~ P 37 -> encoded P a -> encoded P (a ++ b) -> encoded P b.
Proof.
  intros NP (ps & -> & F) H. induction F as [|p ps Pp F IH]; [exact H|]. apply IH. clear IH. destruct H as (qs & E & Q).
  cbn [List.concat] in E. rewrite <- app_assoc in E. destruct Q as [|q qs Qq Q].
  - cbn [List.concat] in E. apply app_eq_nil in E. destruct E as [-> _]. destruct Pp as [(c & [=] & _)|(x & y & [=] & _)].
  - cbn [List.concat] in E. destruct Pp as [(c & -> & C)|(x & y & -> & X & Y)], Qq as [(d & -> & D)|(x' & y' & -> & X' & Y')]; cbn [app] in E.
    + injection E as -> E. exists qs. auto.
    + injection E as -> E. contradiction.
    + injection E as <- E. contradiction.
    + injection E as -> -> E. exists qs. auto.
Qed.
Lemma encoded_before (P : N -> Prop) c r t : ~ hexdig c -> ~ P 37 -> encoded P (r ++ c :: t) -> encoded P r.
Proof.
  intros Hc NP (ps & E & F). revert r E. induction F as [|p ps Pp F IH]; intros r E; [now destruct r|]. cbn [List.concat] in E.
  destruct r as [|d r]; [exists []; split; [reflexivity | constructor]|]. destruct Pp as [(e & -> & C)|(x & y & -> & X & Y)]; cbn [app] in E.
  - injection E as -> E. destruct (IH r E) as (qs & -> & Q). exists ([e] :: qs). split; [reflexivity|]. constructor; [left; eauto | exact Q].
  - injection E as -> E. destruct r as [|d r]; cbn [app] in E; [injection E as -> _; contradiction|]. injection E as -> E.
    destruct r as [|d r]; cbn [app] in E; [injection E as -> _; contradiction|]. injection E as -> E. destruct (IH r E) as (qs & -> & Q).
    exists ([37; x; y] :: qs). split; [reflexivity|]. constructor; [right; eauto 6 | exact Q].
Qed.
