(** The signer against the published rules. *)
From Verif Require Import Base Base_Proofs Utf8_Model PyText_Model PyText_Proofs PyDict_Model PyDict_Proofs PySort_Model PySort_Proofs Header_Model
  Encode_Spec Encode_Proofs Sign_Model Sign_Spec Sign_Proofs Sign2_Proofs SignPath_Spec SignPath_Proofs SignCover_Spec SignCover_Proofs SigRules_Spec.
From Coq Require Import Sorting.Sorted Sorting.Permutation Lia.
Local Open Scope N_scope.

Lemma between_join sep l : between sep l = join sep l.
Proof. induction l as [|x [|y l] IH]; [reflexivity | reflexivity|]. rewrite join_cons2, <- IH. reflexivity. Qed.

(** ** Order *)
Lemma before_cons c a b : Before (c :: a) (c :: b) <-> Before a b.
Proof.
  split.
  - intros [p [[E [d [r F]]] | [x [y [r [r' [E [F L]]]]]]]].
    + subst p. cbn [app] in F. injection F as F. exists a. left. split; [reflexivity | now exists d, r].
    + destruct p as [|z p]; cbn [app] in E, F; injection E as E1 E2; injection F as F1 F2.
      * subst x y. now apply N.lt_irrefl in L.
      * exists p. right. now exists x, y, r, r'.
  - intros [p [[E [d [r F]]] | [x [y [r [r' [E [F L]]]]]]]].
    + exists (c :: a). left. split; [reflexivity|]. exists d, r. now rewrite F, E.
    + exists (c :: p). right. exists x, y, r, r'. rewrite E, F. now split.
Qed.
Lemma before_iff a : forall b, Before a b <-> text_leb a b = true /\ a <> b.
Proof.
  induction a as [|x a IH]; intros [|y b].
  - split; [|intros [_ H]; now elim H]. intros [p [[<- [c [r E]]] | [c [d [r [r' [E _]]]]]]]; [discriminate E | destruct p; discriminate E].
  - split; [intros _; now split|]. intros _. exists []. left. split; [reflexivity | now exists y, b].
  - split; [|now intros [H _]]. intros [p [[_ [c [r E]]] | [c [d [r [r' [_ [E _]]]]]]]]; destruct p; discriminate E.
  - cbn [text_leb]. destruct (N.eqb_spec x y) as [<- | NE].
    + rewrite before_cons, IH. split; intros [A B]; (split; [exact A|]); congruence.
    + rewrite N.ltb_lt. split.
      * intros [p [[E [d [r F]]] | [c [d [r [r' [E [F L]]]]]]]].
        -- subst p. cbn [app] in F. injection F as F _. congruence.
        -- destruct p as [|z p]; cbn [app] in E, F; injection E as E1 E2; injection F as F1 F2; [|congruence]. subst. split; [exact L | congruence].
      * intros [L _]. exists []. right. now exists x, y, a, b.
Qed.
Lemma not_after_iff a b : Not_after a b <-> pair_leb a b = true.
Proof.
  unfold Not_after, pair_leb. rewrite !before_iff. destruct (text_eqb (fst a) (fst b)) eqn:E.
  - apply text_eqb_eq in E. split.
    + intros [-> | [[_ H] | [_ [H _]]]]; [apply text_leb_refl | now elim H | exact H].
    + intros H. destruct (text_eqb (snd a) (snd b)) eqn:F; [apply text_eqb_eq in F; left; destruct a, b; cbn in *; congruence|].
      apply text_eqb_neq in F. right. right. auto.
  - apply text_eqb_neq in E. split.
    + intros [-> | [[H _] | [H _]]]; [now elim E | exact H | now elim E].
    + intros H. right. left. auto.
Qed.
Lemma sorted_weaken {A} (P Q : A -> A -> Prop) l : (forall x y, P x y -> Q x y) -> StronglySorted P l -> StronglySorted Q l.
Proof.
  intros H. induction 1 as [|x l S IH F]; constructor; [exact IH|]. eapply Forall_impl; [|exact F]. intros y. apply H.
Qed.

(** ** Paths *)
Lemma below_app a : forall b st, below (a ++ b) st = below b (below a st).
Proof.
  induction a as [|s a IH]; intros b st; cbn [app below]; [reflexivity|].
  destruct (text_eqb s DOT); [apply IH|]. destruct (text_eqb s DOTDOT); apply IH.
Qed.
Lemma safe_nonempty segs : forall climbed depth, Forall (fun s => s <> []) segs -> root_safe climbed depth segs.
Proof.
  induction segs as [|s segs IH]; intros climbed depth F; cbn [root_safe]; [exact I|]. inversion F as [|? ? F1 F2]; subst.
  destruct (text_eqb s DOT); [now apply IH|]. destruct (text_eqb s DOTDOT); [destruct depth; now apply IH|].
  split; [intros _ _; exact F1 | now apply IH].
Qed.
Lemma safe_plain segs : forall depth, Forall (fun s => s <> DOT /\ s <> DOTDOT) segs -> root_safe false depth segs.
Proof.
  induction segs as [|s segs IH]; intros depth F; cbn [root_safe]; [exact I|]. inversion F as [|? ? [F1 F2] F3]; subst.
  rewrite (proj2 (text_eqb_neq s DOT) F1), (proj2 (text_eqb_neq s DOTDOT) F2). split; [discriminate | now apply IH].
Qed.
Lemma tidy_path path : tidy path -> exists rest, path = 47 :: rest /\ root_safe false 0 (split_on 47 rest) /\
  single_slashes (remove_dot_segments path false).
Proof.
  intros [init [last [-> [F [L D]]]]]. rewrite between_join. exists (join [47] (init ++ [last])). split; [reflexivity|].
  assert (S : split_on 47 (join [47] (init ++ [last])) = init ++ [last]).
  { apply split_on_join; [now destruct init|]. intros s I. apply in_app_or in I. destruct I as [I | [<- | []]]; [|exact L].
    rewrite Forall_forall in F. now apply F. }
  assert (R : root_safe false 0 (init ++ [last])).
  { destruct last as [|c last].
    - apply safe_plain. apply Forall_app. split; [now apply D|]. constructor; [split; discriminate | constructor].
    - apply safe_nonempty. apply Forall_app. split; [eapply Forall_impl; [|exact F]; now intros s [X _]|].
      constructor; [discriminate | constructor]. }
  rewrite S. split; [exact R|].
  change (lit "/" ++ join (lit "/") (init ++ [last])) with (47 :: join [47] (init ++ [last])).
  rewrite remove_abs by (rewrite S; exact R). rewrite S, below_app.
  assert (B : Forall (fun s => s <> [] /\ ~ In 47 s) (below init [])).
  { apply Forall_forall. intros s I. rewrite Forall_forall in F. destruct (below_In _ _ _ I) as [[] | [J _]]. now apply F. }
  assert (G : forall l, Forall (fun s => s <> [] /\ ~ In 47 s) l -> single_slashes (render (rev l ++ [[]])) /\ single_slashes (render (rev l))).
  { intros l H. rewrite render_app. apply render_single. now apply Forall_rev. }
  unfold plus_slash. rewrite last_last. cbn [below]. unfold dotty.
  destruct (text_eqb last DOT) eqn:E1; cbn [orb]; [now apply G|].
  destruct (text_eqb last DOTDOT) eqn:E2.
  - apply G. destruct (below init []); [constructor | now inversion B].
  - rewrite app_nil_r. destruct last as [|c last].
    + cbn [rev]. now apply G.
    + apply (G ((c :: last) :: below init [])). constructor; [split; [discriminate | exact L] | exact B].
Qed.
Lemma root_tidy : tidy [47].
Proof. exists [], []. split; [reflexivity|]. split; [constructor|]. split; [intros [] | constructor]. Qed.
Lemma tidy_dots path n : tidy path -> (Dots [] path n <-> n = remove_dot_segments path true).
Proof.
  intros T. destruct (tidy_path path T) as [rest [-> [R S]]].
  assert (X : remove_dot_segments (47 :: rest) true = remove_dot_segments (47 :: rest) false).
  { rewrite !remove_output in *. now apply replace_id. }
  rewrite X. split; [|intros ->; now apply rfc_remove]. intros D. eapply dots_fun; [exact D | now apply rfc_remove].
Qed.

(** ** Parameters *)
Lemma hex_digit_fun c v v' : hex_digit c v -> hex_digit c v' -> v = v'.
Proof. unfold hex_digit. lia. Qed.
Lemma octets_fun s bs : Octets s bs -> forall bs', Octets s bs' -> bs = bs'.
Proof.
  induction 1 as [|a b x y r bs A B O IH | c r bs N O IH]; intros bs' H'.
  - now inversion H'.
  - inversion H' as [|a' b' x' y' r' bs2 A' B' O' | c' r' bs2 N' O']; subst.
    + rewrite (hex_digit_fun _ _ _ A A'), (hex_digit_fun _ _ _ B B'). f_equal. now apply IH.
    + destruct N' as [N' | N']; [now elim N'|]. elim N'. now exists a, b, r, x, y.
  - inversion H' as [|a' b' x' y' r' bs2 A' B' O' | c' r' bs2 N' O']; subst.
    + destruct N as [N | N]; [now elim N|]. elim N. now exists a', b', r', x', y'.
    + f_equal. now apply IH.
Qed.
Definition stop (s : text) : Prop := s = [] \/ exists c s', s = c :: s' /\ 128 <= c.
Lemma ascii_split a : forall a' s s', ascii a -> ascii a' -> stop s -> stop s' -> a ++ s = a' ++ s' -> a = a' /\ s = s'.
Proof.
  induction a as [|c a IH]; intros [|c' a'] s s' A A' S S' E; cbn [app] in E.
  - now split.
  - subst s. destruct S as [S | [x [r [S L]]]]; [discriminate S|]. injection S as <- <-. inversion A'; subst. lia.
  - subst s'. destruct S' as [S' | [x [r [S' L]]]]; [discriminate S'|]. injection S' as <- <-. inversion A; subst. lia.
  - injection E as <- E. inversion A; inversion A'; subst. destruct (IH a' s s') as [-> ->]; auto.
Qed.
Section Fun.
  Variable utf8_replace : bytes -> text.
  Lemma decoded_fun s t : Decoded utf8_replace s t -> forall t', Decoded utf8_replace s t' -> t = t'.
  Proof.
    induction 1 as [|c s t H D IH | a bs s t NE A ST O D IH]; intros t' H'.
    - inversion H' as [| |a bs s t NE A ST O D E]; [reflexivity|]. destruct a; [now elim NE | discriminate].
    - inversion H' as [|c' s' t2 L D' | a bs s2 t2 NE A ST O D' E]; subst; [f_equal; now apply IH|].
      destruct a as [|x a]; [now elim NE|]. cbn [app] in E. injection E as -> _. inversion A; subst. lia.
    - remember (a ++ s) as w eqn:W. destruct H' as [|c' s' t2 L D' | a' bs' s2 t2 NE' A' ST' O' D'].
      + destruct a; [now elim NE | discriminate W].
      + destruct a as [|x a]; [now elim NE|]. cbn [app] in W. injection W as -> _. inversion A; subst. lia.
      + destruct (ascii_split a' a s2 s A' A ST' ST W) as [-> ->]. rewrite (octets_fun _ _ O _ O'). f_equal. now apply IH.
  Qed.
  Lemma stands_fun s t t' : stands_for utf8_replace s t -> stands_for utf8_replace s t' -> t = t'.
  Proof.
    intros [u [-> H]] [u' [-> H']]. destruct H as [[N ->] | [Y D]], H' as [[N' ->] | [Y' D']]; try contradiction; [reflexivity|].
    exact (decoded_fun _ _ D _ D').
  Qed.
  Lemma parameter_fun p n v n' v' : parameter utf8_replace p n v -> parameter utf8_replace p n' v' -> n = n' /\ v = v'.
  Proof.
    intros [[a [b [E [N [A B]]]]] | [N [A ->]]] [[a' [b' [E' [N' [A' B']]]]] | [N' [A' ->]]].
    - subst p. cbn [app] in E'. destruct (sep_inj 61 a a' b b' N N' E') as [<- <-]. split; eapply stands_fun; eassumption.
    - subst p. elim N'. apply in_or_app. right. now left.
    - subst p. elim N. apply in_or_app. right. now left.
    - split; [eapply stands_fun; eassumption | reflexivity].
  Qed.
  Lemma escaped_fun kept s t t' : Escaped kept s t -> Escaped kept s t' -> t = t'.
  Proof. intros A B. apply urlquote_iff in A. apply urlquote_iff in B. congruence. Qed.
  Lemma params_fun ps l : Params utf8_replace ps l -> forall l', Params utf8_replace ps l' -> l = l'.
  Proof.
    induction 1 as [|ps l P IH | p n v k w ps l NE P EN EV Q IH]; intros l' H'.
    - now inversion H'.
    - inversion H' as [|? ? P' | ? ? ? ? ? ? ? NE']; subst; [now apply IH | now elim NE'].
    - inversion H' as [|? ? P' | ? n' v' k' w' ? l2 NE' P' EN' EV' Q']; subst; [now elim NE|].
      destruct (parameter_fun _ _ _ _ _ P P') as [<- <-].
      rewrite (escaped_fun _ _ _ _ EN EN'), (escaped_fun _ _ _ _ EV EV'). f_equal. now apply IH.
  Qed.
  Lemma pieces_fun sep s l l' : Pieces sep s l -> Pieces sep s l' -> l = l'.
  Proof.
    intros [N [E F]] [N' [E' F']]. rewrite between_join in E, E'. rewrite Forall_forall in F, F'.
    rewrite <- (split_on_join sep l N F), <- (split_on_join sep l' N' F'). congruence.
  Qed.
  Lemma pieces_split sep s : Pieces sep s (split_on sep s).
  Proof.
    split; [|split].
    - destruct s as [|c s]; [discriminate|]. cbn [split_on]. destruct (c =? sep); [discriminate|]. now destruct (split_on sep s).
    - rewrite between_join. symmetry. apply join_split_on.
    - apply Forall_forall. intros x I. eapply split_on_pieces; exact I.
  Qed.
  Lemma query_fun q line line' : Query_line utf8_replace q line -> Query_line utf8_replace q line' -> line = line'.
  Proof.
    destruct q as [q|]; cbn [Query_line]; [|congruence].
    intros [ps [pairs [so [A [B [C [D ->]]]]]]] [ps' [pairs' [so' [A' [B' [C' [D' ->]]]]]]].
    rewrite (pieces_fun _ _ _ _ A A') in B. rewrite (params_fun _ _ B _ B') in C.
    assert (E : so = so'); [|now rewrite E].
    assert (W : forall l, StronglySorted Not_after l -> StronglySorted (fun a b => pair_leb a b = true) l).
    { intros l. apply sorted_weaken. intros x y. apply not_after_iff. }
    apply (sorted_unique pair_leb pair_leb_antisym); [now apply W | now apply W | rewrite <- C; exact C'].
  Qed.
  Lemma query_rule q line : query_line utf8_replace q line -> Query_line utf8_replace q line.
  Proof.
    destruct q as [q|]; cbn [query_line Query_line]; [|trivial].
    intros [pairs [S [-> [parts [P F]]]]]. exists (split_on 38 q), parts, pairs. split; [apply pieces_split|]. split; [|split; [exact P|split]].
    - clear P. revert parts F. induction (split_on 38 q) as [|x l IH]; intros parts F; cbn [filter] in F.
      + inversion F. constructor.
      + destruct (text_eqb x []) eqn:E; cbn [negb] in F.
        * apply text_eqb_eq in E. subst x. constructor. now apply IH.
        * inversion F as [|? [k v] ? ? [n [w [Q [A B]]]] F']; subst. apply text_eqb_neq in E.
          apply PS_param with (name := n) (value := w); [exact E | exact Q | now apply urlquote_iff | now apply urlquote_iff | now apply IH].
    - eapply sorted_weaken; [|exact S]. intros x y. apply not_after_iff.
    - symmetry. apply between_join.
  Qed.
End Fun.

(** ** Header lines *)
Lemma visible_space c : c = 9 \/ 32 <= c <= 126 -> (is_space c = true <-> Blank c).
Proof.
  intros V. unfold is_space, Blank. rewrite !Bool.orb_true_iff, !Bool.andb_true_iff, !N.leb_le, !N.eqb_eq. lia.
Qed.
Lemma visible_app a b : visible (a ++ b) <-> visible a /\ visible b. Proof. apply Forall_app. Qed.
Lemma words_visible s ws : visible s -> (Words s ws <-> Split_words s ws).
Proof.
  intros V. split; intros H; revert V; induction H as [sp S | sp w rest ws S NE W B H IH]; intros V.
  - constructor. apply Forall_forall. intros c I. rewrite Forall_forall in S. unfold visible in V. rewrite Forall_forall in V.
    apply visible_space; auto.
  - apply visible_app in V. destruct V as [V1 V]. apply visible_app in V. destruct V as [V2 V3].
    unfold visible in V1, V2. rewrite Forall_forall in V1, V2, S, W.
    constructor; [| exact NE | | | now apply IH].
    + apply Forall_forall. intros c I. apply visible_space; auto.
    + apply Forall_forall. intros c I Bl. apply (visible_space c (V2 c I)) in Bl. rewrite (W c I) in Bl. discriminate Bl.
    + destruct B as [-> | [c [r [-> C]]]]; [now left|]. right. exists c, r. split; [reflexivity|]. inversion V3; subst. now apply visible_space.
  - constructor. apply Forall_forall. intros c I. rewrite Forall_forall in S. unfold visible in V. rewrite Forall_forall in V.
    apply visible_space; auto.
  - apply visible_app in V. destruct V as [V1 V]. apply visible_app in V. destruct V as [V2 V3].
    unfold visible in V1, V2. rewrite Forall_forall in V1, V2, S, W.
    constructor; [| exact NE | | | now apply IH].
    + apply Forall_forall. intros c I. apply visible_space; auto.
    + apply Forall_forall. intros c I. apply Bool.not_true_is_false. intros Bl. apply (visible_space c (V2 c I)) in Bl. now apply (W c I).
    + destruct B as [-> | [c [r [-> C]]]]; [now left|]. right. exists c, r. split; [reflexivity|]. inversion V3; subst. now apply visible_space.
Qed.
Lemma split_words_fun s ws ws' : visible s -> Split_words s ws -> Split_words s ws' -> ws = ws'.
Proof.
  intros V A B. apply (words_visible s ws V) in A. apply (words_visible s ws' V) in B. rewrite (words_fun _ _ A). now rewrite (words_fun _ _ B).
Qed.
Lemma visible_between sep l : visible sep -> Forall visible l -> visible (between sep l).
Proof.
  intros S F. induction F as [|x l X F IH]; [constructor|]. destruct l as [|y l]; [exact X|].
  change (between sep (x :: y :: l)) with (x ++ sep ++ between sep (y :: l)). apply visible_app. split; [exact X|]. apply visible_app. now split.
Qed.
Lemma plain_quote v : ~ In 44 v -> ~ In 34 v -> quote_and_escape v = v.
Proof.
  intros A B. unfold quote_and_escape. replace (existsb _ v) with false; [reflexivity|]. symmetry. apply Bool.not_true_is_false. intros E.
  apply existsb_exists in E. destruct E as [c [I E]]. apply Bool.orb_true_iff in E. unfold COMMA, DQUOTE in E. rewrite !N.eqb_eq in E.
  destruct E as [-> | ->]; contradiction.
Qed.
Lemma value_iff vs v : plain_values vs -> (Value vs v <-> v = as_string vs).
Proof.
  intros [V P]. unfold Value. destruct vs as [|x [|y vs]]; cbn [as_string].
  - split; [intros [H | [_ H]]; [discriminate H | exact H] | intros ->; right; split; [discriminate | reflexivity]].
  - split; [intros [H | [H _]]; [congruence | now elim (H x)] | intros ->; now left].
  - assert (N : forall z, x :: y :: vs <> [z]) by discriminate. specialize (P N).
    assert (M : map quote_and_escape (x :: y :: vs) = x :: y :: vs).
    { clear V N. induction P as [|z l [A B] F IH]; [reflexivity|]. cbn [map]. now rewrite IH, plain_quote. }
    rewrite M, between_join. split; [intros [H | [_ H]]; [discriminate H | exact H] | intros ->; now right].
Qed.
Lemma value_visible vs v : plain_values vs -> Value vs v -> visible v.
Proof.
  intros [V _] [-> | [_ ->]]; [now inversion V|]. apply visible_between; [|exact V]. constructor; [right; split; discriminate | constructor].
Qed.
Lemma digits_visible n t : Decimal n t -> visible t.
Proof.
  induction 1 as [d D | n d t _ D _ IH]; [|apply visible_app; split; [exact IH|]]; (constructor; [right; lia | constructor]).
Qed.
Lemma host_visible m v : visible (m_host m) -> Host m v -> visible v.
Proof.
  intros V. unfold Host. destruct (m_port m) as [port|]; [|now intros ->]. intros [[_ ->] | [_ [t [D ->]]]]; [exact V|].
  apply visible_app. split; [exact V|]. apply visible_app. split; [constructor; [right; split; discriminate | constructor] | now apply digits_visible in D].
Qed.
Lemma raw_visible m n v : plain_message m -> Raw_line m n v -> visible v.
Proof.
  intros [_ [H P]] [[NU [vs [I V]]] | [_ [_ V]]]; [eapply value_visible; [eapply P; eassumption | exact V] | eapply host_visible; eassumption].
Qed.
Lemma own_port_default scheme port : own_port scheme port <-> default_port scheme = Some port.
Proof.
  unfold own_port, default_port. destruct (text_eqb scheme (lit "http")) eqn:E1.
  - apply text_eqb_eq in E1. subst scheme. split; [intros [[_ ->] | [H _]]; [reflexivity | discriminate H] | intros [= <-]; now left].
  - apply text_eqb_neq in E1. destruct (text_eqb scheme (lit "https")) eqn:E2.
    + apply text_eqb_eq in E2. subst scheme. split; [intros [[H _] | [_ ->]]; [discriminate H | reflexivity] | intros [= <-]; now right].
    + apply text_eqb_neq in E2. split; [intros [[H _] | [H _]]; contradiction | discriminate].
Qed.

Section Lines.
  Variables (lower upper : text -> text).
  Lemma host_rule r m v : carries lower upper r m -> u_username (r_dest r) = None ->
    (Host m v <-> v = normalize_host_field (r_dest r)).
  Proof.
    intros [_ [S [H [P _]]]] U. unfold Host, normalize_host_field, netloc. cbn [u_scheme u_username u_password u_host u_port].
    rewrite U, H, P, S. cbn [app]. destruct (u_port (r_dest r)) as [port|]; [|now rewrite app_nil_r].
    assert (D := own_port_default (u_scheme (r_dest r)) port).
    assert (T : forall w, (exists t, Decimal port t /\ w = u_host (r_dest r) ++ lit ":" ++ t) <-> w = u_host (r_dest r) ++ 58 :: dec port).
    { intros w. split; [intros [t [X ->]]; apply decimal_fun in X; now rewrite X | intros ->; exists (dec port); split; [apply decimal_dec | reflexivity]]. }
    destruct (default_port (u_scheme (r_dest r))) as [d|].
    - destruct (N.eqb_spec port d) as [<- | NE].
      + rewrite app_nil_r. split; [intros [[_ X] | [X _]]; [exact X | elim X; now apply D] | intros X; left; split; [now apply D | exact X]].
      + split; [intros [[X _] | [_ X]]; [apply D in X; congruence | now apply T] | intros X; right; split; [intros Y; apply D in Y; congruence | now apply T]].
    - split; [intros [[X _] | [_ X]]; [apply D in X; discriminate X | now apply T] | intros X; right; split; [intros Y; apply D in Y; discriminate Y | now apply T]].
  Qed.
  Lemma raw_iff r m n v : carries lower upper r m -> plain_message m -> u_username (r_dest r) = None ->
    (Raw_line m n v <-> (~ In n UNSIGNED /\ exists vs, header lower (r_fields r) n vs /\ v = as_string vs) \/ host_line lower (r_dest r) (r_fields r) n v).
  Proof.
    intros C P U. assert (HR := host_rule r m v C U). destruct C as [_ [_ [_ [_ [_ [_ [H _]]]]]]]. destruct P as [_ [_ P]].
    unfold Raw_line, host_line, has_header. rewrite HR. split; intros [[A [vs [B E]]] | [A [B E]]].
    - left. split; [exact A|]. exists vs. split; [now apply H|]. apply value_iff; [now apply (P n) | exact E].
    - right. split; [exact A|]. split; [|exact E]. intros [vs X]. apply (B vs). now apply H.
    - left. split; [exact A|]. exists vs. assert (B' := B). apply H in B'. split; [exact B'|]. apply value_iff; [now apply (P n) | exact E].
    - right. split; [exact A|]. split; [|exact E]. intros vs X. apply B. exists vs. now apply H.
  Qed.
  Definition trim (l : text * text) : text * text := (fst l, join [32] (words (snd l))).
  Lemma lines_rule r m lines : carries lower upper r m -> plain_message m -> u_username (r_dest r) = None ->
    signed_lines lower (r_dest r) (r_fields r) lines -> Lines m (map trim lines).
  Proof.
    intros C P U [S I]. split.
    - clear I. induction S as [|x l S IH F]; cbn [map]; constructor; [exact IH|]. apply Forall_forall. intros y J. apply in_map_iff in J.
      destruct J as [z [<- J]]. rewrite Forall_forall in F. destruct (F z J). now apply before_iff.
    - intros n t. rewrite in_map_iff. split.
      + intros [[n' v] [E J]]. injection E as <- <-. cbn [snd]. apply I in J. apply (raw_iff r m n' v C P U) in J.
        exists v, (words v). split; [exact J|]. split; [|symmetry; apply between_join].
        apply words_visible; [eapply raw_visible; eassumption | apply words_spec].
      + intros [v [ws [R [W ->]]]]. exists (n, v). split; [|apply I; now apply (raw_iff r m n v C P U)]. unfold trim. cbn [fst snd].
        apply words_visible in W; [|eapply raw_visible; eassumption]. apply words_fun in W. subst ws. reflexivity.
  Qed.
  Lemma lines_fun m l l' : Lines m l -> Lines m l' -> l = l'.
  Proof.
    intros [S I] [S' I']. apply strict_unique.
    - eapply sorted_weaken; [|exact S]. intros x y. apply before_iff.
    - eapply sorted_weaken; [|exact S']. intros x y. apply before_iff.
    - intros [n t]. now rewrite I, I'.
  Qed.
End Lines.

(** ** The rules determine the signature *)
Lemma hex_bytes bs t : Hex bs t -> Forall (fun b => b < 256) bs.
Proof.
  induction 1 as [|h l a b bs t A B _ IH]; constructor; [|exact IH]. apply lower_iff in A. apply lower_iff in B. lia.
Qed.
Lemma hex_fun bs t t' : Hex bs t -> Hex bs t' -> t = t'.
Proof. intros A B. assert (F := hex_bytes _ _ A). apply (hex_iff bs t F) in A. apply (hex_iff bs t' F) in B. congruence. Qed.
Lemma utf8_fun s b b' : Utf8 s b -> Utf8 s b' -> b = b'.
Proof. intros A B. apply encode_iff in A. apply encode_iff in B. congruence. Qed.
Lemma path_fun p l l' : Path_line p l -> Path_line p l' -> l = l'.
Proof. intros [n [D E]] [n' [D' E']]. rewrite (dots_fun _ _ _ D _ D') in E. eapply escaped_fun; eassumption. Qed.

Section Signed.
  Variables (lower upper : text -> text) (sha256 : bytes -> bytes) (hmac : bytes -> bytes -> bytes) (utf8_replace : bytes -> text).
  Lemma signed_fun unsigned region service date secret m names sig names' sig' :
    Signed sha256 hmac utf8_replace unsigned region service date secret m names sig ->
    Signed sha256 hmac utf8_replace unsigned region service date secret m names' sig' -> names = names' /\ sig = sig'.
  Proof.
    intros [path [query [lines [payload [can [ha [ts [mb [dg [k0 [day [reg [svc [en [A1 [A2 [A3 [A4 [A5 [A6 [A7 [A8 [A9 [A10 [A11 [A12 [A13 [A14 [A15 A16]]]]]]]]]]]]]]]]]]]]]]]]]]]]].
    intros [path' [query' [lines' [payload' [can' [ha' [ts' [mb' [dg' [k0' [day' [reg' [svc' [en' [B1 [B2 [B3 [B4 [B5 [B6 [B7 [B8 [B9 [B10 [B11 [B12 [B13 [B14 [B15 B16]]]]]]]]]]]]]]]]]]]]]]]]]]]]].
    assert (E1 := path_fun _ _ _ A1 B1). assert (E2 := query_fun _ _ _ _ A2 B2). assert (E3 := lines_fun _ _ _ A3 B3).
    assert (E4 : payload = payload').
    { unfold Payload_line in A4, B4. destruct unsigned; [congruence|]. eapply hex_fun; eassumption. }
    subst path' query' lines' payload' names names'. split; [reflexivity|].
    assert (E6 := utf8_fun _ _ _ A6 B6). subst can'. assert (E7 := hex_fun _ _ _ A7 B7). subst ha' ts ts'.
    assert (E9 := utf8_fun _ _ _ A9 B9). assert (E10 := utf8_fun _ _ _ A10 B10). assert (E11 := utf8_fun _ _ _ A11 B11).
    assert (E12 := utf8_fun _ _ _ A12 B12). assert (E13 := utf8_fun _ _ _ A13 B13). assert (E14 := utf8_fun _ _ _ A14 B14).
    subst. eapply hex_fun; eassumption.
  Qed.

  Hypothesis L : lowers_ascii lower.
  Hypothesis sha_bytes : forall x, Forall (fun b => b < 256) (sha256 x).
  Hypothesis hmac_bytes : forall k x, Forall (fun b => b < 256) (hmac k x).
  (** The digest of nothing, which the code holds as a constant. *)
  Hypothesis sha_empty : Hex (sha256 []) (lit "e3b0c44298fc1c149afbf4c8996fb92427ae41e4649b934ca495991b7852b855").

  Lemma names_trim lines : map fst (map trim lines) = map fst lines.
  Proof. rewrite map_map. reflexivity. Qed.
  Lemma payload_rule p s m unsigned : carries lower upper s m ->
    unsigned = (text_eqb (u_scheme (r_dest s)) (lit "https") && negb (get_or true (sp_payload_signing p)))%bool ->
    Payload_line sha256 unsigned m (payload_line sha256 (r_dest s) p (r_body s)).
  Proof.
    intros C ->. destruct C as [_ [_ [_ [_ [_ [_ [_ B]]]]]]]. unfold Payload_line, payload_line.
    destruct (text_eqb (u_scheme (r_dest s)) (lit "https") && negb (get_or true (sp_payload_signing p)))%bool; [reflexivity|].
    rewrite B. destruct (r_body s); try (apply hex_iff; [apply sha_bytes | reflexivity]). exact sha_empty.
  Qed.
  Lemma path_rule p s m path : carries lower upper s m -> plain_message m -> sp_encode_path p <> Some false ->
    format_canonical_path (u_path (r_dest s)) p = Ok path -> Path_line (m_path m) path.
  Proof.
    intros [_ [_ [_ [_ [C _]]]]] [T _] NE E. unfold format_canonical_path in E.
    assert (X : get_or true (sp_encode_path p) = true) by (destruct (sp_encode_path p) as [[|]|]; [reflexivity | now elim NE | reflexivity]).
    rewrite X in E. apply urlquote_iff in E. exists (remove_dot_segments (get_or [47] (u_path (r_dest s))) true). split; [|exact E].
    rewrite C. rewrite C in T. destruct (u_path (r_dest s)) as [q|]; apply tidy_dots; auto using root_tidy.
  Qed.
  Lemma sign_rules now i p r s m unsigned : wf_fields lower (r_fields r) ->
    ~ has_header lower (r_fields r) (lit "date") -> ~ has_header lower (r_fields r) (lit "x-amz-date") ->
    ~ has_header lower (r_fields r) (lit "x-amz-security-token") ->
    sp_encode_path p <> Some false -> u_username (r_dest s) = None ->
    unsigned = (text_eqb (u_scheme (r_dest s)) (lit "https") && negb (get_or true (sp_payload_signing p)))%bool ->
    snd (sign lower upper sha256 hmac utf8_replace false now i p r) = Ok s -> carries lower upper s m -> plain_message m ->
    exists date names sig, In (lit "x-amz-date", [date]) (m_headers m) /\
      (forall t, i_token i = Some t -> In (lit "x-amz-security-token", [t]) (m_headers m)) /\
      In (lit "authorization", [lit "AWS4-HMAC-SHA256 Credential=" ++ i_access i ++ lit "/" ++ firstn 8 date ++ lit "/" ++ sp_region p ++ lit "/"
        ++ sp_service p ++ lit "/aws4_request, SignedHeaders=" ++ names ++ lit ", Signature=" ++ sig]) (m_headers m) /\
      Signed sha256 hmac utf8_replace unsigned (sp_region p) (sp_service p) date (i_secret i) m names sig.
  Proof.
    intros W H1 H2 H3 NE U UN E C P.
    destruct (sign_verifiable lower upper sha256 hmac utf8_replace false L now i p r s W H1 H2 H3 E)
      as [date [payload [c [sts [sig [lines [D [T [K [PL [ST [SG [LS A]]]]]]]]]]]]].
    exists date, (join [59] (map fst lines)), sig. destruct C as [C1 [C2 [C3 [C4 [C5 [C6 [C7 C8]]]]]]].
    assert (C : carries lower upper s m) by (repeat (split; [assumption|]); assumption).
    split; [now apply C7|]. split; [intros t Ht; apply C7; now apply T|]. split; [now apply C7|].
    destruct K as [path [query [ls [K1 [K2 [K3 K4]]]]]].
    assert (X : ls = lines).
    { destruct K3 as [K3 K3']. destruct LS as [LS LS']. apply strict_unique; [exact K3 | exact LS|]. intros [n v]. now rewrite K3', LS'. }
    subst ls. specialize (PL eq_refl). subst payload.
    destruct ST as [bs [Ec ->]]. destruct SG as [k0 [day [reg [svc [en [msg [S1 [S2 [S3 [S4 [S5 [S6 ->]]]]]]]]]]]].
    exists path, query, (map trim lines), (payload_line sha256 (r_dest s) p (r_body s)), bs, (EventIO_Model.hexlify (sha256 bs)).
    eexists. exists msg, (hmac (hmac (hmac (hmac (hmac k0 day) reg) svc) en) msg), k0, day, reg, svc, en.
    split; [now apply (path_rule p s m)|]. split; [rewrite C6; now apply query_rule|].
    split; [now apply (lines_rule lower upper s m)|]. split; [now apply payload_rule|].
    split; [rewrite names_trim; symmetry; apply between_join|].
    split.
    { apply encode_iff. rewrite <- Ec. f_equal. rewrite K4, C1. rewrite map_map. reflexivity. }
    split; [apply hex_iff; [apply sha_bytes | reflexivity]|]. split; [reflexivity|].
    split; [now apply encode_iff|]. split; [now apply encode_iff|]. split; [now apply encode_iff|]. split; [now apply encode_iff|].
    split; [now apply encode_iff|]. split; [now apply encode_iff|]. split; [reflexivity|].
    apply hex_iff; [apply hmac_bytes | reflexivity].
  Qed.
End Signed.

(** ** The asynchronous signer *)
Section Async.
  Variables (lower upper : text -> text) (sha256 : bytes -> bytes) (hmac : bytes -> bytes -> bytes) (utf8_replace : bytes -> text).
  Hypothesis L : lowers_ascii lower.
  Lemma apply_other date i fs n : n <> lit "x-amz-date" -> n <> lit "x-amz-security-token" ->
    dict_get n (apply_required_fields lower date i fs) = dict_get n fs.
  Proof.
    intros A B.
    assert (LA : lower (lit "X-Amz-Date") = lit "x-amz-date") by (rewrite L; [reflexivity | repeat constructor]).
    assert (LB : lower (lit "X-Amz-Security-Token") = lit "x-amz-security-token") by (rewrite L; [reflexivity | repeat constructor]).
    unfold apply_required_fields.
    assert (X : forall gs, dict_get n (if negb (in_fields lower (lit "Date") gs) && negb (in_fields lower (lit "X-Amz-Date") gs)
                 then set_field lower (mkField (lit "X-Amz-Date") [date]) gs else gs) = dict_get n gs).
    { intros gs. destruct (_ && _)%bool; [|reflexivity]. unfold set_field. cbn [f_name]. rewrite LA. now apply dict_get_set_ne. }
    destruct (i_token i) as [t|]; [|apply X]. destruct (negb _); [|apply X]. unfold set_field at 1. cbn [f_name]. rewrite LB.
    rewrite dict_get_set_ne by exact B. apply X.
  Qed.
  Lemma sign_async now i p r : wf_fields lower (r_fields r) ->
    ~ has_header lower (r_fields r) (lit "x-amz-content-sha256") ->
    (forall vs, header lower (r_fields r) (lit "content-type") vs -> exists v, vs = [v] /\ v <> lit "application/vnd.amazon.eventstream") ->
    sign lower upper sha256 hmac utf8_replace true now i p r = sign lower upper sha256 hmac utf8_replace false now i p r.
  Proof.
    intros W H1 H2. unfold sign. destruct (i_expired i); [reflexivity|]. cbv zeta. unfold canonical_request. cbn [r_dest r_body r_fields r_method].
    set (date := get_or now (sp_date p)).
    assert (E : format_canonical_payload lower sha256 true (r_dest r) p (r_body r) (apply_required_fields lower date i (r_fields r))
              = format_canonical_payload lower sha256 false (r_dest r) p (r_body r) (apply_required_fields lower date i (r_fields r))).
    { unfold format_canonical_payload at 1. cbv zeta.
      assert (S1 : get_field lower SHA_HEADER (apply_required_fields lower date i (r_fields r)) = None).
      { unfold get_field. replace (lower SHA_HEADER) with (lit "x-amz-content-sha256") by (symmetry; rewrite L; [reflexivity | repeat constructor]).
        rewrite apply_other by discriminate. destruct (dict_get (lit "x-amz-content-sha256") (r_fields r)) as [f|] eqn:D; [|reflexivity].
        elim H1. exists (f_values f). apply (header_get lower _ _ W). now exists f. }
      assert (S2 : is_event_stream lower (apply_required_fields lower date i (r_fields r)) = false).
      { unfold is_event_stream, get_field. replace (lower (lit "Content-Type")) with (lit "content-type") by (symmetry; rewrite L; [reflexivity | repeat constructor]).
        rewrite apply_other by discriminate. destruct (dict_get (lit "content-type") (r_fields r)) as [f|] eqn:D; [|reflexivity].
        destruct (H2 (f_values f)) as [v [V NE]]; [apply (header_get lower _ _ W); now exists f|]. rewrite V. cbn [as_string].
        now apply text_eqb_neq. }
      rewrite S1, S2. reflexivity. }
    rewrite E. reflexivity.
  Qed.
End Async.
