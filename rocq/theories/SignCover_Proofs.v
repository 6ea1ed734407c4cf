(** Proofs about what a request signature covers. *)
From Verif Require Import Base Base_Proofs Utf8_Model Utf8_Proofs PyText_Model PyText_Proofs PyDict_Model PyDict_Proofs PySort_Model
  Header_Model Http_Proofs Sign_Model Sign_Spec Sign_Proofs Sign2_Proofs SignPath_Proofs SignCover_Spec.
From Coq Require Import Sorting.Sorted Sorting.Permutation.
Local Open Scope N_scope.

(** ** Texts between separators *)
Lemma sep_inj (c : N) (a b x y : text) : ~ In c a -> ~ In c b -> a ++ c :: x = b ++ c :: y -> a = b /\ x = y.
Proof.
  revert b. induction a as [|h a IH]; intros [|k b] A B E; cbn [app] in E.
  - injection E as ->. now split.
  - injection E as -> _. elim B. now left.
  - injection E as -> _. elim A. now left.
  - injection E as -> E. destruct (IH b) as [-> ->]; [| |exact E|now split]; intros I; [apply A|apply B]; now right.
Qed.

Definition spaces (s : text) : Prop := Forall (fun c => is_space c = true) s.
Definition solid (s : text) : Prop := Forall (fun c => is_space c = false) s.

Lemma words_solid s : forall w, solid w -> Forall (fun x => x <> [] /\ solid x) (words_from w s).
Proof.
  assert (R : forall w, solid w -> w <> [] -> rev w <> [] /\ solid (rev w)).
  { intros w S N. split; [|now apply Forall_rev]. destruct w; [congruence|]. cbn [rev]. now destruct (rev w). }
  induction s as [|c s IH]; intros w S; cbn [words_from].
  - destruct w as [|k w]; constructor; [|constructor]. apply R; [exact S | discriminate].
  - destruct (is_space c) eqn:C.
    + destruct w as [|k w]; [apply IH; constructor|]. constructor; [apply R; [exact S | discriminate] | apply IH; constructor].
    + apply IH. now constructor.
Qed.
Lemma words_space c s : is_space c = true -> words (c :: s) = words s.
Proof. intros C. unfold words. cbn [words_from]. now rewrite C. Qed.
Lemma words_spaces sp s : spaces sp -> words (sp ++ s) = words s.
Proof. induction 1 as [|c sp C _ IH]; [reflexivity|]. cbn [app]. now rewrite words_space. Qed.
Lemma words_from_app w s : solid w -> forall v, words_from v (w ++ s) = words_from (rev w ++ v) s.
Proof.
  induction 1 as [|c w C W IH]; intros v; [reflexivity|]. cbn [app words_from rev]. rewrite C, IH. now rewrite <- app_assoc.
Qed.
Lemma words_word w s : w <> [] -> solid w -> (s = [] \/ exists c r, s = c :: r /\ is_space c = true) ->
  words (w ++ s) = w :: words s.
Proof.
  intros N W B. unfold words at 1. rewrite words_from_app by exact W. rewrite app_nil_r.
  destruct (rev w) as [|k v] eqn:E.
  { elim N. rewrite <- (rev_involutive w), E. reflexivity. }
  assert (R : rev (k :: v) = w) by (rewrite <- E; apply rev_involutive).
  destruct B as [-> | [c [r [-> C]]]]; cbn [words_from].
  - now rewrite R.
  - rewrite C, R. now rewrite words_space.
Qed.
Lemma words_fun s ws : Words s ws -> ws = words s.
Proof.
  induction 1 as [sp S | sp w rest ws S N W B _ IH].
  - rewrite <- (app_nil_r sp). now rewrite words_spaces.
  - rewrite words_spaces by exact S. now rewrite words_word, IH.
Qed.
Lemma words_spec s : Words s (words s).
Proof.
  remember (List.length s) as n eqn:L. assert (LE : (List.length s <= n)%nat) by (subst; apply le_n). clear L. revert s LE.
  induction n as [|n IH]; intros s LE.
  { destruct s; [|cbn in LE; inversion LE]. apply (W_end []). constructor. }
  assert (D : exists sp rest, s = sp ++ rest /\ spaces sp /\ (rest = [] \/ exists c r, rest = c :: r /\ is_space c = false)).
  { clear. induction s as [|c s [sp [rest [-> [S B]]]]].
    - exists [], []. repeat split; [constructor | now left].
    - destruct (is_space c) eqn:C.
      + exists (c :: sp), rest. repeat split; [now constructor | exact B].
      + exists [], (c :: sp ++ rest). repeat split; [constructor|]. right. now exists c, (sp ++ rest). }
  destruct D as [sp [rest [-> [S B]]]]. rewrite words_spaces by exact S.
  destruct B as [-> | [c [r [-> C]]]]; [rewrite app_nil_r; now apply W_end|].
  assert (E : exists w s', r = w ++ s' /\ solid w /\ (s' = [] \/ exists c r, s' = c :: r /\ is_space c = true)).
  { clear. induction r as [|c s [w [rest [-> [S B]]]]].
    - exists [], []. repeat split; [constructor | now left].
    - destruct (is_space c) eqn:C.
      + exists [], (c :: w ++ rest). repeat split; [constructor|]. right. now exists c, (w ++ rest).
      + exists (c :: w), rest. repeat split; [now constructor | exact B]. }
  destruct E as [w [s' [-> [W B]]]]. change (c :: w ++ s') with ((c :: w) ++ s').
  rewrite words_word; [|discriminate|now constructor|exact B].
  apply W_word; [exact S | discriminate | now constructor | exact B|]. apply IH.
  rewrite app_length in LE. cbn [List.length] in LE. rewrite app_length in LE. lia.
Qed.
Lemma words_join_inj s t : join [32] (words s) = join [32] (words t) -> words s = words t.
Proof.
  assert (P : forall s, Forall (fun x => x <> [] /\ solid x) (words s)) by (intros u; apply words_solid; constructor).
  assert (Q : forall s p, In p (words s) -> ~ In 32 p).
  { intros u p I J. specialize (P u). rewrite Forall_forall in P. destruct (P p I) as [_ W]. unfold solid in W. rewrite Forall_forall in W.
    specialize (W 32 J). discriminate W. }
  assert (Z : forall s, words s <> [] -> join [32] (words s) <> []).
  { intros u N E. specialize (P u). destruct (words u) as [|x [|y l]]; [congruence| |]; inversion P as [|? ? [X _]]; subst.
    - cbn in E. congruence.
    - rewrite join_cons2 in E. destruct x; [congruence | discriminate E]. }
  intros E. destruct (words s) as [|x l] eqn:A; [|destruct (words t) as [|y m] eqn:B].
  - destruct (words t) as [|y m] eqn:B; [reflexivity|]. exfalso. apply (Z t); rewrite B; [discriminate | now rewrite <- E].
  - exfalso. apply (Z s); rewrite A; [discriminate | now rewrite E].
  - rewrite <- (split_on_join 32 (x :: l)), <- (split_on_join 32 (y :: m)), E; [reflexivity | discriminate | | discriminate |].
    + intros p I. apply (Q t). now rewrite B.
    + intros p I. apply (Q s). now rewrite A.
Qed.
Lemma words_no_lf s : ~ In 10 (join [32] (words s)).
Proof.
  assert (P : Forall (fun x => x <> [] /\ solid x) (words s)) by (apply words_solid; constructor).
  intros I. induction P as [|x l [_ X] P IH]; [destruct I|].
  assert (NX : ~ In 10 x) by (intros J; unfold solid in X; rewrite Forall_forall in X; specialize (X 10 J); discriminate X).
  destruct l as [|y l]; [cbn [join] in I; now apply NX|]. rewrite join_cons2 in I.
  apply in_app_or in I. destruct I as [I | I]; [now apply NX|]. apply in_app_or in I.
  destruct I as [[I | []] | I]; [discriminate I | now apply IH].
Qed.

(** ** Hexadecimal digests *)
Lemma hex_inj x y : x < 16 -> y < 16 -> EventIO_Model.hex_digit x = EventIO_Model.hex_digit y -> x = y.
Proof. unfold EventIO_Model.hex_digit. destruct (N.ltb_spec x 10), (N.ltb_spec y 10); lia. Qed.
Lemma hexlify_inj a : forall b, Forall (fun x => x < 256) a -> Forall (fun x => x < 256) b ->
  EventIO_Model.hexlify a = EventIO_Model.hexlify b -> a = b.
Proof.
  induction a as [|x a IH]; intros [|y b] A B E; cbn in E; try discriminate E; [reflexivity|].
  inversion A as [|? ? X A']; inversion B as [|? ? Y B']; subst. injection E as E1 E2 E3.
  apply hex_inj in E1; [|apply N.div_lt_upper_bound; lia | apply N.div_lt_upper_bound; lia].
  apply hex_inj in E2; [|apply N.mod_lt; lia | apply N.mod_lt; lia].
  f_equal; [rewrite (N.div_mod x 16), (N.div_mod y 16) by lia; now rewrite E1, E2 | now apply IH].
Qed.
Lemma hexlify_char c a : Forall (fun x => x < 256) a -> In c (EventIO_Model.hexlify a) -> 48 <= c <= 57 \/ 97 <= c <= 102.
Proof.
  intros A I. apply in_flat_map in I. destruct I as [x [I J]]. rewrite Forall_forall in A. specialize (A x I).
  assert (H : forall d, d < 16 -> 48 <= EventIO_Model.hex_digit d <= 57 \/ 97 <= EventIO_Model.hex_digit d <= 102).
  { intros d D. unfold EventIO_Model.hex_digit. destruct (N.ltb_spec d 10); lia. }
  destruct J as [<- | [<- | []]]; apply H; [apply N.div_lt_upper_bound; lia | apply N.mod_lt; lia].
Qed.

(** ** Queries *)
Lemma urlquote_inj sf s t q : safe_ok sf -> urlquote sf s = Ok q -> urlquote sf t = Ok q -> s = t.
Proof. intros S A B. apply (decode_urlquote sf) in A, B; try exact S. congruence. Qed.
Lemma join_In c sep (l : list text) : In c (join sep l) -> In c sep \/ exists x, In x l /\ In c x.
Proof.
  induction l as [|x l IH]; [intros []|]. destruct l as [|y l].
  - cbn [join]. intros I. right. exists x. split; [now left | exact I].
  - rewrite join_cons2. intros I. apply in_app_or in I. destruct I as [I | I]; [right; exists x; split; [now left | exact I]|].
    apply in_app_or in I. destruct I as [I | I]; [now left|]. destruct (IH I) as [J | [z [J K]]]; [now left|].
    right. exists z. split; [now right | exact K].
Qed.
Definition clean_pair (kv : text * text) : Prop := ~ In 61 (fst kv) /\ ~ In 38 (fst kv) /\ ~ In 38 (snd kv).
Definition shown (kv : text * text) : text := fst kv ++ [61] ++ snd kv.
Lemma shown_inj l : forall m, Forall clean_pair l -> Forall clean_pair m -> map shown l = map shown m -> l = m.
Proof.
  induction l as [|[k v] l IH]; intros [|[k' v'] m] A B E; try discriminate E; [reflexivity|].
  inversion A as [|? ? [X _] A']; inversion B as [|? ? [Y _] B']; subst. cbn [map] in E. injection E as E1 E2.
  unfold shown in E1. cbn [fst snd app] in *. apply sep_inj in E1; [|exact X|exact Y]. destruct E1 as [-> ->]. f_equal. now apply IH.
Qed.
Lemma query_text_inj l m : Forall clean_pair l -> Forall clean_pair m ->
  join [38] (map shown l) = join [38] (map shown m) -> l = m.
Proof.
  intros A B E.
  assert (Q : forall l, Forall clean_pair l -> forall p, In p (map shown l) -> ~ In 38 p).
  { intros x X p I J. apply in_map_iff in I. destruct I as [kv [<- I]]. rewrite Forall_forall in X. destruct (X kv I) as [_ [X2 X3]].
    unfold shown in J. apply in_app_or in J. destruct J as [J | [J | J]]; [now apply X2 | discriminate J | now apply X3]. }
  assert (Z : forall kv l, join [38] (map shown (kv :: l)) <> []).
  { intros [k v] x F. destruct x as [|y x]; cbn [map] in F.
    - cbn [join] in F. unfold shown in F. cbn in F. destruct k; discriminate F.
    - rewrite join_cons2 in F. unfold shown in F at 1. cbn in F. destruct k; discriminate F. }
  destruct l as [|x l]; destruct m as [|y m]; [reflexivity | now elim (Z y m); rewrite <- E | now elim (Z x l); rewrite E|].
  apply shown_inj; [exact A | exact B|].
  rewrite <- (split_on_join 38 (map shown (x :: l))), <- (split_on_join 38 (map shown (y :: m))), E;
    [reflexivity | discriminate | now apply Q | discriminate | now apply Q].
Qed.

Definition quoted (nv kv : text * text) : Prop := urlquote [] (fst nv) = Ok (fst kv) /\ urlquote [] (snd nv) = Ok (snd kv).
Lemma safe_nil : safe_ok []. Proof. intros c []. Qed.
Lemma quoted_clean nv kv : quoted nv kv -> clean_pair kv.
Proof.
  intros [A B]. split; [|split]; [eapply urlquote_clean; [exact A| | |] | eapply urlquote_clean; [exact A| | |] | eapply urlquote_clean; [exact B| | |]];
    first [reflexivity | discriminate | intros []].
Qed.
Lemma quoted_perm ks ms : Permutation ks ms -> forall ps, Forall2 quoted ps ks -> exists qs, Permutation ps qs /\ Forall2 quoted qs ms.
Proof.
  induction 1 as [|x l l' _ IH|x y l|l1 l2 l3 _ IH1 _ IH2]; intros ps F.
  - inversion F; subst. exists []. now split; constructor.
  - inversion F as [|a ? ps' ? H F']; subst. destruct (IH ps' F') as [qs [P G]]. exists (a :: qs). split; [now constructor | now constructor].
  - inversion F as [|a ? ps' ? H F']; subst. inversion F' as [|b ? ps2 ? H2 F2]; subst. exists (b :: a :: ps2). split; [constructor|]. constructor; [exact H2|]. now constructor.
  - destruct (IH1 ps F) as [qs [P G]]. destruct (IH2 qs G) as [rs [P2 G2]]. exists rs. split; [now transitivity qs | exact G2].
Qed.
Lemma quoted_fun ks : forall ps qs, Forall2 quoted ps ks -> Forall2 quoted qs ks -> ps = qs.
Proof.
  induction ks as [|k ks IH]; intros ps qs A B; inversion A as [|[n v] ? ps' ? [X1 X2] A']; inversion B as [|[n' v'] ? qs' ? [Y1 Y2] B']; subst; [reflexivity|].
  cbn [fst snd] in *. rewrite (urlquote_inj [] n n' _ safe_nil X1 Y1), (urlquote_inj [] v v' _ safe_nil X2 Y2). f_equal. now apply IH.
Qed.
Lemma Forall2_clean ps ks : Forall2 quoted ps ks -> Forall clean_pair ks.
Proof. induction 1 as [|? ? ? ? H _ IH]; constructor; [now apply quoted_clean in H | exact IH]. Qed.

Section Cover.
  Variables (lower upper : text -> text) (sha256 : bytes -> bytes) (hmac : bytes -> bytes -> bytes)
    (utf8_replace : bytes -> text) (async : bool).
  Hypothesis L : lowers_ascii lower.

  Lemma query_line_pairs q line : query_line utf8_replace q line ->
    exists ps qs ks, parameters utf8_replace q ps /\ Permutation ps qs /\ Forall2 quoted qs ks /\ line = join [38] (map shown ks).
  Proof.
    destruct q as [q|]; cbn [query_line].
    - intros [pairs [_ [-> [parts [P F]]]]].
      assert (H : exists ps, Forall2 (fun part nv => parameter utf8_replace part (fst nv) (snd nv))
                    (filter (fun p => negb (text_eqb p [])) (split_on 38 q)) ps /\ Forall2 quoted ps parts).
      { clear P. induction F as [|p kv l m [name [value [H1 [H2 H3]]]] F [ps [G1 G2]]].
        - exists []. now split; constructor.
        - exists ((name, value) :: ps). split; constructor; cbn [fst snd]; try assumption. split; assumption. }
      destruct H as [ps [G1 G2]]. destruct (quoted_perm _ _ P ps G2) as [qs [PQ GQ]].
      exists ps, qs, pairs. repeat split; assumption.
    - intros ->. exists [], [], []. repeat split; constructor.
  Qed.
  Lemma query_cover q q' line : query_line utf8_replace q line -> query_line utf8_replace q' line ->
    same_parameters utf8_replace q q'.
  Proof.
    intros A B. destruct (query_line_pairs _ _ A) as [ps [qs [ks [A1 [A2 [A3 A4]]]]]].
    destruct (query_line_pairs _ _ B) as [ps' [qs' [ks' [B1 [B2 [B3 B4]]]]]].
    exists ps, ps'. repeat split; try assumption.
    assert (ks = ks') as ->.
    { apply query_text_inj; [now apply Forall2_clean with qs | now apply Forall2_clean with qs' | now rewrite <- A4]. }
    rewrite (quoted_fun _ _ _ A3 B3) in A2. transitivity qs'; [exact A2 | now symmetry].
  Qed.
  Lemma query_no_lf q line : query_line utf8_replace q line -> ~ In 10 line.
  Proof.
    intros A I. destruct (query_line_pairs _ _ A) as [ps [qs [ks [_ [_ [F ->]]]]]].
    apply join_In in I. destruct I as [[I | []] | [x [I J]]]; [discriminate I|].
    apply in_map_iff in I. destruct I as [kv [<- I]].
    assert (H : Forall (fun kv => ~ In 10 (fst kv) /\ ~ In 10 (snd kv)) ks).
    { clear -F. induction F as [|? ? ? ? [H1 H2] _ IH]; constructor; [|exact IH].
      split; eapply urlquote_clean; try eassumption; first [reflexivity | discriminate | intros []]. }
    rewrite Forall_forall in H. destruct (H kv I) as [H1 H2]. unfold shown in J. apply in_app_or in J.
    destruct J as [J | [J | J]]; [now apply H1 | discriminate J | now apply H2].
  Qed.

  (** ** Header lines *)
  Definition show_line (kv : text * text) : text := fst kv ++ [58] ++ join [32] (words (snd kv)) ++ [10].
  Definition clean_line (kv : text * text) : Prop := ~ In 10 (fst kv) /\ ~ In 58 (fst kv).
  Lemma lines_inj l : forall m x y, Forall clean_line l -> Forall clean_line m ->
    List.concat (map show_line l) ++ 10 :: x = List.concat (map show_line m) ++ 10 :: y ->
    map (fun kv => (fst kv, words (snd kv))) l = map (fun kv => (fst kv, words (snd kv))) m /\ x = y.
  Proof.
    assert (H : forall kv r, clean_line kv -> show_line kv ++ r = (fst kv ++ 58 :: join [32] (words (snd kv))) ++ 10 :: r /\
                 ~ In 10 (fst kv ++ 58 :: join [32] (words (snd kv)))).
    { intros [k v] r [A _]. unfold show_line. cbn [fst snd] in *. split; [now rewrite <- !app_assoc; cbn [app]; rewrite <- ?app_assoc; cbn [app]|].
      intros I. apply in_app_or in I. destruct I as [I | [I | I]]; [now apply A | discriminate I | now apply words_no_lf in I]. }
    induction l as [|kv l IH]; intros [|kv' m] x y A B E.
    - injection E as ->. now split.
    - exfalso. inversion B as [|? ? B1 B2]; subst. cbn [map List.concat] in E. rewrite <- app_assoc in E.
      destruct (H kv' (List.concat (map show_line m) ++ 10 :: y) B1) as [R N]. rewrite R in E. change (List.concat (map show_line []) ++ 10 :: x) with ([] ++ 10 :: x) in E.
      apply sep_inj in E; [|intros []|exact N]. destruct E as [E _]. destruct (fst kv'); discriminate E.
    - exfalso. inversion A as [|? ? B1 B2]; subst. cbn [map List.concat] in E. rewrite <- app_assoc in E.
      destruct (H kv (List.concat (map show_line l) ++ 10 :: x) B1) as [R N]. rewrite R in E. change (List.concat (map show_line []) ++ 10 :: y) with ([] ++ 10 :: y) in E.
      apply sep_inj in E; [|exact N|intros []]. destruct E as [E _]. destruct (fst kv); discriminate E.
    - inversion A as [|? ? A1 A2]; inversion B as [|? ? B1 B2]; subst. cbn [map List.concat] in E. rewrite <- !app_assoc in E.
      destruct (H kv (List.concat (map show_line l) ++ 10 :: x) A1) as [R N].
      destruct (H kv' (List.concat (map show_line m) ++ 10 :: y) B1) as [R' N']. rewrite R, R' in E.
      apply sep_inj in E; [|exact N|exact N']. destruct E as [E1 E2].
      apply sep_inj in E1; [|apply A1|apply B1]. destruct E1 as [E1 E3]. apply words_join_inj in E3.
      destruct (IH m x y A2 B2 E2) as [E4 E5]. split; [|exact E5]. cbn [map]. now rewrite E1, E3, E4.
  Qed.

  Lemma values_cover r r' fs fs' lines lines' :
    r_fields r = fs -> r_fields r' = fs' ->
    signed_lines lower (r_dest r) fs lines -> signed_lines lower (r_dest r') fs' lines' ->
    map (fun kv => (fst kv, words (snd kv))) lines = map (fun kv => (fst kv, words (snd kv))) lines' -> same_values lower r r'.
  Proof.
    intros <- <- [_ A] [_ B] E. unfold same_values.
    assert (G : forall u fs ls, (forall n v, In (n, v) ls <-> (~ In n UNSIGNED /\ exists vs, header lower fs n vs /\ v = as_string vs) \/ host_line lower u fs n v) ->
       forall n ws, (exists v, signed_value lower u fs n v /\ Words v ws) <-> In (n, ws) (map (fun kv => (fst kv, words (snd kv))) ls)).
    { intros u fs ls H n ws. rewrite in_map_iff. split.
      - intros [v [S W]]. apply H in S. apply words_fun in W. exists (n, v). cbn [fst snd]. now rewrite W.
      - intros [[n' v] [E' I]]. cbn [fst snd] in E'. injection E' as -> <-. exists v. split; [now apply H | apply words_spec]. }
    intros n ws. rewrite (G _ _ _ A), (G _ _ _ B), E. reflexivity.
  Qed.

  (** ** Paths *)
  Lemma path_cover p a b path : format_canonical_path a p = Ok path -> format_canonical_path b p = Ok path -> same_path p a b.
  Proof.
    unfold format_canonical_path, same_path. change (lit "/") with [47]. destruct (get_or true (sp_encode_path p)).
    - apply urlquote_inj. intros c [<- | []]. split; [reflexivity | discriminate].
    - congruence.
  Qed.
  Lemma split_In c x s p : In p (split_on c s) -> In x p -> In x s.
  Proof.
    revert p. induction s as [|h s IH]; intros p I J; cbn [split_on] in I.
    - destruct I as [<- | []]. destruct J.
    - destruct (split_on_cons c s) as [q [qs E]]. rewrite E in *. destruct (h =? c).
      + destruct I as [<- | I]; [destruct J|]. right. now apply (IH p).
      + destruct I as [<- | I].
        * destruct J as [-> | J]; [now left|]. right. apply (IH q); [now left | exact J].
        * right. apply (IH p); [now right | exact J].
  Qed.
  Lemma remove_In c path : In c (remove_dot_segments path false) -> c = 47 \/ In c path.
  Proof.
    rewrite remove_output. intros I. apply join_In in I. destruct I as [[<- | []] | [s [I J]]]; [now left|].
    apply output_In in I. destruct I as [-> | [_ [_ I]]]; [destruct J|]. right. now apply (split_In 47 c path s).
  Qed.
  Lemma path_no_lf p r path : plain lower upper p r -> format_canonical_path (u_path (r_dest r)) p = Ok path -> ~ In 10 path.
  Proof.
    intros [_ [_ H]] E I. unfold format_canonical_path in E. destruct (sp_encode_path p) as [[]|]; cbn [get_or] in E.
    - revert I. eapply urlquote_clean; [exact E | reflexivity | intros [X | []]; discriminate X | discriminate].
    - injection E as <-. apply remove_In in I. destruct I as [I | I]; [discriminate I|]. destruct (u_path (r_dest r)) as [q|].
      + now apply (H eq_refl q).
      + destruct I as [I | []]. discriminate I.
    - revert I. eapply urlquote_clean; [exact E | reflexivity | intros [X | []]; discriminate X | discriminate].
  Qed.

  (** ** The canonical request *)
  Lemma lines_clean r fs lines : (forall n vs, header lower fs n vs -> ~ In 10 n /\ ~ In 58 n) ->
    signed_lines lower (r_dest r) fs lines -> Forall clean_line lines.
  Proof.
    intros H [_ A]. apply Forall_forall. intros [n v] I. apply A in I. unfold clean_line. cbn [fst].
    destruct I as [[_ [vs [I _]]] | [-> _]]; [now apply (H n vs)|].
    split; intros I; cbn in I; repeat destruct I as [I | I]; discriminate I || destruct I.
  Qed.
  Lemma canonical_cover p r r' payload payload' c : plain lower upper p r -> plain lower upper p r' ->
    Canonical lower upper utf8_replace p r (r_fields r) payload c ->
    Canonical lower upper utf8_replace p r' (r_fields r') payload' c ->
    agree lower upper utf8_replace p r r' /\ payload = payload'.
  Proof.
    intros P P' [path [q [ls [A1 [A2 [A3 ->]]]]]] [path' [q' [ls' [B1 [B2 [B3 E]]]]]].
    assert (Np := path_no_lf _ _ _ P A1). assert (Np' := path_no_lf _ _ _ P' B1).
    assert (Nq := query_no_lf _ _ A2). assert (Nq' := query_no_lf _ _ B2).
    assert (Cl := lines_clean _ _ _ (proj1 (proj2 P)) A3). assert (Cl' := lines_clean _ _ _ (proj1 (proj2 P')) B3).
    destruct P as [P1 _], P' as [P1' _]. cbn [app] in E.
    apply sep_inj in E; [|exact P1|exact P1']. destruct E as [E1 E].
    apply sep_inj in E; [|exact Np|exact Np']. destruct E as [-> E].
    apply sep_inj in E; [|exact Nq|exact Nq']. destruct E as [-> E].
    apply (lines_inj ls ls' _ _ Cl Cl') in E. destruct E as [E2 E].
    assert (E3 : map fst ls = map fst ls').
    { transitivity (map fst (map (fun kv => (fst kv, words (snd kv))) ls)); [rewrite map_map; reflexivity|]. rewrite E2, map_map. reflexivity. }
    rewrite E3 in E. apply app_inv_head in E. injection E as ->. split; [|reflexivity].
    split; [exact E1|]. split; [now apply path_cover with path'|]. split; [now apply query_cover with q'|].
    now apply values_cover with (r_fields r) (r_fields r') ls ls'.
  Qed.

  (** ** Signed requests *)
  Definition names_ok (fs : fields) : Prop := forall n vs, header lower fs n vs -> ~ In 10 n /\ ~ In 58 n.
  Lemma names_set name vs fs : wf_fields lower fs -> ascii name -> ~ In 10 (map lower_char name) -> ~ In 58 (map lower_char name) ->
    names_ok fs -> names_ok (set_field lower (mkField name vs) fs).
  Proof.
    intros W A B C H n ws I. apply header_set in I; [|exact W]. cbn [f_name f_values] in I.
    destruct I as [[-> _] | [_ I]]; [|now apply (H n ws)]. rewrite (L name A). now split.
  Qed.
  Lemma apply_names date i fs : wf_fields lower fs -> names_ok fs -> names_ok (apply_required_fields lower date i fs).
  Proof.
    intros W H. unfold apply_required_fields.
    set (f1 := if _ && _ then _ else _).
    assert (H1 : names_ok f1 /\ wf_fields lower f1).
    { unfold f1. destruct (_ && _)%bool; [|now split]. split; [|now apply wf_set].
      apply names_set; [exact W | repeat constructor | | | exact H]; cbn; intros I; repeat destruct I as [I | I]; discriminate I || destruct I. }
    clearbody f1. destruct H1 as [H1 W1]. destruct (i_token i) as [t|]; [|exact H1]. destruct (negb _); [|exact H1].
    apply names_set; [exact W1 | repeat constructor | | | exact H1]; cbn; intros I; repeat destruct I as [I | I]; discriminate I || destruct I.
  Qed.
  Lemma sha_names vs fs : wf_fields lower fs -> names_ok fs -> names_ok (set_field lower (mkField SHA_HEADER vs) fs).
  Proof. intros W. apply names_set; [exact W | repeat constructor | |]; cbn; intros I; repeat destruct I as [I | I]; discriminate I || destruct I. Qed.
  Lemma auth_names vs fs : wf_fields lower fs -> names_ok fs -> names_ok (set_field lower (mkField (lit "Authorization") vs) fs).
  Proof. intros W. apply names_set; [exact W | repeat constructor | |]; cbn; intros I; repeat destruct I as [I | I]; discriminate I || destruct I. Qed.
  Lemma payload_names u p b fs h fs' nb : wf_fields lower fs -> names_ok fs ->
    snd (format_canonical_payload lower sha256 async u p b fs) = Ok (h, fs', nb) -> names_ok fs'.
  Proof.
    intros W H. unfold format_canonical_payload.
    assert (G : forall X, snd (let (old, res) := compute_payload_hash sha256 u p b in
        (old, do '(payload_hash, b') <- res;
              Ok (payload_hash, if get_or false (sp_checksum p) then set_field lower (mkField SHA_HEADER [payload_hash]) fs else fs, b'))) = X ->
        X = Ok (h, fs', nb) -> names_ok fs').
    { intros X <-. destruct (compute_payload_hash sha256 u p b) as [o [[ph b0]|]]; cbn [snd bind]; [|discriminate].
      intros [= _ <- _]. destruct (get_or false (sp_checksum p)); [now apply sha_names | exact H]. }
    destruct async; [|intros E; now apply (G _ eq_refl)].
    destruct (get_field lower SHA_HEADER fs) as [[nm vs]|].
    - destruct vs as [|v [|v2 vs]]; [| intros [= _ <- _]; exact H |];
        (destruct (is_event_stream lower fs); [intros [= _ <- _]; now apply sha_names | intros E; now apply (G _ eq_refl)]).
    - destruct (is_event_stream lower fs); [intros [= _ <- _]; now apply sha_names | intros E; now apply (G _ eq_refl)].
  Qed.

  (** What [sign] makes, in terms of the specification. *)
  Lemma sign_made now i p r s : wf_fields lower (r_fields r) -> plain lower upper p r ->
    snd (sign lower upper sha256 hmac utf8_replace async now i p r) = Ok s ->
    let date := get_or now (sp_date p) in
    exists payload c sts x m key names,
      plain lower upper p s /\
      Canonical lower upper utf8_replace p s (r_fields s) payload c /\
      (async = false -> payload = payload_line sha256 (r_dest s) p (r_body s)) /\
      utf8_encode c = Ok x /\ StringToSign sha256 (sp_region p) (sp_service p) date c sts /\ utf8_encode sts = Ok m /\
      signing_key hmac (i_secret i) p date key /\
      forall v, header lower (r_fields s) (lit "authorization") [v] ->
        v = authorization_value (i_access i ++ [47] ++ scope date p) names (EventIO_Model.hexlify (hmac key m)).
  Proof.
    intros W PL E. destruct (sign_cases _ _ _ _ _ _ _ _ _ _ _ E) as [c [fs [b [sts [sig [C [S [G ->]]]]]]]]. clear E.
    set (date := get_or now (sp_date p)) in *. intros d. subst d.
    assert (W1 := apply_wf lower date i _ W).
    destruct (canonical_spec lower upper sha256 utf8_replace async L p (mkRequest (r_dest r) (r_method r) (r_body r) (apply_required_fields lower date i (r_fields r))) c fs b W1 C) as [payload [P K]]. cbn [r_dest r_body r_fields] in P.
    assert (W2 := payload_wf lower sha256 async L _ _ _ _ _ _ _ W1 P).
    destruct PL as [PL1 [PL2 PL3]].
    assert (N2 := payload_names _ _ _ _ _ _ _ W1 (apply_names date i _ W PL2) P).
    set (lines := normalize_signing_fields lower (r_dest r) fs) in *.
    set (auth := mkField (lit "Authorization") _).
    assert (SH : same_headers lower fs (set_field lower auth fs)) by (apply same_sym; now apply (same_auth lower L)).
    unfold string_to_sign in S. destruct (utf8_encode c) as [x|] eqn:Ec; [|discriminate S]. cbn [bind] in S. injection S as S.
    assert (GK : exists key m, signing_key hmac (i_secret i) p date key /\ utf8_encode sts = Ok m /\ sig = EventIO_Model.hexlify (hmac key m)).
    { unfold signature, hash in G.
      repeat match type of G with context [utf8_encode ?t] => destruct (utf8_encode t) eqn:?; cbn [bind] in G; [|discriminate G] end.
      injection G as <-. eexists _, _. split; [|split; reflexivity].
      do 4 eexists. repeat (split; [eassumption || reflexivity|]). vm_compute in Heqr4. injection Heqr4 as <-. reflexivity. }
    destruct GK as [key [m [GK [Em ->]]]].
    exists payload, c, sts, x, m, key, (map fst lines). cbn [r_dest r_body r_fields r_method].
    repeat match goal with |- _ /\ _ => split end.
    - split; [exact PL1|]. split; [|exact PL3]. cbn [r_fields]. now apply auth_names.
    - destruct K as [path [query [ls [K1 [K2 [K3 K4]]]]]]. exists path, query, ls. cbn [r_dest r_method] in *.
      split; [exact K1|]. split; [exact K2|]. split; [|exact K4]. eapply lines_respect; [exact SH | exact K3].
    - intros As. unfold format_canonical_payload in P. rewrite As in P.
      assert (CA := compute_again sha256 (r_dest r) p (r_body r)).
      destruct (compute_payload_hash sha256 (r_dest r) p (r_body r)) as [o [[ph b0]|]]; [|discriminate P].
      cbn in P. injection P as -> _ ->. specialize (CA payload b eq_refl).
      apply (compute_line sha256 (r_dest r) p b payload b). now rewrite CA.
    - exact Ec.
    - subst sts. exists x. split; [exact Ec|]. unfold scope, LF. rewrite <- !app_assoc. reflexivity.
    - exact Em.
    - exact GK.
    - intros v HV. unfold auth in HV. apply header_set in HV; [|exact W2]. cbn [f_name f_values] in HV. rewrite (auth_lower lower L) in HV.
      destruct HV as [[_ HV] | [HV _]]; [now injection HV | now elim HV].
  Qed.

  Hypothesis SB : forall x, Forall (fun b => b < 256) (sha256 x).
  Hypothesis HB : forall k x, Forall (fun b => b < 256) (hmac k x).

  Lemma authorization_inj cred names names' a b : Forall (fun b => b < 256) a -> Forall (fun b => b < 256) b ->
    authorization_value cred names (EventIO_Model.hexlify a) = authorization_value cred names' (EventIO_Model.hexlify b) -> a = b.
  Proof.
    intros A B E. unfold authorization_value in E. apply app_inv_head in E. apply app_inv_head in E. apply app_inv_head in E.
    assert (H : forall x, Forall (fun b => b < 256) x -> ~ In 61 (rev (EventIO_Model.hexlify x))).
    { intros x X I. apply in_rev in I. apply hexlify_char in I; [lia | exact X]. }
    apply (f_equal (@rev N)) in E. rewrite !rev_app_distr in E.
    change (rev (lit ", Signature=")) with (61 :: rev (lit ", Signature")) in E. rewrite <- !app_assoc in E. cbn [app] in E.
    apply sep_inj in E; [|now apply H|now apply H]. destruct E as [E _].
    apply hexlify_inj; [exact A | exact B|]. rewrite <- (rev_involutive (EventIO_Model.hexlify a)), E. apply rev_involutive.
  Qed.
  Lemma payload_digest p s s' : payload_line sha256 (r_dest s) p (r_body s) = payload_line sha256 (r_dest s') p (r_body s') ->
    same_digest sha256 p s s'.
  Proof.
    unfold payload_line, same_digest. intros E S S' NP.
    assert (X : get_or true (sp_payload_signing p) = true) by (destruct (sp_payload_signing p) as [[]|]; [reflexivity | now elim NP | reflexivity]).
    rewrite X, !andb_false_r in E.
    assert (D : forall b, streamed b -> match b with NoBody => EMPTY_SHA256_HASH | _ => EventIO_Model.hexlify (sha256 (contents b)) end = EventIO_Model.hexlify (sha256 (contents b))).
    { intros [] []; reflexivity. }
    rewrite (D _ S), (D _ S') in E. now apply hexlify_inj in E.
  Qed.
  Lemma key_fun secret p date k k' : signing_key hmac secret p date k -> signing_key hmac secret p date k' -> k = k'.
  Proof.
    intros [k0 [day [reg [svc [A [B [C [D ->]]]]]]]] [k0' [day' [reg' [svc' [A' [B' [C' [D' ->]]]]]]]].
    rewrite A in A'. rewrite B in B'. rewrite C in C'. rewrite D in D'. injection A' as <-. injection B' as <-. injection C' as <-. now injection D' as <-.
  Qed.
  Lemma sts_inj region service date c c' x x' sts : utf8_encode c = Ok x -> utf8_encode c' = Ok x' ->
    StringToSign sha256 region service date c sts -> StringToSign sha256 region service date c' sts -> sha256 x = sha256 x'.
  Proof.
    intros A B [bs [A1 ->]] [bs' [B1 E]]. rewrite A in A1. rewrite B in B1. injection A1 as <-. injection B1 as <-.
    rewrite !app_assoc in E. apply app_inv_head in E. now apply hexlify_inj.
  Qed.

  Lemma sign_covers now i p r r' s s' v : wf_fields lower (r_fields r) -> wf_fields lower (r_fields r') ->
    plain lower upper p r -> plain lower upper p r' ->
    snd (sign lower upper sha256 hmac utf8_replace async now i p r) = Ok s ->
    snd (sign lower upper sha256 hmac utf8_replace async now i p r') = Ok s' ->
    header lower (r_fields s) (lit "authorization") [v] -> header lower (r_fields s') (lit "authorization") [v] ->
    let date := get_or now (sp_date p) in
    exists x x' key m m',
      hashed lower upper sha256 utf8_replace p date s x m /\ hashed lower upper sha256 utf8_replace p date s' x' m' /\
      signing_key hmac (i_secret i) p date key /\ hmac key m = hmac key m' /\
      (m = m' -> sha256 x = sha256 x') /\
      (m = m' -> x = x' -> agree lower upper utf8_replace p s s' /\ (async = false -> same_digest sha256 p s s')).
  Proof.
    intros W W' PL PL' E E' HV HV'. intros date.
    destruct (sign_made now i p r s W PL E) as [pl [c [sts [x [m [key [names [A1 [A2 [A3 [A4 [A5 [A6 [A7 A8]]]]]]]]]]]]]].
    destruct (sign_made now i p r' s' W' PL' E') as [pl' [c' [sts' [x' [m' [key' [names' [B1 [B2 [B3 [B4 [B5 [B6 [B7 B8]]]]]]]]]]]]]].
    fold date in A5, A7, A8, B5, B7, B8. rewrite (key_fun _ _ _ _ _ B7 A7) in *.
    exists x, x', key, m, m'. repeat match goal with |- _ /\ _ => split end.
    - exists pl, c, sts. repeat split; assumption.
    - exists pl', c', sts'. repeat split; assumption.
    - exact A7.
    - apply (authorization_inj (i_access i ++ [47] ++ scope date p) names names'); [apply HB | apply HB|].
      transitivity v; [symmetry; now apply A8 | now apply B8].
    - intros <-. assert (sts = sts') as <- by now apply (utf8_encode_inj _ _ m). exact (sts_inj _ _ _ c c' x x' sts A4 B4 A5 B5).
    - intros _ <-. assert (c = c') as <- by now apply (utf8_encode_inj _ _ x).
      destruct (canonical_cover p s s' pl pl' c A1 B1 A2 B2) as [AG PE]. split; [exact AG|].
      intros AS. apply payload_digest. rewrite <- A3, <- B3 by exact AS. exact PE.
  Qed.
End Cover.
