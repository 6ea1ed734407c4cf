(** Proofs about header lists. *)
From Verif Require Import Base Base_Proofs PyText_Model PyText_Proofs Header_Model Header_Spec.
Local Open Scope N_scope.

(** Consuming up to a comma: what is before the first comma. *)
Lemma consume_plain e a b : ~ In e a ->
  consume_loop e None false false (a ++ e :: b) = (a, List.length a).
Proof.
  induction a as [|c a IH]; cbn [consume_loop app List.length]; intros H.
  - rewrite N.eqb_refl; reflexivity.
  - destruct (N.eqb_spec c e) as [->|_]; [exfalso; apply H; left; reflexivity|].
    rewrite IH by (intros Hx; apply H; right; exact Hx). reflexivity.
Qed.
Lemma consume_plain_end e a : ~ In e a ->
  consume_loop e None false false a = (a, List.length a).
Proof.
  induction a as [|c a IH]; cbn [consume_loop List.length]; intros H; [reflexivity|].
  destruct (N.eqb_spec c e) as [->|_]; [exfalso; apply H; left; reflexivity|].
  rewrite IH by (intros Hx; apply H; right; exact Hx). reflexivity.
Qed.
Lemma in_split_first c (s : text) : In c s -> exists a b, s = a ++ c :: b /\ ~ In c a.
Proof.
  induction s as [|x s IH]; intros H; [destruct H|].
  destruct (N.eq_dec x c) as [->|Hne].
  - exists [], s; split; [reflexivity|intros []].
  - destruct H as [->|H]; [congruence|]. destruct (IH H) as (a & b & -> & Ha).
    exists (x :: a), b; split; [reflexivity|]. intros [->|Hc]; [congruence|auto].
Qed.
Lemma in_dec_N c (s : text) : {In c s} + {~ In c s}.
Proof. apply in_dec, N.eq_dec. Qed.

(** Consuming a quoted body. *)
Lemma consume_quoted raw v b : QuotedBody raw v ->
  consume_loop 34 (Some 92) false false (raw ++ 34 :: b) = (v, List.length raw).
Proof.
  induction 1; cbn [consume_loop app List.length]; [reflexivity| |].
  - destruct (N.eqb_spec c 92); [congruence|]. destruct (N.eqb_spec c 34); [congruence|].
    rewrite IHQuotedBody; reflexivity.
  - rewrite N.eqb_refl, IHQuotedBody. reflexivity.
Qed.
(** Either the quoted body ends at a double quote or the text ends first. *)
Lemma consume_quoted_inv n : forall s, (List.length s <= n)%nat ->
  (exists raw v b, s = raw ++ 34 :: b /\ QuotedBody raw v) \/
  ((forall raw v b, QuotedBody raw v -> s <> raw ++ 34 :: b) /\
   snd (consume_loop 34 (Some 92) false false s) = List.length s).
Proof.
  induction n as [|n IH]; intros s Hs.
  - destruct s; [|cbn in Hs; lia]. right; split; [|reflexivity].
    intros raw v b _ H; destruct raw; discriminate.
  - destruct s as [|c s]; [right; split; [|reflexivity]; intros raw v b _ H; destruct raw; discriminate|].
    cbn [List.length] in Hs.
    destruct (N.eq_dec c 34) as [->|H34].
    { left; exists [], [], s; split; [reflexivity|constructor]. }
    destruct (N.eq_dec c 92) as [->|H92].
    + destruct s as [|d s].
      * right; split; [|reflexivity]. intros raw v b Hq H.
        destruct Hq; cbn [app] in H; try discriminate.
        injection H as H H'; congruence.
      * cbn [List.length] in Hs. destruct (IH s ltac:(lia)) as [(raw & v & b & -> & Hq)|(Hn & Hl)].
        -- left; exists (92 :: d :: raw), (d :: v), b; split; [reflexivity|constructor; exact Hq].
        -- right; split.
           ++ intros raw v b Hq H. destruct Hq; cbn [app] in H.
              ** injection H as H _; discriminate.
              ** injection H as H H'; congruence.
              ** injection H as <- H. eapply Hn; [exact Hq|exact H].
           ++ cbn [consume_loop]. rewrite N.eqb_refl.
              destruct (consume_loop 34 (Some 92) false false s) as [t k]; cbn [snd List.length] in *; lia.
    + destruct (IH s ltac:(lia)) as [(raw & v & b & -> & Hq)|(Hn & Hl)].
      * left; exists (c :: raw), (c :: v), b; split; [reflexivity|constructor; auto].
      * right; split.
        -- intros raw v b Hq H. destruct Hq; cbn [app] in H.
           ++ injection H as H _; congruence.
           ++ injection H as <- H. eapply Hn; [exact Hq|exact H].
           ++ injection H as H H'; congruence.
        -- cbn [consume_loop]. destruct (N.eqb_spec c 92); [congruence|].
           destruct (N.eqb_spec c 34); [congruence|].
           destruct (consume_loop 34 (Some 92) false false s) as [t k]; cbn [snd List.length] in *; lia.
Qed.

Lemma skipn_cons_nth {A} (l : list A) i c r : skipn i l = c :: r ->
  nth_error l i = Some c /\ skipn (S i) l = r.
Proof.
  revert l; induction i as [|i IH]; intros l; cbn [skipn].
  - intros ->; split; reflexivity.
  - destruct l as [|x l]; [discriminate|]. intros H; exact (IH l H).
Qed.
Lemma skipn_nil_nth {A} (l : list A) i : skipn i l = [] -> nth_error l i = None.
Proof.
  revert l; induction i as [|i IH]; intros l; cbn [skipn]; [intros ->; reflexivity|].
  destruct l as [|x l]; [reflexivity|]. exact (IH l).
Qed.
Lemma skipn_app_len {A} (l a b : list A) i : skipn i l = a ++ b -> skipn (i + List.length a) l = b.
Proof.
  revert i; induction a as [|x a IH]; intros i H; cbn [List.length app] in *.
  - rewrite Nat.add_0_r; exact H.
  - destruct (skipn_cons_nth _ _ _ _ H) as [_ H']. replace (i + S (List.length a))%nat with (S i + List.length a)%nat by lia.
    apply IH; exact H'.
Qed.
Lemma skipn_past {A} (l : list A) i : skipn i l = [] -> forall k, (i <= k)%nat -> skipn k l = [].
Proof.
  intros H k Hk. replace k with ((k - i) + i)%nat by lia. rewrite <- skipn_skipn, H. apply skipn_nil.
Qed.

(** The rest after an element that ends at a comma, or at the end. *)
Definition tail_of (o : option text) : text := match o with Some r => r | None => [] end.
Definition upto (a : text) (o : option text) : text :=
  match o with Some r => a ++ 44 :: r | None => a end.

Lemma consume_comma given i a o : ~ In 44 a -> skipn i given = upto a o ->
  exists j, consume_until given i COMMA None false = (a, j) /\ skipn j given = tail_of o /\ (i < j)%nat.
Proof.
  intros Ha H. unfold consume_until. rewrite H. exists (S (i + List.length a)).
  destruct o as [r|]; cbn [upto tail_of] in *.
  - unfold COMMA; rewrite consume_plain by exact Ha. split; [reflexivity|]. split; [|lia].
    apply skipn_app_len in H. destruct (skipn_cons_nth _ _ _ _ H) as [_ H']. exact H'.
  - unfold COMMA; rewrite consume_plain_end by exact Ha. split; [reflexivity|]. split; [|lia].
    apply skipn_past with (i := (i + List.length a)%nat); [|lia].
    rewrite <- (app_nil_r a) in H. apply skipn_app_len in H. exact H.
Qed.
Lemma comma_cases (s : text) : exists a o, s = upto a o /\ ~ In 44 a.
Proof.
  destruct (in_dec_N 44 s) as [H|H].
  - destruct (in_split_first _ _ H) as (a & b & -> & Ha). exists a, (Some b); auto.
  - exists s, None; auto.
Qed.

(** The loop of [split_header], one iteration at a time, in terms of the text
    that is left. *)
Lemma loop_end fuel given d i : skipn i given = [] -> split_loop (S fuel) given d i = Ok [].
Proof. intros H; cbn [split_loop]. rewrite (skipn_nil_nth _ _ H). reflexivity. Qed.
Lemma loop_space fuel given d i c r : skipn i given = c :: r -> is_space c = true ->
  split_loop (S fuel) given d i = split_loop fuel given d (S i).
Proof.
  intros H Hc; cbn [split_loop]. destruct (skipn_cons_nth _ _ _ _ H) as [E _].
  rewrite E, Hc; reflexivity.
Qed.
Lemma loop_plain fuel given i c a o : skipn i given = upto (c :: a) o -> ~ In 44 (c :: a) ->
  is_space c = false -> c <> 34 ->
  exists j, skipn j given = tail_of o /\ (i < j)%nat /\
  split_loop (S fuel) given false i =
    (do vs <- split_loop fuel given false j;
     match strip (c :: a) with [] => Ok vs | s => Ok (s :: vs) end).
Proof.
  intros H Ha Hc Hq. destruct (consume_comma given i (c :: a) o Ha H) as (j & Ej & Hj & Hij).
  exists j; split; [exact Hj|]; split; [exact Hij|].
  cbn [split_loop].
  assert (E : exists r, skipn i given = c :: r) by (destruct o; rewrite H; cbn [upto app]; eauto).
  destruct E as (r & E). destruct (skipn_cons_nth _ _ _ _ E) as [E1 _].
  rewrite E1, Hc. unfold DQUOTE. destruct (N.eqb_spec c 34); [congruence|].
  rewrite Ej. reflexivity.
Qed.
(** A comma right away: an empty element. *)
Lemma loop_comma fuel given i r : skipn i given = 44 :: r ->
  exists j, skipn j given = r /\ (i < j)%nat /\
  split_loop (S fuel) given false i = split_loop fuel given false j.
Proof.
  intros H. destruct (consume_comma given i [] (Some r)) as (j & Ej & Hj & Hij); [intros []|exact H|].
  exists j; split; [exact Hj|]; split; [exact Hij|].
  destruct (skipn_cons_nth _ _ _ _ H) as [E1 _].
  cbn [split_loop]. rewrite E1. cbn. rewrite Ej.
  change (strip []) with (@nil N). destruct (split_loop fuel given false j); reflexivity.
Qed.
Lemma nth_of_skipn (l : text) i c r : skipn i l = c :: r -> nth i l 0 = c.
Proof.
  intros H. destruct (skipn_cons_nth _ _ _ _ H) as [E _]. apply nth_error_nth; exact E.
Qed.
Lemma skipn_len_lt {A} (l : list A) i c r : skipn i l = c :: r -> (i < List.length l)%nat.
Proof.
  intros H. destruct (skipn_cons_nth _ _ _ _ H) as [E _]. apply nth_error_Some; congruence.
Qed.
Lemma loop_quoted fuel given d i raw v a o : skipn i given = 34 :: raw ++ 34 :: upto a o ->
  QuotedBody raw v -> ~ In 44 a ->
  exists j, skipn j given = tail_of o /\ (i < j)%nat /\
  split_loop (S fuel) given d i =
    match strip a with
    | [] => do vs <- split_loop fuel given d j; Ok (v :: vs)
    | _ => Err SmithyErr
    end.
Proof.
  intros H Hq Ha. destruct (skipn_cons_nth _ _ _ _ H) as [E1 H1].
  pose proof (skipn_app_len _ _ _ _ H1) as H2.
  destruct (skipn_cons_nth _ _ _ _ H2) as [E2 H3].
  destruct (consume_comma given _ a o Ha H3) as (j & Ej & Hj & Hij).
  exists j; split; [exact Hj|]; split; [lia|].
  assert (Ec : consume_until given (S i) DQUOTE (Some BACKSLASH) false = (v, S (S i + List.length raw))).
  { unfold consume_until. rewrite H1. unfold DQUOTE, BACKSLASH.
    rewrite (consume_quoted raw v _ Hq). reflexivity. }
  cbn [split_loop]. rewrite E1. change (is_space 34) with false. cbv iota.
  change (34 =? DQUOTE) with true. cbv iota.
  rewrite Ec. pose proof (skipn_len_lt _ _ _ _ H2) as Hlt.
  destruct (Nat.ltb_spec (List.length given) (S (S i + List.length raw))); [lia|].
  replace (S (S i + List.length raw) - 1)%nat with (S i + List.length raw)%nat by lia.
  rewrite (nth_of_skipn _ _ _ _ H2). change (34 =? DQUOTE) with true. cbn [negb orb].
  rewrite Ej. reflexivity.
Qed.
Lemma loop_unclosed fuel given d i r : skipn i given = 34 :: r ->
  (forall raw v b, QuotedBody raw v -> r <> raw ++ 34 :: b) ->
  split_loop (S fuel) given d i = Err SmithyErr.
Proof.
  intros H Hn. destruct (skipn_cons_nth _ _ _ _ H) as [E1 H1].
  cbn [split_loop]. rewrite E1. change (is_space 34) with false. cbv iota.
  change (34 =? DQUOTE) with true. cbv iota. unfold consume_until.
  rewrite H1. unfold DQUOTE at 1, BACKSLASH.
  destruct (consume_quoted_inv _ r (le_n _)) as [(raw & v & b & E & Hq)|(_ & Hl)].
  - exfalso; eapply Hn; eassumption.
  - destruct (consume_loop 34 (Some 92) false false r) as [t k]; cbn [snd] in Hl. subst k.
    assert (L : (List.length given <= S i + List.length r)%nat).
    { rewrite <- H1, skipn_length. lia. }
    destruct (Nat.ltb_spec (List.length given) (S (S i + List.length r))); [reflexivity|lia].
Qed.

Lemma upto_length a o : List.length (upto a o) = (List.length a + match o with Some r => S (List.length r) | None => 0 end)%nat.
Proof. destruct o; cbn [upto]; [rewrite app_length; reflexivity|lia]. Qed.
Lemma tail_le a o : (List.length (tail_of o) <= List.length (upto a o))%nat.
Proof. rewrite upto_length; destruct o; cbn [tail_of List.length]; lia. Qed.

Lemma blank_nil : blank []. Proof. intros c []. Qed.
Lemma blank_cons c s : is_space c = true -> blank s -> blank (c :: s).
Proof. intros H Hs x [<-|Hx]; auto. Qed.
Lemma blank_no_comma s : blank s -> ~ In 44 s.
Proof. intros H Hc. specialize (H _ Hc). discriminate. Qed.
Lemma strip_blank s : strip s = [] <-> blank s.
Proof. apply strip_by_nil. Qed.

(** A header list that starts with white space. *)
Lemma element_space c e vs : is_space c = true -> Element e vs -> Element (c :: e) vs.
Proof.
  intros Hc He. destruct He.
  - constructor; apply blank_cons; auto.
  - change (c :: w ++ [34] ++ raw ++ [34] ++ w') with ((c :: w) ++ [34] ++ raw ++ [34] ++ w').
    constructor; auto. apply blank_cons; auto.
  - change (c :: w ++ v ++ w') with ((c :: w) ++ v ++ w').
    constructor; auto. apply blank_cons; auto.
Qed.
Lemma hl_space c s vs : is_space c = true -> HeaderList s vs -> HeaderList (c :: s) vs.
Proof.
  intros Hc Hs. destruct Hs.
  - constructor; apply element_space; auto.
  - change (c :: e ++ [44] ++ rest) with ((c :: e) ++ [44] ++ rest).
    apply HL_more; auto. apply element_space; auto.
Qed.
Lemma hl_upto e vs o ws : Element e vs -> (o = None -> ws = []) ->
  (forall r, o = Some r -> HeaderList r ws) -> HeaderList (upto e o) (vs ++ ws).
Proof.
  intros He Hn Hs. destruct o as [r|]; cbn [upto].
  - change (44 :: r) with ([44] ++ r). apply HL_more; auto.
  - rewrite Hn, app_nil_r by reflexivity. constructor; exact He.
Qed.

Lemma tail_list o ws : HeaderList (tail_of o) ws -> (o = None -> ws = []).
Proof.
  intros H ->. cbn [tail_of] in H. inversion H as [e vs He|e vs r w He Hr E]; subst.
  - inversion He; subst; try reflexivity.
    + destruct w; discriminate.
    + destruct w; [|discriminate]. destruct v; [congruence|discriminate].
  - destruct e; discriminate.
Qed.

(** Soundness and exactness of errors, together: the loop returns the values
    of the list, or there is no list. *)
Lemma split_loop_sound n : forall given i fuel, (List.length (skipn i given) <= n)%nat -> (n < fuel)%nat ->
  (exists vs, split_loop fuel given false i = Ok vs /\ HeaderList (skipn i given) vs) \/
  split_loop fuel given false i = Err SmithyErr.
Proof.
  induction n as [n IH] using lt_wf_ind; intros given i fuel Hn Hf.
  destruct fuel as [|fuel]; [lia|].
  destruct (skipn i given) as [|c r] eqn:E.
  { left; exists []; split; [apply loop_end; exact E|constructor; constructor; apply blank_nil]. }
  cbn [List.length] in Hn.
  assert (IH' : forall j, (List.length (skipn j given) <= List.length r)%nat ->
    (exists vs, split_loop fuel given false j = Ok vs /\ HeaderList (skipn j given) vs) \/
    split_loop fuel given false j = Err SmithyErr).
  { intros j Hj. apply (IH (List.length (skipn j given))); lia. }
  destruct (is_space c) eqn:Hs.
  { rewrite (loop_space _ _ _ _ _ _ E Hs). destruct (skipn_cons_nth _ _ _ _ E) as [_ E1].
    destruct (IH' (S i)) as [(vs & -> & Hv)| ->]; [rewrite E1; lia| |right; reflexivity].
    rewrite E1 in Hv. left; exists vs; split; [reflexivity|apply hl_space; auto]. }
  destruct (N.eq_dec c 34) as [->|Hq].
  { destruct (consume_quoted_inv _ r (le_n _)) as [(raw & v & b & -> & Hqb)|(Hno & _)].
    2: { right; apply loop_unclosed with (r := r); auto. }
    destruct (comma_cases b) as (a & o & -> & Ha).
    destruct (loop_quoted fuel given false i raw v a o E Hqb Ha) as (j & Hj & _ & ->).
    destruct (strip a) eqn:Es; [|right; reflexivity].
    apply strip_blank in Es.
    destruct (IH' j) as [(vs & -> & Hv)| ->]; cbn [bind]; [|left|right; reflexivity].
    - rewrite Hj, app_length. cbn [List.length]. pose proof (tail_le a o). lia.
    - exists (v :: vs); split; [reflexivity|]. rewrite Hj in Hv.
      change (v :: vs) with ([v] ++ vs).
      replace (34 :: raw ++ 34 :: upto a o) with (upto ([] ++ [34] ++ raw ++ [34] ++ a) o).
      2: { destruct o; cbn [upto app]; [|reflexivity]. f_equal. rewrite <- !app_assoc. reflexivity. }
      apply hl_upto.
      + constructor; auto using blank_nil.
      + apply tail_list; exact Hv.
      + intros r0 ->; exact Hv. }
  destruct (N.eq_dec c 44) as [->|Hc].
  { destruct (loop_comma fuel given i r E) as (j & Hj & _ & ->).
    destruct (IH' j) as [(vs & -> & Hv)| ->]; [rewrite Hj; lia| |right; reflexivity].
    left; exists vs; split; [reflexivity|]. rewrite Hj in Hv.
    change (44 :: r) with ([] ++ [44] ++ r). change vs with ([] ++ vs).
    apply HL_more; [constructor; apply blank_nil|exact Hv]. }
  destruct (comma_cases r) as (a & o & -> & Ha).
  assert (E' : skipn i given = upto (c :: a) o) by (destruct o; exact E).
  assert (Ha' : ~ In 44 (c :: a)) by (intros [->|Hx]; [congruence|auto]).
  destruct (loop_plain fuel given i c a o E' Ha' Hs Hq) as (j & Hj & _ & ->).
  destruct (IH' j) as [(vs & -> & Hv)| ->]; cbn [bind]; [|left|right; reflexivity].
  - rewrite Hj. apply tail_le.
  - rewrite Hj in Hv.
    destruct (strip (c :: a)) as [|y ys] eqn:Es.
    { apply strip_blank in Es. specialize (Es c (or_introl eq_refl)). congruence. }
    exists ((y :: ys) :: vs); split; [reflexivity|].
    replace (c :: upto a o) with (upto (c :: a) o) by (destruct o; reflexivity).
    change ((y :: ys) :: vs) with ([y :: ys] ++ vs).
    apply hl_upto; [|apply tail_list; exact Hv|intros r0 ->; exact Hv].
    destruct (strip_by_split is_space (c :: a)) as (w & w' & Ew & Hw & Hw').
    fold (strip (c :: a)) in Ew. rewrite Es in Ew.
    assert (w = []).
    { destruct w as [|z w]; [reflexivity|]. cbn [app] in Ew. injection Ew as -> _.
      specialize (Hw z (or_introl eq_refl)). congruence. }
    subst w. rewrite Ew. constructor; auto using blank_nil.
    + split.
      * intros z zr Hz. rewrite Hz in Es. eapply strip_by_first; exact Es.
      * intros zr z Hz. rewrite Hz in Es. eapply strip_by_last; exact Es.
    + discriminate.
    + intros Hin. apply Ha'. rewrite Ew. cbn [app]. apply in_or_app with (l := y :: ys); left; exact Hin.
    + intros zr Hz. cbn [app] in Ew. injection Ew as -> _. congruence.
Qed.

(** Completeness: every list is read. *)
Lemma loop_blank w : forall fuel given d i s, skipn i given = w ++ s -> blank w ->
  (List.length (w ++ s) < fuel)%nat ->
  exists fuel', (List.length s < fuel')%nat /\ skipn (i + List.length w) given = s /\
  split_loop fuel given d i = split_loop fuel' given d (i + List.length w).
Proof.
  induction w as [|c w IH]; intros fuel given d i s H Hb Hf; cbn [app List.length] in *.
  - exists fuel; rewrite Nat.add_0_r; auto.
  - destruct fuel as [|fuel]; [lia|].
    rewrite (loop_space _ _ _ _ _ _ H (Hb c (or_introl eq_refl))).
    destruct (skipn_cons_nth _ _ _ _ H) as [_ H'].
    destruct (IH fuel given d (S i) s H') as (f' & Hf' & Hs & ->).
    + intros x Hx; apply Hb; right; exact Hx.
    + lia.
    + exists f'. replace (i + S (List.length w))%nat with (S i + List.length w)%nat by lia. auto.
Qed.

Lemma element_loop e vs : Element e vs -> forall o given i fuel, skipn i given = upto e o ->
  (List.length (upto e o) < fuel)%nat ->
  exists j fuel', skipn j given = tail_of o /\ (List.length (tail_of o) < fuel')%nat /\
  split_loop fuel given false i = (do ws <- split_loop fuel' given false j; Ok (vs ++ ws)).
Proof.
  assert (Hid : forall r : result (list text), r = (do ws <- r; Ok ([] ++ ws))) by (intros [?|?]; reflexivity).
  intros He o given i fuel H Hf. destruct He.
  - replace (upto s o) with (s ++ upto [] o) in * by (destruct o; cbn [upto]; [reflexivity|apply app_nil_r]).
    destruct (loop_blank s fuel given false i _ H H0 Hf) as (f' & Hf' & Hs & ->).
    destruct o as [r|]; cbn [upto app tail_of] in *.
    + destruct f' as [|f']; [lia|]. destruct (loop_comma f' given _ r Hs) as (j & Hj & _ & ->).
      exists j, f'; split; [exact Hj|]. split; [cbn [List.length] in Hf'; lia|apply Hid].
    + exists (i + List.length s)%nat, f'; split; [exact Hs|]. split; [exact Hf'|apply Hid].
  - replace (upto (w ++ [34] ++ raw ++ [34] ++ w') o) with (w ++ 34 :: raw ++ 34 :: upto w' o) in *
      by (destruct o; cbn [upto app]; [rewrite <- !app_assoc; cbn [app]; rewrite <- !app_assoc|]; reflexivity).
    destruct (loop_blank w fuel given false i _ H H0 Hf) as (f' & Hf' & Hs & ->).
    destruct f' as [|f']; [lia|].
    destruct (loop_quoted f' given false _ raw v w' o Hs H2 (blank_no_comma _ H1)) as (j & Hj & _ & ->).
    apply strip_blank in H1; rewrite H1.
    exists j, f'; split; [exact Hj|]. split; [|reflexivity].
    cbn [List.length] in Hf'. rewrite app_length in Hf'; cbn [List.length] in Hf'. pose proof (tail_le w' o). lia.
  - replace (upto (w ++ v ++ w') o) with (w ++ upto (v ++ w') o) in *
      by (destruct o; cbn [upto]; rewrite <- ?app_assoc; reflexivity).
    destruct (loop_blank w fuel given false i _ H H0 Hf) as (f' & Hf' & Hs & ->).
    destruct v as [|c v]; [congruence|]. cbn [app] in *.
    destruct f' as [|f']; [lia|].
    destruct (loop_plain f' given (i + List.length w) c (v ++ w') o) as (j & Hj & _ & ->).
    + exact Hs.
    + intros [->|Hx]; [apply H4; left; reflexivity|]. apply in_app_or in Hx; destruct Hx as [Hx|Hx].
      * apply H4; right; exact Hx.
      * apply (blank_no_comma _ H1 Hx).
    + eapply (proj1 H2); reflexivity.
    + intros ->; eapply H5; reflexivity.
    + exists j, f'; split; [exact Hj|]. split.
      * rewrite upto_length in Hf'. cbn [List.length] in Hf'. destruct o; cbn [tail_of List.length]; lia.
      * assert (Es : strip (c :: v ++ w') = c :: v).
        { change (c :: v ++ w') with ([] ++ (c :: v) ++ w'). destruct H2 as [Hf1 Hl1].
          apply strip_by_mid; auto. }
        rewrite Es. reflexivity.
Qed.
Lemma split_loop_complete s vs : HeaderList s vs -> forall given i fuel, skipn i given = s ->
  (List.length s < fuel)%nat -> split_loop fuel given false i = Ok vs.
Proof.
  induction 1; intros given i fuel E Hf.
  - destruct (element_loop e vs H None given i fuel E Hf) as (j & f' & Hj & Hf' & ->).
    destruct f' as [|f']; [lia|]. rewrite (loop_end _ _ _ _ Hj). cbn [bind]. rewrite app_nil_r; reflexivity.
  - destruct (element_loop e vs H (Some rest) given i fuel E Hf) as (j & f' & Hj & Hf' & ->).
    cbn [tail_of] in *. rewrite (IHHeaderList given j f' Hj Hf'). reflexivity.
Qed.

Theorem split_header_exact s vs : split_header s false = Ok vs <-> HeaderList s vs.
Proof.
  unfold split_header. split.
  - intros H. destruct (split_loop_sound _ s 0 (S (List.length s)) (le_n _)) as [(ws & E & Hw)|E];
      [cbn [skipn]; lia| |]; rewrite H in E.
    + injection E as <-. exact Hw.
    + discriminate.
  - intros H. apply split_loop_complete with (s := s); auto.
Qed.
Theorem split_header_error s : (forall vs, ~ HeaderList s vs) <-> split_header s false = Err SmithyErr.
Proof.
  split.
  - intros H. destruct (split_loop_sound _ s 0 (S (List.length s)) (le_n _)) as [(ws & E & Hw)|E];
      [cbn [skipn]; lia| |exact E].
    exfalso; eapply H; exact Hw.
  - intros H vs Hl. apply split_header_exact in Hl. congruence.
Qed.

(** Writing a list. *)
Lemma escape_body v :
  QuotedBody (replace_char DQUOTE [BACKSLASH; DQUOTE] (replace_char BACKSLASH [BACKSLASH; BACKSLASH] v)) v.
Proof.
  unfold replace_char, DQUOTE, BACKSLASH. induction v as [|c v IH]; cbn [flat_map]; [constructor|].
  destruct (N.eqb_spec c 92) as [->|H92].
  - cbn [app flat_map]. change (92 =? 34) with false. cbn [app]. constructor; exact IH.
  - cbn [app flat_map]. destruct (N.eqb_spec c 34) as [->|H34].
    + cbn [app]. constructor; exact IH.
    + cbn [app]. constructor; auto.
Qed.
Lemma quotes_spec v : existsb (fun c => (c =? COMMA) || (c =? DQUOTE)) v = true <-> needs_quotes v.
Proof.
  rewrite existsb_exists. unfold needs_quotes, COMMA, DQUOTE. split.
  - intros (x & Hx & E). apply orb_true_iff in E; rewrite !N.eqb_eq in E. destruct E; subst; auto.
  - intros [H|H]; eexists; split; try exact H; reflexivity.
Qed.
Lemma element_written w v : blank w -> survives v -> Element (w ++ quote_and_escape v) [v].
Proof.
  intros Hw Hv. unfold quote_and_escape.
  destruct (existsb (fun c => (c =? COMMA) || (c =? DQUOTE)) v) eqn:E.
  - cbv zeta. unfold DQUOTE at 1 4.
    replace (w ++ [34] ++ replace_char DQUOTE [BACKSLASH; DQUOTE] (replace_char BACKSLASH [BACKSLASH; BACKSLASH] v) ++ [34])
      with (w ++ [34] ++ replace_char DQUOTE [BACKSLASH; DQUOTE] (replace_char BACKSLASH [BACKSLASH; BACKSLASH] v) ++ [34] ++ [])
      by reflexivity.
    constructor; auto using blank_nil, escape_body.
  - assert (Hn : ~ needs_quotes v) by (intros H; apply quotes_spec in H; congruence).
    destruct Hv as [Hv|[Hne Ht]]; [contradiction|].
    rewrite <- (app_nil_r v) at 1. constructor; auto using blank_nil.
    + intros H; apply Hn; left; exact H.
    + intros r ->; apply Hn; right; left; reflexivity.
Qed.
Lemma joined_list w vs : blank w -> vs <> [] -> Forall survives vs ->
  HeaderList (w ++ join [COMMA; 32] (map quote_and_escape vs)) vs.
Proof.
  revert w; induction vs as [|v vs IH]; intros w Hw Hne Hv; [congruence|].
  inversion Hv as [|? ? Hv1 Hv2]; subst. destruct vs as [|v' vs].
  - cbn [map join]. constructor. apply element_written; auto.
  - cbn [map]. rewrite join_cons2.
    replace (w ++ quote_and_escape v ++ [COMMA; 32] ++ join [COMMA; 32] (quote_and_escape v' :: map quote_and_escape vs))
      with ((w ++ quote_and_escape v) ++ [44] ++ ([32] ++ join [COMMA; 32] (map quote_and_escape (v' :: vs))))
      by (rewrite <- !app_assoc; reflexivity).
    change (v :: v' :: vs) with ([v] ++ v' :: vs). apply HL_more.
    + apply element_written; auto.
    + apply IH; [|discriminate|exact Hv2]. intros c [<-|[]]; reflexivity.
Qed.
Theorem list_roundtrip vs : (2 <= List.length vs)%nat -> Forall survives vs ->
  split_header (as_string vs) false = Ok vs.
Proof.
  intros Hl Hv. apply split_header_exact.
  destruct vs as [|v [|v' vs]]; cbn [List.length] in Hl; try lia.
  change (as_string (v :: v' :: vs)) with (join [COMMA; 32] (map quote_and_escape (v :: v' :: vs))).
  apply (joined_list []); auto using blank_nil. discriminate.
Qed.

(** HTTP dates. *)
Lemma consume_date a b o : ~ In 44 a -> ~ In 44 b ->
  consume_loop 44 None true false (upto (a ++ 44 :: b) o) = (a ++ 44 :: b, List.length (a ++ 44 :: b)).
Proof.
  intros Ha Hb. induction a as [|c a IH].
  - cbn [app]. destruct o as [r|]; cbn [upto app consume_loop List.length]; rewrite N.eqb_refl.
    + rewrite consume_plain by exact Hb. reflexivity.
    + rewrite consume_plain_end by exact Hb. reflexivity.
  - assert (Ec : (c =? 44) = false) by (apply N.eqb_neq; intros ->; apply Ha; left; reflexivity).
    destruct o as [r|]; cbn [upto app consume_loop List.length] in *; rewrite Ec, IH; auto;
      intros Hx; apply Ha; right; exact Hx.
Qed.
Lemma dates_loop vs : Forall date_like vs -> vs <> [] -> forall w given i fuel,
  skipn i given = w ++ join [COMMA; 32] vs -> blank w ->
  Nat.lt (List.length (w ++ join [COMMA; 32] vs)) fuel ->
  split_loop fuel given true i = Ok vs.
Proof.
  induction 1 as [|v vs Hv Hvs IH]; intros Hne w given i fuel E Hw Hf; [congruence|].
  destruct (loop_blank w fuel given true i _ E Hw Hf) as (f' & Hf' & Hs & ->).
  destruct f' as [|f']; [lia|].
  destruct Hv as (a & b & -> & Hane & Ha & Hb & Hq & Ht).
  set (v := a ++ [44] ++ b) in *.
  assert (Hjoin : exists o, join [COMMA; 32] (v :: vs) = upto v o /\
     ((vs = [] /\ o = None) \/ (vs <> [] /\ o = Some ([32] ++ join [COMMA; 32] vs)))).
  { destruct vs as [|v' vs]; [exists None; cbn [upto join]; auto|].
    exists (Some ([32] ++ join [COMMA; 32] (v' :: vs))). split; [reflexivity|right; split; [discriminate|reflexivity]]. }
  destruct Hjoin as (o & Ej & Ho). unfold text in *. rewrite Ej in Hs, Hf'. clear E Hf.
  destruct a as [|c a']; [congruence|].
  assert (Ec : nth_error given (i + List.length w) = Some c).
  { subst v. destruct o; cbn [upto app] in Hs; apply skipn_cons_nth in Hs; apply Hs. }
  assert (Hsp : is_space c = false) by (eapply (proj1 Ht); subst v; reflexivity).
  assert (Hdq : (c =? DQUOTE) = false) by (apply N.eqb_neq; intros ->; apply (Hq a'); reflexivity).
  assert (Est : strip v = v).
  { rewrite <- (app_nil_l v) at 1. rewrite <- (app_nil_r v) at 1.
    apply strip_by_mid; [intros x []|intros x []|apply Ht|apply Ht]. }
  cbn [split_loop]. rewrite Ec, Hsp, Hdq. unfold consume_until. rewrite Hs.
  assert (Ecl : consume_loop COMMA None true false (upto v o) = (v, List.length v)).
  { subst v. unfold COMMA. change ((c :: a') ++ [44] ++ b) with ((c :: a') ++ 44 :: b). apply consume_date; auto. }
  rewrite Ecl. rewrite Est.
  destruct Ho as [(-> & ->)|(Hne' & ->)]; cbn [upto] in *.
  - assert (Hend : skipn (S (i + List.length w + List.length v)) given = []).
    { apply skipn_past with (i := (i + List.length w + List.length v)%nat); [|lia].
      rewrite <- (app_nil_r v) in Hs at 1. apply skipn_app_len in Hs. exact Hs. }
    assert (List.length v <> 0)%nat by (subst v; cbn [app List.length]; lia).
    destruct f' as [|f']; [cbn [List.length] in Hf'; lia|].
    rewrite (loop_end _ _ _ _ Hend). cbn [bind]. subst v; reflexivity.
  - apply skipn_app_len in Hs. destruct (skipn_cons_nth _ _ _ _ Hs) as [_ Hs'].
    rewrite (IH Hne' [32] given _ f' Hs').
    + cbn [bind]. subst v; reflexivity.
    + intros x [<-|[]]; reflexivity.
    + cbn [app] in *. rewrite app_length in Hf'. cbn [List.length] in *. lia.
Qed.
Theorem dates_roundtrip vs : Forall date_like vs -> vs <> [] ->
  split_header (join [COMMA; 32] vs) true = Ok vs.
Proof.
  intros H Hne. unfold split_header. apply (dates_loop vs H Hne []); [reflexivity|apply blank_nil|].
  cbn [app]. lia.
Qed.
