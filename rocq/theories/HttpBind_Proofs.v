(** Every member goes to its place. *)
From Verif Require Import Base Base_Proofs Utf8_Model PyText_Model PySort_Model PyDict_Model PyDict_Proofs Fields_Model Fields_Proofs Http_Model Http_Spec Http_Proofs HttpPath_Proofs HttpVal_Model HttpVal_Spec HttpBind_Model HttpBind_Spec.
From Verif Require Fields_Props Http_Props.

(** ** The matcher *)
Definition binding_of (p : place) : binding :=
  match p with
  | AtHeader _ => HEADER | AtHeaders _ => PREFIX_HEADERS | AtQuery _ => QUERY | AtQueries => QUERY_PARAMS
  | AtPath => LABEL | AtHost => HOST | AtStatus => STATUS | AsPayload => PAYLOAD | InBody => BODY
  end.
Definition named (m : member) (p : place) : Prop :=
  match p with
  | AtHeader k => m_header m = Some k
  | AtHeaders k => m_prefix m = Some k
  | AtQuery k => m_query m = Some k
  | _ => True
  end.
Ltac traits :=
  repeat match goal with
  | H : context [if_set ?b _] |- _ => is_var b; destruct b
  | H : context [if_some _ ?o] |- _ => is_var o; destruct o
  end.
Lemma request_placed m p : placed (request_places m) p -> request_match m = binding_of p /\ named m p.
Proof.
  unfold placed, request_places, request_match, named.
  destruct m as [nm sh lb qu qp hd pf pl ho st sr rl md ts].
  cbn [m_label m_query m_query_params m_header m_prefix m_payload m_host m_status].
  intros H. destruct pl, ho, pf, hd, qp, qu, lb; cbn in H;
    (destruct H as [H|[H E]]; [try discriminate H; injection H as <-; cbn; auto | try discriminate H; subst p; cbn; auto]).
Qed.
Lemma response_placed m p : placed (response_places m) p -> response_match m = binding_of p /\ named m p.
Proof.
  unfold placed, response_places, response_match, named.
  destruct m as [nm sh lb qu qp hd pf pl ho st sr rl md ts].
  cbn [m_label m_query m_query_params m_header m_prefix m_payload m_host m_status].
  intros H. destruct pl, pf, hd, st; cbn in H;
    (destruct H as [H|[H E]]; [try discriminate H; injection H as <-; cbn; auto | try discriminate H; subst p; cbn; auto]).
Qed.
Lemma response_no_query m p : placed (response_places m) p -> match p with AtQuery _ | AtQueries | AtPath | AtHost => False | _ => True end.
Proof.
  unfold placed, response_places. intros H.
  destruct (m_payload m), (m_prefix m), (m_header m), (m_status m); cbn in H;
    (destruct H as [H|[H E]]; [try discriminate H; injection H as <-; exact I | try discriminate H; subst p; exact I]).
Qed.
Lemma request_no_status m p : placed (request_places m) p -> p <> AtStatus.
Proof.
  unfold placed, request_places. intros H ->.
  destruct (m_payload m), (m_host m), (m_prefix m), (m_header m), (m_query_params m), (m_query m), (m_label m);
    cbn in H; (destruct H as [H|[H E]]; discriminate).
Qed.

Definition is_events (m : member) : bool := m_streaming m && match m_shape m with ShUnion => true | _ => false end.
Lemma is_events_spec m : is_events m = true <-> is_event_stream m.
Proof.
  unfold is_events, is_event_stream. rewrite andb_true_iff. destruct (m_shape m); split; intros [A B]; split; auto; discriminate.
Qed.
Definition is_pl (b : binding) : bool := match b with PAYLOAD => true | _ => false end.
Definition is_bd (b : binding) : bool := match b with BODY | HOST => true | _ => false end.

Lemma scan_spec f ms : forall i a, let r := scan f i ms a in
  b_bindings r = b_bindings a ++ map f ms /\
  b_has_body r = b_has_body a || existsb (fun m => is_bd (f m)) ms /\
  b_has_payload r = b_has_payload a || existsb (fun m => is_pl (f m)) ms /\
  match b_payload r with
  | Some (j, m) => b_payload a = Some (j, m) \/ exists n, j = (i + n)%nat /\ nth_error ms n = Some m /\ is_pl (f m) = true
  | None => b_payload a = None /\ forall m, In m ms -> is_pl (f m) = false
  end /\
  match b_events r with
  | Some (j, m) => b_events a = Some (j, m) \/ In m ms /\ is_events m = true
  | None => b_events a = None /\ forall m, In m ms -> is_events m = false
  end.
Proof.
  induction ms as [|m ms IH]; intros i a; cbn [scan map existsb].
  - rewrite !orb_false_r, app_nil_r. repeat (split; [reflexivity|]). split.
    + destruct (b_payload a) as [[j m]|]; [now left|]. split; [reflexivity|intros m []].
    + destruct (b_events a) as [[j m]|]; [now left|]. split; [reflexivity|intros m []].
  - match goal with |- context [scan f (S i) ms ?x] => destruct (IH (S i) x) as (A & B & C & D & E); set (r := scan f (S i) ms x) in * end.
    cbn zeta. rewrite A, B, C. cbn [b_bindings b_has_body b_has_payload b_payload b_events] in *.
    split; [now rewrite <- app_assoc|].
    split; [unfold is_bd at 2; destruct (b_has_body a), (f m); reflexivity|].
    split; [unfold is_pl at 2; destruct (b_has_payload a), (f m); reflexivity|].
    split.
    + destruct (b_payload r) as [[j m']|].
      * destruct D as [D|(n & -> & N1 & N2)].
        -- fold (is_pl (f m)) in D. destruct (is_pl (f m)) eqn:P.
           ++ injection D as <- <-. right. exists 0%nat. rewrite Nat.add_0_r. repeat split; auto.
           ++ left. exact D.
        -- right. exists (S n). split; [lia|]. split; auto.
      * fold (is_pl (f m)) in D. destruct D as [D1 D2]. destruct (is_pl (f m)) eqn:P; [discriminate D1|].
        split; [exact D1|]. intros x [<-|X]; auto.
    + destruct (b_events r) as [[j m']|].
      * fold (is_events m) in E. destruct E as [E|[E1 E2]].
        -- destruct (is_events m) eqn:P; [injection E as <- <-; right; split; [now left|exact P]|now left].
        -- right. split; [now right|exact E2].
      * fold (is_events m) in E. destruct E as [E1 E2]. destruct (is_events m) eqn:P; [discriminate E1|].
        split; [exact E1|]. intros x [<-|X]; auto.
Qed.
Lemma matcher_spec f ms : let b := make_matcher f ms in
  b_bindings b = map f ms /\
  b_has_body b = existsb (fun m => is_bd (f m)) ms /\
  b_has_payload b = existsb (fun m => is_pl (f m)) ms /\
  match b_payload b with
  | Some (j, m) => nth_error ms j = Some m /\ is_pl (f m) = true
  | None => forall m, In m ms -> is_pl (f m) = false
  end /\
  match b_events b with
  | Some (j, m) => In m ms /\ is_events m = true
  | None => forall m, In m ms -> is_events m = false
  end.
Proof.
  destruct (scan_spec f ms 0 (mkMatcher [] false false None None)) as (A & B & C & D & E). cbn zeta.
  unfold make_matcher. split; [exact A|]. split; [exact B|]. split; [exact C|]. split.
  - destruct (b_payload _) as [[j m]|].
    + destruct D as [D|(n & -> & D)]; [discriminate D|exact D].
    + apply D.
  - destruct (b_events _) as [[j m]|].
    + destruct E as [E|E]; [discriminate E|exact E].
    + apply E.
Qed.
Lemma matches_ok f ms i b : matches (make_matcher f ms) i = Ok b -> exists m, nth_error ms i = Some m /\ b = f m.
Proof.
  unfold matches. rewrite (proj1 (matcher_spec f ms)), nth_error_map.
  destruct (nth_error ms i) as [m|]; cbn [option_map]; [|discriminate]. intros H. injection H as <-. eauto.
Qed.
Lemma matches_some f ms i m : nth_error ms i = Some m -> matches (make_matcher f ms) i = Ok (f m).
Proof. intros H. unfold matches. rewrite (proj1 (matcher_spec f ms)), nth_error_map, H. reflexivity. Qed.

Lemma classic_path (p : place) : p = AtPath \/ p <> AtPath.
Proof. destruct p; auto; right; discriminate. Qed.
Lemma classic_host (p : place) : p = AtHost \/ p <> AtHost.
Proof. destruct p; auto; right; discriminate. Qed.

Section Http.
  Variable pads_year : bool.
  Variable repr : Time_Model.float -> text.
  Variable lower : text -> text.
  Variable uni_word : N -> bool.
  Variable host_ok : text -> bool.
  Variable media_type : text.
  Variable codec_value : nat * value -> result bytes.
  Variable codec_struct : list (nat * value) -> result bytes.

  Lemma texts_of_spec f key l : forall r, texts_of f key l = Ok r ->
    exists ts, r = map (fun t => (key, t)) ts /\ element_texts f l ts.
  Proof.
    induction l as [|[s|] l IH]; intros r H; cbn [texts_of] in H; [|destruct (f s) as [t|] eqn:F; [|discriminate H]|discriminate H].
    - injection H as <-. exists []. split; [reflexivity|constructor].
    - cbn [bind] in H. destruct (texts_of f key l) as [ts|]; [|discriminate H]. cbn [bind] in H. injection H as <-.
      destruct (IH _ eq_refl) as (us & -> & U). exists (t :: us). split; [reflexivity|]. constructor; eauto.
  Qed.
  Lemma prefix_entries_spec p l : forall r, prefix_entries p l = Ok r ->
    exists es, l = map (fun e => (fst e, IText (snd e))) es /\ r = map (fun e => (p ++ fst e, snd e)) es.
  Proof.
    induction l as [|[k [s|ss]] l IH]; intros r H; cbn [prefix_entries] in H.
    - injection H as <-. now exists [].
    - destruct (prefix_entries p l) as [ts|]; [|discriminate H]. cbn [bind] in H. injection H as <-.
      destruct (IH _ eq_refl) as (es & -> & ->). now exists ((k, s) :: es).
    - discriminate H.
  Qed.

  Lemma elem_leaf_elements m l : has_shape m (VList l) -> elem_leaf m = elements m.
  Proof. unfold has_shape, elem_leaf, elements. destruct (m_shape m) as [[]| | | | | |]; try contradiction; reflexivity. Qed.
  Lemma header_tuples_spec m p v r : named m p -> has_shape m v ->
    (wants_map p = true -> m_shape m = ShMap) -> (wants_other p = true -> m_shape m <> ShMap) ->
    binding_of p = HEADER \/ binding_of p = PREFIX_HEADERS ->
    header_tuples pads_year repr m v = Ok r -> header_lines pads_year repr m p v r.
  Proof.
    intros N S W1 W2 B H. destruct p; destruct B as [B|B]; try discriminate B; cbn [named wants_map wants_other header_lines] in *.
    - specialize (W2 eq_refl). destruct v as [s|l|l|d|n]; cbn [header_tuples] in H; try discriminate H.
      + rewrite N in H. cbn [expect bind] in H. destruct (header_text _ _ _ s) as [t|] eqn:T; [|discriminate H].
        injection H as <-. exists [t]. split; [reflexivity|]. exists t; auto.
      + rewrite N in H. cbn [expect bind] in H. apply texts_of_spec in H as (ts & -> & E).
        exists ts. split; [reflexivity|]. now rewrite <- (elem_leaf_elements m l S).
      + elim W2. unfold has_shape in S. destruct (m_shape m) as [[]| | | | | |]; try contradiction; reflexivity.
    - specialize (W1 eq_refl). unfold has_shape in S. rewrite W1 in S. destruct v; try contradiction.
      cbn [header_tuples] in H. rewrite N in H. cbn [expect bind] in H. apply prefix_entries_spec in H as (es & -> & ->). eauto.
  Qed.
  Lemma query_tuples_spec m p v r : named m p -> has_shape m v ->
    (wants_map p = true -> m_shape m = ShMap) -> (wants_other p = true -> m_shape m <> ShMap) ->
    binding_of p = QUERY \/ binding_of p = QUERY_PARAMS ->
    query_tuples pads_year repr m v = Ok r -> query_params pads_year repr m p v r.
  Proof.
    intros N S W1 W2 B H. destruct p; destruct B as [B|B]; try discriminate B; cbn [named wants_map wants_other query_params] in *.
    - specialize (W2 eq_refl). destruct v as [s|l|l|d|n]; cbn [query_tuples] in H; try discriminate H.
      + rewrite N in H. cbn [expect bind] in H. destruct (query_text _ _ _ s) as [t|] eqn:T; [|discriminate H].
        injection H as <-. exists [t]. split; [reflexivity|]. exists t; auto.
      + rewrite N in H. cbn [expect bind] in H. apply texts_of_spec in H as (ts & -> & E).
        exists ts. split; [reflexivity|]. now rewrite <- (elem_leaf_elements m l S).
      + elim W2. unfold has_shape in S. destruct (m_shape m) as [[]| | | | | |]; try contradiction; reflexivity.
    - specialize (W1 eq_refl). unfold has_shape in S. rewrite W1 in S. destruct v; try contradiction.
      cbn [query_tuples] in H. injection H as <-. exists l. split; [reflexivity|].
      apply flat_map_ext. intros [k [s|ss]]; reflexivity.
  Qed.

  (** ** One member *)
  Definition label_at (pattern : text) (m : member) (v : value) (t : text) : Prop :=
    exists s, v = VOne s /\
      label_text pads_year repr (mem_text (m_name m) (greedy_labels uni_word pattern)) (m_leaf m) s = Ok t.
  Definition host_at (m : member) (v : value) (t : text) : Prop :=
    exists s, v = VOne (HText s) /\ urlquote [46%N] s = Ok t.
  (** the change a member makes *)
  Record change (pattern : text) (m : member) (p : place) (iv : nat * value) (a a' : acc) : Prop := mkChange {
    c_headers : exists l, a_headers a' = a_headers a ++ l /\ header_lines pads_year repr m p (snd iv) l;
    c_query : exists l, a_query a' = a_query a ++ l /\ query_params pads_year repr m p (snd iv) l;
    c_path : match p with
             | AtPath => exists t, label_at pattern m (snd iv) t /\ a_path a' = dict_set (m_name m) t (a_path a)
             | _ => a_path a' = a_path a end;
    c_host : match p with
             | AtHost => exists t, host_at m (snd iv) t /\ a_host a' = dict_set (m_name m) t (a_host a)
             | _ => a_host a' = a_host a end;
    c_calls : a_calls a' = a_calls a ++ if in_body p then [iv] else [];
    c_status : match p with
               | AtStatus => exists z, snd iv = VOne (HInt z) /\ a_status a' = Some z
               | _ => a_status a' = a_status a end
  }.
  Ltac nop := exists []; split; [now rewrite app_nil_r|reflexivity].
  Lemma write_request_change pattern ms a i v a' :
    good_schema request_places ms -> (exists m, nth_error ms i = Some m /\ has_shape m v) ->
    write_request pads_year repr uni_word pattern ms (make_matcher request_match ms) a (i, v) = Ok a' ->
    exists m p, nth_error ms i = Some m /\ placed (request_places m) p /\ change pattern m p (i, v) a a'.
  Proof.
    intros G (m & N & S) H. assert (I : In m ms) by (eapply nth_error_In; exact N).
    destruct (g_one _ _ G m I) as (p & P). exists m, p. split; [exact N|]. split; [exact P|].
    assert (W1 := g_map _ _ G m p I P). assert (W2 := g_other _ _ G m p I P).
    destruct (request_placed m p P) as [M Nm]. assert (Q := request_no_status m p P).
    unfold write_request in H. rewrite (matches_some request_match ms i m N), N, M in H. cbn [bind] in H.
    destruct p; cbn [binding_of] in H; try congruence.
    - destruct (header_tuples _ _ m v) as [l|] eqn:T; [|discriminate H]. injection H as <-.
      constructor; cbn [add_headers a_headers a_query a_path a_host a_calls a_status snd in_body]; try reflexivity; try nop; [|now rewrite app_nil_r].
      exists l. split; [reflexivity|]. apply header_tuples_spec; auto.
    - destruct (header_tuples _ _ m v) as [l|] eqn:T; [|discriminate H]. injection H as <-.
      constructor; cbn [add_headers a_headers a_query a_path a_host a_calls a_status snd in_body]; try reflexivity; try nop; [|now rewrite app_nil_r].
      exists l. split; [reflexivity|]. apply header_tuples_spec; auto.
    - destruct (query_tuples _ _ m v) as [l|] eqn:T; [|discriminate H]. injection H as <-.
      constructor; cbn [add_query a_headers a_query a_path a_host a_calls a_status snd in_body]; try reflexivity; try nop; [|now rewrite app_nil_r].
      exists l. split; [reflexivity|]. apply query_tuples_spec; auto.
    - destruct (query_tuples _ _ m v) as [l|] eqn:T; [|discriminate H]. injection H as <-.
      constructor; cbn [add_query a_headers a_query a_path a_host a_calls a_status snd in_body]; try reflexivity; try nop; [|now rewrite app_nil_r].
      exists l. split; [reflexivity|]. apply query_tuples_spec; auto.
    - destruct v as [s|l|l|d|n]; try discriminate H.
      destruct (label_text _ _ _ _ s) as [t|] eqn:T; [|discriminate H]. injection H as <-.
      constructor; cbn [add_path a_headers a_query a_path a_host a_calls a_status snd in_body]; try reflexivity; try nop; [|now rewrite app_nil_r].
      exists t. split; [exists s; auto|reflexivity].
    - destruct v as [[]|l|l|d|n]; try discriminate H.
      destruct (urlquote [46%N] s) as [t|] eqn:T; [|discriminate H]. injection H as <-.
      constructor; cbn [add_host add_call a_headers a_query a_path a_host a_calls a_status snd in_body]; try reflexivity; try nop.
      exists t. split; [exists s; auto|reflexivity].
    - injection H as <-.
      constructor; cbn [add_call a_headers a_query a_path a_host a_calls a_status snd in_body]; try reflexivity; nop.
    - injection H as <-.
      constructor; cbn [add_call a_headers a_query a_path a_host a_calls a_status snd in_body]; try reflexivity; nop.
  Qed.
  Lemma write_response_change pattern ms a i v a' :
    good_schema response_places ms -> (exists m, nth_error ms i = Some m /\ has_shape m v) ->
    write_response pads_year repr ms (make_matcher response_match ms) a (i, v) = Ok a' ->
    exists m p, nth_error ms i = Some m /\ placed (response_places m) p /\ change pattern m p (i, v) a a'.
  Proof.
    intros G (m & N & S) H. assert (I : In m ms) by (eapply nth_error_In; exact N).
    destruct (g_one _ _ G m I) as (p & P). exists m, p. split; [exact N|]. split; [exact P|].
    assert (W1 := g_map _ _ G m p I P). assert (W2 := g_other _ _ G m p I P).
    destruct (response_placed m p P) as [M Nm]. assert (Q := response_no_query m p P).
    unfold write_response in H. rewrite (matches_some response_match ms i m N), N, M in H. cbn [bind] in H.
    destruct p; cbn [binding_of] in H; try contradiction.
    - destruct (header_tuples _ _ m v) as [l|] eqn:T; [|discriminate H]. injection H as <-.
      constructor; cbn [add_headers a_headers a_query a_path a_host a_calls a_status snd in_body]; try reflexivity; try nop; [|now rewrite app_nil_r].
      exists l. split; [reflexivity|]. apply header_tuples_spec; auto.
    - destruct (header_tuples _ _ m v) as [l|] eqn:T; [|discriminate H]. injection H as <-.
      constructor; cbn [add_headers a_headers a_query a_path a_host a_calls a_status snd in_body]; try reflexivity; try nop; [|now rewrite app_nil_r].
      exists l. split; [reflexivity|]. apply header_tuples_spec; auto.
    - destruct v as [[]|l|l|d|n]; try discriminate H. injection H as <-.
      constructor; cbn [set_status a_headers a_query a_path a_host a_calls a_status snd in_body]; try reflexivity; try nop; [now rewrite app_nil_r|eauto].
    - injection H as <-.
      constructor; cbn [add_call a_headers a_query a_path a_host a_calls a_status snd in_body]; try reflexivity; nop.
    - injection H as <-.
      constructor; cbn [add_call a_headers a_query a_path a_host a_calls a_status snd in_body]; try reflexivity; nop.
  Qed.

  (** ** All members *)
  Section All.
    Variable pattern : text.
    Variable places : member -> list place.
    Variable ms : list member.
    Variable w : acc -> nat * value -> result acc.
    Variable do_match : member -> binding.
    Hypothesis Good : good_schema places ms.
    Hypothesis Match : forall m p, placed (places m) p -> do_match m = binding_of p.
    Hypothesis Step : forall a i v a', (exists m, nth_error ms i = Some m /\ has_shape m v) -> w a (i, v) = Ok a' ->
      exists m p, nth_error ms i = Some m /\ placed (places m) p /\ change pattern m p (i, v) a a'.

    Definition keep (i : nat) : bool :=
      match nth_error ms i with Some m => match do_match m with BODY | HOST | PAYLOAD => true | _ => false end | None => false end.
    Lemma keep_spec i m p : nth_error ms i = Some m -> placed (places m) p -> keep i = in_body p.
    Proof. intros N P. unfold keep. rewrite N, (Match m p P). destruct p; reflexivity. Qed.

    Lemma write_all_spec vals : forall a a', written ms vals -> write_all w a vals = Ok a' ->
      (exists l, a_headers a' = a_headers a ++ l /\ contributions places ms (header_lines pads_year repr) vals l) /\
      (exists l, a_query a' = a_query a ++ l /\ contributions places ms (query_params pads_year repr) vals l) /\
      (forall n t, dict_get n (a_path a') = Some t -> dict_get n (a_path a) = Some t \/
         exists m v, set_at places ms vals AtPath m v /\ m_name m = n /\ label_at pattern m v t) /\
      (forall n t, dict_get n (a_host a') = Some t -> dict_get n (a_host a) = Some t \/
         exists m v, set_at places ms vals AtHost m v /\ m_name m = n /\ host_at m v t) /\
      a_calls a' = a_calls a ++ filter (fun iv => keep (fst iv)) vals /\
      ((exists z m, set_at places ms vals AtStatus m (VOne (HInt z)) /\ a_status a' = Some z) \/
       ((forall m v, ~ set_at places ms vals AtStatus m v) /\ a_status a' = a_status a)).
    Proof.
      induction vals as [|[i v] vals IH]; intros a a' [W1 W2] H; cbn [write_all] in H.
      - injection H as <-. split; [exists []; split; [now rewrite app_nil_r|exists []; split; [reflexivity|constructor]]|].
        split; [exists []; split; [now rewrite app_nil_r|exists []; split; [reflexivity|constructor]]|].
        split; [auto|]. split; [auto|]. split; [cbn; now rewrite app_nil_r|]. right. split; [|reflexivity].
        intros m v (i & [] & _).
      - destruct (w a (i, v)) as [a1|] eqn:E1; [|discriminate H]. cbn [bind] in H.
        inversion W1 as [|? ? W1a W1b]; subst.
        destruct (Step a i v a1 (W2 i v (or_introl eq_refl)) E1) as (m & p & N & P & [C1 C2 C3 C4 C5 C6]).
        destruct (IH a1 a') as ((l1 & I1 & J1) & (l2 & I2 & J2) & I3 & I4 & I5 & I6); [split; [exact W1b|intros j u U; apply W2; now right]|exact H|].
        assert (K : forall (X : Type) (f : member -> place -> value -> list X -> Prop) part l, f m p v part ->
                      contributions places ms f vals l -> contributions places ms f ((i, v) :: vals) (part ++ l)).
        { intros X f part l Fp (parts & -> & F). exists (part :: parts). split; [reflexivity|]. constructor; [|exact F].
          exists m, p. auto. }
        assert (Up : forall q m' v', set_at places ms vals q m' v' -> set_at places ms ((i, v) :: vals) q m' v').
        { intros q m' v' (j & J & R). exists j. split; [now right|exact R]. }
        split. { destruct C1 as (l & E & F). exists (l ++ l1). split; [now rewrite I1, E, app_assoc|]. now apply K. }
        split. { destruct C2 as (l & E & F). exists (l ++ l2). split; [now rewrite I2, E, app_assoc|]. now apply K. }
        split.
        { intros n t D. destruct (I3 n t D) as [D'|(m' & v' & A1 & A2 & A3)]; [|right; exists m', v'; auto].
          destruct p; cbn [snd] in C3; try (rewrite C3 in D'; auto).
          destruct C3 as (u & U & E). rewrite E in D'. destruct (text_eq_dec (m_name m) n) as [<-|X].
          - rewrite dict_get_set_eq in D'. injection D' as <-. right. exists m, v. split; [|auto]. exists i. split; [now left|auto].
          - rewrite dict_get_set_ne in D' by congruence. auto. }
        split.
        { intros n t D. destruct (I4 n t D) as [D'|(m' & v' & A1 & A2 & A3)]; [|right; exists m', v'; auto].
          destruct p; cbn [snd] in C4; try (rewrite C4 in D'; auto).
          destruct C4 as (u & U & E). rewrite E in D'. destruct (text_eq_dec (m_name m) n) as [<-|X].
          - rewrite dict_get_set_eq in D'. injection D' as <-. right. exists m, v. split; [|auto]. exists i. split; [now left|auto].
          - rewrite dict_get_set_ne in D' by congruence. auto. }
        split.
        { rewrite I5, C5, <- app_assoc. cbn [filter fst]. rewrite (keep_spec i m p N P). destruct (in_body p); reflexivity. }
        destruct I6 as [(z & m' & A1 & A2)|[A1 A2]]; [left; exists z, m'; auto|].
        assert (Hd : p <> AtStatus -> (forall m' v', ~ set_at places ms ((i, v) :: vals) AtStatus m' v')).
        { intros Q m' v' (j & [J|J] & Nj & Pj); [|apply (A1 m' v'); exists j; auto].
          injection J as -> ->. rewrite N in Nj. injection Nj as <-. assert (X := Match m _ P). rewrite (Match m _ Pj) in X.
          destruct p; try discriminate X. now apply Q. }
        destruct p; cbn [snd] in C6; try (right; split; [apply Hd; discriminate|congruence]).
        destruct C6 as (z & -> & E). left. exists z, m. split; [exists i; split; [now left|auto]|congruence].
    Qed.

    (** The labels are there, each name once. *)
    Definition same_named (n : text) (i : nat) : Prop := exists m, nth_error ms i = Some m /\ m_name m = n.
    Lemma names_differ i j n : same_named n i -> same_named n j -> i = j.
    Proof.
      intros (m & A & <-) (m' & B & E). eapply (proj1 (NoDup_nth_error (map m_name ms)) (g_names _ _ Good)).
      - rewrite map_length. apply nth_error_Some. congruence.
      - rewrite !nth_error_map, A, B. cbn [option_map]. now rewrite E.
    Qed.
    Lemma write_all_path vals : forall a a', written ms vals -> write_all w a vals = Ok a' ->
      (forall n, In n (map m_name ms) -> (forall m v, set_at places ms vals AtPath m v -> m_name m <> n) ->
         dict_get n (a_path a') = dict_get n (a_path a)) /\
      (forall m v, set_at places ms vals AtPath m v -> exists t, label_at pattern m v t /\ dict_get (m_name m) (a_path a') = Some t) /\
      (NoDup (dict_keys (a_path a)) -> NoDup (dict_keys (a_path a'))).
    Proof.
      induction vals as [|[i v] vals IH]; intros a a' [W1 W2] H; cbn [write_all] in H.
      - injection H as <-. split; [auto|]. split; [|auto]. intros m v (i & [] & _).
      - destruct (w a (i, v)) as [a1|] eqn:E1; [|discriminate H]. cbn [bind] in H.
        inversion W1 as [|? ? W1a W1b]; subst.
        destruct (Step a i v a1 (W2 i v (or_introl eq_refl)) E1) as (m & p & N & P & [_ _ C3 _ _ _]).
        assert (W' : written ms vals) by (split; [exact W1b|intros j u U; apply W2; now right]).
        destruct (IH a1 a' W' H) as (I1 & I2 & I3).
        assert (D : p <> AtPath -> a_path a1 = a_path a) by (intros Q; destruct p; cbn [snd] in C3; try exact C3; now elim Q).
        assert (Nm : In (m_name m) (map m_name ms)) by (apply in_map; eapply nth_error_In; exact N).
        split; [|split].
        + intros n Hn Q. rewrite I1; [|exact Hn|intros m' v' (j & J & R); apply (Q m' v'); exists j; split; [now right|exact R]].
          destruct (classic_path p) as [->|Z]; [|now rewrite D].
          destruct C3 as (t & _ & E). rewrite E, dict_get_set_ne; [reflexivity|].
          intros X. apply (Q m v); [exists i; split; [now left|auto]|congruence].
        + intros m' v' (j & [J|J] & Nj & Pj); [|apply I2; exists j; auto].
          injection J as -> ->. rewrite N in Nj. injection Nj as <-.
          assert (p = AtPath) as -> by (destruct P as [P|[P ->]], Pj as [Pj|[Pj Z]]; congruence).
          destruct C3 as (t & T & E). exists t. split; [exact T|]. rewrite I1, E, dict_get_set_eq; [reflexivity|exact Nm|].
          intros m' u (k & K & Nk & _) Z. apply W1a. cbn [fst].
          assert (j = k) as -> by (eapply names_differ; [exists m; eauto|exists m'; eauto]). exact (in_map fst _ _ K).
        + intros Nd. apply I3. destruct (classic_path p) as [->|Z]; [|now rewrite D].
          destruct C3 as (t & _ & E). rewrite E. now apply dict_set_NoDup.
    Qed.
    Lemma write_all_host vals : forall a a', written ms vals -> write_all w a vals = Ok a' ->
      (forall n, In n (map m_name ms) -> (forall m v, set_at places ms vals AtHost m v -> m_name m <> n) ->
         dict_get n (a_host a') = dict_get n (a_host a)) /\
      (forall m v, set_at places ms vals AtHost m v -> exists t, host_at m v t /\ dict_get (m_name m) (a_host a') = Some t).
    Proof.
      induction vals as [|[i v] vals IH]; intros a a' [W1 W2] H; cbn [write_all] in H.
      - injection H as <-. split; [auto|]. intros m v (i & [] & _).
      - destruct (w a (i, v)) as [a1|] eqn:E1; [|discriminate H]. cbn [bind] in H.
        inversion W1 as [|? ? W1a W1b]; subst.
        destruct (Step a i v a1 (W2 i v (or_introl eq_refl)) E1) as (m & p & N & P & [_ _ _ C4 _ _]).
        assert (W' : written ms vals) by (split; [exact W1b|intros j u U; apply W2; now right]).
        destruct (IH a1 a' W' H) as (I1 & I2).
        assert (D : p <> AtHost -> a_host a1 = a_host a) by (intros Q; destruct p; cbn [snd] in C4; try exact C4; now elim Q).
        assert (Nm : In (m_name m) (map m_name ms)) by (apply in_map; eapply nth_error_In; exact N).
        split.
        + intros n Hn Q. rewrite I1; [|exact Hn|intros m' v' (j & J & R); apply (Q m' v'); exists j; split; [now right|exact R]].
          destruct (classic_host p) as [->|Z]; [|now rewrite D].
          destruct C4 as (t & _ & E). rewrite E, dict_get_set_ne; [reflexivity|].
          intros X. apply (Q m v); [exists i; split; [now left|auto]|congruence].
        + intros m' v' (j & [J|J] & Nj & Pj); [|apply I2; exists j; auto].
          injection J as -> ->. rewrite N in Nj. injection Nj as <-.
          assert (p = AtHost) as -> by (destruct P as [P|[P ->]], Pj as [Pj|[Pj Z]]; congruence).
          destruct C4 as (t & T & E). exists t. split; [exact T|]. rewrite I1, E, dict_get_set_eq; [reflexivity|exact Nm|].
          intros m' u (k & K & Nk & _) Z. apply W1a. cbn [fst].
          assert (j = k) as -> by (eapply names_differ; [exists m; eauto|exists m'; eauto]). exact (in_map fst _ _ K).
    Qed.

    (** ** The body *)
    Lemma placed_fun m p q : placed (places m) p -> placed (places m) q -> p = q.
    Proof. unfold placed. intros [A|[A ->]] [B|[B ->]]; congruence. Qed.
    Lemma is_bd_in_body m p : placed (places m) p -> is_bd (do_match m) || is_pl (do_match m) = in_body p.
    Proof. intros P. rewrite (Match m p P). destruct p; reflexivity. Qed.
    Lemma is_pl_spec m : In m ms -> is_pl (do_match m) = true -> placed (places m) AsPayload.
    Proof.
      intros I E. destruct (g_one _ _ Good m I) as (p & P). rewrite (Match m p P) in E. destruct p; try discriminate E. exact P.
    Qed.
    (* with a payload, the calls are those of the payload *)
    Lemma payload_calls vals i m : written ms vals -> nth_error ms i = Some m -> placed (places m) AsPayload ->
      (exists v, filter (fun iv => keep (fst iv)) vals = [(i, v)] /\ In (i, v) vals) \/
      (filter (fun iv => keep (fst iv)) vals = [] /\ ~ In i (map fst vals)).
    Proof.
      intros [W1 W2] N P.
      assert (K : forall j v, In (j, v) vals -> keep j = Nat.eqb j i).
      { intros j v J. destruct (W2 j v J) as (m' & N' & _). destruct (g_one _ _ Good m' (nth_error_In _ _ N')) as (p & P').
        rewrite (keep_spec j m' p N' P'). destruct (in_body p) eqn:E.
        - symmetry. apply Nat.eqb_eq. symmetry. exact (g_payload _ _ Good i j m m' p N P N' P' E).
        - symmetry. apply Nat.eqb_neq. intros ->. rewrite N in N'. injection N' as <-. 
          rewrite <- (placed_fun _ _ _ P P') in E. discriminate E. }
      clear W2. induction vals as [|[j v] vals IH]; [right; split; [reflexivity|intros []]|].
      cbn [filter fst map]. inversion W1 as [|? ? A B]; subst. assert (Kj := K j v (or_introl eq_refl)).
      assert (IH' := IH B (fun j' v' I' => K j' v' (or_intror I'))). rewrite Kj.
      destruct (Nat.eqb j i) eqn:E.
      - apply Nat.eqb_eq in E. subst j. left. exists v. split; [|now left]. f_equal.
        destruct IH' as [(u & _ & U)|[Z _]]; [|exact Z]. elim A. now apply (in_map fst) in U.
      - apply Nat.eqb_neq in E. destruct IH' as [(u & U1 & U2)|[Z1 Z2]].
        + left. exists u. split; [exact U1|now right].
        + right. split; [exact Z1|]. intros [X|X]; [congruence|exact (Z2 X)].
    Qed.
    Lemma raw_shape we m : is_text_or_blob we (m_shape m) = true <-> sent_raw we m.
    Proof.
      unfold is_text_or_blob, sent_raw. destruct (m_shape m) as [[]| | | | | |]; split; intros H; auto; try discriminate H;
        try (destruct H as [H|[H|[_ H]]]; discriminate H); destruct H as [H|[H|[H _]]]; try discriminate H; exact H.
    Qed.
    Lemma payload_of_spec we omit vals bd ct cl : written ms vals ->
      payload_of media_type codec_value codec_struct we omit (make_matcher do_match ms) (filter (fun iv => keep (fst iv)) vals) = Ok (bd, ct, cl) ->
      body_of media_type codec_value codec_struct we omit places ms vals bd ct cl.
    Proof.
      intros W H. destruct (matcher_spec do_match ms) as (M1 & M2 & M3 & M4 & M5). unfold payload_of in H.
      destruct (b_events _) as [[j m]|] eqn:Ev.
      - destruct (filter _ vals) as [|c cs] eqn:F; [|discriminate H]. injection H as <- <- <-.
        apply (Body_events _ _ _ _ _ _ _ _ m); [apply M5|apply is_events_spec, M5|].
        intros p m' v B (i & I & N & P). assert (In (i, v) (filter (fun iv => keep (fst iv)) vals)) as X.
        { apply filter_In. split; [exact I|]. cbn [fst]. now rewrite (keep_spec i m' p N P). }
        rewrite F in X. destruct X.
      - assert (Ne : forall m, In m ms -> ~ is_event_stream m).
        { intros m I E. apply is_events_spec in E. rewrite (M5 m I) in E. discriminate E. }
        destruct (b_payload _) as [[i m]|] eqn:Pl.
        + destruct M4 as [N E]. assert (P := is_pl_spec m (nth_error_In _ _ N) E).
          destruct (payload_calls vals i m W N P) as [(v & F & I)|[F I]]; rewrite F in H; clear F.
          * destruct (is_text_or_blob we (m_shape m)) eqn:R.
            -- apply raw_shape in R. cbn [raw_payload] in H.
               destruct v as [[]|l|l|d|n]; cbn [bind] in H; try discriminate H.
               ++ destruct (utf8_encode s) as [bs|] eqn:U; [|discriminate H]. cbn [bind] in H. injection H as <- <- <-.
                  eapply Body_raw; eauto. now constructor.
               ++ injection H as <- <- <-. eapply Body_raw; eauto. constructor.
               ++ destruct d as [bs|s]; injection H as <- <- <-; [eapply Body_raw; eauto; constructor|eapply Body_stream; eauto].
            -- cbn [top_values] in H. destruct (codec_value (i, v)) as [bs|] eqn:U; [|discriminate H]. cbn [bind] in H.
               rewrite app_nil_r in H. injection H as <- <- <-. eapply Body_value; eauto.
               intros Z. apply raw_shape in Z. congruence.
          * destruct (is_text_or_blob we (m_shape m)) eqn:R.
            -- apply raw_shape in R. injection H as <- <- <-. eapply Body_raw_unset; eauto.
            -- injection H as <- <- <-. eapply Body_value_unset; eauto. intros Z. apply raw_shape in Z. congruence.
        + assert (Np : forall m, In m ms -> ~ placed (places m) AsPayload).
          { intros m I P. specialize (M4 m I). rewrite (Match m _ P) in M4. discriminate M4. }
          unfold should_write_body in H. rewrite M2, M3 in H.
          assert (existsb (fun m => is_pl (do_match m)) ms = false) as X.
          { destruct (existsb (fun m => is_pl (do_match m)) ms) eqn:Z; [|reflexivity]. apply existsb_exists in Z as (m & I & Z). now rewrite (M4 m I) in Z. }
          rewrite X in H. cbn [negb] in H. rewrite andb_true_r in H.
          destruct (existsb (fun m => is_bd (do_match m)) ms || negb omit) eqn:B.
          * destruct (codec_struct _) as [bs|] eqn:U; [|discriminate H]. cbn [bind] in H. injection H as <- <- <-.
            apply (Body_struct _ _ _ _ _ _ _ _ keep); auto.
            -- apply orb_true_iff in B as [B|B]; [right|left; destruct omit; [discriminate B|reflexivity]].
               apply existsb_exists in B as (m & I & B). destruct (g_one _ _ Good m I) as (p & P). exists m, p.
               rewrite <- (is_bd_in_body m p P), B. auto.
            -- apply keep_spec.
          * apply orb_false_iff in B as [B1 B2].
            assert (Nb : forall m p, In m ms -> placed (places m) p -> in_body p = false).
            { intros m p I P. rewrite <- (is_bd_in_body m p P), (M4 m I), orb_false_r.
              destruct (is_bd (do_match m)) eqn:Z; [|reflexivity].
              rewrite <- B1. symmetry. apply existsb_exists. eauto. }
            destruct (filter (fun iv => keep (fst iv)) vals) as [|[i v] cs] eqn:F.
            -- injection H as <- <- <-. apply Body_none; [|destruct omit; [reflexivity|discriminate B2]].
               intros m I. split; [auto|]. intros p P. eauto.
            -- exfalso. assert (In (i, v) (filter (fun iv => keep (fst iv)) vals)) as Z by (rewrite F; now left).
               apply filter_In in Z as [Z1 Z2]. destruct W as [_ W2]. destruct (W2 i v Z1) as (m & N & _).
               destruct (g_one _ _ Good m (nth_error_In _ _ N)) as (p & P). cbn [fst] in Z2.
               rewrite (keep_spec i m p N P), (Nb m p (nth_error_In _ _ N) P) in Z2. discriminate Z2.
    Qed.
    Lemma payload_of_total we omit vals bd ct cl : written ms vals ->
      body_of media_type codec_value codec_struct we omit places ms vals bd ct cl ->
      payload_of media_type codec_value codec_struct we omit (make_matcher do_match ms) (filter (fun iv => keep (fst iv)) vals) = Ok (bd, ct, cl).
    Proof.
      intros W H. destruct (matcher_spec do_match ms) as (M1 & M2 & M3 & M4 & M5). unfold payload_of.
      assert (Ev : (forall m, In m ms -> ~ is_event_stream m) -> b_events (make_matcher do_match ms) = None).
      { intros Ne. destruct (b_events _) as [[j m]|]; [|reflexivity]. destruct M5 as [I E]. apply is_events_spec in E. now elim (Ne m I). }
      assert (Pl : forall i m, nth_error ms i = Some m -> placed (places m) AsPayload -> b_payload (make_matcher do_match ms) = Some (i, m)).
      { intros i m N P. destruct (b_payload _) as [[j m']|].
        - destruct M4 as [N' E]. assert (P' := is_pl_spec m' (nth_error_In _ _ N') E).
          assert (i = j) as -> by (eapply (g_payload _ _ Good i j); eauto). rewrite N in N'. injection N' as <-. reflexivity.
        - specialize (M4 m (nth_error_In _ _ N)). rewrite (Match m _ P) in M4. discriminate M4. }
      assert (Cs : forall i m v, nth_error ms i = Some m -> placed (places m) AsPayload -> In (i, v) vals ->
                filter (fun iv => keep (fst iv)) vals = [(i, v)]).
      { intros i m v N P I. destruct (payload_calls vals i m W N P) as [(u & F & U)|[F U]].
        - rewrite F. destruct W as [W1 _]. assert (u = v) as ->; [|reflexivity].
          clear -W1 I U. induction vals as [|[j x] l IH]; [destruct I|]. inversion W1 as [|? ? A B]; subst.
          destruct I as [I|I], U as [U|U]; try congruence; [|..|now apply IH].
          + injection I as -> ->. elim A. exact (in_map fst _ _ U).
          + injection U as -> ->. elim A. exact (in_map fst _ _ I).
        - elim U. exact (in_map fst _ _ I). }
      assert (Cn : forall i m, nth_error ms i = Some m -> placed (places m) AsPayload -> ~ In i (map fst vals) ->
                filter (fun iv => keep (fst iv)) vals = []).
      { intros i m N P I. destruct (payload_calls vals i m W N P) as [(u & F & U)|[F U]]; [|exact F].
        elim I. exact (in_map fst _ _ U). }
      destruct H as [m I E Nb|i m v bs Ne N P R I B|i m s Ne N P R I|i m Ne N P R I|i m v bs Ne N P R I B|i m Ne N P R I|kp bs Ne O K B|Ne O].
      - destruct (b_events _) as [[j m']|] eqn:X.
        + destruct (filter _ vals) as [|[j' v] cs] eqn:F; [reflexivity|]. exfalso.
          assert (In (j', v) (filter (fun iv => keep (fst iv)) vals)) as Z by (rewrite F; now left).
          apply filter_In in Z as [Z1 Z2]. cbn [fst] in Z2. destruct (proj2 W j' v Z1) as (m'' & N & _).
          destruct (g_one _ _ Good m'' (nth_error_In _ _ N)) as (p & P). rewrite (keep_spec j' m'' p N P) in Z2.
          apply (Nb p m'' v Z2). exists j'. auto.
        + specialize (M5 m I). apply is_events_spec in E. congruence.
      - rewrite (Ev Ne), (Pl i m N P), (Cs i m v N P I). apply raw_shape in R. rewrite R.
        destruct B as [s bs U|bs|bs]; cbn [raw_payload]; [rewrite U|..]; reflexivity.
      - rewrite (Ev Ne), (Pl i m N P), (Cs i m _ N P I). apply raw_shape in R. rewrite R. reflexivity.
      - rewrite (Ev Ne), (Pl i m N P), (Cn i m N P I). apply raw_shape in R. rewrite R. reflexivity.
      - rewrite (Ev Ne), (Pl i m N P), (Cs i m v N P I).
        destruct (is_text_or_blob we (m_shape m)) eqn:R'; [elim R; now apply raw_shape|].
        cbn [top_values]. rewrite B. cbn [bind]. rewrite app_nil_r. reflexivity.
      - rewrite (Ev Ne), (Pl i m N P), (Cn i m N P I).
        destruct (is_text_or_blob we (m_shape m)) eqn:R'; [elim R; now apply raw_shape|]. reflexivity.
      - rewrite Ev by (intros m I; apply Ne, I).
        destruct (b_payload _) as [[j m]|].
        + destruct M4 as [N E]. elim (proj2 (Ne m (nth_error_In _ _ N))). now apply is_pl_spec; [eapply nth_error_In; exact N|].
        + assert (should_write_body (make_matcher do_match ms) omit = true) as ->.
          { unfold should_write_body. rewrite M2, M3. destruct O as [->|(m & p & I & P & Q)].
            - assert (existsb (fun m => is_pl (do_match m)) ms = false) as ->; [|apply orb_true_r].
              destruct (existsb (fun m => is_pl (do_match m)) ms) eqn:Z; [|reflexivity].
              apply existsb_exists in Z as (m & I & Z). now rewrite (M4 m I) in Z.
            - assert (existsb (fun m => is_bd (do_match m)) ms = true) as ->; [|reflexivity].
              apply existsb_exists. exists m. split; [exact I|]. rewrite <- (is_bd_in_body m p P), (M4 m I), orb_false_r in Q. exact Q. }
          assert (filter (fun iv => keep (fst iv)) vals = filter (fun iv => kp (fst iv)) vals) as ->.
          { apply filter_ext_in. intros [j v] J. destruct (proj2 W j v J) as (m & N & _).
            destruct (g_one _ _ Good m (nth_error_In _ _ N)) as (p & P). cbn [fst].
            now rewrite (keep_spec j m p N P), (K j m p N P). }
          rewrite B. reflexivity.
      - rewrite Ev by (intros m I; apply Ne, I).
        assert (Nb : forall m, In m ms -> is_bd (do_match m) || is_pl (do_match m) = false).
        { intros m I. destruct (g_one _ _ Good m I) as (p & P). rewrite (is_bd_in_body m p P). now apply (Ne m I). }
        destruct (b_payload _) as [[j m]|].
        + destruct M4 as [N E]. specialize (Nb m (nth_error_In _ _ N)). rewrite E, orb_true_r in Nb. discriminate Nb.
        + assert (should_write_body (make_matcher do_match ms) omit = false) as ->.
          { unfold should_write_body. rewrite M2, O, orb_false_r.
            destruct (existsb (fun m => is_bd (do_match m)) ms) eqn:Z; [|reflexivity].
            apply existsb_exists in Z as (m & I & Z). specialize (Nb m I). rewrite Z in Nb. discriminate Nb. }
          destruct (filter _ vals) as [|[i v] cs] eqn:F; [reflexivity|]. exfalso.
          assert (In (i, v) (filter (fun iv => keep (fst iv)) vals)) as Z by (rewrite F; now left).
          apply filter_In in Z as [Z1 Z2]. cbn [fst] in Z2. destruct (proj2 W i v Z1) as (m & N & _).
          destruct (g_one _ _ Good m (nth_error_In _ _ N)) as (p & P). rewrite (keep_spec i m p N P) in Z2.
          now rewrite (proj2 (Ne m (nth_error_In _ _ N)) p P) in Z2.
    Qed.
    Lemma fields_spec lines ct cl name :
      header_values lower (tuples_loop lower Header (all_headers lines ct cl) []) name =
      lines_named lower name (lines ++ if_some (fun t => (lit "content-type", t)) ct ++ if_some (fun n => (lit "content-length", dec n)) cl).
    Proof.
      destruct (Fields_Props.C22_tuples lower Header (all_headers lines ct cl)) as (_ & _ & C). specialize (C name).
      unfold header_values, lines_named.
      replace (lines ++ if_some _ ct ++ if_some _ cl) with (all_headers lines ct cl) by (destruct ct, cl; reflexivity).
      destruct (dict_get _ _) as [f|]; [exact C|]. now rewrite C.
    Qed.
  End All.
End Http.
