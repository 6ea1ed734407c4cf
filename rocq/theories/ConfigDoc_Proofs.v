(** The parser reads exactly the grammar. *)
From Verif Require Import Base Base_Proofs PyText_Model PyText_Proofs PyDict_Model PyDict_Proofs
  ConfigFile_Model ConfigFile_Spec ConfigFile_Proofs.
Local Open Scope N_scope.

Lemma dict_set_set {A} k (v v' : A) d : dict_set k v (dict_set k v' d) = dict_set k v d.
Proof.
  induction d as [|[k' x] d IH]; cbn [dict_set].
  - rewrite text_eqb_refl. reflexivity.
  - destruct (text_eqb k k') eqn:E; cbn [dict_set]; rewrite E; [reflexivity|]. rewrite IH. reflexivity.
Qed.

(** ** Sub-properties *)

Lemma strip_idem s : strip (strip s) = strip s.
Proof.
  apply Trim_strip. destruct (proj2 (Trim_strip s _) eq_refl) as (a & b & _ & _ & _ & H1 & H2).
  exists [], []. rewrite app_nil_r. cbn [app]. repeat split; try exact H1; try exact H2; intros ? [].
Qed.

(** Cutting the stripped line and stripping the parts is the same as cutting the
    line. *)
Lemma cut_strip l k v : l = k ++ [61] ++ v -> ~ In 61 k ->
  exists k' v', cut_at 61 (strip l) = (k', Some v') /\ strip k' = strip k /\ strip v' = strip v.
Proof.
  intros -> Hk. cbn [app].
  assert (E : strip (k ++ 61 :: v) = lstrip k ++ 61 :: rstrip v).
  { unfold strip, strip_by. unfold lstrip_by. rewrite drop_while_stop by reflexivity.
    exact (rstrip_at (drop_while is_space k) 61 v eq_refl). }
  exists (lstrip k), (rstrip v). rewrite E. split; [|split].
  - apply cut_at_app. destruct (lstrip_split k) as (w & Ek & _). intros H. apply Hk. rewrite Ek. apply in_or_app. auto.
  - destruct (lstrip_split k) as (w & Ek & Hw).
    destruct (proj2 (Trim_strip (lstrip k) _) eq_refl) as (a & b & Ea & Ha & Hb & H1 & H2).
    symmetry. apply Trim_strip. exists (w ++ a), b. split; [rewrite Ek at 1; rewrite Ea at 1; rewrite <- app_assoc; reflexivity|].
    split; [apply white_app; auto|]. auto.
  - unfold rstrip, rstrip_by. destruct (drop_while_split is_space (rev v)) as (w & Ev & Hw).
    apply (f_equal (@rev N)) in Ev. rewrite rev_involutive, rev_app_distr in Ev.
    set (u := rev (drop_while is_space (rev v))) in *.
    destruct (proj2 (Trim_strip u _) eq_refl) as (a & b & Ea & Ha & Hb & H1 & H2).
    symmetry. apply Trim_strip. exists a, (b ++ rev w). split; [rewrite Ev at 1; rewrite Ea at 1; rewrite <- !app_assoc; reflexivity|].
    split; [exact Ha|]. split; [apply white_app; split; [exact Hb|intros c Hc; apply Hw, in_rev; exact Hc]|]. auto.
Qed.
Lemma cut_unstrip l k' v' : cut_at 61 (strip l) = (k', Some v') ->
  exists k v, l = k ++ [61] ++ v /\ ~ In 61 k /\ strip k = strip k' /\ strip v = strip v'.
Proof.
  intros H.
  destruct (cut_at 61 l) as [k [v|]] eqn:E.
  - apply cut_at_inv in E. destruct E as [E Hk]. exists k, v. split; [exact E|]. split; [exact Hk|].
    destruct (cut_strip l k v E Hk) as (k2 & v2 & E2 & H1 & H2). rewrite H in E2. injection E2 as <- <-. auto.
  - exfalso. apply cut_at_inv_none in E. apply cut_at_inv in H. destruct H as [H _]. apply E.
    destruct (proj2 (Trim_strip l _) eq_refl) as (a & b & Ea & _). rewrite Ea, H.
    apply in_or_app; right; apply in_or_app; left; apply in_or_app; right; left; reflexivity.
Qed.

(** ** The state a document leaves behind *)

Definition put (n k : text) (v : pvalue) (m : sections) : sections :=
  match dict_get n m with Some ps => dict_set n (dict_set k v ps) m | None => m end.
Definition open (n : text) (m : sections) : sections := if dict_has n m then m else dict_set n [] m.
Definition add (n : text) (e : entry) (m : sections) : sections :=
  match e with
  | Plain k ls => put n k (PStr (join [10] ls)) m
  | Empty k => put n k (PStr []) m
  | Group k subs => put n k (PMap (update [] subs)) m
  | Skipped => m
  end.
Definition add_all (n : text) (es : list entry) (m : sections) : sections :=
  fold_left (fun m e => add n e m) es m.
Definition add_section (m : sections) (s : text * list entry) : sections := add_all (fst s) (snd s) (open (fst s) m).
Definition meaning (d : doc) : sections := fold_left add_section d [].

Definition key_of (e : entry) : option (text * bool) :=
  match e with
  | Plain k _ => Some (k, false)
  | Empty k => Some (k, true)
  | Group k _ => Some (k, true)
  | Skipped => None
  end.
Definition is_skipped (e : entry) : bool := match e with Skipped => true | _ => false end.
Definition last_key (es : list entry) : option (text * bool) := last_some key_of es.
Definition state_of (d : doc) : pstate :=
  match rev d with
  | [] => start
  | (n, es) :: _ =>
    mkP (meaning d) (Some n) (option_map fst (last_key es))
        (match last_key es with Some (_, b) => b | None => false end)
        (match rev es with e :: _ => is_skipped e | [] => false end)
  end.

Lemma meaning_snoc d n es : meaning (d ++ [(n, es)]) = add_all n es (open n (meaning d)).
Proof. unfold meaning. rewrite fold_left_app. reflexivity. Qed.
Lemma add_all_snoc n es e m : add_all n (es ++ [e]) m = add n e (add_all n es m).
Proof. unfold add_all. rewrite fold_left_app. reflexivity. Qed.
Lemma meaning_snoc2 d n es e : meaning (d ++ [(n, es ++ [e])]) = add n e (meaning (d ++ [(n, es)])).
Proof. rewrite !meaning_snoc. apply add_all_snoc. Qed.
Lemma last_some_app {A B} (f : A -> option B) a b :
  last_some f (a ++ b) = match last_some f b with Some y => Some y | None => last_some f a end.
Proof.
  induction a as [|x a IH]; cbn [app last_some].
  - destruct (last_some f b); reflexivity.
  - rewrite IH. destruct (last_some f b); reflexivity.
Qed.
Lemma state_snoc d n es : state_of (d ++ [(n, es)]) =
  mkP (meaning (d ++ [(n, es)])) (Some n) (option_map fst (last_key es))
      (match last_key es with Some (_, b) => b | None => false end)
      (match rev es with e :: _ => is_skipped e | [] => false end).
Proof. unfold state_of. rewrite rev_app_distr. reflexivity. Qed.
Lemma last_key_snoc es e : last_key (es ++ [e]) = match key_of e with Some x => Some x | None => last_key es end.
Proof. unfold last_key. rewrite last_some_app. cbn [last_some]. reflexivity. Qed.
Lemma state_snoc2 d n es e k b : key_of e = Some (k, b) -> state_of (d ++ [(n, es ++ [e])]) =
  mkP (meaning (d ++ [(n, es ++ [e])])) (Some n) (Some k) b false.
Proof.
  intros H. rewrite state_snoc, last_key_snoc, H, rev_app_distr. cbn [rev app option_map fst].
  destruct e; try discriminate H; reflexivity.
Qed.
Lemma state_snoc_skip d n es : state_of (d ++ [(n, es ++ [Skipped])]) =
  mkP (meaning (d ++ [(n, es)])) (Some n) (option_map fst (last_key es))
      (match last_key es with Some (_, b) => b | None => false end) true.
Proof.
  rewrite state_snoc, last_key_snoc, rev_app_distr, meaning_snoc2. reflexivity.
Qed.
Lemma state_sections d : p_sections (state_of d) = meaning d.
Proof.
  destruct d as [|[n es] d _] using rev_ind; [reflexivity|]. rewrite state_snoc. reflexivity.
Qed.

Lemma put_get n k v m : dict_get n m <> None -> exists ps, dict_get n (put n k v m) = Some ps /\ dict_get k ps = Some v.
Proof.
  unfold put. destruct (dict_get n m) as [ps|]; [intros _|congruence]. exists (dict_set k v ps).
  rewrite !dict_get_set_eq. auto.
Qed.
Lemma put_has n k v m x : dict_get x m <> None -> dict_get x (put n k v m) <> None.
Proof.
  unfold put. destruct (dict_get n m) as [ps|]; [|auto]. intros H. destruct (text_eq_dec x n) as [->|Hx].
  - rewrite dict_get_set_eq. discriminate.
  - rewrite dict_get_set_ne by exact Hx. exact H.
Qed.
Lemma add_has n e m x : dict_get x m <> None -> dict_get x (add n e m) <> None.
Proof. destruct e; cbn [add]; auto using put_has. Qed.
Lemma add_all_has n es m x : dict_get x m <> None -> dict_get x (add_all n es m) <> None.
Proof.
  revert m. induction es as [|e es IH]; intros m H; [exact H|]. cbn [add_all fold_left]. apply IH, add_has, H.
Qed.
Lemma open_has n m : dict_get n (open n m) <> None.
Proof.
  unfold open, dict_has. destruct (dict_get n m) eqn:E; [congruence|]. rewrite dict_get_set_eq. discriminate.
Qed.
Lemma meaning_has d n es : dict_get n (meaning (d ++ [(n, es)])) <> None.
Proof. rewrite meaning_snoc. apply add_all_has, open_has. Qed.
Lemma meaning_last d n es e k b : key_of e = Some (k, b) -> exists ps v,
  dict_get n (meaning (d ++ [(n, es ++ [e])])) = Some ps /\ dict_get k ps = Some v /\
  v = match e with Plain _ ls => PStr (join [10] ls) | Empty _ => PStr [] | Group _ subs => PMap (update [] subs) | Skipped => v end.
Proof.
  intros H. rewrite meaning_snoc2. pose proof (meaning_has d n es) as Hm.
  destruct e as [k' ls|k'|k' subs|]; cbn [key_of] in H; try discriminate H; injection H as -> _; cbn [add].
  - destruct (put_get n k (PStr (join [10] ls)) _ Hm) as (ps & E1 & E2). exists ps. eexists. eauto.
  - destruct (put_get n k (PStr []) _ Hm) as (ps & E1 & E2). exists ps. eexists. eauto.
  - destruct (put_get n k (PMap (update [] subs)) _ Hm) as (ps & E1 & E2). exists ps. eexists. eauto.
Qed.
Lemma put_put n k v v' m : put n k v (put n k v' m) = put n k v m.
Proof.
  unfold put. destruct (dict_get n m) as [ps|] eqn:E.
  - rewrite dict_get_set_eq. rewrite !dict_set_set. reflexivity.
  - rewrite E. reflexivity.
Qed.
Lemma meaning_put d n es e k b v : key_of e = Some (k, b) ->
  put n k v (meaning (d ++ [(n, es ++ [e])])) = put n k v (meaning (d ++ [(n, es)])).
Proof.
  intros H. rewrite meaning_snoc2. destruct e as [k' ls|k'|k' subs|]; cbn [key_of] in H; try discriminate H;
    injection H as -> _; cbn [add]; apply put_put.
Qed.

Lemma join_snoc sep vs (t : text) : vs <> [] -> join sep (vs ++ [t]) = join sep vs ++ sep ++ t.
Proof.
  induction vs as [|v vs IH]; [congruence|]. intros _. destruct vs as [|w vs]; [reflexivity|].
  cbn [app]. rewrite !join_cons2. change (w :: vs ++ [t]) with ((w :: vs) ++ [t]). rewrite IH by discriminate.
  rewrite <- !app_assoc. reflexivity.
Qed.

(** Values have at least one line. *)
Definition good (e : entry) : Prop := match e with Plain _ ls => ls <> [] | _ => True end.
Lemma Doc_good ls d : Doc ls d -> Forall (fun s => Forall good (snd s)) d.
Proof.
  assert (Hin : forall d n es e, Forall (fun s => Forall good (snd s)) (d ++ [(n, es)]) -> good e ->
     Forall (fun s : text * list entry => Forall good (snd s)) (d ++ [(n, es ++ [e])])).
  { intros d' n es e H He. apply Forall_app in H. destruct H as [H1 H2]. inversion H2 as [|? ? Hes _]; subst. cbn [snd] in Hes.
    apply Forall_app; split; [exact H1|]. constructor; [|constructor]. cbn [snd]. apply Forall_app; auto. }
  assert (Hout : forall d n es e, Forall (fun s => Forall good (snd s)) (d ++ [(n, es ++ [e])]) ->
     Forall (fun s : text * list entry => Forall good (snd s)) (d ++ [(n, es)])).
  { intros d' n es e H. apply Forall_app in H. destruct H as [H1 H2]. inversion H2 as [|? ? Hes _]; subst. cbn [snd] in Hes.
    apply Forall_app in Hes. apply Forall_app; split; [exact H1|]. constructor; [|constructor]. apply Hes. }
  induction 1; eauto 4; try (apply Hin; [eauto 3|cbn [good]; try exact I]).
  - apply Forall_app; split; [exact IHDoc|]. constructor; [constructor|constructor].
  - discriminate.
  - destruct vs; discriminate.
Qed.
Lemma Doc_plain_lines ls d n es k vs : Doc ls (d ++ [(n, es ++ [Plain k vs])]) -> vs <> [].
Proof.
  intros H. apply Doc_good in H. apply Forall_app in H. destruct H as [_ H]. inversion H as [|? ? Hes _]; subst.
  cbn [snd] in Hes. apply Forall_app in Hes. destruct Hes as [_ Hes]. inversion Hes as [|? ? Hg _]; subst. exact Hg.
Qed.

(** ** One line *)

Lemma put_unfold n k v (m : sections) (ps : props) : dict_get n m = Some ps -> dict_set n (dict_set k v ps) m = put n k v m.
Proof. intros H. unfold put. rewrite H. reflexivity. Qed.

Lemma parse_header_line n l name st : header l name ->
  parse_line n l st = Parsed (mkP (open name (p_sections st)) (Some name) None false false).
Proof.
  intros H. destruct (header_parse n l name H) as (c & r & -> & H1 & H2 & H3 & H4 & H5).
  unfold parse_line. destruct (strip (c :: r)); [congruence|]. rewrite H2, H3, H4, H5. reflexivity.
Qed.
Lemma parse_property_ok n l k v sec st : property l k v -> p_section st = Some sec ->
  dict_get sec (p_sections st) <> None ->
  parse_line n l st = Parsed (mkP (put sec k (PStr v) (p_sections st)) (Some sec) (Some k)
                                  (match v with [] => true | _ => false end) false).
Proof.
  intros H Hs Hp. destruct (property_parse n l k v H) as (c & r & -> & H1 & H2 & H3 & H4 & H5).
  unfold parse_line. destruct (strip (c :: r)); [congruence|]. rewrite H2, H3, H4, Hs, H5.
  destruct (dict_get sec (p_sections st)) as [ps|] eqn:E; [|congruence]. rewrite (put_unfold _ _ _ _ _ E). reflexivity.
Qed.
Lemma parse_bad_property n l sec st : bad_property l -> p_section st = Some sec ->
  parse_line n l st = Parsed (mkP (p_sections st) (Some sec) (p_key st) (p_sub st) true).
Proof.
  intros H Hs. destruct (bad_property_parse n l H) as (c & r & -> & H1 & H2 & H3 & H4 & H5).
  unfold parse_line. destruct (strip (c :: r)); [congruence|]. rewrite H2, H3, H4, Hs, H5. reflexivity.
Qed.

(** What happens on an indented line. *)
Lemma parse_indented n l t st sec : indented l -> strip l = t -> t <> [] -> p_section st = Some sec ->
  parse_line n l st =
  if p_ignore st then Parsed st
  else match p_key st with
       | None => BadLine n ContinuationWithoutProperty
       | Some key =>
         match (if p_sub st then handle_sub_property t (p_sections st) sec key n
                else continue_value t (p_sections st) sec key) with
         | Parsed secs => Parsed (mkP secs (Some sec) (Some key) (p_sub st) (p_ignore st))
         | BadLine m r => BadLine m r
         | Crash e => Crash e
         end
       end.
Proof.
  intros (c & r & -> & Hc) <- Ht Hs. apply is_blank_spec in Hc. unfold parse_line.
  destruct (strip (c :: r)) eqn:E; [congruence|]. rewrite Hc, Hs. reflexivity.
Qed.

Lemma handle_sub n l name value (secs : sections) sec key (ps : props) v :
  sub_assignment l name value -> dict_get sec secs = Some ps -> dict_get key ps = Some v ->
  handle_sub_property (strip l) secs sec key n =
  let d := match v with PMap d => d | PStr _ => [] end in
  Parsed (put sec key (PMap (if ident_re name then dict_set (ascii_lower name) value d else d)) secs).
Proof.
  intros (Hi & k & x & E & Hk & Hn & Hne & Hv) Hps Hv0.
  destruct (cut_strip l k x E Hk) as (k' & x' & Ec & E1 & E2).
  apply Trim_strip in Hn. apply Trim_strip in Hv.
  unfold handle_sub_property. rewrite Hps, Hv0, Ec, E1, E2, Hn, Hv.
  destruct name as [|y name]; [congruence|].
  destruct v as [s|d].
  - rewrite !dict_get_set_eq. destruct (ident_re (y :: name)); cbn [negb].
    + rewrite !dict_set_set. f_equal. exact (put_unfold sec key _ secs ps Hps).
    + f_equal. exact (put_unfold sec key _ secs ps Hps).
  - rewrite Hv0. destruct (ident_re (y :: name)); cbn [negb].
    + rewrite !dict_set_set. f_equal. exact (put_unfold sec key _ secs ps Hps).
    + f_equal. unfold put. rewrite Hps.
      assert (Es : dict_set key (PMap d) ps = ps).
      { clear -Hv0. induction ps as [|[k v] ps IH]; cbn [dict_get dict_set] in *; [discriminate|].
        destruct (text_eqb key k); [injection Hv0 as ->; reflexivity|]. rewrite IH by exact Hv0. reflexivity. }
      rewrite Es. reflexivity.
Qed.

Lemma sub_assignment_text l name value : sub_assignment l name value -> indented l /\ strip l <> [].
Proof.
  intros (Hi & k & v & -> & _). split; [exact Hi|]. apply (strip_nonspace 61); [reflexivity|].
  apply in_or_app; right; left; reflexivity.
Qed.
Lemma sub_name_strip l name value : sub_assignment l name value -> exists k, name = strip k.
Proof. intros (_ & k & _ & _ & _ & Ht & _). exists k. symmetry. apply Trim_strip. exact Ht. Qed.

Lemma update_snoc {A} (d e : list (text * A)) k v : update d (e ++ [(k, v)]) = dict_set k v (update d e).
Proof. unfold update. rewrite fold_left_app. reflexivity. Qed.

Lemma parse_sub_line n l name value d nm es e k : sub_assignment l name value -> key_of e = Some (k, true) ->
  parse_line n l (state_of (d ++ [(nm, es ++ [e])])) =
  let subs := match e with Group _ subs => subs | _ => [] end in
  Parsed (state_of (d ++ [(nm, es ++ [Group k (if ident_re name then subs ++ [(ascii_lower name, value)] else subs)])])).
Proof.
  intros Hs He. destruct (sub_assignment_text _ _ _ Hs) as [Hi Hne].
  rewrite (state_snoc2 _ _ _ _ _ _ He).
  rewrite (parse_indented n l (strip l) _ nm Hi eq_refl Hne) by reflexivity. cbn [p_ignore p_key p_sub p_sections].
  destruct (meaning_last d nm es e k true He) as (ps & v & E1 & E2 & E3).
  rewrite (handle_sub n l name value _ nm k ps v Hs E1 E2). cbn zeta.
  rewrite (state_snoc2 d nm es _ k true) by reflexivity. f_equal. f_equal.
  rewrite (meaning_put d nm es e k true _ He), (meaning_snoc2 d nm es (Group _ _)). cbn [add].
  f_equal. f_equal. rewrite E3.
  destruct e as [k' ls|k'|k' subs|]; cbn [key_of] in He; try discriminate He;
    destruct (ident_re name); try (rewrite update_snoc); reflexivity.
Qed.

Lemma parse_lines_snoc ls : forall l n st, parse_lines n (ls ++ [l]) st =
  match parse_lines n ls st with
  | Parsed st' => parse_line (n + List.length ls) l st'
  | BadLine m w => BadLine m w
  | Crash e => Crash e
  end.
Proof.
  induction ls as [|x ls IH]; intros l n st; cbn [app parse_lines List.length].
  - rewrite Nat.add_0_r. destruct (parse_line n l st); reflexivity.
  - destruct (parse_line n x st); [|reflexivity..]. rewrite IH, Nat.add_succ_comm. reflexivity.
Qed.

Theorem parse_sound ls d : Doc ls d -> parse_lines 1 ls start = Parsed (state_of d).
Proof.
  intros H. induction H; [reflexivity|..]; rewrite parse_lines_snoc, IHDoc; clear IHDoc.
  - apply noise_parse. assumption.
  - rewrite (parse_header_line _ l n _ H0). rewrite state_snoc, state_sections, meaning_snoc. reflexivity.
  - rewrite (parse_property_ok _ l k v n _ H0); [|rewrite state_snoc; reflexivity|rewrite state_sections; apply meaning_has].
    rewrite (state_snoc2 d n es _ k false) by reflexivity. rewrite state_sections, meaning_snoc2. cbn [add join].
    destruct v; [congruence|reflexivity].
  - rewrite (state_snoc2 d n es _ k false) by reflexivity. rewrite (state_snoc2 d n es _ k false) by reflexivity.
    destruct H0 as (Hi & Ht & Htr). apply Trim_strip in Htr.
    rewrite (parse_indented _ l t _ n Hi Htr Ht) by reflexivity. cbn [p_ignore p_key p_sub p_sections].
    destruct (meaning_last d n es (Plain k vs) k false eq_refl) as (ps & v & E1 & E2 & ->).
    unfold continue_value. rewrite E1, E2. rewrite (put_unfold _ _ _ _ _ E1).
    rewrite (meaning_put d n es (Plain k vs) k false _ eq_refl), (meaning_snoc2 d n es (Plain k (vs ++ [t]))). cbn [add].
    rewrite join_snoc by (eapply Doc_plain_lines; exact H). reflexivity.
  - rewrite (parse_property_ok _ l k [] n _ H0); [|rewrite state_snoc; reflexivity|rewrite state_sections; apply meaning_has].
    rewrite (state_snoc2 d n es _ k true) by reflexivity. rewrite state_sections, meaning_snoc2. reflexivity.
  - destruct H0 as (name & Hs & Hid & Hl). rewrite (parse_sub_line _ l name sv d n es (Empty k) k Hs eq_refl). cbn zeta.
    destruct (sub_name_strip _ _ _ Hs) as [k0 Ek]. rewrite Ek in Hid. apply ident_re_strip in Hid.
    rewrite <- Ek in Hid. rewrite Hid. apply Lower_spec in Hl. rewrite Hl. reflexivity.
  - destruct H0 as (name & sv & Hs & Hid). rewrite (parse_sub_line _ l name sv d n es (Empty k) k Hs eq_refl). cbn zeta.
    destruct (sub_name_strip _ _ _ Hs) as [k0 Ek].
    destruct (ident_re name) eqn:Ei; [|reflexivity]. exfalso. apply Hid. rewrite Ek in Ei |- *. apply ident_re_strip. exact Ei.
  - destruct H0 as (name & Hs & Hid & Hl). rewrite (parse_sub_line _ l name sv d n es (Group k subs) k Hs eq_refl). cbn zeta.
    destruct (sub_name_strip _ _ _ Hs) as [k0 Ek]. rewrite Ek in Hid. apply ident_re_strip in Hid.
    rewrite <- Ek in Hid. rewrite Hid. apply Lower_spec in Hl. rewrite Hl. reflexivity.
  - destruct H0 as (name & sv & Hs & Hid). rewrite (parse_sub_line _ l name sv d n es (Group k subs) k Hs eq_refl). cbn zeta.
    destruct (sub_name_strip _ _ _ Hs) as [k0 Ek].
    destruct (ident_re name) eqn:Ei; [|reflexivity]. exfalso. apply Hid. rewrite Ek in Ei |- *. apply ident_re_strip. exact Ei.
  - rewrite (parse_bad_property _ l n _ H0) by (rewrite state_snoc; reflexivity).
    rewrite state_snoc_skip, state_snoc. reflexivity.
  - destruct H0 as (Hi & Ht & Htr). apply Trim_strip in Htr. rewrite state_snoc_skip.
    rewrite (parse_indented _ l t _ n Hi Htr Ht) by reflexivity. reflexivity.
Qed.
