(** Reading JSON directly and by way of a document. *)
From Verif Require Import Base Base_Proofs Utf8_Model PyText_Model PyText_Proofs PySort_Model PyDict_Model PyDict_Proofs PyDecimal_Model Base64_Model Base64_Spec Base64Rfc_Proofs Json_Model Json_Spec JsonNum_Proofs Json_Proofs JsonRead_Proofs JsonTyped_Proofs JsonDoc_Model JsonDoc_Spec.
Local Open Scope N_scope.

Lemma on_wire_fun st m w w' : on_wire st m w -> on_wire st m w' -> w = w'.
Proof. unfold on_wire. destruct (m_json m); [destruct (use_json_name st)|]; congruence. Qed.
Lemma on_wire_dec st m w : {on_wire st m w} + {~ on_wire st m w}.
Proof. unfold on_wire. destruct (m_json m); [destruct (use_json_name st)|]; apply text_eq_dec. Qed.
Lemma on_wire_plain st m w : on_wire (no_traits st) m w <-> w = m_name m.
Proof. unfold on_wire, no_traits. cbn [use_json_name]. destruct (m_json m); reflexivity. Qed.
Lemma force_plain st a f : format_in_force (no_traits st) a f <-> f = default_ts st.
Proof. unfold format_in_force, no_traits. cbn [use_ts_format default_ts]. destruct a; reflexivity. Qed.
Lemma as_written_fun x d d' : as_written x d -> as_written x d' -> d = d'.
Proof.
  intros [E S] [E' S']. rewrite <- E in E'. unfold dec_value in E'. rewrite S, S' in E'.
  destruct d as [s c e], d' as [s' c' e']; cbn [d_neg d_coeff d_exp] in *. subst.
  injection E' as Ec Ee. f_equal; [|congruence]. destruct (n_neg x); lia.
Qed.
Lemma NoDup_pair {A} (l : list (text * A)) k x y : NoDup (map fst l) -> In (k, x) l -> In (k, y) l -> x = y.
Proof.
  intros N I J. apply (dict_In_get k x l) in I; [|exact N]. apply (dict_In_get k y l) in J; [|exact N]. congruence.
Qed.
Lemma force_fun st a f g : format_in_force st a f -> format_in_force st a g -> f = g.
Proof. unfold format_in_force. destruct a; [destruct (use_ts_format st)|]; congruence. Qed.

(** ** A JSON value says one thing *)
Section Alike.
  Variables b1 b2 : bool.
  Variables st1 st2 : settings.
  Variable env : N -> node.
  Variable ts_de : tformat -> tstext -> result Z.
  Variable float_of : decimal -> float.
  Hypothesis Hn : forall n ms m w, env n = NStruct ms -> In m ms -> (on_wire st1 m w <-> on_wire st2 m w).
  Hypothesis Hf : forall n a f, env n = NTime a -> (format_in_force st1 a f <-> format_in_force st2 a f).
  Hypothesis Hd : forall n ms m m', env n = NStruct ms -> In m ms -> In m' ms -> m_name m = m_name m' -> m = m'.
  Hypothesis He : b1 = b2 \/ forall n, env n <> NStruct [].
  Notation says1 := (says b1 st1 env ts_de float_of).
  Notation says2 := (says b2 st2 env ts_de float_of).

  Lemma null_says b st n v : says b st env ts_de float_of n JNull v -> (b = true /\ env n = NStruct []) \/ env n = NDoc.
  Proof. intros H. inversion H; subst; auto. Qed.
  Lemma counts12 m j v : counts b1 env m j -> says1 (m_target m) j v -> counts b2 env m j.
  Proof.
    intros [C|C] S; [|now right]. destruct b2 eqn:B; [now left|]. right.
    destruct j; try (left; discriminate). right. apply null_says in S as [[E S]|S]; [|exact S].
    destruct He as [H|H]; [congruence|]. now elim (H (m_target m)).
  Qed.
  Lemma counts21 m j v : counts b2 env m j -> says2 (m_target m) j v -> counts b1 env m j.
  Proof.
    intros [C|C] S; [|now right]. destruct b1 eqn:B; [now left|]. right.
    destruct j; try (left; discriminate). right. apply null_says in S as [[E S]|S]; [|exact S].
    destruct He as [H|H]; [congruence|]. now elim (H (m_target m)).
  Qed.

  Lemma says_alike j : keys_once j -> forall n v v', says1 n j v -> says2 n j v' -> alike v v'.
  Proof.
    induction j using json_ind'; intros K nn v v' S1 S2.
    - inversion S1; subst; inversion S2; subst; try congruence; constructor.
    - inversion S1; subst; inversion S2; subst; try congruence; try constructor.
      assert (Ea : a = a0) by congruence. subst a0.
      match goal with H : format_in_force st2 _ _ |- _ => apply (Hf nn) in H; [|assumption] end.
      assert (Ef : f = f0) by (eapply force_fun; eassumption). subst f0. replace t0 with t by congruence. constructor.
    - inversion S1; subst; inversion S2; subst; try congruence; try constructor;
        try (match goal with H : num_value _ = (?z, _), H' : num_value _ = (?z', _) |- _ => replace z' with z by congruence end; constructor).
      + replace d0 with d by (eapply as_written_fun; eassumption). constructor.
      + congruence.
      + assert (Ea : a = a0) by congruence. subst a0.
        match goal with H : format_in_force st2 _ _ |- _ => apply (Hf nn) in H; [|assumption] end.
        assert (Ef : f = f0) by (eapply force_fun; eassumption). subst f0.
        assert (Ez : z0 = z1) by congruence. subst z1. replace t0 with t by congruence. constructor.
      + assert (Ea : a = a0) by congruence. subst a0.
        match goal with H : format_in_force st2 _ _ |- _ => apply (Hf nn) in H; [|assumption] end.
        assert (Ef : f = f0) by (eapply force_fun; eassumption). subst f0.
        replace d0 with d in * by (eapply as_written_fun; eassumption). replace t0 with t by congruence. constructor.
    - inversion S1; subst; inversion S2; subst; try congruence; try constructor.
      + replace bs0 with bs by (eapply base64_read_fun; eassumption). constructor.
      + assert (Ea : a = a0) by congruence. subst a0.
        match goal with H : format_in_force st2 _ _ |- _ => apply (Hf nn) in H; [|assumption] end.
        assert (Ef : f = f0) by (eapply force_fun; eassumption). subst f0. replace t0 with t by congruence. constructor.
    - inversion S1; subst; inversion S2; subst; try congruence; try solve [constructor].
      apply Al_list. match goal with A : env nn = NList ?s ?t, B : env nn = NList ?s' ?t' |- _ => assert (s = s' /\ t = t') as [<- <-] by (split; congruence) end.
      inversion K as [| | | |l0 Kl|]; subst.
      match goal with F : Forall2 _ _ vs, G : Forall2 _ _ vs0 |- _ => revert F G end.
      assert (Q : Forall (fun j => forall n v v', says1 n j v -> says2 n j v' -> alike v v') (filter (present sparse) l)).
      { apply Forall_forall. intros x I. apply filter_In in I as [I _]. rewrite Forall_forall in H, Kl. exact (H x I (Kl x I)). }
      clear - Q. intros F. revert vs0. induction F as [|x y l1 l2 R F IH]; intros vs0 G; inversion G as [|? y' ? l3 R' G']; subst; [constructor|].
      inversion Q as [|? ? Qx Ql]; subst. constructor; [|apply IH; assumption].
      destruct R as [[-> ->]|[Rn R]], R' as [[Rn' ->]|[Rn' R']]; try congruence; [constructor | eapply Qx; eassumption].
    - inversion S1; subst; inversion S2; subst; try congruence; try solve [constructor].
      + match goal with A : env nn = NStruct ?s, B : env nn = NStruct ?s' |- _ => assert (s = s') as <- by congruence end.
        inversion K as [| | | | |l0 Kd Kl]; subst. rewrite Forall_forall in H, Kl.
        apply Al_struct; [assumption|assumption| |].
        * intros k v I. match goal with X : forall k v, In (k, v) kw -> _ |- _ => destruct (X _ _ I) as (m & w & j & Im & Nm & W & Ij & C & Sv) end.
          assert (C2 := counts12 m j v C Sv). apply (Hn nn ms) in W; [|assumption|assumption].
          match goal with X : forall m w j, In m ms -> on_wire st2 m w -> _ |- _ => destruct (X m w j Im W Ij C2) as [v' Iv] end.
          exists v'. split; [now subst k|].
          match goal with X : forall k v, In (k, v) kw0 -> _ |- _ => destruct (X _ _ Iv) as (m2 & w2 & j2 & Im2 & Nm2 & W2 & Ij2 & C3 & Sv2) end.
          assert (m2 = m) by (eapply Hd; eassumption). subst m2. assert (w2 = w) by (eapply on_wire_fun; eassumption). subst w2.
          assert (j2 = j) by (eapply NoDup_pair; eassumption). subst j2. exact (H (w, j) Ij (Kl _ Ij) _ _ _ Sv Sv2).
        * intros k v I. match goal with X : forall k v, In (k, v) kw0 -> _ |- _ => destruct (X _ _ I) as (m & w & j & Im & Nm & W & Ij & C & Sv) end.
          assert (C2 := counts21 m j v C Sv). apply (Hn nn ms) in W; [|assumption|assumption].
          match goal with X : forall m w j, In m ms -> on_wire st1 m w -> _ |- _ => destruct (X m w j Im W Ij C2) as [v' Iv] end.
          exists v'. split; [now subst k|].
          match goal with X : forall k v, In (k, v) kw -> _ |- _ => destruct (X _ _ Iv) as (m2 & w2 & j2 & Im2 & Nm2 & W2 & Ij2 & C3 & Sv2) end.
          assert (m2 = m) by (eapply Hd; eassumption). subst m2. assert (w2 = w) by (eapply on_wire_fun; eassumption). subst w2.
          assert (j2 = j) by (eapply NoDup_pair; eassumption). subst j2. exact (H (w, j) Ij (Kl _ Ij) _ _ _ Sv2 Sv).
      + assert (ms = []) by congruence. subst ms. destruct kw as [|[k v] kw]; [constructor|].
        match goal with X : forall k0 v0, In (k0, v0) ((k, v) :: kw) -> _ |- _ => destruct (X k v (in_eq _ _)) as (m & w & j & [] & _) end.
      + assert (ms = []) by congruence. subst ms. destruct kw as [|[k v] kw]; [constructor|].
        match goal with X : forall k0 v0, In (k0, v0) ((k, v) :: kw) -> _ |- _ => destruct (X k v (in_eq _ _)) as (m & w & j & [] & _) end.
      + apply Al_map. match goal with A : env nn = NMap ?s ?t, B : env nn = NMap ?s' ?t' |- _ => assert (s = s' /\ t = t') as [<- <-] by (split; congruence) end.
        inversion K as [| | | | |l0 Kd Kl]; subst.
        match goal with F : Forall2 _ _ kvs, G : Forall2 _ _ kvs0 |- _ => revert F G end.
        assert (Q : Forall (fun a : text * json => forall n v v', says1 n (snd a) v -> says2 n (snd a) v' -> alike v v') (filter (fun a => present sparse (snd a)) l)).
        { apply Forall_forall. intros x I. apply filter_In in I as [I _]. rewrite Forall_forall in H, Kl. exact (H x I (Kl x I)). }
        clear - Q. intros F. revert kvs0. induction F as [|x y l1 l2 [E R] F IH]; intros vs0 G; inversion G as [|? y' ? l3 [E' R'] G']; subst; [constructor|].
        inversion Q as [|? ? Qx Ql]; subst. constructor; [|apply IH; assumption]. split; [congruence|].
        destruct R as [[Rn ->]|[Rn R]], R' as [[Rn' ->]|[Rn' R']]; try congruence; [constructor | eapply Qx; eassumption].
  Qed.
End Alike.

Lemma int_decimal_eq z : int_decimal z = decimal_of_Z z.
Proof. reflexivity. Qed.
Lemma token_written x : as_written x (mkDec (n_neg x) (Z.abs_N (fst (num_value x))) (snd (num_value x))).
Proof. split; [apply token_value | reflexivity]. Qed.
Lemma decimal_of_value z : dec_value (decimal_of_Z z) = (z, 0%Z).
Proof. unfold dec_value, decimal_of_Z. cbn [d_neg d_coeff d_exp]. f_equal. destruct (Z.ltb_spec z 0); lia. Qed.
Lemma in_turn_app {A B} (upd : B -> A -> A -> Prop) l : forall l' a b c, in_turn upd l a b -> in_turn upd l' b c -> in_turn upd (l ++ l') a c.
Proof. induction l as [|x l IH]; intros l' a b c H K; inversion H; subst; [exact K|]. cbn [app]. econstructor; [eassumption | eapply IH; eassumption]. Qed.

(** ** Reading directly *)
Section Direct.
  Variable st : settings.
  Variable env : N -> node.
  Variable ts_de : tformat -> tstext -> result Z.
  Variable float_of : decimal -> float.
  Hypothesis Hd : forall n ms, env n = NStruct ms -> distinct st ms.
  Notation says := (says false st env ts_de float_of).
  Notation read_shape := (read_shape st env ts_de float_of).
  Definition gives (n : N) (j : json) (v : value) : Prop :=
    says n j v /\ forall path fuel, clear_path path j -> (List.length (events path j) < fuel)%nat ->
      consumes (read_shape fuel n) (events path j) v.

  Lemma scalar_gives n j v (r : R value) : says n j v ->
    (forall f, read_shape (S f) n = r) -> (forall path, consumes r (events path j) v) -> exists v', gives n j v'.
  Proof. intros S E C. exists v. split; [exact S|]. intros path [|f] _ L; [lia|]. rewrite E. apply C. Qed.

  Lemma time_num_gives n a : env n = NTime a -> ts_format st a = TEpoch -> forall j x t, says n j (VTime a t) ->
    (forall path, consumes (read_float float_of) (events path j) x) ->
    match x with
    | VFloat f => ts_de TEpoch (TNum f) = Ok t
    | VInt z => ts_de TEpoch (TNum (FFin (decimal_of_Z z))) = Ok t
    | VBool b => ts_de TEpoch (TNum (FFin (decimal_of_Z (if b then 1 else 0)))) = Ok t
    | _ => False
    end -> exists v', gives n j v'.
  Proof.
    intros En Ef j x t S C T. eapply scalar_gives with (r := read_timestamp st ts_de float_of a); [exact S | intros f; now rewrite read_shape_eq, En|].
    intros path. unfold read_timestamp. rewrite Ef. rewrite <- (app_nil_r (events path j)). eapply consumes_bind; [apply C|]. cbn beta.
    destruct x; try (now elim T); rewrite T; apply consumes_ret.
  Qed.

  Definition upd_item (sparse : bool) (t : N) (j : json) (acc acc1 : list value) : Prop :=
    (j = JNull /\ acc1 = if sparse then acc ++ [VNull] else acc) \/ (j <> JNull /\ exists v, gives t j v /\ acc1 = acc ++ [v]).
  Lemma items_give sparse t l : Forall (fun j => forall n v, says n j v -> exists v', gives n j v') l ->
    forall vs, Forall2 (fun j v => (j = JNull /\ v = VNull) \/ (j <> JNull /\ says t j v)) (filter (present sparse) l) vs ->
    forall acc, exists new, in_turn (upd_item sparse t) l acc (acc ++ new)
      /\ Forall2 (fun j v => (j = JNull /\ v = VNull) \/ (j <> JNull /\ says t j v)) (filter (present sparse) l) new.
  Proof.
    induction 1 as [|j l P _ IH]; intros vs F acc; cbn [filter] in *.
    - exists []. rewrite app_nil_r. split; constructor.
    - destruct (present sparse j) eqn:Pj.
      + inversion F as [|? v ? vs' R F']; subst. destruct R as [[-> ->]|[Nj Sv]].
        * unfold present in Pj. rewrite orb_false_r in Pj. subst sparse.
          destruct (IH _ F' (acc ++ [VNull])) as (new & I & G). exists (VNull :: new). split; [|constructor; auto].
          apply IT_cons with (acc1 := acc ++ [VNull]); [now left|]. rewrite <- app_assoc in I. exact I.
        * destruct (P _ _ Sv) as [v' Gv]. destruct (IH _ F' (acc ++ [v'])) as (new & I & G). exists (v' :: new).
          split; [|constructor; [right; split; [exact Nj | apply Gv] | exact G]].
          apply IT_cons with (acc1 := acc ++ [v']); [right; eauto|]. rewrite <- app_assoc in I. exact I.
      + destruct (IH _ F acc) as (new & I & G). exists new. split; [|exact G].
        assert (sparse = false /\ j = JNull) as [-> ->].
        { unfold present in Pj. apply orb_false_iff in Pj as [-> Pj]. split; [reflexivity|]. now destruct j. }
        apply IT_cons with (acc1 := acc); [now left | exact I].
  Qed.

  Definition upd_entry (sparse : bool) (t : N) (kj : text * json) (acc acc1 : list (text * value)) : Prop :=
    (snd kj = JNull /\ acc1 = if sparse then dict_set (fst kj) VNull acc else acc)
    \/ (snd kj <> JNull /\ exists v, gives t (snd kj) v /\ acc1 = dict_set (fst kj) v acc).
  Notation entry_says := (fun t => fun (a : text * json) (b : text * value) =>
    fst a = fst b /\ ((snd a = JNull /\ snd b = VNull) \/ (snd a <> JNull /\ says t (snd a) (snd b)))).
  Lemma entries_give sparse t (l : list (text * json)) : Forall (fun a => forall n v, says n (snd a) v -> exists v', gives n (snd a) v') l ->
    NoDup (map fst l) ->
    forall kvs, Forall2 (entry_says t) (filter (fun a => present sparse (snd a)) l) kvs ->
    forall acc, (forall k, In k (map fst l) -> ~ In k (dict_keys acc)) ->
    exists new, in_turn (upd_entry sparse t) l acc (acc ++ new)
      /\ Forall2 (entry_says t) (filter (fun a => present sparse (snd a)) l) new.
  Proof.
    induction 1 as [|[k j] l P _ IH]; intros N kvs F acc D; cbn [filter snd map fst] in *.
    - exists []. rewrite app_nil_r. split; constructor.
    - inversion N as [|? ? Nk Nl]; subst.
      assert (Dk : forall v0, forall k0, In k0 (map fst l) -> ~ In k0 (dict_keys (acc ++ [(k, v0)]))).
      { intros v0 k0 I. unfold dict_keys. rewrite map_app. intros J. apply in_app_or in J as [J|J].
        - now apply (D k0 (or_intror I)).
        - destruct J as [<-|[]]. now apply Nk. }
      assert (Ds : forall v0, acc ++ [(k, v0)] = dict_set k v0 acc).
      { intros v0. symmetry. apply dict_set_new, D. now left. }
      destruct (present sparse j) eqn:Pj.
      + inversion F as [|? [k' v] ? vs' [Ek R] F']; subst. cbn [fst snd] in *. subst k'. destruct R as [[-> ->]|[Nj Sv]].
        * unfold present in Pj. rewrite orb_false_r in Pj. subst sparse.
          destruct (IH Nl _ F' (acc ++ [(k, VNull)]) (Dk _)) as (new & I & G). exists ((k, VNull) :: new). split; [|constructor; auto].
          apply IT_cons with (acc1 := acc ++ [(k, VNull)]); [left; cbn [fst snd]; auto|]. rewrite <- app_assoc in I. exact I.
        * destruct (P _ _ Sv) as [v' Gv]. destruct (IH Nl _ F' (acc ++ [(k, v')]) (Dk _)) as (new & I & G). exists ((k, v') :: new).
          split; [|constructor; [split; [reflexivity | right; split; [exact Nj | apply Gv]] | exact G]].
          apply IT_cons with (acc1 := acc ++ [(k, v')]); [right; cbn [fst snd]; eauto|]. rewrite <- app_assoc in I. exact I.
      + destruct (IH Nl _ F acc) as (new & I & G).
        { intros k0 I0. apply D. now right. }
        exists new. split; [|exact G].
        assert (sparse = false /\ j = JNull) as [-> ->].
        { unfold present in Pj. apply orb_false_iff in Pj as [-> Pj]. split; [reflexivity|]. now destruct j. }
        apply IT_cons with (acc1 := acc); [now left | exact I].
  Qed.

  Definition upd_member (m : member) (j : json) (acc acc1 : list (text * value)) : Prop :=
    exists v, gives (m_target m) j v /\ acc1 = dict_set (m_name m) v acc.
  Lemma members_give ms (l : list (text * json)) : distinct st ms -> Forall (fun a => forall n v, says n (snd a) v -> exists v', gives n (snd a) v') l ->
    NoDup (map fst l) ->
    (forall m w j, In m ms -> on_wire st m w -> In (w, j) l -> counts false env m j -> exists v, says (m_target m) j v) ->
    forall acc, (forall m w, In m ms -> on_wire st m w -> In (m_name m) (dict_keys acc) -> ~ In w (map fst l)) ->
    exists new, struct_reads st (doc_member env) ms upd_member l acc (acc ++ new)
      /\ NoDup (map fst new)
      /\ (forall k v, In (k, v) new -> exists m w j,
            In m ms /\ m_name m = k /\ on_wire st m w /\ In (w, j) l /\ counts false env m j /\ says (m_target m) j v)
      /\ (forall m w j, In m ms -> on_wire st m w -> In (w, j) l -> counts false env m j -> exists v, In (m_name m, v) new).
  Proof.
    intros [D1 D2]. induction 1 as [|[w j] l P _ IH]; intros N S acc D; cbn [map fst] in *.
    - exists []. rewrite app_nil_r. split; [constructor|]. split; [constructor|]. split; [intros ? ? []|intros ? ? ? _ _ []].
    - inversion N as [|? ? Nw Nl]; subst. cbn [snd] in P.
      assert (S' : forall m w j, In m ms -> on_wire st m w -> In (w, j) l -> counts false env m j -> exists v, says (m_target m) j v).
      { intros m w' j' Im W I C. apply (S m w' j' Im W (or_intror I) C). }
      destruct (Exists_dec (fun m => on_wire st m w) ms) as [X|X]; [intros m; apply on_wire_dec| |].
      + apply Exists_exists in X as (m & Im & W).
        assert (Dec : counts false env m j \/ (j = JNull /\ ~ doc_member env m)).
        { unfold counts, doc_member. destruct j; try (left; right; left; discriminate).
          destruct (env (m_target m)); try (right; split; [reflexivity | discriminate]). left. right. now right. }
        destruct Dec as [C|[-> C]].
        * destruct (S m w j Im W (in_eq _ _) C) as [v Sv]. destruct (P _ _ Sv) as [v' Gv].
          assert (Fresh : ~ In (m_name m) (dict_keys acc)).
          { intros I. apply (D m w Im W I). now left. }
          destruct (IH Nl S' (acc ++ [(m_name m, v')])) as (new & R & Nn & G1 & G2).
          { intros m' w' Im' W' I' J'. unfold dict_keys in I'. rewrite map_app in I'. apply in_app_or in I' as [I'|[I'|[]]].
            - apply (D m' w' Im' W' I'). now right.
            - cbn [fst] in I'. assert (m' = m) by (apply D1; auto). subst m'. assert (w' = w) by (eapply on_wire_fun; eassumption). subst w'. now apply Nw. }
          exists ((m_name m, v') :: new). split; [|split; [|split]].
          -- apply SR_member with (m := m) (acc1 := acc ++ [(m_name m, v')]); [exact Im | exact W | | | rewrite <- app_assoc in R; exact R].
             ++ destruct C as [C|C]; [discriminate C | exact C].
             ++ exists v'. split; [exact Gv|]. symmetry. now apply dict_set_new.
          -- cbn [map fst]. constructor; [|exact Nn]. intros I. apply in_map_iff in I as ([k0 v0] & E & I). cbn [fst] in E. subst k0.
             destruct (G1 _ _ I) as (m' & w' & j' & Im' & E' & W' & I' & _). assert (m' = m) by (apply D1; auto). subst m'.
             assert (w' = w) by (eapply on_wire_fun; eassumption). subst w'. apply Nw. apply in_map_iff. now exists (w, j').
          -- intros k0 v0 [[= <- <-]|I].
             ++ exists m, w, j. split; [exact Im|]. split; [reflexivity|]. split; [exact W|]. split; [now left|]. split; [exact C | apply Gv].
             ++ destruct (G1 _ _ I) as (m' & w' & j' & A1 & A2 & A3 & A4 & A5). exists m', w', j'.
                split; [exact A1|]. split; [exact A2|]. split; [exact A3|]. split; [now right | exact A5].
          -- intros m' w' j' Im' W' [[= -> ->]|I'] C'.
             ++ assert (m' = m) by (eapply D2; eassumption). subst m'. exists v'. now left.
             ++ destruct (G2 m' w' j' Im' W' I' C') as [v0 I0]. exists v0. now right.
        * destruct (IH Nl S' acc) as (new & R & Nn & G1 & G2).
          { intros m' w' Im' W' I' J'. apply (D m' w' Im' W' I'). now right. }
          exists new. split; [|split; [exact Nn|split]].
          -- apply SR_null with (m := m); auto.
          -- intros k0 v0 I. destruct (G1 _ _ I) as (m' & w' & j' & A1 & A2 & A3 & A4 & A5). exists m', w', j'.
             split; [exact A1|]. split; [exact A2|]. split; [exact A3|]. split; [now right | exact A5].
          -- intros m' w' j' Im' W' [[= -> <-]|I'] C'; [|eapply G2; eassumption].
             assert (m' = m) by (eapply D2; eassumption). subst m'. destruct C' as [C'|[C'|C']]; [discriminate | now elim C' | now elim C].
      + assert (U : forall m, In m ms -> ~ on_wire st m w).
        { intros m Im W. apply X. apply Exists_exists. eauto. }
        destruct (IH Nl S' acc) as (new & R & Nn & G1 & G2).
        { intros m' w' Im' W' I' J'. apply (D m' w' Im' W' I'). now right. }
        exists new. split; [|split; [exact Nn|split]].
        * now apply SR_unknown.
        * intros k0 v0 I. destruct (G1 _ _ I) as (m' & w' & j' & A1 & A2 & A3 & A4 & A5). exists m', w', j'.
          split; [exact A1|]. split; [exact A2|]. split; [exact A3|]. split; [now right | exact A5].
        * intros m' w' j' Im' W' [[= -> ->]|I'] C'; [now elim (U m' Im') | eapply G2; eassumption].
  Qed.

  Lemma says_gives j : keys_once j -> forall n v, says n j v -> exists v', gives n j v'.
  Proof.
    assert (Doc : forall n j, env n = NDoc -> exists v', gives n j v').
    { intros n j0 E. exists (VDoc (to_plain j0)). split; [now constructor|]. intros path [|f] C L; [lia|].
      rewrite read_shape_eq, E. apply (consumes_fmap _ VDoc). apply document_consumes; [exact C | lia]. }
    induction j using json_ind'; intros K nn v S.
    - inversion S; subst; try discriminate; auto.
    - inversion S; subst; try discriminate; auto.
      + eapply scalar_gives; [exact S | intros f; rewrite read_shape_eq; match goal with E : env _ = _ |- _ => rewrite E end; reflexivity|].
        intros path. unfold read_boolean. cbn [events]. apply next_last. apply consumes_ret.
      + eapply scalar_gives; [exact S | intros f; rewrite read_shape_eq; match goal with E : env _ = _ |- _ => rewrite E end; reflexivity|].
        intros path. unfold read_integer. cbn [events]. apply next_last. apply consumes_ret.
      + eapply scalar_gives; [exact S | intros f; rewrite read_shape_eq; match goal with E : env _ = _ |- _ => rewrite E end; reflexivity|].
        intros path. unfold read_float. cbn [events]. apply next_last. apply consumes_ret.
      + eapply scalar_gives; [exact S | intros f; rewrite read_shape_eq; match goal with E : env _ = _ |- _ => rewrite E end; reflexivity|].
        intros path. unfold read_big_decimal. cbn [events]. apply next_last. apply consumes_ret.
      + assert (f = ts_format st a) by (eapply force_fun; [eassumption | apply ts_format_force]).
        destruct H2 as [H2|H2]; [|discriminate]. eapply (time_num_gives nn a ltac:(assumption) ltac:(congruence) _ (VBool b)); [exact S | |rewrite <- H2; exact H4].
        intros path. unfold read_float. cbn [events]. apply next_last. apply consumes_ret.
    - inversion S; subst; try discriminate; auto.
      + eapply scalar_gives; [exact S | intros f; rewrite read_shape_eq; match goal with E : env _ = _ |- _ => rewrite E end; reflexivity|].
        intros path. unfold read_integer. cbn [events]. apply next_last. cbn [e_tok]. rewrite num_token_eq.
        match goal with E : integral _ = _ |- _ => rewrite E end. match goal with E : num_value _ = _ |- _ => rewrite E end. apply consumes_ret.
      + eapply scalar_gives; [exact S | intros f; rewrite read_shape_eq; match goal with E : env _ = _ |- _ => rewrite E end; reflexivity|].
        intros path. unfold read_float. cbn [events]. apply next_last. cbn [e_tok]. rewrite num_token_eq.
        match goal with E : integral _ = _ |- _ => rewrite E end. rewrite (as_written_fun _ _ _ (token_written z) H3). apply consumes_ret.
      + eapply scalar_gives; [exact S | intros f; rewrite read_shape_eq; match goal with E : env _ = _ |- _ => rewrite E end; reflexivity|].
        intros path. unfold read_float. cbn [events]. apply next_last. cbn [e_tok]. rewrite num_token_eq.
        match goal with E : integral _ = _ |- _ => rewrite E end. match goal with E : num_value _ = _ |- _ => rewrite E end. apply consumes_ret.
      + destruct (integral z) eqn:I.
        * assert (X := integral_exp z I). destruct (num_value z) as [m e] eqn:V. cbn [snd] in X. subst e.
          eapply scalar_gives with (v := VDecimal (BFin (decimal_of_Z m))).
          -- constructor; [assumption | now right | rewrite V; apply decimal_of_value].
          -- intros f; rewrite read_shape_eq; match goal with E : env _ = _ |- _ => rewrite E end; reflexivity.
          -- intros path. unfold read_big_decimal. cbn [events]. apply next_last. cbn [e_tok]. rewrite num_token_eq, I, V. apply consumes_ret.
        * eapply scalar_gives with (v := VDecimal (BFin (mkDec (n_neg z) (Z.abs_N (fst (num_value z))) (snd (num_value z))))).
          -- constructor; [assumption | now left | apply token_written].
          -- intros f; rewrite read_shape_eq; match goal with E : env _ = _ |- _ => rewrite E end; reflexivity.
          -- intros path. unfold read_big_decimal. cbn [events]. apply next_last. cbn [e_tok]. rewrite num_token_eq, I. apply consumes_ret.
      + assert (f = ts_format st a) by (eapply force_fun; [eassumption | apply ts_format_force]).
        destruct H2 as [H2|H2]; [|discriminate]. eapply (time_num_gives nn a ltac:(assumption) ltac:(congruence) _ (VInt z0)); [exact S | |rewrite <- H2; eassumption].
        intros path. unfold read_float. cbn [events]. apply next_last. cbn [e_tok]. rewrite num_token_eq.
        match goal with E : integral _ = _ |- _ => rewrite E end. match goal with E : num_value _ = _ |- _ => rewrite E end. apply consumes_ret.
      + assert (f = ts_format st a) by (eapply force_fun; [eassumption | apply ts_format_force]).
        destruct H2 as [H2|H2]; [|discriminate]. eapply (time_num_gives nn a ltac:(assumption) ltac:(congruence) _ (VFloat (float_of d))); [exact S | |rewrite <- H2; eassumption].
        intros path. unfold read_float. cbn [events]. apply next_last. cbn [e_tok]. rewrite num_token_eq.
        match goal with E : integral _ = _ |- _ => rewrite E end.
        match goal with E : as_written _ _ |- _ => rewrite (as_written_fun _ _ _ (token_written z) E) end. apply consumes_ret.
    - inversion S; subst; try discriminate; auto.
      1-3: eapply scalar_gives; [exact S | intros f; rewrite read_shape_eq; match goal with E : env _ = _ |- _ => rewrite E end; reflexivity|];
        intros path; unfold read_float; cbn [events]; apply next_last; apply consumes_ret.
      + eapply scalar_gives; [exact S | intros f; rewrite read_shape_eq; match goal with E : env _ = _ |- _ => rewrite E end; reflexivity|].
        intros path. cbn [events]. apply (consumes_fmap read_text VStr). apply consumes_text. now left.
      + eapply scalar_gives; [exact S | intros f; rewrite read_shape_eq; match goal with E : env _ = _ |- _ => rewrite E end; reflexivity|].
        intros path. unfold read_blob. cbn [events]. apply next_last. cbn [e_tok]. match goal with E : base64_read _ _ |- _ => rewrite (proj2 (b64decode_iff _ _) E) end. apply consumes_ret.
      + assert (f = ts_format st a) by (eapply force_fun; [eassumption | apply ts_format_force]).
        destruct H2 as [H2|H2]; [|discriminate].
        eapply scalar_gives; [exact S | intros f0; rewrite read_shape_eq; match goal with E : env _ = _ |- _ => rewrite E end; reflexivity|].
        intros path. unfold read_timestamp. rewrite <- H. cbn [events]. rewrite <- (app_nil_r [_]).
        destruct f; try (now elim H2); (eapply consumes_bind; [apply consumes_text; now left|]); rewrite H4; apply consumes_ret.
    - inversion S; subst; try discriminate; auto.
      match goal with E : env nn = NList _ _ |- _ => rename E into En end.
      inversion K as [| | | |l0 Kl|]; subst.
      assert (Q : Forall (fun j => forall n v, says n j v -> exists v', gives n j v') l).
      { apply Forall_forall. intros x I. rewrite Forall_forall in H, Kl. exact (H x I (Kl x I)). }
      match goal with F : Forall2 _ _ vs |- _ => destruct (items_give sparse t l Q vs F []) as (new & T & G) end.
      exists (VList new). split; [econstructor; eassumption|]. intros path [|f] _ L; [lia|]. rewrite read_shape_eq, En.
      apply (consumes_fmap _ VList). apply (list_consumes path _ (upd_item sparse t) l f [] new); [| exact T | lia].
      intros j acc acc1 I U. assert (X := child_item path l j I). destruct U as [[-> ->]|(Nj & v' & [_ Rv] & ->)].
      + cbn [events]. eapply consumes_look; [apply looks_is_null|]. cbn [e_tok null_tok].
        apply (consumes_fmap read_null (fun _ => if sparse then acc ++ [VNull] else acc) _ tt). apply consumes_read_null.
      + specialize (Rv (path ++ [lit "item"]) f (clear_below _ _ _) ltac:(lia)).
        destruct (events_head (path ++ [lit "item"]) j) as [r E]. rewrite E in *.
        eapply consumes_look; [apply looks_is_null|]. cbn [e_tok].
        destruct (null_tok (head_tok j)) eqn:Z; [now apply null_tok_head in Z|].
        apply (consumes_fmap _ (fun v => acc ++ [v])). exact Rv.
    - inversion S; subst; try discriminate; auto.
      + match goal with E : env nn = NStruct _ |- _ => rename E into En end.
        inversion K as [| | | | |l0 Kd Kl]; subst. assert (Di := Hd _ _ En).
        assert (Q : Forall (fun a : text * json => forall n v, says n (snd a) v -> exists v', gives n (snd a) v') l).
        { apply Forall_forall. intros x I. rewrite Forall_forall in H, Kl. exact (H x I (Kl x I)). }
        match goal with X : forall k v, In (k, v) kw -> _, Y : forall m w j, _ -> _ -> _ -> _ -> exists v, In _ kw |- _ => rename X into A1; rename Y into A2 end.
        destruct (members_give ms l Di Q Kd) with (acc := @nil (text * value)) as (new & T & G0 & G1 & G2).
        { intros m w j Im W Ij C. destruct (A2 m w j Im W Ij C) as [v Iv]. destruct (A1 _ _ Iv) as (m' & w' & j' & Im' & Nm' & W' & Ij' & C' & Sv).
          assert (m' = m) by (apply Di; auto). subst m'. assert (w' = w) by (eapply on_wire_fun; eassumption). subst w'.
          assert (j' = j) by (eapply NoDup_pair; eassumption). subst j'. eauto. }
        { intros m w _ _ []. }
        exists (VStruct nn new). split; [econstructor; eassumption|]. intros path [|f] _ L; [lia|]. rewrite read_shape_eq, En.
        apply (consumes_fmap _ (VStruct nn)).
        apply (struct_consumes st env ms _ upd_member path l f [] new Di); [| exact T | lia].
        intros k j m acc acc1 I Im W Qm (v' & [_ Rv] & ->). apply consumes_fmap with (g := fun v => dict_set (m_name m) v acc).
        apply Rv; [apply clear_below|]. assert (X := child_pair path l k j I). lia.
      + match goal with E : env nn = NMap _ _ |- _ => rename E into En end.
        inversion K as [| | | | |l0 Kd Kl]; subst.
        assert (Q : Forall (fun a : text * json => forall n v, says n (snd a) v -> exists v', gives n (snd a) v') l).
        { apply Forall_forall. intros x I. rewrite Forall_forall in H, Kl. exact (H x I (Kl x I)). }
        match goal with F : Forall2 _ _ kvs |- _ => destruct (entries_give sparse t l Q Kd kvs F []) as (new & T & G) end.
        { intros k _ []. }
        exists (VMap new). split; [econstructor; eassumption|]. intros path [|f] _ L; [lia|]. rewrite read_shape_eq, En.
        apply (consumes_fmap _ VMap). apply (map_consumes path _ (upd_entry sparse t) l f [] new); [| exact T | lia].
        intros k j acc acc1 I U. assert (X := child_pair path l k j I). destruct U as [[U ->]|(Nj & v' & [_ Rv] & ->)]; cbn [fst snd] in *.
        * subst j. cbn [events]. eapply consumes_look; [apply looks_is_null|]. cbn [e_tok null_tok].
          apply (consumes_fmap read_null (fun _ => if sparse then dict_set k VNull acc else acc) _ tt). apply consumes_read_null.
        * specialize (Rv (path ++ [k]) f (clear_below _ _ _) ltac:(lia)).
          destruct (events_head (path ++ [k]) j) as [r E]. rewrite E in *.
          eapply consumes_look; [apply looks_is_null|]. cbn [e_tok].
          destruct (null_tok (head_tok j)) eqn:Z; [now apply null_tok_head in Z|].
          apply (consumes_fmap _ (fun v => dict_set k v acc)). exact Rv.
  Qed.
End Direct.

(** ** Reading by way of a document *)
Lemma integral_pair x : integral x = true -> num_value x = (fst (num_value x), 0%Z).
Proof. intros I. rewrite <- (integral_exp x I). apply surjective_pairing. Qed.
Lemma to_plain_obj l : NoDup (map fst l) -> to_plain (JObj l) = PDict (map (fun kv : text * json => (fst kv, to_plain (snd kv))) l).
Proof. intros N. cbn [to_plain]. rewrite fold_dict_set; [reflexivity | exact N | intros k _ []]. Qed.
Lemma is_none_null j : is_none (to_plain j) = match j with JNull => true | _ => false end.
Proof. destruct j; try reflexivity. cbn [to_plain]. unfold num_token. destruct (integral n); reflexivity. Qed.

Lemma read_members_sound kids ms : forall acc acc', read_members kids ms acc = Ok acc' -> NoDup (map m_name ms) ->
  (forall m, In m ms -> ~ In (m_name m) (dict_keys acc)) ->
  exists new, acc' = acc ++ new /\ NoDup (map fst new)
    /\ (forall k v, In (k, v) new <-> exists m f, In m ms /\ m_name m = k /\ dict_get k kids = Some f /\ f (m_target m) = Ok v).
Proof.
  induction ms as [|m ms IH]; intros acc acc' E N D; cbn [read_members map] in *.
  - injection E as <-. exists []. rewrite app_nil_r. split; [reflexivity|]. split; [constructor|]. intros k v. split; [intros [] | intros (m & f & [] & _)].
  - inversion N as [|? ? Nm Nl]; subst. destruct (dict_get (m_name m) kids) as [f|] eqn:G.
    + destruct (f (m_target m)) as [v|e] eqn:F; [cbn [bind] in E | discriminate E].
      rewrite dict_set_new in E by (apply D; now left). destruct (IH _ _ E Nl) as (new & -> & Nn & C).
      { intros m' I' J. unfold dict_keys in J. rewrite map_app in J. apply in_app_or in J as [J|[J|[]]].
        - now apply (D m' (or_intror I')).
        - cbn [fst] in J. apply Nm. rewrite J. now apply in_map. }
      exists ((m_name m, v) :: new). split; [now rewrite <- app_assoc|]. split.
      * cbn [map fst]. constructor; [|exact Nn]. intros I. apply in_map_iff in I as ([k0 v0] & E0 & I). cbn [fst] in E0. subst k0.
        apply C in I as (m' & f' & I' & E' & _). apply Nm. rewrite <- E'. now apply in_map.
      * intros k v0. split.
        -- intros [[= <- <-]|I].
           ++ exists m, f. split; [now left|]. auto.
           ++ apply C in I as (m' & f' & I' & R). exists m', f'. split; [now right | exact R].
        -- intros (m' & f' & [<-|I'] & E' & G' & F').
           ++ left. rewrite <- E' in G'. congruence.
           ++ right. apply C. exists m', f'. auto.
    + destruct (IH _ _ E Nl) as (new & -> & Nn & C).
      { intros m' I'. apply D. now right. }
      exists new. split; [reflexivity|]. split; [exact Nn|]. intros k v0. rewrite C. split.
      * intros (m' & f' & I' & R). exists m', f'. split; [now right | exact R].
      * intros (m' & f' & [<-|I'] & E' & G' & F'); [rewrite <- E' in G'; congruence|]. exists m', f'. auto.
Qed.
Lemma read_members_total kids ms : (forall m f, In m ms -> dict_get (m_name m) kids = Some f -> exists v, f (m_target m) = Ok v) ->
  forall acc, exists acc', read_members kids ms acc = Ok acc'.
Proof.
  induction ms as [|m ms IH]; intros H acc; cbn [read_members]; [eauto|].
  destruct (dict_get (m_name m) kids) as [f|] eqn:G.
  - destruct (H m f (in_eq _ _) G) as [v F]. rewrite F. cbn [bind]. apply IH. intros; eapply H; [now right | eassumption].
  - apply IH. intros; eapply H; [now right | eassumption].
Qed.

Section Document.
  Variable st : settings.
  Variable env : N -> node.
  Variable ts_de : tformat -> tstext -> result Z.
  Variable float_of : decimal -> float.
  Hypothesis Hd : forall n ms, env n = NStruct ms -> NoDup (map m_name ms).
  Notation says := (says true (no_traits st) env ts_de float_of).
  Notation as_shape := (as_shape env (default_ts st) ts_de float_of).
  Notation as_timestamp := (as_timestamp (default_ts st) ts_de float_of).

  Lemma as_shape_eq p n : as_shape p n =
    match env n with
    | NBool => match p with PBool b => Ok (VBool b) | _ => Err ExpectationNotMet end
    | NInt => match p with PInt z => Ok (VInt z) | _ => Err ExpectationNotMet end
    | NFloat => match p with PDec d => Ok (VFloat (float_of d)) | _ => Err ExpectationNotMet end
    | NDecimal => match p with PDec d => Ok (VDecimal (BFin d)) | _ => Err ExpectationNotMet end
    | NStr => match p with PStr s => Ok (VStr s) | _ => Err ExpectationNotMet end
    | NBlob => match p with
               | PStr s => match b64decode s with Ok bs => Ok (VBlob bs) | Err e => Err e end
               | _ => Err ExpectationNotMet
               end
    | NTime trait => as_timestamp trait p
    | NDoc => Ok (VDoc p)
    | NStruct ms =>
      match p with
      | PDict l =>
        do kw <- read_members (map (fun kv : text * plain => let (k, x) := kv in (k, as_shape x)) l) ms [];
        Ok (VStruct n kw)
      | _ => match ms with [] => Ok (VStruct n []) | _ => Err ExpectationNotMet end
      end
    | NList sparse t =>
      match p with
      | PList l => do vs <- read_items sparse (map (fun x => (is_none x, as_shape x t)) l); Ok (VList vs)
      | _ => Err ExpectationNotMet
      end
    | NMap sparse t =>
      match p with
      | PDict l =>
        do kvs <- read_entries sparse (map (fun kv : text * plain => let (k, x) := kv in (k, (is_none x, as_shape x t))) l) [];
        Ok (VMap kvs)
      | _ => Err ExpectationNotMet
      end
    end.
  Proof. destruct p; reflexivity. Qed.

  Lemma items_sound sparse t l : Forall (fun j => forall v, as_shape (to_plain j) t = Ok v -> says t j v) l ->
    forall vs, read_items sparse (map (fun x => (is_none x, as_shape x t)) (map to_plain l)) = Ok vs ->
    Forall2 (fun j v => (j = JNull /\ v = VNull) \/ (j <> JNull /\ says t j v)) (filter (present sparse) l) vs.
  Proof.
    induction 1 as [|j l P _ IH]; intros vs E; cbn [map read_items filter] in *.
    - injection E as <-. constructor.
    - rewrite is_none_null in E. unfold present at 1.
      destruct j; cbn [orb] in E |- *; rewrite ?orb_true_r, ?orb_false_r.
      1: { destruct (read_items sparse _) as [vs0|e] eqn:R in E; [cbn [bind] in E | discriminate E]. injection E as <-.
           destruct sparse; [constructor; [now left|]|]; apply IH; exact R. }
      all: destruct (as_shape _ t) as [x|e] eqn:X in E; [cbn [bind] in E | discriminate E];
        destruct (read_items sparse _) as [vs0|e] eqn:R in E; [cbn [bind] in E | discriminate E]; injection E as <-;
        constructor; [right; split; [discriminate | now apply P] | apply IH; exact R].
  Qed.
  Lemma items_total sparse t l : Forall (fun j => (exists v, says t j v) -> exists v, as_shape (to_plain j) t = Ok v) l ->
    forall vs, Forall2 (fun j v => (j = JNull /\ v = VNull) \/ (j <> JNull /\ says t j v)) (filter (present sparse) l) vs ->
    exists vs', read_items sparse (map (fun x => (is_none x, as_shape x t)) (map to_plain l)) = Ok vs'.
  Proof.
    induction 1 as [|j l P _ IH]; intros vs F; cbn [map read_items filter] in *; [eauto|].
    rewrite is_none_null. unfold present in F at 1. destruct j; cbn [orb] in F |- *; rewrite ?orb_true_r, ?orb_false_r in F.
    1: { destruct sparse; [inversion F as [|? ? ? ? _ F']; subst; destruct (IH _ F') as [vs1 E1] | destruct (IH _ F) as [vs1 E1]];
           rewrite E1; cbn [bind]; eauto. }
    all: inversion F as [|? ? ? ? [[X _]|[_ X]] F']; subst; [discriminate X|]; destruct (P (ex_intro _ _ X)) as [x1 X1]; rewrite X1; cbn [bind];
      destruct (IH _ F') as [vs1 E1]; rewrite E1; cbn [bind]; eauto.
  Qed.
  Notation entry_says := (fun t => fun (a : text * json) (b : text * value) =>
    fst a = fst b /\ ((snd a = JNull /\ snd b = VNull) \/ (snd a <> JNull /\ says t (snd a) (snd b)))).
  Notation kids t l := (map (fun kv : text * plain => let (k, x) := kv in (k, (is_none x, as_shape x t)))
                          (map (fun kv : text * json => (fst kv, to_plain (snd kv))) l)).
  Lemma entries_sound sparse t (l : list (text * json)) : Forall (fun a => forall v, as_shape (to_plain (snd a)) t = Ok v -> says t (snd a) v) l ->
    NoDup (map fst l) -> forall acc kvs, (forall k, In k (map fst l) -> ~ In k (dict_keys acc)) ->
    read_entries sparse (kids t l) acc = Ok kvs ->
    exists new, kvs = acc ++ new /\ Forall2 (entry_says t) (filter (fun a => present sparse (snd a)) l) new.
  Proof.
    induction 1 as [|[k j] l P _ IH]; intros N acc kvs D E; cbn [map read_entries filter fst snd] in *.
    - injection E as <-. exists []. rewrite app_nil_r. split; constructor.
    - inversion N as [|? ? Nk Nl]; subst.
      assert (Dk : forall v0, forall k0, In k0 (map fst l) -> ~ In k0 (dict_keys (acc ++ [(k, v0)]))).
      { intros v0 k0 I. unfold dict_keys. rewrite map_app. intros J. apply in_app_or in J as [J|J].
        - now apply (D k0 (or_intror I)).
        - destruct J as [<-|[]]. now apply Nk. }
      assert (D' : forall k0, In k0 (map fst l) -> ~ In k0 (dict_keys acc)).
      { intros k0 I0. apply D. now right. }
      rewrite is_none_null in E. unfold present at 1.
      destruct j; cbn [orb] in E |- *; rewrite ?orb_true_r, ?orb_false_r.
      1: { destruct sparse.
           - rewrite dict_set_new in E by (apply D; now left). destruct (IH Nl _ _ (Dk _) E) as (new & -> & F).
             exists ((k, VNull) :: new). split; [now rewrite <- app_assoc|]. constructor; [split; [reflexivity|now left] | exact F].
           - exact (IH Nl _ _ D' E). }
      all: destruct (as_shape _ t) as [x|e] eqn:X in E; [cbn [bind] in E | discriminate E];
        rewrite dict_set_new in E by (apply D; now left); destruct (IH Nl _ _ (Dk _) E) as (new & -> & F);
        exists ((k, x) :: new); (split; [now rewrite <- app_assoc|]); constructor; [|exact F];
        split; [reflexivity|]; right; split; [discriminate | now apply P].
  Qed.
  Lemma entries_total sparse t (l : list (text * json)) : Forall (fun a => (exists v, says t (snd a) v) -> exists v, as_shape (to_plain (snd a)) t = Ok v) l ->
    forall kvs, Forall2 (entry_says t) (filter (fun a => present sparse (snd a)) l) kvs ->
    forall acc, exists kvs', read_entries sparse (kids t l) acc = Ok kvs'.
  Proof.
    induction 1 as [|[k j] l P _ IH]; intros kvs F acc; cbn [map read_entries filter fst snd] in *; [eauto|].
    rewrite is_none_null. unfold present in F at 1. destruct j; cbn [orb] in F |- *; rewrite ?orb_true_r, ?orb_false_r in F.
    1: { destruct sparse; [inversion F as [|? ? ? ? _ F']; subst; exact (IH _ F' _) | exact (IH _ F _)]. }
    all: inversion F as [|? ? ? ? [_ [[X _]|[_ X]]] F']; subst; [discriminate X|]; destruct (P (ex_intro _ _ X)) as [x1 X1]; cbn [snd] in X1; rewrite X1; cbn [bind];
      apply (IH _ F').
  Qed.

  (** [dict_get] among the children of an object. *)
  Lemma kids_get (l : list (text * json)) k f : NoDup (map fst l) ->
    (dict_get k (map (fun kv : text * plain => let (k, x) := kv in (k, as_shape x)) (map (fun kv : text * json => (fst kv, to_plain (snd kv))) l)) = Some f
     <-> exists j, In (k, j) l /\ f = as_shape (to_plain j)).
  Proof.
    intros N. assert (Nk : NoDup (dict_keys (map (fun kv : text * plain => let (k, x) := kv in (k, as_shape x)) (map (fun kv : text * json => (fst kv, to_plain (snd kv))) l)))).
    { unfold dict_keys. rewrite !map_map. cbn [fst]. replace (map _ l) with (map fst l); [exact N|]. apply map_ext. now intros []. }
    split.
    - intros G. apply dict_get_In in G. rewrite map_map in G. apply in_map_iff in G as ([k' j] & E & I). cbn [fst snd] in E. injection E as -> <-. eauto.
    - intros (j & I & ->). apply dict_In_get; [exact Nk|]. rewrite map_map. apply in_map_iff. exists (k, j). auto.
  Qed.

  Lemma time_sound a x t : as_timestamp a x = Ok t -> exists t', t = VTime a t' /\
    match x with
    | PBool b => ts_de (default_ts st) (TNum (FFin (decimal_of_Z (if b then 1 else 0)))) = Ok t'
    | PInt z => ts_de (default_ts st) (TNum (FFin (decimal_of_Z z))) = Ok t'
    | PStr s => ts_de (default_ts st) (TText s) = Ok t'
    | PDec d => ts_de (default_ts st) (TNum (float_of d)) = Ok t'
    | _ => False
    end.
  Proof.
    unfold JsonDoc_Model.as_timestamp. destruct x; try discriminate; destruct (ts_de _ _) eqn:T; try discriminate; intros [= <-]; eauto.
  Qed.

  Lemma document_sound j : keys_once j -> forall n v, as_shape (to_plain j) n = Ok v -> says n j v.
  Proof.
    assert (Fd : forall a, format_in_force (no_traits st) a (default_ts st)) by (intros a; now apply force_plain).
    induction j using json_ind'; intros K n v E.
    1,2,4: rewrite as_shape_eq in E; destruct (env n) eqn:En; cbn [to_plain] in E; try discriminate E;
      try (apply time_sound in E as (t & -> & T); try (now elim T));
      try (destruct ms; [|discriminate E]); try (destruct (b64decode _) eqn:B; [apply b64decode_iff in B|discriminate E]);
      try (injection E as <-);
      first [exact (Sy_doc true (no_traits st) env ts_de float_of n JNull En) | exact (Sy_doc true (no_traits st) env ts_de float_of n (JBool _) En)
            | exact (Sy_doc true (no_traits st) env ts_de float_of n (JStr _) En)
            | exact (Sy_time_bool true (no_traits st) env ts_de float_of n trait _ _ t En (Fd _) (or_intror eq_refl) T)
            | exact (Sy_time_text true (no_traits st) env ts_de float_of n trait _ _ t En (Fd _) (or_intror eq_refl) T)
            | solve [econstructor; eauto]].
    - rewrite as_shape_eq in E. destruct (env n) eqn:En; cbn [to_plain] in E; rewrite num_token_eq in E.
      1-8,9,10: destruct (integral z) eqn:I; try discriminate E.
      + injection E as <-. apply Sy_int; auto. now apply integral_pair.
      + injection E as <-. apply Sy_float; auto. apply token_written.
      + injection E as <-. apply Sy_dec; auto. apply token_written.
      + apply time_sound in E as (t & -> & T). eapply Sy_time_int; eauto. now apply integral_pair.
      + apply time_sound in E as (t & -> & T). eapply Sy_time_num; eauto. apply token_written.
      + destruct ms; [|discriminate E]. injection E as <-. now apply Sy_empty.
      + destruct ms; [|discriminate E]. injection E as <-. now apply Sy_empty.
      + injection E as <-. assert (S := Sy_doc true (no_traits st) env ts_de float_of n (JNum z) En). cbn [to_plain] in S. rewrite num_token_eq in S. exact S.
    - inversion K as [| | | |l0 Kl|]; subst.
      rewrite as_shape_eq in E. destruct (env n) eqn:En; cbn [to_plain] in E; try discriminate E.
      + destruct ms; [|discriminate E]. injection E as <-. now apply Sy_empty.
      + destruct (read_items _ _) as [vs|e] eqn:R in E; [cbn [bind] in E | discriminate E]. injection E as <-.
        eapply Sy_list; [exact En|]. apply items_sound; [|exact R]. rewrite Forall_forall in *. intros j I. apply H; auto.
      + injection E as <-. now apply (Sy_doc true (no_traits st) env ts_de float_of n (JArr l)).
    - inversion K as [| | | | |l0 Kd Kl]; subst. rewrite Forall_forall in H, Kl.
      rewrite as_shape_eq in E. destruct (env n) eqn:En; rewrite (to_plain_obj l Kd) in E; try discriminate E.
      + destruct (read_members _ _ _) as [kw|e] eqn:R in E; [cbn [bind] in E | discriminate E]. injection E as <-.
        destruct (read_members_sound _ _ _ _ R (Hd _ _ En)) as (new & E0 & Nn & C); [intros m _ []|]. cbn [app] in E0. subst kw.
        eapply Sy_struct; [exact En | exact Nn | |].
        * intros k v I. apply C in I as (m & f & Im & Nm & G & F). apply (kids_get l k f Kd) in G as (j & Ij & ->).
          exists m, k, j. split; [exact Im|]. split; [exact Nm|]. split; [now apply on_wire_plain|]. split; [exact Ij|]. split; [now left|].
          apply (H (k, j) Ij (Kl _ Ij)). exact F.
        * intros m w j Im W Ij _. apply on_wire_plain in W. subst w.
          assert (G : dict_get (m_name m) (map (fun kv : text * plain => let (k, x) := kv in (k, as_shape x)) (map (fun kv : text * json => (fst kv, to_plain (snd kv))) l)) = Some (as_shape (to_plain j))).
          { apply kids_get; [exact Kd|]. eauto. }
          assert (T : exists v, as_shape (to_plain j) (m_target m) = Ok v).
          { clear - R Im G. revert R. generalize (@nil (text * value)). induction ms as [|m0 ms IH]; [destruct Im|].
            intros acc R. cbn [read_members] in R. destruct Im as [->|Im].
            - rewrite G in R. destruct (as_shape (to_plain j) (m_target m)) eqn:X; [eauto | discriminate R].
            - destruct (dict_get (m_name m0) _) as [f0|]; [|exact (IH Im _ R)]. destruct (f0 (m_target m0)); [cbn [bind] in R | discriminate R]. exact (IH Im _ R). }
          destruct T as [v F]. exists v. apply C. exists m, (as_shape (to_plain j)). auto.
      + destruct (read_entries _ _ _) as [kvs|e] eqn:R in E; [cbn [bind] in E | discriminate E]. injection E as <-.
        destruct (entries_sound sparse of l) with (acc := @nil (text * value)) (kvs := kvs) as (new & E0 & F);
          [apply Forall_forall; intros a I; apply (H a I (Kl a I)) | exact Kd | intros k _ [] | exact R|]. cbn [app] in E0. subst kvs.
        eapply Sy_map; [exact En | exact F].
      + injection E as <-. rewrite <- (to_plain_obj l Kd). now apply Sy_doc.
  Qed.
  Lemma document_total j : keys_once j -> forall n v, says n j v -> exists v', as_shape (to_plain j) n = Ok v'.
  Proof.
    induction j using json_ind'; intros K n v S; rewrite as_shape_eq.
    1-4: inversion S; subst; match goal with En : env _ = _ |- _ => rewrite En end; cbn [to_plain]; try rewrite num_token_eq;
      repeat match goal with
        | I : integral _ = _ |- _ => rewrite I
        | I : base64_read _ _ |- _ => apply b64decode_iff in I; rewrite I; clear I
        | I : format_in_force _ _ _ |- _ => apply force_plain in I; subst
        | I : num_value _ = _ |- _ => rewrite I
      end; try discriminate; cbn [fst JsonDoc_Model.as_timestamp];
      repeat match goal with I : ts_de _ _ = Ok _ |- _ => rewrite ?int_decimal_eq in I; rewrite I; clear I end; eauto.
    - match goal with I : integral _ = false \/ _ |- _ => destruct I as [I|I]; [rewrite I; eauto | discriminate I] end.
    - match goal with W : as_written _ _ |- _ => rewrite (as_written_fun _ _ _ (token_written z) W) end.
      unfold JsonDoc_Model.as_timestamp. match goal with I : ts_de _ _ = Ok _ |- _ => rewrite I end. eauto.
    - destruct (integral z); eauto.
    - inversion K as [| | | |l0 Kl|]; subst. inversion S; subst; match goal with En : env _ = _ |- _ => rewrite En end; cbn [to_plain]; eauto.
      match goal with F : Forall2 _ _ vs |- _ => destruct (items_total sparse t l) with (vs := vs) as [vs' E]; [|exact F|] end.
      { rewrite Forall_forall in *. intros j I [v Sv]. exact (H j I (Kl j I) _ _ Sv). }
      rewrite E. cbn [bind]. eauto.
    - inversion K as [| | | | |l0 Kd Kl]; subst. rewrite Forall_forall in H, Kl. rewrite (to_plain_obj l Kd).
      inversion S; subst; match goal with En : env _ = _ |- _ => rewrite En end; cbn [read_members bind]; eauto.
      + match goal with X : forall k v, In (k, v) kw -> _, Y : forall m w j, _ -> _ -> _ -> _ -> exists v, In _ kw |- _ => rename X into A1; rename Y into A2 end.
        match goal with En : env _ = NStruct ms |- _ => assert (Dn := Hd _ _ En) end.
        edestruct read_members_total as [kw' R]; [|rewrite R; cbn [bind]; eauto].
        intros m f Im G. apply (kids_get l _ f Kd) in G as (j & Ij & ->).
        destruct (A2 m (m_name m) j Im) as [v Iv]; [now apply on_wire_plain | exact Ij | now left|].
        destruct (A1 _ _ Iv) as (m' & w' & j' & Im' & Nm' & W' & Ij' & _ & Sv). apply on_wire_plain in W'. subst w'. rewrite Nm' in Ij'.
        assert (j' = j) by (eapply NoDup_pair; eassumption). subst j'.
        assert (m' = m).
        { clear - Dn Im Im' Nm'. induction ms as [|m0 ms IH]; [destruct Im|]. cbn [map] in Dn. inversion Dn as [|? ? D0 D1]; subst.
          destruct Im as [->|Im], Im' as [->|Im']; auto.
          - elim D0. rewrite <- Nm'. now apply in_map.
          - elim D0. rewrite Nm'. now apply in_map. }
        subst m'. exact (H (_, j) Ij (Kl _ Ij) _ _ Sv).
      + match goal with F : Forall2 _ _ kvs |- _ => destruct (entries_total sparse t l) with (kvs := kvs) (acc := @nil (text * value)) as [kvs' E]; [|exact F|] end.
        { apply Forall_forall. intros a I [v Sv]. exact (H a I (Kl a I) _ _ Sv). }
        rewrite E. cbn [bind]. eauto.
  Qed.
End Document.

Lemma as_value_same p : as_value p = p.
Proof.
  induction p using plain_ind'; try reflexivity; cbn [as_value]; f_equal.
  - induction H as [|x l E _ IH]; [reflexivity|]. cbn [map]. now rewrite E, IH.
  - induction H as [|[k x] l E _ IH]; [reflexivity|]. cbn [map snd] in *. now rewrite E, IH.
Qed.
