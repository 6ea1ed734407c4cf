(** A value of a schema that was written is read back by that schema. *)
From Verif Require Import Base Base_Proofs Utf8_Model PyText_Model PyText_Proofs PySort_Model PyDict_Model PyDict_Proofs PyDecimal_Model Base64_Model Base64_Spec Base64Rfc_Proofs Json_Model Json_Spec JsonNum_Proofs Json_Proofs JsonRead_Proofs.
Local Open Scope N_scope.

Lemma integral_exp n : integral n = true -> snd (num_value n) = 0%Z.
Proof.
  unfold integral, num_value. destruct (n_frac n); [|discriminate]. destruct (n_exp n); [discriminate | reflexivity].
Qed.
Lemma token_value n : dec_value (mkDec (n_neg n) (Z.abs_N (fst (num_value n))) (snd (num_value n))) = num_value n.
Proof.
  unfold dec_value. cbn [d_neg d_coeff d_exp]. unfold num_value. cbn [fst snd].
  set (m := match digits_val 0 _ with Some v => v | None => 0 end). f_equal. destruct (n_neg n); lia.
Qed.
Lemma num_token_eq n : num_token n = if integral n then TkInt (fst (num_value n))
  else TkDec (mkDec (n_neg n) (Z.abs_N (fst (num_value n))) (snd (num_value n))).
Proof. reflexivity. Qed.

(** ** Documents *)
Lemma fold_dict_set {A B} (f : A -> B) (l : list (text * A)) : forall acc,
  NoDup (map fst l) -> (forall k, In k (map fst l) -> ~ In k (dict_keys acc)) ->
  fold_left (fun d (kv : text * A) => let (k, x) := kv in dict_set k (f x) d) l acc = acc ++ map (fun kv => (fst kv, f (snd kv))) l.
Proof.
  induction l as [|[k x] l IH]; intros acc N D; cbn [fold_left map fst snd] in *; [now rewrite app_nil_r|].
  inversion N as [|? ? Nk Nl]; subst. rewrite dict_set_new by (apply D; now left). rewrite IH.
  - rewrite <- app_assoc. reflexivity.
  - exact Nl.
  - intros k' I. unfold dict_keys. rewrite map_app. intros J. apply in_app_or in J as [J|J].
    + now apply (D k' (or_intror I)).
    + destruct J as [<-|[]]. now apply Nk.
Qed.
Lemma doc_back p : forall j, doc_is p j -> doc_dicts p -> same_doc p (to_plain j).
Proof.
  induction p using plain_ind'; intros j D W; inversion D; subst; cbn [to_plain]; try constructor.
  - rewrite num_token_eq, H1. match goal with H : num_value _ = _ |- _ => rewrite H end. constructor.
  - rewrite num_token_eq. destruct (integral n) eqn:I.
    + constructor. apply integral_exp in I. destruct (num_value n) as [m e] eqn:V. cbn [snd fst] in *. subst e. assumption.
    + constructor. now rewrite token_value.
  - inversion W; subst. clear D W. match goal with H : Forall2 doc_is l _ |- _ => revert H end.
    match goal with W : Forall doc_dicts l |- _ => revert W end.
    revert js. induction H as [|x l Px _ IH]; intros js W F; inversion F; inversion W; subst; [constructor|].
    cbn [map]. constructor; [now apply Px | now apply IH].
  - inversion W as [| | | | | |l0 Nd Wl]; subst. rename H1 into F0.
    assert (K : map fst js = map fst l).
    { clear - F0. induction F0 as [|a b l js [E _] _ IH]; [reflexivity|]. cbn [map]. now rewrite IH, E. }
    rewrite fold_dict_set; [| now rewrite K | intros k _ []]. cbn [app]. clear D W Nd K.
    revert js F0. induction H as [|x l Px _ IH]; intros js F; inversion F as [|? b ? js' [E X] Fr]; subst; [constructor|].
    inversion Wl; subst. cbn [map]. constructor; [|now apply IH]. cbn [fst snd]. split; [exact E | now apply Px].
Qed.

Section Typed.
  Variable st : settings.
  Variable env : N -> node.
  Variable ts_ser : tformat -> Z -> tstext.
  Variable ts_de : tformat -> tstext -> result Z.
  Variable float_of : decimal -> float.
  Hypothesis Fl : by_value float_of.
  Notation typed := (typed st env ts_ser ts_de float_of).
  Notation value_is := (value_is st env ts_ser).
  Notation read_shape := (read_shape st env ts_de float_of).

  Definition clear_for (v : value) (path : list text) (j : json) : Prop :=
    match v with VDoc _ => clear_path path j | _ => True end.
  Definition reads (n : N) (v : value) (j : json) (v' : value) : Prop :=
    forall path fuel, clear_for v path j -> (List.length (events path j) < fuel)%nat ->
      consumes (read_shape fuel n) (events path j) v'.

  Lemma read_shape_eq f n : read_shape (S f) n = match env n with
      | NBool => read_boolean
      | NInt => read_integer
      | NFloat => read_float float_of
      | NDecimal => read_big_decimal
      | NStr => rbind read_text (fun s => ret (VStr s))
      | NBlob => read_blob
      | NTime trait => read_timestamp st ts_de float_of trait
      | NDoc => rbind (read_document f) (fun p => ret (VDoc p))
      | NStruct ms =>
        rbind (read_struct st env f ms (fun m acc => rbind (read_shape f (m_target m)) (fun v => ret (dict_set (m_name m) v acc))) [])
          (fun kwargs => ret (VStruct n kwargs))
      | NList sparse t =>
        rbind (read_list f
               (fun acc => rbind is_null (fun null : bool =>
                  if null then rbind read_null (fun _ => ret (if sparse then acc ++ [VNull] else acc))
                  else rbind (read_shape f t) (fun v => ret (acc ++ [v])))) [])
          (fun l => ret (VList l))
      | NMap sparse t =>
        rbind (read_map f
               (fun k acc => rbind is_null (fun null : bool =>
                  if null then rbind read_null (fun _ => ret (if sparse then dict_set k VNull acc else acc))
                  else rbind (read_shape f t) (fun v => ret (dict_set k v acc)))) [])
          (fun l => ret (VMap l))
      end.
  Proof. reflexivity. Qed.

  Lemma consumes_fmap {A B} (r : R A) (g : A -> B) evs x : consumes r evs x -> consumes (rbind r (fun y => ret (g y))) evs (g x).
  Proof. intros H. rewrite <- (app_nil_r evs). eapply consumes_bind; [exact H | apply consumes_ret]. Qed.
  Lemma next_last {B} (k : event -> R B) e y : consumes (k e) [] y -> consumes (rbind next k) [e] y.
  Proof. apply next_bind. Qed.

  Lemma float_reads f j path : float_is f j -> printed float_of f -> consumes (read_float float_of) (events path j) (VFloat f).
  Proof.
    intros H P. inversion H as [d n V Sg I| |]; subst; cbn [events]; unfold read_float; apply next_last; cbn [e_tok].
    - rewrite num_token_eq, I. rewrite (Fl _ d); [cbn [printed] in P; rewrite P; apply consumes_ret | exact Sg|].
      rewrite token_value. exact V.
    - apply consumes_ret.
    - apply consumes_ret.
  Qed.
  Lemma null_value v : value_is v JNull -> v = VNull \/ v = VDoc PNull.
  Proof.
    intros H. inversion H; subst; auto.
    - inversion H0.
    - inversion H0.
    - inversion H2.
    - inversion H0. auto.
  Qed.
  Lemma format_unique trait f g : format_in_force st trait f -> format_in_force st trait g -> f = g.
  Proof. unfold format_in_force. destruct trait; [destruct (use_ts_format st)|]; congruence. Qed.
  Lemma ts_format_force trait : format_in_force st trait (ts_format st trait).
  Proof. unfold format_in_force, ts_format. destruct trait; [destruct (use_ts_format st)|]; reflexivity. Qed.
  Lemma time_reads trait t j path : value_is (VTime trait t) j -> (forall f, format_in_force st trait f -> carried ts_ser ts_de float_of f t) ->
    consumes (read_timestamp st ts_de float_of trait) (events path j) (VTime trait t).
  Proof.
    intros H C. specialize (C _ (ts_format_force trait)). destruct C as [B K].
    inversion H as [| | | | | | |tr t0 f s Ff E|tr t0 f x j0 Ff E Fx| | | |]; subst; rewrite (format_unique _ _ _ Ff (ts_format_force trait)) in *.
    - rewrite E in *. unfold read_timestamp. destruct (ts_format st trait); [| |now elim K].
      + cbn [events]. rewrite <- (app_nil_r [_]). eapply consumes_bind; [apply consumes_text; now left|]. rewrite B. apply consumes_ret.
      + cbn [events]. rewrite <- (app_nil_r [_]). eapply consumes_bind; [apply consumes_text; now left|]. rewrite B. apply consumes_ret.
    - rewrite E in *. destruct K as [K P]. unfold read_timestamp. rewrite K in *.
      rewrite <- (app_nil_r (events path j)). eapply consumes_bind; [exact (float_reads x j path Fx P)|]. cbn beta iota. rewrite B. apply consumes_ret.
  Qed.

  Lemma child_pair (path : list text) l k j : In (k, j) l -> (List.length (events (path ++ [k]) j) + 3 <= List.length (events path (JObj l)))%nat.
  Proof.
    intros I. cbn [events List.length]. rewrite app_length. cbn [List.length].
    assert (G : (S (List.length (events (path ++ [k]) j)) <= List.length (flat_map (pair_events path) l))%nat).
    { induction l as [|[k0 j0] l IH]; [destruct I|]. cbn [flat_map]. rewrite app_length. destruct I as [[= -> ->]|I]; [cbn [pair_events List.length]; lia|].
      specialize (IH I). lia. }
    change (flat_map (pair_events path) l) with (flat_map (fun kv : text * json => let (k, x) := kv in mkEv (dotted path) (TkKey k) :: events (path ++ [k]) x) l) in G.
    lia.
  Qed.
  Lemma child_item (path : list text) l j : In j l -> (List.length (events (path ++ [lit "item"]) j) + 2 <= List.length (events path (JArr l)))%nat.
  Proof.
    intros I. cbn [events List.length]. rewrite app_length. cbn [List.length].
    assert (G : (List.length (events (path ++ [lit "item"]) j) <= List.length (flat_map (events (path ++ [lit "item"])) l))%nat).
    { induction l as [|j0 l IH]; [destruct I|]. cbn [flat_map]. rewrite app_length. destruct I as [->|I]; [lia|]. specialize (IH I). lia. }
    lia.
  Qed.
  Lemma clear_for_below v path k j : clear_for v (path ++ [k]) j.
  Proof. destruct v; try exact I. apply clear_below. Qed.

  Definition back (v : value) : Prop := forall n j, typed n v -> value_is v j -> exists v', same v v' /\ reads n v j v'.

  Definition item_upd (sparse : bool) (t : N) (j : json) (acc acc1 : list value) : Prop :=
    (j = JNull /\ acc1 = if sparse then acc ++ [VNull] else acc)
    \/ (j <> JNull /\ exists v v', reads t v j v' /\ acc1 = acc ++ [v']).
  Definition pair_upd (sparse : bool) (t : N) (kj : text * json) (acc acc1 : list (text * value)) : Prop :=
    (snd kj = JNull /\ acc1 = if sparse then dict_set (fst kj) VNull acc else acc)
    \/ (snd kj <> JNull /\ exists v v', reads t v (snd kj) v' /\ acc1 = dict_set (fst kj) v' acc).
  Definition member_upd (m : member) (j : json) (acc acc1 : list (text * value)) : Prop :=
    exists v v', reads (m_target m) v j v' /\ acc1 = dict_set (m_name m) v' acc.

  Lemma items_chain sparse t l : Forall back l -> forall js, Forall2 value_is l js ->
    Forall (fun x => (sparse = true /\ x = VNull) \/ (typed t x /\ x <> VDoc PNull)) l ->
    forall acc, exists l', Forall2 same l l' /\ in_turn (item_upd sparse t) js acc (acc ++ l').
  Proof.
    induction 1 as [|x l Bx _ IH]; intros js F T acc; inversion F as [|? j ? js' Fx Fl0]; subst.
    - exists []. split; [constructor|]. rewrite app_nil_r. constructor.
    - inversion T as [|? ? Tx Tl]; subst. destruct Tx as [[Sp ->]|[Tx Nx]].
      + inversion Fx; subst. destruct (IH _ Fl0 Tl (acc ++ [VNull])) as (l' & S1 & S2).
        exists (VNull :: l'). split; [constructor; [constructor | exact S1]|].
        apply IT_cons with (acc1 := acc ++ [VNull]); [left; auto|]. rewrite <- app_assoc in S2. exact S2.
      + destruct (Bx _ _ Tx Fx) as (v' & Sv & Rv). destruct (IH _ Fl0 Tl (acc ++ [v'])) as (l' & S1 & S2).
        exists (v' :: l'). split; [constructor; assumption|].
        apply IT_cons with (acc1 := acc ++ [v']); [|rewrite <- app_assoc in S2; exact S2].
        right. split; [|eauto]. intros ->. apply null_value in Fx as [-> | ->]; [inversion Tx | now elim Nx].
  Qed.
  Lemma pairs_chain sparse t (l : list (text * value)) : Forall (fun a => back (snd a)) l -> forall js,
    Forall2 (fun a b => fst a = fst b /\ value_is (snd a) (snd b)) l js ->
    Forall (fun a : text * value => (sparse = true /\ snd a = VNull) \/ (typed t (snd a) /\ snd a <> VDoc PNull)) l ->
    NoDup (map fst l) ->
    forall acc, (forall k, In k (map fst l) -> ~ In k (dict_keys acc)) ->
    exists l', Forall2 (fun a b => fst a = fst b /\ same (snd a) (snd b)) l l' /\ in_turn (pair_upd sparse t) js acc (acc ++ l').
  Proof.
    induction 1 as [|[k x] l Bx _ IH]; intros js F T N acc D; inversion F as [|? [k' j] ? js' [Ek Fx] Fl0]; subst.
    - exists []. split; [constructor|]. rewrite app_nil_r. constructor.
    - cbn [fst snd map] in *. subst k'. inversion T as [|? ? Tx Tl]; subst. inversion N as [|? ? Nk Nl]; subst.
      assert (Dk : forall v0, forall k0, In k0 (map fst l) -> ~ In k0 (dict_keys (acc ++ [(k, v0)]))).
      { intros v0 k0 I. unfold dict_keys. rewrite map_app. intros J. apply in_app_or in J as [J|J].
        - now apply (D k0 (or_intror I)).
        - destruct J as [<-|[]]. now apply Nk. }
      cbn [snd] in Tx. destruct Tx as [[Sp ->]|[Tx Nx]].
      + inversion Fx; subst. destruct (IH _ Fl0 Tl Nl (acc ++ [(k, VNull)]) (Dk _)) as (l' & S1 & S2).
        exists ((k, VNull) :: l'). split; [constructor; [split; [reflexivity | constructor] | exact S1]|].
        apply IT_cons with (acc1 := acc ++ [(k, VNull)]); [|rewrite <- app_assoc in S2; exact S2].
        left. cbn [fst snd]. split; [reflexivity|]. symmetry. apply dict_set_new, D. now left.
      + destruct (Bx _ _ Tx Fx) as (v' & Sv & Rv). destruct (IH _ Fl0 Tl Nl (acc ++ [(k, v')]) (Dk _)) as (l' & S1 & S2).
        exists ((k, v') :: l'). split; [constructor; [split; [reflexivity | exact Sv] | exact S1]|].
        apply IT_cons with (acc1 := acc ++ [(k, v')]); [|rewrite <- app_assoc in S2; exact S2].
        right. cbn [fst snd]. split.
        * intros ->. apply null_value in Fx as [-> | ->]; [inversion Tx | now elim Nx].
        * exists x, v'. split; [exact Rv|]. symmetry. apply dict_set_new, D. now left.
  Qed.
  Lemma members_chain n ms (l : list (text * value)) : env n = NStruct ms -> distinct st ms ->
    Forall (fun a => back (snd a)) l -> forall js,
    Forall2 (fun a b => (exists m, has_member env n (fst a) m /\ on_wire st m (fst b)) /\ value_is (snd a) (snd b)) l js ->
    Forall (fun a => exists m, In m ms /\ m_name m = fst a /\ typed (m_target m) (snd a)) l ->
    NoDup (map fst l) ->
    forall acc, (forall k, In k (map fst l) -> ~ In k (dict_keys acc)) ->
    exists l', Forall2 (fun a b => fst a = fst b /\ same (snd a) (snd b)) l l'
      /\ struct_reads st (doc_member env) ms member_upd js acc (acc ++ l').
  Proof.
    intros En [D1 D2]. induction 1 as [|[k x] l Bx _ IH]; intros js F T N acc D; inversion F as [|? [w j] ? js' [(m & (ms' & Em & Im & Nm) & Wm) Fx] Fl0]; subst.
    - exists []. split; [constructor|]. rewrite app_nil_r. constructor.
    - rewrite En in Em. injection Em as <-.
      cbn [fst snd map] in *. inversion T as [|? ? (m' & Im' & Nm' & Tx) Tl]; subst. inversion N as [|? ? Nk Nl]; subst.
      cbn [fst snd] in *. assert (m' = m) by (apply D1; auto; congruence). subst m'.
      destruct (Bx _ _ Tx Fx) as (v' & Sv & Rv).
      destruct (IH _ Fl0 Tl Nl (acc ++ [(m_name m, v')])) as (l' & S1 & S2).
      { intros k0 I. unfold dict_keys. rewrite map_app. intros J. apply in_app_or in J as [J|J].
        - now apply (D k0 (or_intror I)).
        - destruct J as [<-|[]]. now apply Nk. }
      exists ((m_name m, v') :: l'). split; [constructor; [split; [reflexivity | exact Sv] | exact S1]|].
      apply SR_member with (m := m) (acc1 := acc ++ [(m_name m, v')]); [exact Im | exact Wm | | | rewrite <- app_assoc in S2; exact S2].
      + destruct j; try (left; discriminate). right. apply null_value in Fx as [-> | ->]; [inversion Tx|].
        unfold doc_member. inversion Tx; subst. assumption.
      + exists x, v'. split; [exact Rv|]. symmetry. apply dict_set_new, D. now left.
  Qed.

  Lemma value_back v : back v.
  Proof.
    induction v using value_ind'; intros nn j T V.
    - inversion T.
    - inversion T; subst. inversion V; subst. exists (VBool b). split; [constructor|]. intros path [|f] _ L; [cbn in L; lia|].
      rewrite read_shape_eq. match goal with H : env _ = _ |- _ => rewrite H end. unfold read_boolean. cbn [events]. apply next_last. apply consumes_ret.
    - inversion T; subst. inversion V; subst. exists (VInt z). split; [constructor|]. intros path [|f] _ L; [cbn in L; lia|].
      rewrite read_shape_eq. match goal with H : env _ = _ |- _ => rewrite H end. unfold read_integer. cbn [events]. apply next_last. cbn [e_tok].
      rewrite num_token_eq. match goal with H : integral _ = _ |- _ => rewrite H end. match goal with H : num_value _ = _ |- _ => rewrite H end. apply consumes_ret.
    - inversion T; subst. inversion V; subst. exists (VFloat f). split; [constructor|]. intros path [|fu] _ L; [lia|].
      rewrite read_shape_eq. match goal with H : env _ = _ |- _ => rewrite H end. now apply float_reads.
    - inversion T; subst. inversion V as [| | | |d1 j1 Di| | | | | | | |]; subst. inversion Di; subst.
      assert (G : exists d', same_value (dec_value d') (dec_value d0) /\ forall path, consumes read_big_decimal (events path (JNum n)) (VDecimal (BFin d'))).
      { destruct (integral n) eqn:I.
        - exists (decimal_of_Z (fst (num_value n))). split.
          + assert (X := integral_exp n I). destruct (num_value n) as [m e]. cbn [fst snd] in *. subst e.
            replace (dec_value (decimal_of_Z m)) with (m, 0%Z); [assumption|].
            unfold dec_value, decimal_of_Z. cbn [d_neg d_coeff d_exp]. f_equal. destruct (Z.ltb_spec m 0); lia.
          + intros path. unfold read_big_decimal. cbn [events]. apply next_last. cbn [e_tok]. rewrite num_token_eq, I. apply consumes_ret.
        - eexists. split; [|intros path; unfold read_big_decimal; cbn [events]; apply next_last; cbn [e_tok]; rewrite num_token_eq, I; apply consumes_ret].
          rewrite token_value. assumption. }
      destruct G as (d' & G1 & G2). exists (VDecimal (BFin d')). split; [now constructor|]. intros path [|f] _ L; [cbn in L; lia|].
      rewrite read_shape_eq. match goal with H : env _ = _ |- _ => rewrite H end. apply G2.
    - inversion T; subst. inversion V; subst. exists (VStr s). split; [constructor|]. intros path [|f] _ L; [cbn in L; lia|].
      rewrite read_shape_eq. match goal with H : env _ = _ |- _ => rewrite H end. cbn [events]. apply (consumes_fmap read_text VStr). apply consumes_text. now left.
    - inversion T; subst. inversion V; subst. exists (VBlob bs). split; [constructor|]. intros path [|f] _ L; [cbn in L; lia|].
      rewrite read_shape_eq. match goal with H : env _ = _ |- _ => rewrite H end. unfold read_blob. cbn [events]. apply next_last. cbn [e_tok].
      match goal with H : base64 _ _ |- _ => rewrite (base64_reads _ _ H) end. apply consumes_ret.
    - inversion T; subst. exists (VTime a t). split; [constructor|]. intros path [|f] _ L; [lia|].
      rewrite read_shape_eq. match goal with H : env _ = _ |- _ => rewrite H end. now apply time_reads.
    - inversion T as [| | | | | | |n0 ms l0 En Di Nd Ty| | |]; subst. inversion V as [| | | | | | | | |n1 ms1 js Fm| | |]; subst.
      destruct (members_chain n ms l En Di H js Fm Ty Nd []) as (l' & S1 & S2); [intros k _ []|]. cbn [app] in S2.
      exists (VStruct n l'). split; [now constructor|]. intros path [|f] _ L; [lia|]. rewrite read_shape_eq, En.
      apply (consumes_fmap _ (VStruct n)).
      apply (struct_consumes st env ms _ member_upd path js f [] l' Di); [| exact S2 | lia].
      intros k j m acc acc1 I Im W Q (v & v' & Rv & ->). apply consumes_fmap with (g := fun v => dict_set (m_name m) v acc).
      apply Rv; [apply clear_for_below|]. assert (X := child_pair path js k j I). lia.
    - inversion T as [| | | | | | | |n0 sparse t l0 En Ty| |]; subst. inversion V as [| | | | | | | | | |l1 js Fm| |]; subst.
      destruct (items_chain sparse t l H js Fm Ty []) as (l' & S1 & S2). cbn [app] in S2.
      exists (VList l'). split; [now constructor|]. intros path [|f] _ L; [lia|]. rewrite read_shape_eq, En.
      apply (consumes_fmap _ VList). apply (list_consumes path _ (item_upd sparse t) js f [] l'); [| exact S2 | lia].
      intros j acc acc1 I U. assert (X := child_item path js j I). destruct U as [[-> ->]|(Nj & v & v' & Rv & ->)].
      + cbn [events]. eapply consumes_look; [apply looks_is_null|]. cbn [e_tok null_tok].
        apply (consumes_fmap read_null (fun _ => if sparse then acc ++ [VNull] else acc) _ tt). apply consumes_read_null.
      + specialize (Rv (path ++ [lit "item"]) f (clear_for_below _ _ _ _) ltac:(lia)).
        destruct (events_head (path ++ [lit "item"]) j) as [r E]. rewrite E in *.
        eapply consumes_look; [apply looks_is_null|]. cbn [e_tok].
        destruct (null_tok (head_tok j)) eqn:Z; [now apply null_tok_head in Z|].
        apply (consumes_fmap _ (fun v => acc ++ [v])). exact Rv.
    - inversion T as [| | | | | | | | |n0 sparse t l0 En Nd Ty|]; subst. inversion V as [| | | | | | | | | | |l1 js Fm|]; subst.
      destruct (pairs_chain sparse t l H js Fm Ty Nd []) as (l' & S1 & S2); [intros k _ []|]. cbn [app] in S2.
      exists (VMap l'). split; [now constructor|]. intros path [|f] _ L; [lia|]. rewrite read_shape_eq, En.
      apply (consumes_fmap _ VMap). apply (map_consumes path _ (pair_upd sparse t) js f [] l'); [| exact S2 | lia].
      intros k j acc acc1 I U. assert (X := child_pair path js k j I). destruct U as [[U ->]|(Nj & v & v' & Rv & ->)]; cbn [fst snd] in *.
      + subst j. cbn [events]. eapply consumes_look; [apply looks_is_null|]. cbn [e_tok null_tok].
        apply (consumes_fmap read_null (fun _ => if sparse then dict_set k VNull acc else acc) _ tt). apply consumes_read_null.
      + specialize (Rv (path ++ [k]) f (clear_for_below _ _ _ _) ltac:(lia)).
        destruct (events_head (path ++ [k]) j) as [r E]. rewrite E in *.
        eapply consumes_look; [apply looks_is_null|]. cbn [e_tok].
        destruct (null_tok (head_tok j)) eqn:Z; [now apply null_tok_head in Z|].
        apply (consumes_fmap _ (fun v => dict_set k v acc)). exact Rv.
    - inversion T; subst. inversion V; subst. exists (VDoc (to_plain j)). split; [constructor; now apply doc_back|].
      intros path [|f] C L; [lia|]. rewrite read_shape_eq. match goal with H : env _ = _ |- _ => rewrite H end.
      apply (consumes_fmap _ VDoc). apply document_consumes; [exact C | lia].
  Qed.
End Typed.
