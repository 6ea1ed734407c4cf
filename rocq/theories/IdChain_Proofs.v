(** Lemmas about the identity chain. *)
From Verif Require Import Base Base_Proofs PyText_Model PySort_Model PySort_Proofs ConfigFile_Model Identity_Model
  IdChain_Model IdChain_Spec.
From Coq Require Import Permutation Sorting.Sorted.

Lemma slot_eqb_eq a b : slot_eqb a b = true <-> a = b.
Proof.
  unfold slot_eqb. rewrite Nat.eqb_eq. split; [|intros ->; reflexivity]. destruct a, b; cbn; intros H; try reflexivity; discriminate H.
Qed.
Lemma slot_index_inj a b : slot_index a = slot_index b -> a = b.
Proof. intros H. apply slot_eqb_eq, Nat.eqb_eq, H. Qed.
Lemma nth_documented s : nth_error documented (slot_index s) = Some s.
Proof. destruct s; reflexivity. Qed.
Lemma nth_split_two {A} (l : list A) : forall i j a b, nth_error l i = Some a -> nth_error l j = Some b -> (i < j)%nat ->
  exists x y z, l = x ++ a :: y ++ b :: z.
Proof.
  intros i j a b Ha Hb Hij. apply nth_error_split in Ha. destruct Ha as (x & r & E & L).
  rewrite E in Hb. rewrite nth_error_app2 in Hb by lia. destruct (j - List.length x)%nat as [|k] eqn:K; [lia|].
  cbn in Hb. apply nth_error_split in Hb. destruct Hb as (y & z & E2 & _). exists x, y, z. rewrite E, E2. reflexivity.
Qed.
Lemma earlier_index a b : earlier a b <-> (slot_index a < slot_index b)%nat.
Proof.
  split.
  - intros (x & y & z & E).
    assert (Ha : nth_error documented (List.length x) = Some a) by (rewrite E, nth_error_app2, Nat.sub_diag by lia; reflexivity).
    assert (Hb : nth_error documented (List.length x + S (List.length y)) = Some b).
    { rewrite E, nth_error_app2 by lia. replace (_ - _)%nat with (S (List.length y)) by lia. cbn.
      rewrite nth_error_app2, Nat.sub_diag by lia. reflexivity. }
    assert (Nd : NoDup documented) by (unfold documented; repeat constructor; cbn; intuition discriminate).
    rewrite NoDup_nth_error in Nd.
    assert (La : (List.length x < List.length documented)%nat) by (apply nth_error_Some; rewrite Ha; discriminate).
    assert (Lb : (List.length x + S (List.length y) < List.length documented)%nat) by (apply nth_error_Some; rewrite Hb; discriminate).
    assert (List.length x = slot_index a) by (apply Nd; [exact La|rewrite Ha, nth_documented; reflexivity]).
    assert (List.length x + S (List.length y) = slot_index b)%nat by (apply Nd; [exact Lb|rewrite Hb, nth_documented; reflexivity]).
    lia.
  - intros H. exact (nth_split_two documented _ _ a b (nth_documented a) (nth_documented b) H).
Qed.

Section Chain.
Variable R : Type.
Notation provider := (provider R).
Notation validate := (validate R).
Notation keyed := (keyed R).
Notation key_leb := (key_leb R).
Notation sort_by_ordering := (sort_by_ordering R).
Notation set_up := (set_up R).

Lemma validate_spec ps : forall names taken, validate names taken ps = true <->
  NoDup (map (p_name R) ps) /\ (forall p, In p ps -> ~ In (p_name R p) names)
  /\ NoDup (claims ps) /\ (forall s, In s (claims ps) -> ~ In s taken).
Proof.
  induction ps as [|p ps IH]; intros names taken; cbn [IdChain_Model.validate].
  - split; [|reflexivity]. intros _. split; [constructor|]. split; [intros ? []|]. split; [constructor|intros ? []].
  - assert (Cl : claims (p :: ps) = match p_ordering R p with Standard s => [s] | _ => [] end ++ claims ps) by reflexivity.
    destruct (mem_text (p_name R p) names) eqn:M.
    { split; [discriminate|]. intros (_ & H & _). exfalso. apply (H p (or_introl eq_refl)). apply mem_text_In, M. }
    assert (Mn : ~ In (p_name R p) names) by (rewrite <- mem_text_In; congruence).
    assert (G : forall taken', 
      (validate (p_name R p :: names) taken' ps = true <->
       (NoDup (map (p_name R) (p :: ps)) /\ (forall q, In q (p :: ps) -> ~ In (p_name R q) names))
       /\ NoDup (claims ps) /\ (forall s, In s (claims ps) -> ~ In s taken'))).
    { intros taken'. rewrite IH. cbn [map]. split.
      - intros (A & B & C & D). split; [|split; assumption]. split.
        + constructor; [|exact A]. rewrite in_map_iff. intros (q & E & Hq). apply (B q Hq). left. symmetry. exact E.
        + intros q [<-|Hq]; [exact Mn|]. intros X. apply (B q Hq). right. exact X.
      - intros ((A & B) & C & D). inversion A as [|? ? A1 A2]; subst. split; [exact A2|]. split; [|split; assumption].
        intros q Hq [E|X]; [apply A1; rewrite E; apply in_map, Hq|exact (B q (or_intror Hq) X)]. }
    destruct (p_ordering R p) as [s|s|s|] eqn:Eo; cbn [app] in Cl; rewrite Cl;
      try (rewrite G; clear; tauto).
    destruct (existsb (slot_eqb s) taken) eqn:X.
    { split; [discriminate|]. intros (_ & _ & _ & D). exfalso. apply existsb_exists in X. destruct X as (s' & X & E).
      apply slot_eqb_eq in E as <-. exact (D s (or_introl eq_refl) X). }
    assert (Ns : ~ In s taken).
    { intros Y. assert (existsb (slot_eqb s) taken = true) by (apply existsb_exists; exists s; split; [exact Y|apply slot_eqb_eq; reflexivity]). congruence. }
    rewrite G. split.
    + intros ((A & B) & C & D). split; [exact A|]. split; [exact B|]. split.
      * constructor; [|exact C]. intros Y. apply (D s Y). left. reflexivity.
      * intros s' [<-|Hs']; [exact Ns|]. intros Y. apply (D s' Hs'). right. exact Y.
    + intros (A & B & C & D). inversion C as [|? ? C1 C2]; subst. split; [split; assumption|]. split; [exact C2|].
      intros s' Hs' [<-|Y]; [exact (C1 Hs')|exact (D s' (or_intror Hs') Y)].
Qed.

(** ** Sorting *)
Definition K (p : provider) (n : nat) : key := match sort_key R p with Some (x, y) => (x, y, n) | None => (0, 0, n)%nat end.
Fixpoint indexed (n : nat) (ps : list provider) : list (nat * provider) :=
  match ps with [] => [] | p :: r => (n, p) :: indexed (S n) r end.
Definition add_key (x : nat * provider) : key * provider := (K (snd x) (fst x), snd x).

Lemma keyed_spec ps : forall n, keyed n ps =
  if existsb (fun p => match p_ordering R p with Unsupported => true | _ => false end) ps then None
  else Some (map add_key (indexed n ps)).
Proof.
  induction ps as [|p ps IH]; intros n; [reflexivity|]. cbn [IdChain_Model.keyed existsb indexed map]. rewrite IH.
  unfold add_key at 2, K, sort_key. cbn [fst snd]. destruct (p_ordering R p); cbn [orb]; [| | |reflexivity];
    destruct (existsb _ ps); reflexivity.
Qed.

Lemma key_leb_total a b : key_leb a b = true \/ key_leb b a = true.
Proof.
  unfold IdChain_Model.key_leb. destruct a as [[[x1 y1] z1] p], b as [[[x2 y2] z2] q]. cbn [fst].
  rewrite (Nat.eqb_sym x2 x1), (Nat.eqb_sym y2 y1).
  destruct (Nat.eqb_spec x1 x2).
  - destruct (Nat.eqb_spec y1 y2).
    + destruct (Nat.leb_spec z1 z2); [left; reflexivity|right; apply Nat.leb_le; lia].
    + rewrite !Nat.ltb_lt. lia.
  - rewrite !Nat.ltb_lt. lia.
Qed.
Lemma key_leb_trans a b c : key_leb a b = true -> key_leb b c = true -> key_leb a c = true.
Proof.
  unfold IdChain_Model.key_leb. destruct a as [[[x1 y1] z1] p], b as [[[x2 y2] z2] q], c as [[[x3 y3] z3] r]. cbn [fst].
  destruct (Nat.eqb_spec x1 x2), (Nat.eqb_spec y1 y2), (Nat.eqb_spec x2 x3), (Nat.eqb_spec y2 y3),
    (Nat.eqb_spec x1 x3), (Nat.eqb_spec y1 y3);
    rewrite ?Nat.leb_le, ?Nat.ltb_lt; lia.
Qed.
Lemma key_sorted l : StronglySorted (fun a b => key_leb a b = true) (sorted key_leb l).
Proof. apply sorted_sorted; [exact key_leb_total|exact key_leb_trans]. Qed.

Lemma indexed_fst ps : forall n, map fst (indexed n ps) = seq n (List.length ps).
Proof. induction ps as [|p ps IH]; intros n; [reflexivity|]. cbn [indexed map List.length seq fst]. rewrite IH. reflexivity. Qed.
Lemma indexed_nth ps : forall n i p, In (i, p) (indexed n ps) -> (n <= i)%nat /\ nth_error ps (i - n) = Some p.
Proof.
  induction ps as [|q ps IH]; intros n i p H; [destruct H|]. destruct H as [E|H].
  - injection E as -> ->. split; [lia|]. rewrite Nat.sub_diag. reflexivity.
  - apply IH in H. destruct H as [H1 H2]. split; [lia|]. replace (i - n)%nat with (S (i - S n)) by lia. exact H2.
Qed.

Lemma in3 (o : ordering) a : In o [Before a; Standard a; After a] <-> (o = Before a \/ o = Standard a \/ o = After a).
Proof. cbn [In]. split; intros H; [destruct H as [<-|[<-|[<-|[]]]]; auto|destruct H as [->|[->| ->]]; auto]. Qed.

Lemma key_first ps p q i j : nth_error ps i = Some p -> nth_error ps j = Some q -> i <> j ->
  p_ordering R p <> Unsupported -> p_ordering R q <> Unsupported ->
  key_leb (add_key (i, p)) (add_key (j, q)) = true -> comes_first ps i j.
Proof.
  intros Hp Hq Hij Up Uq H. exists p, q. split; [exact Hp|]. split; [exact Hq|].
  unfold add_key, K, sort_key, IdChain_Model.key_leb in H. cbn [fst snd] in H.
  destruct (p_ordering R p) as [a|a|a|]; [| | |contradiction (Up eq_refl)];
  (destruct (p_ordering R q) as [b|b|b|]; [| | |contradiction (Uq eq_refl)]); cbn [fst] in H;
  (destruct (Nat.eqb_spec (slot_index a) (slot_index b)) as [E|N];
   [apply slot_index_inj in E as ->; cbn in H|
    apply Nat.ltb_lt in H; left; eapply (ahead_slot _ _ a b);
    [apply in3; auto|apply in3; auto|apply earlier_index, H]]);
  try discriminate H; try (left; constructor; fail);
  (right; split; [reflexivity|]; apply Nat.leb_le in H; lia).
Qed.

Lemma SS_map {A B} (f : A -> B) (P : A -> A -> Prop) (Q : B -> B -> Prop) l :
  (forall x y, In x l -> In y l -> P x y -> Q (f x) (f y)) -> StronglySorted P l -> StronglySorted Q (map f l).
Proof.
  induction l as [|a l IH]; intros H S; [constructor|]. inversion S as [|? ? S1 S2]; subst. cbn [map]. constructor.
  - apply IH; [|exact S1]. intros x y Hx Hy. apply H; right; assumption.
  - apply Forall_forall. intros b Hb. apply in_map_iff in Hb. destruct Hb as (y & <- & Hy).
    rewrite Forall_forall in S2. apply H; [left; reflexivity|right; exact Hy|apply S2, Hy].
Qed.
Lemma SS_NoDup {A B} (f : A -> B) (P : A -> A -> Prop) l : StronglySorted P l -> NoDup (map f l) ->
  StronglySorted (fun x y => P x y /\ f x <> f y) l.
Proof.
  induction l as [|a l IH]; intros S N; [constructor|]. inversion S as [|? ? S1 S2]; subst. inversion N as [|? ? N1 N2]; subst.
  constructor; [apply IH; assumption|]. rewrite Forall_forall in *. intros y Hy. split; [apply S2, Hy|].
  intros E. apply N1. rewrite E. apply in_map, Hy.
Qed.

Lemma sort_spec ps out : sort_by_ordering ps = Some out -> exists idx, in_order ps idx /\ at_positions ps idx out.
Proof.
  unfold IdChain_Model.sort_by_ordering. rewrite keyed_spec.
  destruct (existsb _ ps) eqn:Un; [discriminate|]. intros H. injection H as <-.
  assert (Us : forall p, In p ps -> p_ordering R p <> Unsupported).
  { intros p Hp E. assert (existsb (fun p => match p_ordering R p with Unsupported => true | _ => false end) ps = true)
      by (apply existsb_exists; exists p; rewrite E; auto). congruence. }
  set (l := map add_key (indexed 0 ps)).
  set (ix := fun kp : key * provider => snd (fst kp)).
  assert (Hix : forall x : nat * provider, ix (add_key x) = fst x).
  { intros [n p]. unfold ix, add_key, K. cbn [fst snd]. destruct (sort_key R p) as [[x y]|]; reflexivity. }
  exists (map ix (sorted key_leb l)).
  pose proof (sorted_perm key_leb l) as P.
  assert (Pix : Permutation (map ix (sorted key_leb l)) (seq 0 (List.length ps))).
  { rewrite (Permutation_map ix P). unfold l. rewrite map_map, (map_ext _ _ Hix), indexed_fst. reflexivity. }
  assert (Hin : forall x, In x (sorted key_leb l) -> nth_error ps (ix x) = Some (snd x) /\ x = add_key (ix x, snd x)).
  { intros x Hx. apply (Permutation_in _ P) in Hx. unfold l in Hx. apply in_map_iff in Hx.
    destruct Hx as ([n p] & <- & Hx). rewrite Hix. apply indexed_nth in Hx. destruct Hx as [_ Hx].
    rewrite Nat.sub_0_r in Hx. cbn [fst snd]. split; [exact Hx|reflexivity]. }
  split; [split; [exact Pix|]|].
  - apply (SS_map ix (fun a b => key_leb a b = true /\ ix a <> ix b)).
    + intros x y Hx Hy [L N]. destruct (Hin x Hx) as [Nx Ex]. destruct (Hin y Hy) as [Ny Ey].
      apply (key_first ps (snd x) (snd y)); [exact Nx|exact Ny|exact N| | |rewrite <- Ex, <- Ey; exact L].
      * apply Us. eapply nth_error_In; exact Nx.
      * apply Us. eapply nth_error_In; exact Ny.
    + apply SS_NoDup; [apply key_sorted|]. eapply Permutation_NoDup; [apply Permutation_sym, Pix|apply seq_NoDup].
  - unfold at_positions. clear -Hin. induction (sorted key_leb l) as [|x r IH]; [constructor|]. cbn [map]. constructor.
    + apply Hin. left. reflexivity.
    + apply IH. intros y Hy. apply Hin. right. exact Hy.
Qed.
Lemma sort_none ps : sort_by_ordering ps = None <-> exists p, In p ps /\ p_ordering R p = Unsupported.
Proof.
  unfold IdChain_Model.sort_by_ordering. rewrite keyed_spec. destruct (existsb _ ps) eqn:E.
  - split; [intros _|reflexivity]. apply existsb_exists in E. destruct E as (p & Hp & E). exists p. split; [exact Hp|].
    destruct (p_ordering R p); try discriminate E. reflexivity.
  - split; [discriminate|]. intros (p & Hp & Eo). exfalso.
    assert (existsb (fun p => match p_ordering R p with Unsupported => true | _ => false end) ps = true)
      by (apply existsb_exists; exists p; rewrite Eo; auto). congruence.
Qed.

(** ** Setting up *)
Lemma set_up_spec ps : forall s names s' e, s_terminal R s = false -> set_up ps s = (names, (s', e)) ->
  names = map (p_name R) (firstn (List.length names) ps)
  /\ s' = after (firstn (List.length names) ps) s
  /\ (forall k, (k < List.length names)%nat -> s_terminal R (after (firstn k ps) s) = false)
  /\ (e = None -> List.length names = List.length ps \/ s_terminal R s' = true).
Proof.
  induction ps as [|p ps IH]; intros s names s' e T H; cbn [IdChain_Model.set_up] in H.
  - injection H as <- <- <-. split; [reflexivity|]. split; [reflexivity|]. split; [intros k Hk; cbn in Hk; lia|]. left. reflexivity.
  - unfold do_op in H. rewrite T in H.
    set (s1 := mkSetup R (s_config R s) (s_profile R s) (s_resolvers R s) (Some (p_name R p)) false) in H.
    assert (A1 : after [p] s = fst (run_script R (p_setup R p) s1)).
    { unfold after. cbn [fold_left do_op]. rewrite T. reflexivity. }
    destruct (run_script R (p_setup R p) s1) as [s2 [e2|]] eqn:Es; cbn [fst] in A1.
    + injection H as <- <- <-. cbn [List.length firstn map]. split; [reflexivity|]. split; [symmetry; exact A1|].
      split; [|discriminate]. intros [|k] Hk; [exact T|lia].
    + destruct (s_terminal R s2) eqn:T2.
      * injection H as <- <- <-. cbn [List.length firstn map]. split; [reflexivity|]. split; [symmetry; exact A1|].
        split; [|right; exact T2]. intros [|k] Hk; [exact T|lia].
      * destruct (set_up ps s2) as [ns [s3 e3]] eqn:Er. injection H as <- <- <-.
        destruct (IH s2 ns s3 e3 T2 Er) as (H1 & H2 & H3 & H4). cbn [List.length firstn map].
        assert (Af : forall l, after (p :: l) s = after l s2).
        { intros l. change (p :: l) with ([p] ++ l). unfold after at 1. rewrite fold_left_app.
          change (fold_left _ [p] s) with (after [p] s). rewrite A1. reflexivity. }
        split; [f_equal; exact H1|]. split; [rewrite Af; exact H2|]. split.
        -- intros [|k] Hk; [exact T|]. cbn [firstn]. rewrite Af. apply H3. lia.
        -- intros E. destruct (H4 E) as [L|L]; [left; lia|right; exact L].
Qed.

Lemma adding_spec rs last : forall s n, s_terminal R s = false -> s_current R s = Some n ->
  run_script R (adding rs last) s
  = (mkSetup R (s_config R s) (s_profile R s)
       (s_resolvers R s ++ map (pair n) rs ++ match last with Some t => [(n, t)] | None => [] end)
       (Some n) (match last with Some _ => true | None => false end), None).
Proof.
  induction rs as [|r rs IH]; intros s n T C.
  - destruct s as [c p rr cu te]. cbn in T, C. subst. cbn [adding]. destruct last as [t|].
    + reflexivity.
    + cbn. rewrite app_nil_r. reflexivity.
  - cbn [adding run_script do_op]. unfold add_resolver. rewrite T, C. rewrite (IH _ n) by reflexivity.
    cbn [s_config s_profile s_resolvers map app]. rewrite <- app_assoc. reflexivity.
Qed.
Lemma set_up_plain l : forall s, s_terminal R s = false ->
  exists names s', set_up (map provider_of l) s = (names, (s', None)) /\ s_resolvers R s' = s_resolvers R s ++ chain_of l.
Proof.
  induction l as [|a l IH]; intros s T.
  - exists [], s. split; [reflexivity|]. cbn [chain_of]. rewrite app_nil_r. reflexivity.
  - cbn [map IdChain_Model.set_up do_op]. rewrite T. cbn [provider_of p_name p_setup].
    rewrite (adding_spec _ _ _ (a_name a)) by reflexivity. cbn [s_terminal s_config s_profile s_resolvers chain_of].
    destruct (a_last a) as [t|].
    + eexists _, _. split; [reflexivity|]. reflexivity.
    + match goal with |- context [set_up _ ?s2] => destruct (IH s2 eq_refl) as (ns & s' & E & Er) end.
      rewrite E. eexists _, _. split; [reflexivity|]. rewrite Er. cbn [s_resolvers]. rewrite app_nil_r, <- app_assoc. reflexivity.
Qed.

Lemma at_positions_map {A} (f : A -> provider) (l : list A) idx out :
  at_positions (map f l) idx out -> exists l', out = map f l' /\ Forall2 (fun i a => nth_error l i = Some a) idx l'.
Proof.
  unfold at_positions. intros H. induction H as [|i p idx out Hp _ (l' & -> & F)]; [exists []; split; [reflexivity|constructor]|].
  rewrite nth_error_map in Hp. destruct (nth_error l i) as [a|] eqn:E; [|discriminate Hp]. injection Hp as <-.
  exists (a :: l'). split; [reflexivity|]. constructor; assumption.
Qed.

Lemma chain_get_spec {I} (answer : R -> result I) un rs : forall fs,
  (exists a n r b id, rs = a ++ (n, r) :: b /\ answer r = Ok id /\ (forall x, In x a -> answer (snd x) = Err IdentityErr)
     /\ chain_get R answer un fs rs = (a ++ [(n, r)], Resolved id))
  \/ (exists a n r b e, rs = a ++ (n, r) :: b /\ answer r = Err e /\ e <> IdentityErr
     /\ (forall x, In x a -> answer (snd x) = Err IdentityErr) /\ chain_get R answer un fs rs = (a ++ [(n, r)], Failed e))
  \/ ((forall x, In x rs -> answer (snd x) = Err IdentityErr)
     /\ chain_get R answer un fs rs = (rs, ChainError (fs ++ map (fun x => (fst x, IdentityErr)) rs) un)).
Proof.
  induction rs as [|[n r] rs IH]; intros fs.
  - right. right. split; [intros x []|]. cbn. rewrite app_nil_r. reflexivity.
  - cbn [chain_get]. destruct (answer r) as [id|e] eqn:A.
    + left. exists [], n, r, rs, id. split; [reflexivity|]. split; [exact A|]. split; [intros x []|reflexivity].
    + destruct (is_identity_error e) eqn:E.
      * assert (e = IdentityErr) as -> by (destruct e; try discriminate E; reflexivity).
        destruct (IH (fs ++ [(n, IdentityErr)])) as [(a & n' & r' & b & id & -> & H1 & H2 & H3)|[(a & n' & r' & b & e & -> & H1 & H2 & H3 & H4)|(H1 & H2)]].
        -- left. exists ((n, r) :: a), n', r', b, id. split; [reflexivity|]. split; [exact H1|].
           split; [intros x [<-|X]; [exact A|apply H2, X]|]. rewrite H3. reflexivity.
        -- right. left. exists ((n, r) :: a), n', r', b, e. split; [reflexivity|]. split; [exact H1|]. split; [exact H2|].
           split; [intros x [<-|X]; [exact A|apply H3, X]|]. rewrite H4. reflexivity.
        -- right. right. split; [intros x [<-|X]; [exact A|apply H1, X]|]. rewrite H2. rewrite <- app_assoc. reflexivity.
      * right. left. exists [], n, r, rs, e. split; [reflexivity|]. split; [exact A|].
        split; [intros ->; discriminate E|]. split; [intros x []|reflexivity].
Qed.
End Chain.
