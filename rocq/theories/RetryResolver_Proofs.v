(** Proofs about resolving retry strategies. *)
From Verif Require Import Base Base_Proofs RetryResolver_Model RetryResolver_Spec.
From Coq Require Import ZArith Lia.

Lemma key_eqb_eq a b : key_eqb a b = true <-> a = b.
Proof.
  destruct a as [r [m x]], b as [r' [m' x']]. unfold key_eqb; cbn. rewrite !Bool.andb_true_iff, Nat.eqb_eq, text_eqb_eq.
  split.
  - intros [[-> ->] H]. destruct x as [x|], x' as [x'|]; try discriminate H; [|reflexivity].
    apply Z.eqb_eq in H. subst. reflexivity.
  - intros [= -> -> ->]. split; [split; reflexivity|]. destruct x'; cbn; [apply Z.eqb_refl|reflexivity].
Qed.
Lemma key_eqb_refl k : key_eqb k k = true.
Proof. apply key_eqb_eq. reflexivity. Qed.
Lemma key_eqb_ne a b : a <> b -> key_eqb a b = false.
Proof. intros H. destruct (key_eqb a b) eqn:E; [|reflexivity]. apply key_eqb_eq in E. contradiction. Qed.

Definition keys (l : list (key * strategy)) : list key := map fst l.
Lemma find_None k l : find k l = None <-> ~ In k (keys l).
Proof.
  induction l as [|[k' v] l IH]; cbn; [tauto|]. destruct (key_eqb k k') eqn:E.
  - apply key_eqb_eq in E. subst. split; [discriminate|tauto].
  - assert (k <> k') by (intros ->; rewrite key_eqb_refl in E; discriminate).
    rewrite IH. split; [intros A [B|B]; [congruence|tauto]|tauto].
Qed.
Lemma find_In k v l : find k l = Some v -> In (k, v) l.
Proof.
  induction l as [|[k' v'] l IH]; cbn; [discriminate|]. destruct (key_eqb k k') eqn:E; [|auto].
  apply key_eqb_eq in E. intros [= <-]. left. congruence.
Qed.
Lemma drop_In k x l : In x (drop k l) -> In x l.
Proof. induction l as [|[k' v] l IH]; cbn; [auto|]. destruct (key_eqb k k'); cbn; tauto. Qed.
Lemma drop_keys_In k x l : In x (keys (drop k l)) -> In x (keys l).
Proof.
  intros H. apply in_map_iff in H. destruct H as (y & <- & H). apply in_map. eapply drop_In; eauto.
Qed.
Lemma drop_notin k l : NoDup (keys l) -> ~ In k (keys (drop k l)).
Proof.
  induction l as [|[k' v] l IH]; cbn; [tauto|]. intros H. inversion H as [|? ? H1 H2]; subst.
  destruct (key_eqb k k') eqn:E; [apply key_eqb_eq in E; subst; exact H1|].
  cbn. intros [<-|X]; [rewrite key_eqb_refl in E; discriminate|]. apply IH; assumption.
Qed.
Lemma drop_NoDup k l : NoDup (keys l) -> NoDup (keys (drop k l)).
Proof.
  induction l as [|[k' v] l IH]; cbn; [auto|]. intros H. inversion H as [|? ? H1 H2]; subst.
  destruct (key_eqb k k'); [exact H2|]. cbn. constructor; [|auto]. intros X. apply H1. eapply drop_keys_In; eauto.
Qed.
Lemma NoDup_app_left {A} (a b : list A) : NoDup (a ++ b) -> NoDup a.
Proof.
  induction a as [|x a IH]; cbn; [constructor|]. intros H. inversion H as [|? ? H1 H2]; subst.
  constructor; [|auto]. intros X. apply H1. apply in_or_app. left. exact X.
Qed.
Lemma NoDup_firstn {A} n (l : list A) : NoDup l -> NoDup (firstn n l).
Proof. intros H. rewrite <- (firstn_skipn n l) in H. apply NoDup_app_left in H. exact H. Qed.
Lemma keys_firstn n l : keys (firstn n l) = firstn n (keys l).
Proof. unfold keys. symmetry. apply firstn_map. Qed.
Lemma In_firstn {A} n (l : list A) x : In x (firstn n l) -> In x l.
Proof. intros H. rewrite <- (firstn_skipn n l). apply in_or_app. left. exact H. Qed.

(** ** Invariant *)
(** [owners]: the key every strategy was made for. *)
Record Good (owners : list key) (c : cache) : Prop := mkGood {
  g_nodup : NoDup (keys (entries c));
  g_made : List.length owners = made c;
  g_entry : forall k v, In (k, v) (entries c) ->
    exists id, nth_error owners id = Some k /\ create (k_options k) id = Ok v }.

Lemma create_made o id v : create o id = Ok v -> exists kd n, v = Made id kd n.
Proof.
  unfold create. destruct (text_eqb _ _); [intros [= <-]; eauto|]. destruct (text_eqb _ _); [|discriminate].
  destruct (_ <? 0)%Z; [discriminate|]. intros [= <-]; eauto.
Qed.
Lemma create_ok o id id' v : create o id = Ok v -> exists v', create o id' = Ok v'.
Proof.
  unfold create. destruct (text_eqb _ _); [eauto|]. destruct (text_eqb _ _); [|discriminate].
  destruct (_ <? 0)%Z; [discriminate|]. eauto.
Qed.
Lemma create_err o id id' e : create o id = Err e -> create o id' = Err e.
Proof.
  unfold create. destruct (text_eqb _ _); [discriminate|]. destruct (text_eqb _ _); [|auto].
  destruct (_ <? 0)%Z; [auto|discriminate].
Qed.

Lemma cached_good owners k c : Good owners c ->
  let (r, c') := cached_create k c in
  exists more, Good (owners ++ more) c' /\
    match r with
    | Ok v => exists id, nth_error (owners ++ more) id = Some k /\ create (k_options k) id = Ok v
    | Err e => forall id, create (k_options k) id = Err e
    end.
Proof.
  intros [N M E]. unfold cached_create. destruct (find k (entries c)) as [v|] eqn:F.
  - exists []. rewrite app_nil_r. apply find_In in F. split; [|apply E; exact F].
    constructor; cbn [entries made]; [|exact M|].
    + cbn. constructor; [apply drop_notin; exact N|apply drop_NoDup; exact N].
    + intros k' v' [[= <- <-]|H]; [apply E; exact F|]. apply E. eapply drop_In; eauto.
  - destruct (create (k_options k) (made c)) as [v|e] eqn:C.
    + exists [k]. assert (X : nth_error (owners ++ [k]) (made c) = Some k).
      { rewrite nth_error_app2 by lia. rewrite M, Nat.sub_diag. reflexivity. }
      split; [|exists (made c); auto]. constructor; cbn [entries made].
      * cbn [keys map fst]. fold (keys (firstn (MAXSIZE - 1) (entries c))). rewrite keys_firstn. constructor.
        -- intros H. apply In_firstn in H. apply find_None in F. contradiction.
        -- apply NoDup_firstn. exact N.
      * rewrite app_length. cbn. lia.
      * intros k' v' [[= <- <-]|H]; [eauto|]. apply In_firstn in H. destruct (E _ _ H) as (id & A & B). exists id. split; [|exact B].
        rewrite nth_error_app1; [exact A|]. apply nth_error_Some. rewrite A. discriminate.
    + exists []. rewrite app_nil_r. split; [constructor; assumption|]. intros id. eapply create_err; eauto.
Qed.

(** The state after some calls. *)
Fixpoint after (calls : list (nat * given)) (c : cache) : cache :=
  match calls with [] => c | (n, g) :: rest => after rest (snd (resolve n g c)) end.
Lemma resolve_all_app a b c : resolve_all (a ++ b) c = resolve_all a c ++ resolve_all b (after a c).
Proof.
  revert c. induction a as [|[n g] a IH]; intros c; cbn [app resolve_all after]; [reflexivity|].
  destruct (resolve n g c) as [r c']; cbn [snd]. rewrite IH. reflexivity.
Qed.
Lemma resolve_all_length a c : List.length (resolve_all a c) = List.length a.
Proof. revert c. induction a as [|[n g] a IH]; intros c; cbn; [reflexivity|]. destruct (resolve n g c). cbn. rewrite IH. reflexivity. Qed.

Definition key_of (n : nat) (g : given) : option key := match asked g with Some o => Some (mkKey n o) | None => None end.
Lemma resolve_key n g c : match key_of n g with
  | Some k => resolve n g c = cached_create k c
  | None => snd (resolve n g c) = c /\ Fits g (fst (resolve n g c)) /\ forall id k m, fst (resolve n g c) <> Ok (Made id k m)
  end.
Proof. destruct g; cbn; try reflexivity; (split; [reflexivity|]; split; [constructor|intros; discriminate]). Qed.

Lemma resolve_good owners n g c : Good owners c -> exists more, Good (owners ++ more) (snd (resolve n g c)) /\
  match key_of n g, fst (resolve n g c) with
  | Some k, Ok v => exists id, nth_error (owners ++ more) id = Some k /\ create (k_options k) id = Ok v
  | Some k, Err e => forall id, create (k_options k) id = Err e
  | None, _ => True
  end.
Proof.
  intros G. pose proof (resolve_key n g c) as K. destruct (key_of n g) as [k|].
  - rewrite K. pose proof (cached_good owners k c G) as X. destruct (cached_create k c) as [r c'].
    destruct X as (more & A & B). exists more. cbn [fst snd]. split; [exact A|]. destruct r; exact B.
  - destruct K as [-> _]. exists []. rewrite app_nil_r. split; [exact G|exact I].
Qed.
Lemma after_good calls : forall owners c, Good owners c -> exists more, Good (owners ++ more) (after calls c).
Proof.
  induction calls as [|[n g] calls IH]; intros owners c G; cbn [after].
  - exists []. rewrite app_nil_r. exact G.
  - destruct (resolve_good owners n g c G) as (m1 & G1 & _). destruct (IH _ _ G1) as (m2 & G2).
    exists (m1 ++ m2). rewrite app_assoc. exact G2.
Qed.
Lemma new_good : Good [] new_cache.
Proof. constructor; cbn; [constructor|reflexivity|intros k v []]. Qed.

Lemma nth_result calls i n g c r : nth_error calls i = Some (n, g) -> nth_error (resolve_all calls c) i = Some r ->
  exists b a, calls = b ++ (n, g) :: a /\ List.length b = i /\ r = fst (resolve n g (after b c)).
Proof.
  intros H R. destruct (nth_error_split _ _ H) as (b & a & -> & L). exists b, a. split; [reflexivity|]. split; [exact L|].
  rewrite resolve_all_app in R. rewrite nth_error_app2 in R by (rewrite resolve_all_length; lia).
  rewrite resolve_all_length, L, Nat.sub_diag in R. cbn [resolve_all] in R.
  destruct (resolve n g (after b c)) as [x c']. cbn in R. injection R as <-. reflexivity.
Qed.

Lemma create_fits g o id r : asked g = Some o -> create o id = r -> Fits g r.
Proof.
  destruct o as [mode m]. unfold create; cbn [o_mode o_max]. intros A <-.
  destruct (text_eqb mode (lit "simple")) eqn:E1.
  - apply text_eqb_eq in E1. subst mode. apply fits_simple. exact A.
  - destruct (text_eqb mode (lit "standard")) eqn:E2.
    + apply text_eqb_eq in E2. subst mode. destruct m as [n|].
      * destruct (Z.ltb_spec n 0) as [L|L]; [eapply fits_negative; eauto|].
        apply (fits_standard g (Some n) id A). intros n' [= <-]. exact L.
      * cbn. apply (fits_standard g None id A). discriminate.
    + apply text_eqb_neq in E1, E2. eapply fits_unknown; eauto.
Qed.

Lemma results_fit calls i n g r : nth_error calls i = Some (n, g) ->
  nth_error (resolve_all calls new_cache) i = Some r -> Fits g r.
Proof.
  intros H R. destruct (nth_result _ _ _ _ _ _ H R) as (b & a & _ & _ & ->).
  destruct (after_good b [] new_cache new_good) as (more & G).
  destruct (resolve_good _ n g _ G) as (m2 & _ & X). pose proof (resolve_key n g (after b new_cache)) as K.
  unfold key_of in *. destruct (asked g) as [o|] eqn:A.
  - cbn [k_options] in X. destruct (fst (resolve n g (after b new_cache))) as [v|e].
    + destruct X as (id & _ & X). eapply create_fits; eauto.
    + eapply create_fits; [exact A|apply (X 0%nat)].
  - apply K.
Qed.

(** Owners of results. *)
Lemma owners_all calls : forall owners c, Good owners c -> exists final, (exists more, final = owners ++ more) /\
  forall i n g id k m, nth_error calls i = Some (n, g) -> nth_error (resolve_all calls c) i = Some (Ok (Made id k m)) ->
    exists o, asked g = Some o /\ nth_error final id = Some (mkKey n o).
Proof.
  induction calls as [|[n g] calls IH]; intros owners c G.
  - exists owners. split; [exists []; rewrite app_nil_r; reflexivity|]. intros [|i]; discriminate.
  - destruct (resolve_good owners n g c G) as (m1 & G1 & X). destruct (IH _ _ G1) as (final & (m2 & E) & Y).
    exists final. split; [exists (m1 ++ m2); rewrite app_assoc; exact E|].
    pose proof (resolve_key n g c) as K.
    intros [|i] n' g' id k m H R; cbn [nth_error resolve_all] in H, R.
    + injection H as <- <-. destruct (resolve n g c) as [r c'] eqn:Er. cbn [nth_error fst snd] in *. injection R as ->.
      unfold key_of in *. destruct (asked g) as [o|].
      * exists o. split; [reflexivity|]. destruct X as (id' & A & B). destruct (create_made _ _ _ B) as (kd & nn & Q).
        injection Q as <- _ _. subst final. rewrite nth_error_app1; [exact A|]. apply nth_error_Some. rewrite A. discriminate.
      * destruct K as (_ & _ & K). exfalso. eapply K. reflexivity.
    + destruct (resolve n g c) as [r c'] eqn:Er. cbn [nth_error snd] in *. eapply Y; eauto.
Qed.

(** ** Staying in the cache *)
Definition Stays (k : key) (v : strategy) (L : list key) (c : cache) : Prop :=
  NoDup (keys (entries c)) /\
  exists pre post, entries c = pre ++ (k, v) :: post /\ forall x, In x (keys pre) -> In x L.
Lemma find_mid k v pre post : ~ In k (keys pre) -> find k (pre ++ (k, v) :: post) = Some v.
Proof.
  induction pre as [|[k' v'] pre IH]; cbn; [rewrite key_eqb_refl; reflexivity|].
  intros H. rewrite key_eqb_ne by (intros ->; tauto). apply IH. tauto.
Qed.
Lemma keys_app a b : keys (a ++ b) = keys a ++ keys b.
Proof. apply map_app. Qed.
Lemma stays_find k v L c : Stays k v L c -> find k (entries c) = Some v.
Proof.
  intros (N & pre & post & E & _). rewrite E in *. apply find_mid. rewrite keys_app in N. cbn in N.
  apply NoDup_remove_2 in N. intros H. apply N. apply in_or_app. left. exact H.
Qed.
Lemma drop_mid k' k v pre post : k' <> k -> exists pre' post',
  drop k' (pre ++ (k, v) :: post) = pre' ++ (k, v) :: post' /\ (forall x, In x (keys pre') -> In x (keys pre)).
Proof.
  intros H. induction pre as [|[a w] pre IH]; cbn [app drop].
  - rewrite key_eqb_ne by exact H. exists [], (drop k' post). split; [reflexivity|auto].
  - destruct (key_eqb k' a).
    + exists pre, post. split; [reflexivity|]. intros x Hx. right. exact Hx.
    + destruct IH as (p & q & E & I). exists ((a, w) :: p), q. rewrite E. split; [reflexivity|].
      cbn. intros x [->|Hx]; [left; reflexivity|right; auto].
Qed.
Lemma cached_stays k v L c k' owners : (List.length L < MAXSIZE)%nat -> Good owners c -> Stays k v L c -> (k' = k \/ In k' L) ->
  Stays k v L (snd (cached_create k' c)).
Proof.
  intros HL G S HK. pose proof (stays_find _ _ _ _ S) as Fk. destruct S as (N & pre & post & E & I).
  pose proof (cached_good owners k' c G) as G'. split.
  { destruct (cached_create k' c) as [r c']. destruct G' as (more & [N' _ _] & _). exact N'. }
  clear G'. unfold cached_create.
  destruct (find k' (entries c)) as [v'|] eqn:F'; cbn [snd entries].
  - destruct (key_eqb k' k) eqn:Ek.
    + apply key_eqb_eq in Ek. subst k'. rewrite Fk in F'. injection F' as <-.
      exists [], (drop k (entries c)). split; [reflexivity|intros x []].
    + assert (Hne : k' <> k) by (intros ->; rewrite key_eqb_refl in Ek; discriminate).
      destruct HK as [HK|HK]; [contradiction|].
      destruct (drop_mid k' k v pre post Hne) as (p & q & Ed & Id). rewrite E, Ed.
      exists ((k', v') :: p), q. split; [reflexivity|]. cbn. intros x [<-|Hx]; [exact HK|auto].
  - assert (Hne : k' <> k) by (intros ->; congruence). destruct HK as [HK|HK]; [contradiction|].
    destruct (create (k_options k') (made c)) as [v'|e]; cbn [snd entries]; [|exists pre, post; auto].
    assert (Lp : (S (List.length pre) <= List.length L)%nat).
    { change (S (List.length pre)) with (List.length ((k', v') :: pre)). rewrite <- (map_length fst). apply NoDup_incl_length.
      - cbn. constructor.
        + intros H. apply find_None in F'. apply F'. rewrite E, keys_app. apply in_or_app. left. exact H.
        + rewrite E, keys_app in N. apply NoDup_app_left in N. exact N.
      - intros x [<-|Hx]; [exact HK|apply I; exact Hx]. }
    exists ((k', v') :: pre), (firstn (MAXSIZE - 1 - S (List.length pre)) post). split.
    + cbn [app]. f_equal. rewrite E. rewrite firstn_app. rewrite firstn_all2 by lia. f_equal.
      replace (MAXSIZE - 1 - List.length pre)%nat with (S (MAXSIZE - 1 - S (List.length pre))) by lia. reflexivity.
    + cbn. intros x [<-|Hx]; [exact HK|auto].
Qed.
Lemma after_stays k v L calls : (List.length L < MAXSIZE)%nat ->
  (forall n g k', In (n, g) calls -> key_of n g = Some k' -> k' = k \/ In k' L) ->
  forall owners c, Good owners c -> Stays k v L c -> Stays k v L (after calls c).
Proof.
  intros HL. induction calls as [|[n g] calls IH]; intros H owners c G S; cbn [after]; [exact S|].
  destruct (resolve_good owners n g c G) as (m1 & G1 & _).
  apply (IH) with (owners := owners ++ m1); [|exact G1|].
  - intros n' g' k' Hin. apply H. right. exact Hin.
  - pose proof (resolve_key n g c) as K. destruct (key_of n g) as [k'|] eqn:Ek.
    + rewrite K. eapply cached_stays; eauto. eapply H; [left; reflexivity|exact Ek].
    + destruct K as [-> _]. exact S.
Qed.

Lemma shared calls i j n g g' o r r' L :
  nth_error calls i = Some (n, g) -> nth_error calls j = Some (n, g') -> (i < j)%nat ->
  asked g = Some o -> asked g' = Some o -> (List.length L < MAXSIZE)%nat ->
  (forall m n' g'' o'', (i < m < j)%nat -> nth_error calls m = Some (n', g'') -> asked g'' = Some o'' ->
     (n', o'') = (n, o) \/ In (n', o'') L) ->
  nth_error (resolve_all calls new_cache) i = Some r -> nth_error (resolve_all calls new_cache) j = Some r' -> r' = r.
Proof.
  intros Hi Hj Hij A A' HL HM R R'.
  destruct (nth_result _ _ _ _ _ _ Hi R) as (b & a & Ec & Lb & Er).
  assert (Hj' : nth_error ((n, g) :: a) (j - i) = Some (n, g')).
  { rewrite Ec, nth_error_app2 in Hj by lia. rewrite Lb in Hj. exact Hj. }
  destruct (j - i)%nat as [|d] eqn:Ed; [lia|]. cbn [nth_error] in Hj'.
  destruct (nth_error_split _ _ Hj') as (mid & z & Ea & Lm).
  assert (Er' : r' = fst (resolve n g' (after mid (snd (resolve n g (after b new_cache)))))).
  { rewrite Ec, Ea in R'. rewrite resolve_all_app in R'. rewrite nth_error_app2 in R' by (rewrite resolve_all_length; lia).
    rewrite resolve_all_length, Lb, Ed in R'. cbn [resolve_all] in R'.
    destruct (resolve n g (after b new_cache)) as [x c']. cbn [nth_error snd] in *.
    rewrite resolve_all_app in R'. rewrite nth_error_app2 in R' by (rewrite resolve_all_length; lia).
    rewrite resolve_all_length, Lm, Nat.sub_diag in R'. cbn [resolve_all] in R'.
    destruct (resolve n g' (after mid c')) as [y c'']. cbn in R'. injection R' as <-. reflexivity. }
  destruct (after_good b [] new_cache new_good) as (ow & G). cbn [app] in G.
  set (c0 := after b new_cache) in *. clearbody c0.
  destruct (resolve_good ow n g c0 G) as (m1 & G1 & X).
  destruct (after_good mid _ _ G1) as (m2 & G2).
  pose proof (resolve_key n g c0) as K1. pose proof (resolve_key n g' (after mid (snd (resolve n g c0)))) as K2.
  unfold key_of in *. rewrite A in X, K1. rewrite A' in K2. set (k := mkKey n o) in *.
  rewrite K2 in Er'. destruct (fst (resolve n g c0)) as [v|e] eqn:Ef.
  - assert (St : Stays k v (map (fun x => mkKey (fst x) (snd x)) L) (snd (resolve n g c0))).
    { split; [apply G1|]. rewrite K1 in Ef |- *. unfold cached_create in *.
      destruct (find k (entries c0)) as [w|] eqn:F; cbn [fst snd entries] in *.
      - injection Ef as ->. exists [], (drop k (entries c0)). split; [reflexivity|intros x []].
      - destruct (create (k_options k) (made c0)) as [w|]; cbn [fst snd entries] in *; [|discriminate].
        injection Ef as ->. eexists [], _. split; [reflexivity|intros x []]. }
    apply after_stays with (calls := mid) (owners := ow ++ m1) in St; [|rewrite map_length; exact HL| |exact G1].
    + apply stays_find in St. unfold cached_create in Er'. rewrite St in Er'. cbn in Er'. congruence.
    + intros n' g'' k' Hin Hk. unfold key_of in Hk. destruct (asked g'') as [o''|] eqn:Ao; [|discriminate]. injection Hk as <-.
      destruct (In_nth_error _ _ Hin) as (m & Hm).
      assert (Hlt : (m < List.length mid)%nat) by (apply nth_error_Some; rewrite Hm; discriminate).
      destruct (HM (i + S m)%nat n' g'' o'') as [E|E].
      * lia.
      * rewrite Ec, Ea, nth_error_app2 by lia. replace (i + S m - List.length b)%nat with (S m) by lia. cbn [nth_error].
        rewrite nth_error_app1 by exact Hlt. exact Hm.
      * exact Ao.
      * left. injection E as -> ->. reflexivity.
      * right. apply in_map_iff. exists (n', o''). auto.
  - pose proof (cached_good _ k _ G2) as Y. destruct (cached_create k (after mid (snd (resolve n g c0)))) as [y cy].
    destruct Y as (m3 & _ & Y). cbn [fst] in Er'. subst r'.
    destruct y as [w|e'].
    + destruct Y as (id & _ & Y). rewrite X in Y. discriminate.
    + specialize (X 0%nat). specialize (Y 0%nat). congruence.
Qed.
