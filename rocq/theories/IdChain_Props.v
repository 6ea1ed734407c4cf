(** C39, C40, C69 and C70: the AWS identity chain. *)
From Verif Require Import Base Base_Proofs PyText_Model PySort_Model PySort_Proofs ConfigFile_Model Identity_Model
  IdChain_Model IdChain_Spec IdChain_Proofs.
From Coq Require Import Permutation Sorting.Sorted.

Lemma F2_length {A B} (P : A -> B -> Prop) l l' : Forall2 P l l' -> List.length l = List.length l'.
Proof. induction 1; cbn; congruence. Qed.

(** ** C39 *)

(** The resolvers asked are those up to the first that does not raise an identity
    error.  Its identity is returned, or its error raised; when there is none, an
    identity error that says what failed and what was not claimed. *)
Theorem C39_chain {R I} (answer : R -> result I) unclaimed (rs : list (text * R)) :
  (exists before n r after id, rs = before ++ (n, r) :: after
     /\ answer r = Ok id /\ (forall x, In x before -> answer (snd x) = Err IdentityErr)
     /\ chain_get R answer unclaimed [] rs = (before ++ [(n, r)], Resolved id))
  \/ (exists before n r after e, rs = before ++ (n, r) :: after
     /\ answer r = Err e /\ e <> IdentityErr /\ (forall x, In x before -> answer (snd x) = Err IdentityErr)
     /\ chain_get R answer unclaimed [] rs = (before ++ [(n, r)], Failed e))
  \/ ((forall x, In x rs -> answer (snd x) = Err IdentityErr)
     /\ chain_get R answer unclaimed [] rs = (rs, ChainError (map (fun x => (fst x, IdentityErr)) rs) unclaimed)).
Proof. exact (chain_get_spec R answer unclaimed rs []). Qed.
Print Assumptions C39_chain.

Example C39_chain_ex :
  chain_get nat (fun r => match r with 1%nat => Err IdentityErr | 2%nat => Ok (lit "id") | _ => Err OSError end) [] []
    [(lit "a", 1%nat); (lit "b", 2%nat); (lit "c", 3%nat)]
  = ([(lit "a", 1%nat); (lit "b", 2%nat)], Resolved (lit "id")).
Proof. reflexivity. Qed.

(** ** C40 *)

(** Assembly is refused exactly when two providers have one name, two claim one
    standard slot or one has no place; then no provider is set up. *)
Theorem C40_duplicates {R} detected config profile (ps : list (provider R)) :
  (snd (create R detected config profile ps) = ConfigurationError
   <-> ~ (NoDup (map (p_name R) ps) /\ NoDup (claims ps) /\ forall p, In p ps -> p_ordering R p <> Unsupported))
  /\ (snd (create R detected config profile ps) = ConfigurationError -> fst (create R detected config profile ps) = []).
Proof.
  unfold create. destruct (validate R [] [] ps) eqn:V; cbn [negb].
  - apply validate_spec in V. destruct V as (V1 & _ & V3 & _). destruct (sort_by_ordering R ps) as [out|] eqn:S.
    + destruct (set_up R out _) as [names [s [e|]]]; cbn [fst snd]; (split; [|discriminate]); (split; [discriminate|]);
        intros H; exfalso; apply H; (split; [exact V1|]; split; [exact V3|]); intros p Hp E;
        rewrite (proj2 (sort_none R ps) (ex_intro _ p (conj Hp E))) in S; discriminate S.
    + cbn [fst snd]. split; [|reflexivity]. split; [|reflexivity]. intros _ (_ & _ & H).
      apply sort_none in S. destruct S as (p & Hp & E). exact (H p Hp E).
  - cbn [fst snd]. split; [|reflexivity]. split; [|reflexivity]. intros _ (H1 & H2 & _).
    assert (validate R [] [] ps = true); [|congruence]. apply validate_spec. split; [exact H1|]. split; [intros p _ []|].
    split; [exact H2|intros s _ []].
Qed.
Print Assumptions C40_duplicates.

(** The providers set up are the first ones in the order of the slots, with Before
    ahead of Standard ahead of After, in the order of discovery among equals.  No
    provider is set up after a terminal one, and none is left out otherwise. *)
Theorem C40_order {R} detected config profile (ps : list (provider R)) names r :
  create R detected config profile ps = (names, r) -> r <> ConfigurationError ->
  exists idx out, in_order ps idx /\ at_positions ps idx out
    /\ names = map (p_name R) (firstn (List.length names) out)
    /\ (forall k, (k < List.length names)%nat ->
          s_terminal R (after (firstn k out) (mkSetup R config profile [] None false)) = false)
    /\ (forall rs un, r = Created rs un ->
          rs = s_resolvers R (after (firstn (List.length names) out) (mkSetup R config profile [] None false))
          /\ (List.length names = List.length ps
              \/ s_terminal R (after (firstn (List.length names) out) (mkSetup R config profile [] None false)) = true)).
Proof.
  unfold create. destruct (validate R [] [] ps); cbn [negb]; [|intros H; injection H as <- <-; congruence].
  destruct (sort_by_ordering R ps) as [out|] eqn:S; [|intros H; injection H as <- <-; congruence].
  destruct (sort_spec R ps out S) as (idx & Hi & Hp).
  assert (Len : List.length out = List.length ps).
  { rewrite <- (F2_length _ _ _ Hp). rewrite (Permutation_length (proj1 Hi)). apply seq_length. }
  intros H _. exists idx, out. split; [exact Hi|]. split; [exact Hp|].
  destruct (set_up R out (mkSetup R config profile [] None false)) as [ns [s e]] eqn:Es.
  destruct (set_up_spec R out (mkSetup R config profile [] None false) ns s e eq_refl Es) as (H1 & H2 & H3 & H4).
  assert (ns = names) as -> by (destruct e; injection H as <- _; reflexivity).
  split; [exact H1|]. split; [exact H3|]. intros rs un Er. destruct e as [e|]; injection H as <-; [discriminate Er|].
  injection Er as <- _. rewrite <- H2. split; [reflexivity|]. rewrite <- Len. exact (H4 eq_refl).
Qed.
Print Assumptions C40_order.

(** Whatever a provider does once a resolver was added as the terminal one, none
    follows it. *)
Theorem C40_terminal_last {R} (p : script R) s :
  s_terminal R s = true ->
  s_resolvers R (fst (run_script R p s)) = s_resolvers R s /\ s_terminal R (fst (run_script R p s)) = true.
Proof.
  revert s. induction p as [|e|k IH|o k IH]; intros s T; cbn [run_script fst]; try (split; [reflexivity|exact T]).
  - apply IH, T.
  - assert (D : s_resolvers R (fst (do_op R o s)) = s_resolvers R s /\ s_terminal R (fst (do_op R o s)) = true).
    { destruct o; cbn [do_op]; unfold add_resolver; rewrite ?T; cbn [fst s_resolvers s_terminal]; auto. destruct (s_config R s); cbn; auto. }
    destruct (do_op R o s) as [s' e]. cbn [fst] in D. destruct D as [<- T']. apply IH, T'.
Qed.
Print Assumptions C40_terminal_last.
Example C40_terminal_last_ex :
  fst (run_script nat (Do (AddTerminal 1%nat) (fun _ => Do (AddResolver 2%nat) (fun e => match e with Some e => Return | None => Return end)))
     (mkSetup nat None None [] (Some (lit "p")) false)) = mkSetup nat None None [(lit "p", 1%nat)] (Some (lit "p")) true.
Proof. reflexivity. Qed.

(** For providers that add resolvers, the last of them perhaps terminal, the chain
    is what they add in that order, up to the first terminal resolver. *)
Theorem C40_chain {R} detected config profile (l : list (@plain R)) :
  NoDup (map a_name l) -> NoDup (claims (map provider_of l)) -> (forall a, In a l -> a_ordering a <> Unsupported) ->
  exists idx l' names un, in_order (map provider_of l) idx /\ Forall2 (fun i a => nth_error l i = Some a) idx l'
    /\ create R detected config profile (map provider_of l) = (names, Created (chain_of l') un).
Proof.
  intros H1 H2 H3. unfold create.
  assert (validate R [] [] (map provider_of l) = true) as ->.
  { apply validate_spec. rewrite map_map. split; [exact H1|]. split; [intros p _ []|]. split; [exact H2|intros s _ []]. }
  cbn [negb]. destruct (sort_by_ordering R (map provider_of l)) as [out|] eqn:S.
  - destruct (sort_spec R _ out S) as (idx & Hi & Hp). destruct (at_positions_map R provider_of l idx out Hp) as (l' & -> & Hp').
    destruct (set_up_plain R l' (mkSetup R config profile [] None false) eq_refl) as (names & s' & E & Er).
    rewrite E. exists idx, l', names. eexists. split; [exact Hi|]. split; [exact Hp'|]. rewrite Er. reflexivity.
  - exfalso. apply sort_none in S. destruct S as (p & Hp & Eo). apply in_map_iff in Hp. destruct Hp as (a & <- & Ha).
    exact (H3 a Ha Eo).
Qed.
Print Assumptions C40_chain.

(** Six providers in a bad order, the last but one terminal. *)
Example C40_chain_ex :
  create nat (fun _ => false) None None (map provider_of
    [mkPlain (lit "e") (After ENVIRONMENT) [5%nat] None; mkPlain (lit "z") (Standard EC2_INSTANCE_METADATA) [9%nat] None;
     mkPlain (lit "d") (Standard ECS_CONTAINER) [7%nat] (Some 8%nat); mkPlain (lit "b") (Before ENVIRONMENT) [1%nat; 2%nat] None;
     mkPlain (lit "c") (Before ENVIRONMENT) [3%nat] None; mkPlain (lit "a") (Standard ENVIRONMENT) [4%nat] None])
  = ([lit "b"; lit "c"; lit "a"; lit "e"; lit "d"],
     Created [(lit "b", 1%nat); (lit "b", 2%nat); (lit "c", 3%nat); (lit "a", 4%nat); (lit "e", 5%nat); (lit "d", 7%nat); (lit "d", 8%nat)] []).
Proof. reflexivity. Qed.

(** ** C69 *)

Lemma truthy_nonempty v : truthy v = true <-> nonempty v.
Proof.
  unfold nonempty. destruct v as [[|c t]|]; cbn; split; try discriminate.
  - intros (t & E & N). injection E as <-. congruence.
  - intros _. exists (c :: t). split; [reflexivity|discriminate].
  - reflexivity.
  - intros (t & E & _). discriminate E.
Qed.

Lemma permuted {A} (f : A -> nat) (l1 : list A) : forall l2, StronglySorted (fun a b => f a < f b)%nat l1 ->
  StronglySorted (fun a b => f a < f b)%nat l2 -> Permutation l1 l2 -> l1 = l2.
Proof.
  induction l1 as [|a l1 IH]; intros l2 S1 S2 P.
  - apply Permutation_nil in P. congruence.
  - destruct l2 as [|b l2]; [symmetry in P; apply Permutation_nil in P; discriminate P|].
    inversion S1 as [|? ? S1a S1b]; subst. inversion S2 as [|? ? S2a S2b]; subst. rewrite Forall_forall in *.
    assert (a = b) as ->.
    { assert (Ia : In a (b :: l2)) by (apply (Permutation_in _ P); left; reflexivity).
      assert (Ib : In b (a :: l1)) by (apply (Permutation_in _ (Permutation_sym P)); left; reflexivity).
      destruct Ia as [Ia|Ia]; [congruence|]. destruct Ib as [Ib|Ib]; [congruence|].
      specialize (S1b _ Ib). specialize (S2b _ Ia). lia. }
    f_equal. apply IH; [exact S1a|exact S2a|]. eapply Permutation_cons_inv, P.
Qed.
Definition std_index {R} (p : provider R) : nat := match p_ordering R p with Standard s => slot_index s | _ => 0%nat end.
Lemma nth_all {A} (d : A) (l : list A) : map (fun i => nth i l d) (seq 0 (List.length l)) = l.
Proof.
  induction l as [|a l IH]; [reflexivity|]. cbn [List.length seq map]. cbn [nth]. f_equal.
  rewrite <- seq_shift, map_map. exact IH.
Qed.
(** Providers of different standard slots have one order. *)
Lemma sort_standard {R} (ps out target : list (provider R)) :
  (forall p, In p ps -> exists s, p_ordering R p = Standard s) ->
  sort_by_ordering R ps = Some out -> Permutation ps target ->
  StronglySorted (fun a b => std_index a < std_index b)%nat target -> NoDup (claims ps) -> out = target.
Proof.
  intros St So P T Nd. destruct (sort_spec R ps out So) as (idx & (Hp & Hs) & Ha).
  destruct ps as [|d ps'] eqn:Eps.
  { apply Permutation_nil in P. subst. destruct idx; [|cbn in Hp; symmetry in Hp; apply Permutation_nil in Hp; discriminate Hp].
    inversion Ha. reflexivity. }
  rewrite <- Eps in *.
  assert (Eo : out = map (fun i => nth i ps d) idx).
  { clear -Ha. induction Ha as [|i p idx out H _ IH]; [reflexivity|]. cbn [map]. rewrite IH. f_equal. symmetry. apply nth_error_nth, H. }
  apply (permuted std_index); [| |].
  - rewrite Eo.
    apply (SS_map (fun i => nth i ps d) (comes_first ps)); [|exact Hs].
    intros i j Hi Hj (p & q & Np & Nq & H). rewrite (nth_error_nth _ _ d Np), (nth_error_nth _ _ d Nq).
    destruct (St p (nth_error_In _ _ Np)) as (a & Ea). destruct (St q (nth_error_In _ _ Nq)) as (b & Eb).
    unfold std_index. rewrite Ea, Eb in *. destruct H as [H|[H Lt]].
    + inversion H as [o1 o2 x y I1 I2 E| | |]; subst. apply earlier_index in E.
      apply in3 in I1. apply in3 in I2. destruct I1 as [I1|[I1|I1]]; try discriminate I1. destruct I2 as [I2|[I2|I2]]; try discriminate I2.
      injection I1 as ->. injection I2 as ->. exact E.
    + exfalso. injection H as ->. clear -Ea Eb Np Nq Lt Nd.
      assert (Sp : exists x y z, ps = x ++ p :: y ++ q :: z) by (eapply nth_split_two; eassumption).
      destruct Sp as (x & y & z & ->). unfold claims in Nd. rewrite flat_map_app in Nd. cbn [flat_map] in Nd. rewrite flat_map_app in Nd.
      cbn [flat_map] in Nd. rewrite Ea, Eb in Nd. cbn [app] in Nd. apply NoDup_remove_2 in Nd. apply Nd.
      apply in_or_app. right. apply in_or_app. right. left. reflexivity.
  - exact T.
  - rewrite Eo, Hp, nth_all. exact P.
Qed.

Lemma set_up_cons {R} (p : provider R) r s : set_up R (p :: r) s =
  match do_op R (SetCurrent (p_name R p)) s with
  | (s1, Some e) => ([], (s1, Some e))
  | (s1, None) =>
    match run_script R (p_setup R p) s1 with
    | (s2, Some e) => ([p_name R p], (s2, Some e))
    | (s2, None) =>
      if s_terminal R s2 then ([p_name R p], (s2, None))
      else let (names, res) := set_up R r s2 in (p_name R p :: names, res)
    end
  end.
Proof. reflexivity. Qed.

(** For every order in which the providers of this package are discovered, the
    chain gives the credentials of the environment, else the session keys of the
    profile, else its static keys, else an error.  The configuration files are
    only loaded when the environment has no credentials. *)
Theorem C69_default environ loaded detected config profile ps creds :
  Permutation ps (builtin environ loaded) ->
  Default environ config loaded profile creds ->
  exists names rs un, create _ detected config profile ps = (names, Created rs un)
    /\ snd (chain_get _ (resolver_get environ) un [] rs)
       = match creds with Some c => Resolved c | None => ChainError [] un end.
Proof.
  intros P D.
  assert (Nm : NoDup (map (p_name _) ps)).
  { eapply Permutation_NoDup; [apply Permutation_map, Permutation_sym, P|].
    unfold builtin. repeat constructor; cbn [map In p_name environment_provider shared_config_provider session_provider static_provider];
      intros H; repeat destruct H as [H|H]; try discriminate H; exact H. }
  assert (Nc : NoDup (claims ps)).
  { eapply Permutation_NoDup.
    - apply Permutation_flat_map, Permutation_sym, P.
    - unfold builtin. repeat constructor; cbn [In]; intros H; repeat destruct H as [H|H]; try discriminate H; exact H. }
  assert (St : forall p, In p ps -> exists s, p_ordering _ p = Standard s).
  { intros p Hp. apply (Permutation_in _ P) in Hp. destruct Hp as [<-|[<-|[<-|[<-|[]]]]]; eexists; reflexivity. }
  unfold create.
  assert (validate _ [] [] ps = true) as ->.
  { apply validate_spec. split; [exact Nm|]. split; [intros p _ []|]. split; [exact Nc|intros s _ []]. }
  cbn [negb]. destruct (sort_by_ordering _ ps) as [out|] eqn:So.
  2:{ exfalso. apply sort_none in So. destruct So as (p & Hp & E). destruct (St p Hp) as (s & E'). congruence. }
  assert (out = builtin environ loaded) as ->.
  { apply (sort_standard ps); [exact St|exact So|exact P| |exact Nc].
    unfold builtin. repeat constructor; cbn; lia. }
  unfold builtin. rewrite set_up_cons. cbn [do_op s_terminal s_config s_profile s_resolvers p_name environment_provider p_setup].
  destruct D as [k s Ek Nk Es Ns|m p r Ne Hm Hp Hk].
  - rewrite Ek, Es. cbn [truthy]. destruct k as [|c k]; [congruence|]. destruct s as [|c' s]; [congruence|].
    cbn [negb orb run_script do_op]. unfold add_resolver. cbn [s_terminal s_current s_config s_profile s_resolvers app].
    eexists _, _, _. split; [reflexivity|]. cbn [s_resolvers chain_get resolver_get]. rewrite Ek, Es. reflexivity.
  - assert (negb (truthy (environ (lit "AWS_ACCESS_KEY_ID"))) || negb (truthy (environ (lit "AWS_SECRET_ACCESS_KEY"))) = true)%bool as ->.
    { destruct (truthy (environ (lit "AWS_ACCESS_KEY_ID"))) eqn:E1; [|reflexivity].
      destruct (truthy (environ (lit "AWS_SECRET_ACCESS_KEY"))) eqn:E2; [|reflexivity].
      exfalso. apply Ne. split; apply truthy_nonempty; assumption. }
    cbn [run_script s_terminal]. rewrite set_up_cons. cbn [do_op run_script s_terminal shared_config_provider p_name p_setup s_config s_profile s_resolvers].
    assert (Sel : (if truthy profile then match profile with Some p => p | None => [] end
                   else if truthy (environ (lit "AWS_PROFILE")) then match environ (lit "AWS_PROFILE") with Some p => p | None => [] end
                   else lit "default") = p).
    { destruct Hp as [(-> & N)|[(N & -> & N2)|(N & N2 & ->)]].
      - destruct p; [congruence|reflexivity].
      - destruct (truthy profile) eqn:Tp; [exfalso; apply N, truthy_nonempty, Tp|]. destruct p; [congruence|reflexivity].
      - destruct (truthy profile) eqn:Tp; [exfalso; apply N, truthy_nonempty, Tp|].
        destruct (truthy (environ (lit "AWS_PROFILE"))) eqn:Te; [exfalso; apply N2, truthy_nonempty, Te|]. reflexivity. }
    assert (Go : exists names rs un,
      (let (names, p0) := set_up resolver [session_provider; static_provider]
          (mkSetup resolver (Some m) (Some p) [] (Some (canonical_name SHARED_CONFIG)) false) in
       let (s, o) := p0 in
       match o with
       | Some e => (canonical_name ENVIRONMENT :: canonical_name SHARED_CONFIG :: names, SetupError e)
       | None => (canonical_name ENVIRONMENT :: canonical_name SHARED_CONFIG :: names, Created (s_resolvers resolver s) (find_unclaimed resolver detected ps))
       end) = (names, Created rs un)
      /\ snd (chain_get resolver (resolver_get environ) un [] rs) = match r with Some c => Resolved c | None => ChainError [] un end).
    { cbn [set_up do_op s_terminal s_config s_profile s_resolvers session_provider static_provider p_name p_setup run_script].
      destruct Hk as [k s t E1 E2 E3|k s E1 E2 E3|E].
      - rewrite E1, E2, E3. cbn [run_script do_op]. unfold add_resolver. cbn [s_terminal s_current s_config s_profile s_resolvers app].
        eexists _, _, _. split; reflexivity.
      - rewrite E1, E2, E3. cbn [run_script do_op s_terminal s_current s_config s_profile s_resolvers app].
        rewrite E1, E2. cbn [run_script do_op s_terminal s_current s_config s_profile s_resolvers app]. unfold add_resolver. cbn [s_terminal s_current s_config s_profile s_resolvers app].
        eexists _, _, _. split; reflexivity.
      - destruct (get m p (lit "aws_access_key_id")) as [k|] eqn:E1; [destruct (get m p (lit "aws_secret_access_key")) as [s|] eqn:E2|];
          [destruct E; discriminate| |];
          cbn [run_script do_op s_terminal s_current s_config s_profile s_resolvers app];
          rewrite ?E1, ?E2; cbn [run_script do_op s_terminal s_current s_config s_profile s_resolvers app];
          eexists _, _, _; split; reflexivity. }
    clear -Go Sel Hm. destruct Go as (names & rs & un & G1 & G2). exists names, rs, un. split; [|exact G2]. rewrite <- G1. clear G1 G2.
    destruct Hm as [->|(-> & ->)]; cbn [run_script do_op s_config s_profile s_terminal s_resolvers s_current]; rewrite Sel;
      cbn [run_script s_terminal];
      destruct (set_up resolver [session_provider; static_provider] _) as [ns [s [e|]]]; reflexivity.
Qed.
Print Assumptions C69_default.

Definition no_env : text -> option text := fun _ => None.
Definition some_config : merged :=
  mkMerged [(lit "default", [(lit "aws_access_key_id", PStr (lit "AK")); (lit "aws_secret_access_key", PStr (lit "SK"))])] [] [].
Example C69_default_ex : exists c, Default no_env (Some some_config) (Err OSError) None (Some c)
  /\ Permutation (rev (builtin no_env (Err OSError))) (builtin no_env (Err OSError)).
Proof.
  eexists. split; [|symmetry; apply Permutation_rev].
  eapply (Default_profile _ _ _ _ some_config (lit "default")).
  - intros [(t & E & _) _]. discriminate E.
  - left. reflexivity.
  - right. right. split; [intros (t & E & _); discriminate E|]. split; [intros (t & E & _); discriminate E|reflexivity].
  - eapply Keys_static; reflexivity.
Qed.

(** ** C70 *)

Lemma SS_filter {A} (P : A -> A -> Prop) f l : StronglySorted P l -> StronglySorted P (filter f l).
Proof.
  induction 1 as [|a l S IH F]; [constructor|]. cbn [filter]. destruct (f a); [|exact IH]. constructor; [exact IH|].
  rewrite Forall_forall in *. intros y Hy. apply filter_In in Hy. apply F, Hy.
Qed.
Lemma slots_sorted : StronglySorted earlier slots.
Proof. repeat constructor; apply earlier_index; cbn; lia. Qed.

(** The sources reported are, in the order of the slots, those that are detected,
    that no provider claims and that a package is known for. *)
Theorem C70_unclaimed {R} detected (ps : list (provider R)) :
  exists l, StronglySorted earlier l
    /\ (forall s, In s l <-> detected s = true /\ ~ In s (claims ps) /\ module_suggestion s <> None)
    /\ Forall2 (fun s x => canonical_name s = fst x /\ module_suggestion s = Some (snd x)) l (find_unclaimed R detected ps).
Proof.
  assert (Cl : forall s, existsb (fun p => match p_ordering R p with Standard s' => slot_eqb s s' | _ => false end) ps = true <-> In s (claims ps)).
  { intros s. rewrite existsb_exists. unfold claims. rewrite in_flat_map. split; intros (p & Hp & E); exists p; (split; [exact Hp|]).
    - destruct (p_ordering R p); try discriminate E. apply slot_eqb_eq in E as ->. left. reflexivity.
    - destruct (p_ordering R p) as [s'|s'|s'|]; try contradiction E. destruct E as [->|[]]. apply slot_eqb_eq. reflexivity. }
  exists (filter (fun s => negb (existsb (fun p => match p_ordering R p with Standard s' => slot_eqb s s' | _ => false end) ps)
                   && detected s && match module_suggestion s with Some _ => true | None => false end) slots).
  split; [apply SS_filter, slots_sorted|]. split.
  - intros s. rewrite filter_In, !andb_true_iff, negb_true_iff, <- Cl.
    assert (In s slots) by (destruct s; cbn; tauto).
    destruct (existsb _ ps); destruct (detected s); destruct (module_suggestion s); intuition congruence.
  - unfold find_unclaimed. induction slots as [|s l IH]; [constructor|]. cbn [filter flat_map].
    destruct (existsb _ ps); cbn [negb orb andb app]; [exact IH|].
    destruct (detected s); cbn [negb orb andb app]; [|exact IH].
    destruct (module_suggestion s) eqn:M; cbn [app]; [|exact IH].
    constructor; [split; [reflexivity|exact M]|exact IH].
Qed.
Print Assumptions C70_unclaimed.

(** A token file and a role, or a container URI, are detected; they are reported
    in every error of the chain. *)
Example C70_unclaimed_ex :
  find_unclaimed resolver (is_detected (fun k => if text_eqb k (lit "AWS_CONTAINER_CREDENTIALS_FULL_URI") then Some (lit "x") else None) true)
    (builtin no_env (Err OSError)) = [(lit "EcsContainer", lit "aws-credentials-http")].
Proof. reflexivity. Qed.

(** With the detection of this package: a web identity token, when both its
    variables are set, and a container, when one of its two is. *)
Theorem C70_present {R} environ files_exist (ps : list (provider R)) name package :
  In (name, package) (find_unclaimed R (is_detected environ files_exist) ps)
  <-> (name = lit "WebIdentityTokenEnv" /\ package = lit "aws-credentials-sts" /\ ~ In WEB_IDENTITY_TOKEN_ENV (claims ps)
       /\ nonempty (environ (lit "AWS_WEB_IDENTITY_TOKEN_FILE")) /\ nonempty (environ (lit "AWS_ROLE_ARN")))
      \/ (name = lit "EcsContainer" /\ package = lit "aws-credentials-http" /\ ~ In ECS_CONTAINER (claims ps)
       /\ (nonempty (environ (lit "AWS_CONTAINER_CREDENTIALS_FULL_URI")) \/ nonempty (environ (lit "AWS_CONTAINER_CREDENTIALS_RELATIVE_URI")))).
Proof.
  destruct (C70_unclaimed (is_detected environ files_exist) ps) as (l & _ & Hl & F).
  assert (X : forall s, In s l -> In (canonical_name s, match module_suggestion s with Some m => m | None => [] end)
    (find_unclaimed R (is_detected environ files_exist) ps)).
  { clear Hl. induction F as [|s [n p] l r [E1 E2] F IH]; intros s' H; [destruct H|]. destruct H as [->|H]; [|right; apply IH, H].
    left. rewrite E1, E2. reflexivity. }
  split.
  - intros H. assert (Y : exists s, In s l /\ canonical_name s = name /\ module_suggestion s = Some package).
    { clear X Hl. induction F as [|s x l r E F IH]; [destruct H|]. destruct H as [->|H]; [|destruct (IH H) as (s' & I & K); exists s'; split; [right; exact I|exact K]].
      exists s. split; [left; reflexivity|exact E]. }
    destruct Y as (s & Hs & <- & M). apply Hl in Hs. destruct Hs as (D & N & _). destruct s; cbn in D; try discriminate D; cbn in M; try discriminate M;
      injection M as <-; [left|right]; (split; [reflexivity|]); (split; [reflexivity|]); (split; [exact N|]).
    + apply andb_true_iff in D. destruct D. split; apply truthy_nonempty; assumption.
    + apply orb_true_iff in D. destruct D; [left|right]; apply truthy_nonempty; assumption.
  - intros [(-> & -> & N & A & B)|(-> & -> & N & A)].
    + apply (X WEB_IDENTITY_TOKEN_ENV), Hl. split; [|split; [exact N|discriminate]]. cbn. apply andb_true_iff. split; apply truthy_nonempty; assumption.
    + apply (X ECS_CONTAINER), Hl. split; [|split; [exact N|discriminate]]. cbn. apply orb_true_iff.
      destruct A; [left|right]; apply truthy_nonempty; assumption.
Qed.
Print Assumptions C70_present.
