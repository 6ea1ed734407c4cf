(** The fields of AsyncAwsConfig. *)
From Verif Require Import Base Base_Proofs PyText_Model PyText_Proofs PyDict_Model PyDict_Proofs ConfigFile_Model
  ConfigResolve_Model ConfigResolve_Spec ConfigResolve_Proofs.
From Coq Require Import ZArith Lia.
Local Open Scope N_scope.

(** ** Validators *)

Lemma is_digit_spec c : is_digit c = true <-> digit c.
Proof. unfold is_digit, digit. rewrite Bool.andb_true_iff, !N.leb_le. reflexivity. Qed.
Lemma region_char_spec c : region_char c = true <-> region_letter c.
Proof.
  unfold region_char, region_letter. rewrite !Bool.orb_true_iff, !Bool.andb_true_iff, !N.leb_le, N.eqb_eq, is_digit_spec. tauto.
Qed.
Lemma last_app_one {A} (r : list A) c d : last (r ++ [c]) d = c.
Proof. induction r as [|x r IH]; [reflexivity|]. destruct r; [reflexivity|exact IH]. Qed.
Lemma removelast_app_one {A} (r : list A) c : removelast (r ++ [c]) = r.
Proof. rewrite removelast_app by discriminate. apply app_nil_r. Qed.
Lemma last_is {A} (t : list A) c d : c <> d -> (last t d = c <-> exists r, t = r ++ [c]).
Proof.
  intros Hd. split.
  - intros H. exists (removelast t). rewrite <- H. apply app_removelast_last. intros ->. apply Hd. symmetry. exact H.
  - intros (r & ->). apply last_app_one.
Qed.
Lemma region_body_spec t : region_body t = true <-> region_name t.
Proof.
  unfold region_body, region_name. rewrite !Bool.andb_true_iff, !Bool.negb_true_iff, !Nat.leb_le, forallb_forall.
  assert (A : (forall c, In c t -> region_char c = true) <-> (forall c, In c t -> region_letter c)).
  { split; intros H c Hc; apply region_char_spec, (H c Hc). }
  assert (B : forallb is_digit t = false <-> exists c, In c t /\ ~ digit c).
  { split.
    - intros H. induction t as [|x t IH]; [discriminate H|]. cbn [forallb] in H. destruct (is_digit x) eqn:Ex.
      + destruct IH as (c & Hc & Hd); [|exact H|exists c; split; [right; exact Hc|exact Hd]].
        split; intros H' c Hc; apply region_char_spec, (H' c Hc).
      + exists x. split; [left; reflexivity|]. intros Hd. apply is_digit_spec in Hd. congruence.
    - intros (c & Hc & Hd). destruct (forallb is_digit t) eqn:E; [|reflexivity]. rewrite forallb_forall in E.
      destruct Hd. apply is_digit_spec, E, Hc. }
  assert (C : (hd 0 t =? 45) = false <-> forall r, t <> 45 :: r).
  { rewrite N.eqb_neq. destruct t as [|x t]; cbn [hd]; split; intros H.
    - discriminate.
    - discriminate.
    - intros r [= ->]. congruence.
    - intros ->. exact (H t eq_refl). }
  assert (D : (last t 0 =? 45) = false <-> forall r, t <> r ++ [45]).
  { rewrite N.eqb_neq, last_is by discriminate. split.
    - intros H r E. apply H. exists r. exact E.
    - intros H (r & E). exact (H r E). }
  rewrite A, B, C, D. tauto.
Qed.
Lemma region_no_newline t : region_name t -> ~ In 10 t.
Proof. intros (_ & H & _) Hi. specialize (H 10 Hi). unfold region_letter, digit in H. lia. Qed.
Lemma region_pattern_spec t : region_pattern t = true <-> region_name t \/ exists r, t = r ++ [10] /\ region_name r.
Proof.
  unfold region_pattern. rewrite Bool.orb_true_iff, Bool.andb_true_iff, !region_body_spec, N.eqb_eq, last_is by discriminate. split.
  - intros [H|[(r & ->) H]]; [left; exact H|right]. rewrite removelast_app_one in H. exists r. split; [reflexivity|exact H].
  - intros [H|(r & -> & H)]; [left; exact H|right]. rewrite removelast_app_one. split; [exists r; reflexivity|exact H].
Qed.
Lemma validate_region_spec v : validate_region v = true <-> valid (lit "region") v.
Proof.
  unfold validate_region, valid. split.
  - destruct v; try discriminate. intros H. left. split; [reflexivity|]. exists t. split; [reflexivity|]. apply region_pattern_spec, H.
  - intros [(_ & t & -> & H)|[(E & _)|(E & _)]]; [apply region_pattern_spec, H|discriminate E|discriminate E].
Qed.
Lemma validate_retry_mode_spec v : validate_retry_mode v = true <-> valid (lit "retry_mode") v.
Proof.
  unfold validate_retry_mode, valid. split.
  - destruct v; try discriminate. intros H. apply text_eqb_eq in H as ->. right. left. split; reflexivity.
  - intros [(E & _)|[(_ & ->)|(E & _)]]; [discriminate E|reflexivity|discriminate E].
Qed.
Lemma validate_max_attempts_spec v : validate_max_attempts v = true <-> valid (lit "max_attempts") v.
Proof.
  unfold validate_max_attempts, valid. split.
  - destruct v; try discriminate; intros H; right; right; (split; [reflexivity|]); [left; reflexivity|right].
    exists z. split; [reflexivity|]. apply Bool.negb_true_iff, Z.ltb_ge in H. exact H.
  - intros [(E & _)|[(E & _)|(_ & [->|(z & -> & H)])]]; [discriminate E|discriminate E|reflexivity|].
    apply Bool.negb_true_iff, Z.ltb_ge, H.
Qed.

Section Aws.
Variable environ : text -> option text.
Variable norm_path : text -> text.
Variable py_int : text -> option Z.
Variables profile config_path credentials_path : option text.

Definition base : ctx := new_ctx environ profile config_path credentials_path.
Definition loaded (m : merged) : ctx := mkCtx (c_profile base) (c_origin base) config_path credentials_path (Some m) 1.

Section Disk.
Variable disk : nat -> text -> file.
Definition L : outcome merged := load environ disk norm_path 0 config_path credentials_path.
Definition prof (k : text) : option text := match L with Done m => get m (c_profile base) k | Fail _ => None end.
Definition ready (c : ctx) : Prop := c = base \/ exists m, L = Done m /\ c = loaded m.

Lemma ready_profile c : ready c -> c_profile c = c_profile base.
Proof. intros [->|(m & _ & ->)]; reflexivity. Qed.
Lemma parsed_ready c : ready c ->
  match L with
  | Done m => parsed_profiles environ disk norm_path c = (loaded m, Done m)
  | Fail e => exists c', parsed_profiles environ disk norm_path c = (c', Fail e)
  end.
Proof.
  intros [->|(m & EL & ->)]; unfold parsed_profiles.
  - cbn [base new_ctx c_cached c_loads c_config_path c_credentials_path]. fold L. destruct L; [reflexivity|eexists; reflexivity].
  - rewrite EL. reflexivity.
Qed.

(** A resolver against the function of the specification. *)
Definition runs (f : ctx -> ctx * outcome resolved) (s : setting) : Prop :=
  forall c, ready c ->
  match f c with
  | (c', Fail _) => (first_true (map environ (env_names s)) = None /\ exists e, L = Fail e) \/ expected None environ prof s = None
  | (c', Done (v, src)) =>
    ready c' /\ (first_true (map environ (env_names s)) = None -> exists m, L = Done m)
    /\ ((v = VUnset /\ expected None environ prof s = Some (default s, DEFAULT))
        \/ (v <> VUnset /\ expected None environ prof s = Some (v, src)))
  end.

Lemma resolve_str_run vars keys c : keys <> [] -> ready c ->
  match resolve_str environ disk norm_path vars keys c with
  | (c', Fail _) => first_true (map environ vars) = None /\ exists e, L = Fail e
  | (c', Done (v, src)) =>
    ready c' /\ (first_true (map environ vars) = None -> exists m, L = Done m)
    /\ match first_true (map environ vars) with
       | Some t => v = VStr t /\ src = ENV
       | None => match first_true (map prof keys) with
                 | Some t => v = VStr t /\ src = PROFILE
                 | None => v = VUnset
                 end
       end
  end.
Proof.
  intros Hk Hr. unfold resolve_str. destruct (first_true (map environ vars)) as [t|].
  - split; [exact Hr|]. split; [discriminate|]. split; reflexivity.
  - destruct keys as [|k ks] eqn:Ek; [destruct (Hk eq_refl)|]. rewrite <- Ek.
    pose proof (parsed_ready c Hr) as P. unfold prof. destruct L as [m|e] eqn:EL.
    + rewrite P. cbn [loaded c_profile].
      match goal with |- context [match first_true ?l with Some v => (loaded m, _) | None => _ end] =>
        destruct (first_true l) as [t|] eqn:Et end.
      * split; [right; exists m; split; [exact EL|reflexivity]|]. split; [intros _; exists m; reflexivity|]. split; reflexivity.
      * split; [right; exists m; split; [exact EL|reflexivity]|]. split; [intros _; exists m; reflexivity|]. reflexivity.
    + destruct P as (c' & ->). split; [reflexivity|]. exists e. reflexivity.
Qed.

Lemma region_runs : runs (resolve_region environ disk norm_path) region.
Proof.
  intros c Hr. pose proof (resolve_str_run (env_names region) (profile_keys region) c ltac:(discriminate) Hr) as H.
  unfold resolve_region. change [lit "AWS_REGION"; lit "AWS_DEFAULT_REGION"] with (env_names region). change [lit "region"] with (profile_keys region).
  destruct (resolve_str environ disk norm_path _ _ c) as [c' [[v s]|e]]; [|left; exact H].
  destruct H as (Hr' & HL & H). split; [exact Hr'|]. split; [exact HL|].
  unfold expected.
  destruct (first_true (map environ (env_names region))) as [t|].
  - destruct H as [-> ->]. right. split; [discriminate|reflexivity].
  - destruct (first_true (map prof (profile_keys region))) as [t|].
    + destruct H as [-> ->]. right. split; [discriminate|reflexivity].
    + left. split; [exact H|reflexivity].
Qed.

Lemma retry_mode_runs : runs (resolve_retry_mode environ disk norm_path) retry_mode.
Proof.
  intros c Hr. pose proof (resolve_str_run (env_names retry_mode) (profile_keys retry_mode) c ltac:(discriminate) Hr) as H.
  unfold resolve_retry_mode. change [lit "AWS_RETRY_MODE"] with (env_names retry_mode). change [lit "retry_mode"] with (profile_keys retry_mode).
  destruct (resolve_str environ disk norm_path _ _ c) as [c' [[v s]|e]]; [|left; exact H].
  destruct H as (Hr' & HL & H).
  assert (M : forall (t : text) (src : source), (if text_eqb t (lit "legacy") then (c', Done (VStr (lit "standard"), src))
            else if text_eqb t (lit "adaptive") then (c', Done (VStr (lit "standard"), src)) else (c', Done (VStr t, src)))
            = (c', Done (VStr (if mem_text t [lit "legacy"; lit "adaptive"] then lit "standard" else t), src))).
  { intros t src. unfold mem_text. cbn [existsb]. destruct (text_eqb t (lit "legacy")); [reflexivity|].
    destruct (text_eqb t (lit "adaptive")); reflexivity. }
  unfold expected.
  destruct (first_true (map environ (env_names retry_mode))) as [t|].
  - destruct H as [-> ->]. rewrite M. split; [exact Hr'|]. split; [exact HL|]. right. split; [discriminate|reflexivity].
  - destruct (first_true (map prof (profile_keys retry_mode))) as [t|].
    + destruct H as [-> ->]. rewrite M. split; [exact Hr'|]. split; [exact HL|]. right. split; [discriminate|reflexivity].
    + subst v. split; [exact Hr'|]. split; [exact HL|]. left. split; reflexivity.
Qed.

Lemma max_attempts_runs : runs (resolve_max_attempts environ disk norm_path py_int) (max_attempts py_int).
Proof.
  intros c Hr. pose proof (resolve_str_run (env_names (max_attempts py_int)) (profile_keys (max_attempts py_int)) c ltac:(discriminate) Hr) as H.
  unfold resolve_max_attempts, resolve_int. change [lit "AWS_MAX_ATTEMPTS"] with (env_names (max_attempts py_int)). change [lit "max_attempts"] with (profile_keys (max_attempts py_int)).
  destruct (resolve_str environ disk norm_path _ _ c) as [c' [[v s]|e]]; [|left; exact H].
  destruct H as (Hr' & HL & H).
  unfold expected.
  destruct (first_true (map environ (env_names (max_attempts py_int)))) as [t|].
  - destruct H as [-> ->]. cbn [max_attempts means]. destruct (py_int t); [|right; reflexivity].
    split; [exact Hr'|]. split; [exact HL|]. right. split; [discriminate|reflexivity].
  - destruct (first_true (map prof (profile_keys (max_attempts py_int)))) as [t|].
    + destruct H as [-> ->]. cbn [max_attempts means]. destruct (py_int t); [|right; reflexivity].
      split; [exact Hr'|]. split; [exact HL|]. right. split; [discriminate|reflexivity].
    + subst v. split; [exact Hr'|]. split; [exact HL|]. left. split; reflexivity.
Qed.

(** ** Fields *)

Variable ov : list (text * value).
Definition expect (name : text) (s : setting) : option (value * source) := expected (dict_get name ov) environ prof s.
Definition needs (name : text) (s : setting) : Prop :=
  dict_get name ov = None /\ first_true (map environ (env_names s)) = None.

Definition sound (f : text * fspec) (s : text * setting) : Prop :=
  fst f = fst s /\ (exists r, f_resolver (snd f) = Some r /\ runs r (snd s)) /\ f_default (snd f) = default (snd s)
  /\ (forall v, validates (snd f) v = true <-> valid (fst f) v).

Lemma aws_sound : Forall2 sound (aws_fields environ disk norm_path py_int) (settings py_int).
Proof.
  constructor; [|constructor; [|constructor; [|constructor]]];
    (split; [reflexivity|]; split; [eexists; split; [reflexivity|]|split; [reflexivity|]]).
  - apply region_runs.
  - exact validate_region_spec.
  - apply retry_mode_runs.
  - exact validate_retry_mode_spec.
  - apply max_attempts_runs.
  - exact validate_max_attempts_spec.
Qed.

Lemma pick_run f s c : sound f s -> ready c ->
  match pick ov c (fst f) (snd f) with
  | (_, Fail _) => (needs (fst f) (snd s) /\ exists e, L = Fail e) \/ expect (fst f) (snd s) = None
  | (c', Done r) => ready c' /\ (needs (fst f) (snd s) -> exists m, L = Done m) /\ expect (fst f) (snd s) = Some r
  end.
Proof.
  intros (_ & (r & Er & Hr) & Ed & _) Hc. unfold pick, expect, needs. destruct (dict_get (fst f) ov) as [v|].
  - split; [exact Hc|]. split; [intros [[=] _]|reflexivity].
  - rewrite Er. specialize (Hr c Hc). destruct (r c) as [c' [[v src]|e]].
    + destruct Hr as (Hc' & HL & H). destruct H as [[-> H]|[Hne H]].
      * rewrite Ed. split; [exact Hc'|]. split; [intros [_ Hn]; exact (HL Hn)|exact H].
      * destruct v; try (destruct (Hne eq_refl); fail);
          (split; [exact Hc'|]; split; [intros [_ Hn]; exact (HL Hn)|exact H]).
    + destruct Hr as [[Hn HL]|H]; [left; split; [split; [reflexivity|exact Hn]|exact HL]|right; exact H].
Qed.

Definition good (s : text * setting) : Prop :=
  (needs (fst s) (snd s) -> exists m, L = Done m)
  /\ exists r, expect (fst s) (snd s) = Some r /\ valid (fst s) (fst r).

Lemma picks_run fs ss : Forall2 sound fs ss -> forall c, ready c ->
  match picks ov fs c with
  | Fail _ => exists s, In s ss /\ ~ good s
  | Done (l, c') => ready c' /\ Forall2 (fun x s => fst x = fst s /\ expect (fst s) (snd s) = Some (snd x) /\ good s) l ss
  end.
Proof.
  induction 1 as [|[name spec] s fs ss Hs _ IH]; intros c Hc; cbn [picks].
  - split; [exact Hc|constructor].
  - pose proof (pick_run _ s c Hs Hc) as P. cbn [fst snd] in P. destruct Hs as (En & _ & _ & Hv). cbn [fst snd] in En, Hv.
    subst name. destruct (pick ov c (fst s) spec) as [c' [[v src]|e]].
    + destruct P as (Hc' & HL & E). destruct (validates spec v) eqn:Ev.
      * specialize (IH c' Hc'). destruct (picks ov fs c') as [[l c'']|e].
        -- destruct IH as [Hc'' IH]. split; [exact Hc''|]. constructor; [|exact IH]. cbn [fst snd].
           split; [reflexivity|]. split; [exact E|]. split; [exact HL|]. exists (v, src). split; [exact E|]. apply Hv, Ev.
        -- destruct IH as (x & Hx & Hn). exists x. split; [right; exact Hx|exact Hn].
      * exists s. split; [left; reflexivity|]. intros [_ (r & Er & Hr)]. rewrite E in Er. injection Er as <-.
        cbn [fst] in Hr. apply Hv in Hr. congruence.
    + exists s. split; [left; reflexivity|]. intros [HL (r & Er & _)]. destruct P as [[Hn (e' & Hf)]|P]; [|congruence].
      destruct (HL Hn) as (m & Hm). congruence.
Qed.

Lemma aws_names : NoDup (dict_keys (aws_fields environ disk norm_path py_int)).
Proof.
  repeat constructor; cbn [In map fst aws_fields dict_keys]; intros H;
    repeat (destruct H as [H|H]; [discriminate H|]); destruct H.
Qed.

Lemma resolve_aws c : ready c ->
  match resolve_fields (aws_fields environ disk norm_path py_int) ov (create_instance (aws_fields environ disk norm_path py_int) c) with
  | Fail _ => (exists o, In o ov /\ dict_has (fst o) (settings py_int) = false) \/ (exists s, In s (settings py_int) /\ ~ good s)
  | Done i => (forall o, In o ov -> dict_has (fst o) (settings py_int) = true) /\ ready (i_ctx i)
      /\ forall s, In s (settings py_int) -> good s /\ exists v src, get_attr i (fst s) = Some v /\ source_of i (fst s) = Some src
           /\ expect (fst s) (snd s) = Some (v, src)
  end.
Proof.
  intros Hc. rewrite resolve_fields_picks by exact aws_names.
  assert (K : forall n, dict_has n (aws_fields environ disk norm_path py_int) = dict_has n (settings py_int)).
  { intros n. unfold dict_has, aws_fields, settings. cbn [dict_get].
    destruct (text_eqb n (lit "region")); [reflexivity|]. destruct (text_eqb n (lit "retry_mode")); [reflexivity|].
    destruct (text_eqb n (lit "max_attempts")); reflexivity. }
  destruct (forallb _ ov) eqn:Ef.
  - rewrite forallb_forall in Ef.
    pose proof (picks_run _ _ aws_sound c Hc) as P.
    destruct (picks ov (aws_fields environ disk norm_path py_int) c) as [[l c']|e] eqn:E; [|right; exact P].
    destruct P as [Hc' P]. split; [intros o Ho; rewrite <- K; apply Ef, Ho|]. split; [exact Hc'|].
    intros s Hs. assert (Hl : NoDup (map fst l)) by (rewrite (picks_names _ _ _ _ _ E); exact aws_names).
    assert (G : exists x, In x l /\ fst x = fst s /\ expect (fst s) (snd s) = Some (snd x) /\ good s).
    { clear E Hl K. induction P as [|x s' l ss (A & B & C) _ IH]; [destruct Hs|]. destruct Hs as [<-|Hs].
      - exists x. split; [left; reflexivity|]. split; [exact A|]. split; assumption.
      - destruct (IH Hs) as (y & Hy & H). exists y. split; [right; exact Hy|exact H]. }
    destruct G as ([n [v src]] & Hx & A & B & C). cbn [fst snd] in *. subst n.
    split; [exact C|]. exists v, src. destruct (fill_get l c' (create_instance (aws_fields environ disk norm_path py_int) c) _ _ _ Hl Hx) as [Ga Gs].
    split; [exact Ga|]. split; [exact Gs|exact B].
  - left. assert (exists o, In o ov /\ dict_has (fst o) (aws_fields environ disk norm_path py_int) = false) as (o & Ho & E).
    { clear - Ef. induction ov as [|o l IH]; [discriminate Ef|]. cbn [forallb] in Ef. apply Bool.andb_false_iff in Ef.
      destruct Ef as [Ef|Ef]; [exists o; split; [left; reflexivity|exact Ef]|].
      destruct (IH Ef) as (x & Hx & E). exists x. split; [right; exact Hx|exact E]. }
    exists o. split; [exact Ho|]. rewrite <- K. exact E.
Qed.

Lemma resolve_all :
  match resolve environ disk norm_path (aws_fields environ disk norm_path py_int) profile config_path credentials_path ov with
  | Fail _ => (c_origin base <> None /\ (forall m, L = Done m -> dict_has (c_profile base) (m_profiles m) = false))
              \/ (exists o, In o ov /\ dict_has (fst o) (settings py_int) = false) \/ (exists s, In s (settings py_int) /\ ~ good s)
  | Done i => (c_origin base <> None -> exists m, L = Done m /\ dict_has (c_profile base) (m_profiles m) = true)
      /\ (forall o, In o ov -> dict_has (fst o) (settings py_int) = true) /\ ready (i_ctx i)
      /\ forall s, In s (settings py_int) -> good s /\ exists v src, get_attr i (fst s) = Some v /\ source_of i (fst s) = Some src
           /\ expect (fst s) (snd s) = Some (v, src)
  end.
Proof.
  unfold resolve. fold base. destruct (c_origin base) as [o|] eqn:Eo.
  - pose proof (parsed_ready base (or_introl eq_refl)) as P. destruct L as [m|e] eqn:EL.
    + rewrite P. cbn [loaded c_profile]. unfold validate_profile.
      destruct (dict_has (c_profile base) (m_profiles m)) eqn:Eh.
      * pose proof (resolve_aws (loaded m) (or_intror (ex_intro _ m (conj EL eq_refl)))) as R.
        destruct (resolve_fields _ ov _); [|right; exact R]. split; [intros _; exists m; split; [reflexivity|exact Eh]|exact R].
      * left. split; [discriminate|]. intros m' [= <-]. exact Eh.
    + destruct P as (c' & ->). left. split; [discriminate|]. intros m' [=].
  - pose proof (resolve_aws base (or_introl eq_refl)) as R.
    destruct (resolve_fields _ ov _); [|right; exact R]. split; [congruence|exact R].
Qed.
End Disk.

(** ** One reading of the files *)

Section TwoDisks.
Variables d1 d2 : nat -> text -> file.
Hypothesis same_first : forall path, d1 0%nat path = d2 0%nat path.

Lemma same_L : L d1 = L d2.
Proof. unfold L, load, read_and_parse. rewrite !same_first. reflexivity. Qed.
Lemma same_ready c : ready d1 c -> ready d2 c.
Proof. unfold ready. rewrite same_L. auto. Qed.
Lemma same_parsed c : ready d1 c -> parsed_profiles environ d1 norm_path c = parsed_profiles environ d2 norm_path c.
Proof.
  intros [->|(m & _ & ->)]; [|reflexivity]. unfold parsed_profiles. cbn [base new_ctx c_cached c_loads c_config_path c_credentials_path].
  fold (L d1) (L d2). rewrite same_L. reflexivity.
Qed.
Lemma same_str vars keys c : ready d1 c -> resolve_str environ d1 norm_path vars keys c = resolve_str environ d2 norm_path vars keys c.
Proof.
  intros H. unfold resolve_str. destruct (first_true (map environ vars)); [reflexivity|]. destruct keys; [reflexivity|].
  rewrite same_parsed by exact H. reflexivity.
Qed.
Definition alike (f g : text * fspec) : Prop :=
  fst f = fst g /\ f_default (snd f) = f_default (snd g) /\ f_validator (snd f) = f_validator (snd g)
  /\ exists r r', f_resolver (snd f) = Some r /\ f_resolver (snd g) = Some r' /\ forall c, ready d1 c -> r c = r' c.
Lemma aws_alike : Forall2 alike (aws_fields environ d1 norm_path py_int) (aws_fields environ d2 norm_path py_int).
Proof.
  constructor; [|constructor; [|constructor; [|constructor]]];
    (split; [reflexivity|]; split; [reflexivity|]; split; [reflexivity|];
     eexists; eexists; split; [reflexivity|]; split; [reflexivity|]; intros c Hc).
  - apply same_str, Hc.
  - unfold resolve_retry_mode. rewrite same_str by exact Hc. reflexivity.
  - unfold resolve_max_attempts, resolve_int. rewrite same_str by exact Hc. reflexivity.
Qed.
Lemma same_picks ov fs gs : Forall2 alike fs gs -> forall ss, Forall2 (sound d1) fs ss -> forall c, ready d1 c -> picks ov fs c = picks ov gs c.
Proof.
  induction 1 as [|[n s] [n' s'] fs gs H _ IH]; intros ss Hss c Hc; [reflexivity|].
  inversion Hss as [|? x ? ss' Hx Hrest]; subst. cbn [picks].
  pose proof (pick_run d1 ov (n, s) x c Hx Hc) as P. cbn [fst snd] in P.
  destruct H as (E1 & E2 & E3 & r & r' & E4 & E5 & Hr). cbn [fst snd] in *. subst n'.
  assert (Ep : pick ov c n s = pick ov c n s').
  { unfold pick. rewrite E4, E5, Hr, E2 by exact Hc. reflexivity. }
  assert (Ev : forall v, validates s v = validates s' v) by (intros v; unfold validates; rewrite E3; reflexivity).
  rewrite <- Ep. destruct (pick ov c n s) as [c' [[v src]|e]]; [|reflexivity]. rewrite <- Ev.
  destruct (validates s v); [|reflexivity]. rewrite (IH ss' Hrest c') by exact (proj1 P). reflexivity.
Qed.
Lemma same_resolve ov :
  resolve environ d1 norm_path (aws_fields environ d1 norm_path py_int) profile config_path credentials_path ov
  = resolve environ d2 norm_path (aws_fields environ d2 norm_path py_int) profile config_path credentials_path ov.
Proof.
  assert (R : forall c, ready d1 c ->
    resolve_fields (aws_fields environ d1 norm_path py_int) ov (create_instance (aws_fields environ d1 norm_path py_int) c)
    = resolve_fields (aws_fields environ d2 norm_path py_int) ov (create_instance (aws_fields environ d2 norm_path py_int) c)).
  { intros c Hc. rewrite !resolve_fields_picks by apply aws_names.
    rewrite (same_picks ov _ _ aws_alike _ (aws_sound d1) c Hc).
    assert (K : forall n d, dict_has n (aws_fields environ d norm_path py_int) = dict_has n (settings py_int)).
    { intros n d. unfold dict_has, aws_fields, settings. cbn [dict_get].
      destruct (text_eqb n (lit "region")); [reflexivity|]. destruct (text_eqb n (lit "retry_mode")); [reflexivity|].
      destruct (text_eqb n (lit "max_attempts")); reflexivity. }
    assert (F : forallb (fun o : text * value => dict_has (fst o) (aws_fields environ d1 norm_path py_int)) ov
              = forallb (fun o : text * value => dict_has (fst o) (aws_fields environ d2 norm_path py_int)) ov).
    { clear - K. induction ov as [|o l IH]; [reflexivity|]. cbn [forallb]. rewrite IH, !K. reflexivity. }
    rewrite F. reflexivity. }
  unfold resolve. fold base. rewrite same_parsed by (left; reflexivity).
  destruct (c_origin base).
  - pose proof (parsed_ready d2 base (or_introl eq_refl)) as P. destruct (L d2) as [m|e] eqn:EL.
    + rewrite P. destruct (validate_profile _ _); [|reflexivity]. apply R. right. exists m. rewrite same_L. split; [exact EL|reflexivity].
    + destruct P as (c' & ->). reflexivity.
  - apply R. left. reflexivity.
Qed.
End TwoDisks.
End Aws.
