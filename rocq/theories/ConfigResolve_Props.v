(** C36, C37: configuration precedence, provenance and validity. *)
From Verif Require Import Base Base_Proofs PyText_Model PyText_Proofs PyDict_Model PyDict_Proofs ConfigFile_Model
  ConfigResolve_Model ConfigResolve_Spec ConfigResolve_Proofs ConfigAws_Proofs.
From Coq Require Import ZArith Lia.
Local Open Scope N_scope.

(** What the files say about a key of a profile, at the first reading. *)
Definition profile_says (files : outcome merged) (p key : text) : option text :=
  match files with Done m => get m p key | Fail _ => None end.

Lemma active_spec environ profile cp crp p asked : active_profile profile environ p asked ->
  c_profile (base environ profile cp crp) = p /\ (asked = true <-> c_origin (base environ profile cp crp) <> None).
Proof.
  unfold base, new_ctx, resolve_profile_name. cbn [c_profile c_origin].
  intros [(-> & ->)|[(-> & -> & ->)|(-> & -> & -> & ->)]]; cbn [fst snd]; (split; [reflexivity|]); split; congruence.
Qed.

(** ** C36 *)

(** A resolved configuration has, for every field, the value and the source that
    the documented order gives. *)
Theorem C36_precedence environ disk norm_path py_int profile cp crp ov i p asked :
  active_profile profile environ p asked ->
  resolve environ disk norm_path (aws_fields environ disk norm_path py_int) profile cp crp ov = Done i ->
  forall name s, In (name, s) (settings py_int) ->
  exists v src, get_attr i name = Some v /\ source_of i name = Some src
    /\ given (dict_get name ov) environ (profile_says (load environ disk norm_path 0 cp crp) p) s v src.
Proof.
  intros Hp Hr name s Hs. destruct (active_spec _ _ cp crp _ _ Hp) as [<- _].
  pose proof (resolve_all environ norm_path py_int profile cp crp disk ov) as R. rewrite Hr in R.
  destruct R as (_ & _ & _ & R). destruct (R (name, s) Hs) as (_ & v & src & Hv & Hsrc & E).
  exists v, src. split; [exact Hv|]. split; [exact Hsrc|]. apply given_expected. exact E.
Qed.
Print Assumptions C36_precedence.

(** Exactly when resolution succeeds: the overrides name fields, a profile that was
    asked for exists, the files can be read if they are needed and every field
    gets a valid value. *)
Theorem C36_succeeds environ disk norm_path py_int profile cp crp ov p asked :
  active_profile profile environ p asked ->
  ((exists i, resolve environ disk norm_path (aws_fields environ disk norm_path py_int) profile cp crp ov = Done i) <->
   (forall n v, In (n, v) ov -> In n (map fst (settings py_int)))
   /\ (asked = true -> exists m, load environ disk norm_path 0 cp crp = Done m /\ In p (dict_keys (m_profiles m)))
   /\ forall name s, In (name, s) (settings py_int) ->
      (reads_files (dict_get name ov) environ s -> exists m, load environ disk norm_path 0 cp crp = Done m)
      /\ exists v src, given (dict_get name ov) environ (profile_says (load environ disk norm_path 0 cp crp) p) s v src
                       /\ valid name v).
Proof.
  intros Hp. destruct (active_spec _ _ cp crp _ _ Hp) as [<- Ha].
  assert (K : forall A n (d : list (text * A)), dict_has n d = true <-> In n (dict_keys d)).
  { intros A n d. rewrite dict_has_get. split.
    - intros (v & E). apply dict_get_In in E. apply (in_map fst) in E. exact E.
    - intros Hi. destruct (dict_get n d) as [v|] eqn:E; [eauto|]. apply dict_get_None in E. destruct (E Hi). }
  assert (N : forall name s, needs environ ov name s <-> reads_files (dict_get name ov) environ s).
  { intros name s. unfold needs, reads_files. rewrite first_true_none. reflexivity. }
  assert (G : forall s, good environ norm_path profile cp crp disk ov s <->
    (reads_files (dict_get (fst s) ov) environ (snd s) -> exists m, load environ disk norm_path 0 cp crp = Done m)
    /\ exists v src, given (dict_get (fst s) ov) environ
         (profile_says (load environ disk norm_path 0 cp crp) (c_profile (base environ profile cp crp))) (snd s) v src
       /\ valid (fst s) v).
  { intros s. unfold good. rewrite N. unfold L. split; intros [H1 H2]; (split; [exact H1|]).
    - destruct H2 as ([v src] & E & Hv). exists v, src. split; [apply given_expected, E|exact Hv].
    - destruct H2 as (v & src & E & Hv). exists (v, src). split; [apply given_expected in E; exact E|exact Hv]. }
  pose proof (resolve_all environ norm_path py_int profile cp crp disk ov) as R. unfold L in R.
  destruct (resolve environ disk norm_path (aws_fields environ disk norm_path py_int) profile cp crp ov) as [i|e].
  - destruct R as (R1 & R2 & _ & R3). split; [intros _|intros _; exists i; reflexivity]. split; [|split].
    + intros n v Hi. apply K. exact (R2 (n, v) Hi).
    + intros Hasked. destruct (R1 (proj1 Ha Hasked)) as (m & Hm & Hi). exists m. split; [exact Hm|]. apply K, Hi.
    + intros name s Hs. exact (proj1 (G (name, s)) (proj1 (R3 (name, s) Hs))).
  - split; [intros (i & [=])|]. intros (H1 & H2 & H3). exfalso. destruct R as [[R1 R2]|[(o & Ho & R)|(s & Hs & R)]].
    + destruct (H2 (proj2 Ha R1)) as (m & Hm & Hi). apply K in Hi. rewrite (R2 m Hm) in Hi. discriminate.
    + destruct o as [n v]. apply H1 in Ho. apply K in Ho. cbn [fst] in R. congruence.
    + apply R, G. destruct s as [name s]. exact (H3 name s Hs).
Qed.
Print Assumptions C36_succeeds.

(** The files are read at most once: what they contain at later readings never
    matters, for the result or the exception. *)
Theorem C36_one_reading environ d1 d2 norm_path py_int profile cp crp ov :
  (forall path, d1 0%nat path = d2 0%nat path) ->
  resolve environ d1 norm_path (aws_fields environ d1 norm_path py_int) profile cp crp ov
  = resolve environ d2 norm_path (aws_fields environ d2 norm_path py_int) profile cp crp ov
  /\ forall i, resolve environ d1 norm_path (aws_fields environ d1 norm_path py_int) profile cp crp ov = Done i ->
     (c_loads (i_ctx i) <= 1)%nat.
Proof.
  intros H. split; [apply same_resolve, H|]. intros i Hr.
  pose proof (resolve_all environ norm_path py_int profile cp crp d1 ov) as R. rewrite Hr in R.
  destruct R as (_ & _ & [E|(m & _ & E)] & _); rewrite E; cbn [base new_ctx loaded c_loads]; lia.
Qed.
Print Assumptions C36_one_reading.

(** Which files: the given path, or the environment variable, or the default. *)
Definition chosen (given var : option text) (standard path : text) : Prop :=
  given = Some path \/ (given = None /\ var = Some path) \/ (given = None /\ var = None /\ path = standard).
Theorem C36_paths environ disk norm_path n cp crp a b ta tb :
  chosen cp (environ (lit "AWS_CONFIG_FILE")) (lit "~/.aws/config") a ->
  chosen crp (environ (lit "AWS_SHARED_CREDENTIALS_FILE")) (lit "~/.aws/credentials") b ->
  disk n (norm_path a) = Content ta -> disk n (norm_path b) = Content tb ->
  load environ disk norm_path n cp crp
  = match load_config ta tb with Parsed m => Done m | BadLine l w => Fail (ConfigParseError l w) | Crash e => Fail (OtherError e) end.
Proof.
  intros Ha Hb Hta Htb.
  assert (E : resolve_config_paths environ norm_path cp crp = (norm_path a, norm_path b)).
  { unfold resolve_config_paths.
    destruct Ha as [->|[(-> & ->)|(-> & -> & ->)]]; destruct Hb as [->|[(-> & ->)|(-> & -> & ->)]]; reflexivity. }
  unfold load, read_and_parse, load_config. rewrite E. cbn [fst snd]. rewrite Hta, Htb.
  destruct (parse_config_file ta); try reflexivity. destruct (parse_config_file tb); reflexivity.
Qed.
Print Assumptions C36_paths.

(** A setting with every source: the environment's empty variable is passed over. *)
Definition ex_env (n : text) : option text :=
  if text_eqb n (lit "AWS_REGION") then Some [] else
  if text_eqb n (lit "AWS_DEFAULT_REGION") then Some (lit "eu-west-1") else
  if text_eqb n (lit "AWS_PROFILE") then Some (lit "dev") else None.
Definition ex_disk (n : nat) (path : text) : file :=
  if text_eqb path (lit "~/.aws/config")
  then Content (Some (lit "[profile dev]" ++ [10] ++ lit "region = us-west-2" ++ [10] ++ lit "retry_mode = adaptive"))
  else Content None.
Definition ex_int (t : text) : option Z := if text_eqb t (lit "5") then Some 5%Z else None.
Definition ex_config (ov : list (text * value)) : outcome config :=
  resolve ex_env ex_disk (fun p => p) (aws_fields ex_env ex_disk (fun p => p) ex_int) None None None ov.
Example C36_precedence_ex : exists i, ex_config [(lit "max_attempts", VInt 3)] = Done i
  /\ get_attr i (lit "region") = Some (VStr (lit "eu-west-1")) /\ source_of i (lit "region") = Some ENV
  /\ get_attr i (lit "retry_mode") = Some (VStr (lit "standard")) /\ source_of i (lit "retry_mode") = Some PROFILE
  /\ get_attr i (lit "max_attempts") = Some (VInt 3) /\ source_of i (lit "max_attempts") = Some OVERRIDE.
Proof. eexists. split; [vm_compute; reflexivity|]. repeat split. Qed.
Example C36_default_ex : exists i, ex_config [] = Done i
  /\ get_attr i (lit "max_attempts") = Some VNone /\ source_of i (lit "max_attempts") = Some DEFAULT.
Proof. eexists. split; [vm_compute; reflexivity|]. repeat split. Qed.
Example C36_active_ex : active_profile None ex_env (lit "dev") true.
Proof. right. left. repeat split. Qed.
Example C36_succeeds_ex :
  ex_config [(lit "reggion", VNone)] = Fail ConfigValidationError
  /\ ex_config [(lit "region", VNone)] = Fail ConfigValidationError
  /\ resolve ex_env ex_disk (fun p => p) (aws_fields ex_env ex_disk (fun p => p) ex_int) (Some (lit "prod")) None None []
     = Fail ProfileNotFoundError.
Proof. vm_compute. repeat split. Qed.

(** ** C37 *)

(** For any class of configurations: after resolution and any assignments, each
    field has a value that its validator accepts, and a source. *)
Theorem C37_always_valid environ disk norm_path fields profile cp crp ov i l :
  NoDup (dict_keys fields) ->
  resolve environ disk norm_path fields profile cp crp ov = Done i ->
  forall name spec, In (name, spec) fields ->
  exists v src, get_attr (assign_all fields i l) name = Some v /\ source_of (assign_all fields i l) name = Some src
    /\ (forall check, f_validator spec = Some check -> check v = true).
Proof.
  intros Hn Hr.
  assert (V : all_valid fields i).
  { unfold resolve in Hr. destruct (c_origin (new_ctx environ profile cp crp)).
    - destruct (parsed_profiles environ disk norm_path (new_ctx environ profile cp crp)) as [c' [m|e]]; [|discriminate].
      destruct (validate_profile _ _); [|discriminate]. exact (resolve_fields_valid fields Hn ov _ i Hr).
    - exact (resolve_fields_valid fields Hn ov _ i Hr). }
  intros name spec Hi. destruct (assign_all_valid fields Hn l i V name spec Hi) as (v & s & Ha & Hs & Hv).
  exists v, s. split; [exact Ha|]. split; [exact Hs|]. intros check E. unfold validates in Hv. rewrite E in Hv. exact Hv.
Qed.
Print Assumptions C37_always_valid.

(** An accepted assignment sets the value and marks it as an override, and touches
    no other field; a rejected one changes nothing, and is of a value that the
    validator refuses. *)
Theorem C37_assignment environ disk norm_path fields profile cp crp ov i l name v i' err :
  NoDup (dict_keys fields) ->
  resolve environ disk norm_path fields profile cp crp ov = Done i ->
  set_attr fields (assign_all fields i l) name v = (i', err) ->
  match err with
  | None => get_attr i' name = Some v
      /\ (forall spec, In (name, spec) fields -> source_of i' name = Some OVERRIDE)
      /\ (forall n, n <> name -> get_attr i' n = get_attr (assign_all fields i l) n /\ source_of i' n = source_of (assign_all fields i l) n)
  | Some e => e = ConfigValidationError /\ i' = assign_all fields i l
      /\ exists spec check, In (name, spec) fields /\ f_validator spec = Some check /\ check v = false
  end.
Proof.
  intros Hn Hr E.
  assert (V : all_valid fields i).
  { unfold resolve in Hr. destruct (c_origin (new_ctx environ profile cp crp)).
    - destruct (parsed_profiles environ disk norm_path (new_ctx environ profile cp crp)) as [c' [m|e]]; [|discriminate].
      destruct (validate_profile _ _); [|discriminate]. exact (resolve_fields_valid fields Hn ov _ i Hr).
    - exact (resolve_fields_valid fields Hn ov _ i Hr). }
  destruct (set_attr_spec fields Hn (assign_all fields i l) name v (assign_all_valid fields Hn l i V)) as [A B].
  rewrite E in A, B. cbn [fst snd] in A, B. destruct err as [e|].
  - destruct (B ltac:(discriminate)) as (-> & [= ->] & spec & Hi & Hv). split; [reflexivity|]. split; [reflexivity|].
    unfold validates in Hv. destruct (f_validator spec) as [check|] eqn:Ec; [|discriminate]. exists spec, check. auto.
  - destruct (A eq_refl) as (A1 & A2 & A3). split; [exact A2|]. split; [|exact A3]. intros spec Hi. exact (proj2 (A1 spec Hi)).
Qed.
Print Assumptions C37_assignment.

(** What this means for the AWS configuration. *)
Theorem C37_aws environ disk norm_path py_int profile cp crp ov i l :
  let fields := aws_fields environ disk norm_path py_int in
  resolve environ disk norm_path fields profile cp crp ov = Done i ->
  forall name, In name (map fst (settings py_int)) ->
  exists v, get_attr (assign_all fields i l) name = Some v /\ valid name v.
Proof.
  intros fields Hr name Hi. cbn [settings map fst In] in Hi.
  pose proof (C37_always_valid environ disk norm_path fields profile cp crp ov i l (aws_names environ norm_path py_int disk) Hr) as H.
  destruct Hi as [<-|[<-|[<-|[]]]].
  - destruct (H _ _ (or_introl eq_refl)) as (v & _ & Hv & _ & Hc). exists v. split; [exact Hv|]. apply validate_region_spec, Hc. reflexivity.
  - destruct (H _ _ (or_intror (or_introl eq_refl))) as (v & _ & Hv & _ & Hc). exists v. split; [exact Hv|].
    apply validate_retry_mode_spec, Hc. reflexivity.
  - destruct (H _ _ (or_intror (or_intror (or_introl eq_refl)))) as (v & _ & Hv & _ & Hc). exists v. split; [exact Hv|].
    apply validate_max_attempts_spec, Hc. reflexivity.
Qed.
Print Assumptions C37_aws.

Example C37_ex : exists i, ex_config [] = Done i
  /\ let f := aws_fields ex_env ex_disk (fun p => p) ex_int in
     let j := assign_all f i [(lit "max_attempts", VInt 0); (lit "region", VStr (lit "us-east-1")); (lit "note", VNone);
                              (lit "retry_mode", VStr (lit "adaptive")); (lit "max_attempts", VBool true)] in
     get_attr j (lit "region") = Some (VStr (lit "us-east-1")) /\ source_of j (lit "region") = Some OVERRIDE
     /\ get_attr j (lit "max_attempts") = Some VNone /\ source_of j (lit "max_attempts") = Some DEFAULT
     /\ get_attr j (lit "retry_mode") = Some (VStr (lit "standard")) /\ source_of j (lit "retry_mode") = Some PROFILE.
Proof. eexists. split; [vm_compute; reflexivity|]. vm_compute. repeat split. Qed.

(** A region may end in a newline, which is no region name. *)
Theorem C37_region_newline_refuted : exists i,
  ex_config [(lit "region", VStr (lit "us-east-1" ++ [10]))] = Done i
  /\ get_attr i (lit "region") = Some (VStr (lit "us-east-1" ++ [10])) /\ ~ region_name (lit "us-east-1" ++ [10]).
Proof.
  eexists. split; [vm_compute; reflexivity|]. split; [reflexivity|]. intros H. apply region_no_newline in H. apply H.
  apply in_or_app. right. left. reflexivity.
Qed.
Print Assumptions C37_region_newline_refuted.
