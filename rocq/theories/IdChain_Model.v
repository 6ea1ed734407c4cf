(** The AWS identity chain.
    P = packages/smithy-aws-core/src/smithy_aws_core/identity/chain
    C = P/__init__.py, O = P/ordering.py, S = P/provider.py *)
From Verif Require Import Base PyText_Model PyDict_Model PySort_Model ConfigFile_Model Identity_Model.
Local Open Scope N_scope.

(** O 10-24, [StandardProvider]. *)
Inductive slot :=
| ENVIRONMENT | WEB_IDENTITY_TOKEN_ENV | SHARED_CONFIG | PROFILE_SESSION_KEYS | PROFILE_STATIC_KEYS
| PROFILE_ASSUME_ROLE | PROFILE_WEB_IDENTITY | PROFILE_SSO_SESSION | PROFILE_LOGIN
| PROFILE_CREDENTIAL_PROCESS | ECS_CONTAINER | EC2_INSTANCE_METADATA.
(** Iterating over the enumeration. *)
Definition slots : list slot :=
  [ENVIRONMENT; WEB_IDENTITY_TOKEN_ENV; SHARED_CONFIG; PROFILE_SESSION_KEYS; PROFILE_STATIC_KEYS;
   PROFILE_ASSUME_ROLE; PROFILE_WEB_IDENTITY; PROFILE_SSO_SESSION; PROFILE_LOGIN;
   PROFILE_CREDENTIAL_PROCESS; ECS_CONTAINER; EC2_INSTANCE_METADATA].
(** C 68, [slot_indexes]. *)
Definition slot_index (s : slot) : nat :=
  match s with
  | ENVIRONMENT => 0 | WEB_IDENTITY_TOKEN_ENV => 1 | SHARED_CONFIG => 2 | PROFILE_SESSION_KEYS => 3
  | PROFILE_STATIC_KEYS => 4 | PROFILE_ASSUME_ROLE => 5 | PROFILE_WEB_IDENTITY => 6 | PROFILE_SSO_SESSION => 7
  | PROFILE_LOGIN => 8 | PROFILE_CREDENTIAL_PROCESS => 9 | ECS_CONTAINER => 10 | EC2_INSTANCE_METADATA => 11
  end%nat.
Definition slot_eqb (a b : slot) : bool := Nat.eqb (slot_index a) (slot_index b).
(** O 13-24: the canonical name and the package that has the provider. *)
Definition canonical_name (s : slot) : text :=
  match s with
  | ENVIRONMENT => lit "Environment" | WEB_IDENTITY_TOKEN_ENV => lit "WebIdentityTokenEnv"
  | SHARED_CONFIG => lit "SharedConfig" | PROFILE_SESSION_KEYS => lit "ProfileSessionKeys"
  | PROFILE_STATIC_KEYS => lit "ProfileStaticKeys" | PROFILE_ASSUME_ROLE => lit "ProfileAssumeRole"
  | PROFILE_WEB_IDENTITY => lit "ProfileWebIdentity" | PROFILE_SSO_SESSION => lit "ProfileSsoSession"
  | PROFILE_LOGIN => lit "Login" | PROFILE_CREDENTIAL_PROCESS => lit "ProfileCredentialProcess"
  | ECS_CONTAINER => lit "EcsContainer" | EC2_INSTANCE_METADATA => lit "Ec2InstanceMetadata"
  end.
Definition module_suggestion (s : slot) : option text :=
  match s with
  | WEB_IDENTITY_TOKEN_ENV | PROFILE_ASSUME_ROLE | PROFILE_WEB_IDENTITY => Some (lit "aws-credentials-sts")
  | PROFILE_SSO_SESSION => Some (lit "aws-credentials-sso")
  | PROFILE_LOGIN => Some (lit "aws-credentials-login")
  | ECS_CONTAINER => Some (lit "aws-credentials-http")
  | EC2_INSTANCE_METADATA => Some (lit "aws-credentials-imds")
  | _ => None
  end.

(** O 34-50, [is_detected]. *)
Definition is_detected (environ : text -> option text) (files_exist : bool) (s : slot) : bool :=
  match s with
  | ENVIRONMENT => truthy (environ (lit "AWS_ACCESS_KEY_ID"))
  | WEB_IDENTITY_TOKEN_ENV =>
    truthy (environ (lit "AWS_WEB_IDENTITY_TOKEN_FILE")) && truthy (environ (lit "AWS_ROLE_ARN"))
  | ECS_CONTAINER =>
    truthy (environ (lit "AWS_CONTAINER_CREDENTIALS_FULL_URI"))
    || truthy (environ (lit "AWS_CONTAINER_CREDENTIALS_RELATIVE_URI"))
  | SHARED_CONFIG => files_exist
  | _ => false
  end.

(** O 53-75, and any other object. *)
Inductive ordering := Before (s : slot) | Standard (s : slot) | After (s : slot) | Unsupported.

Section Chain.
(** Resolvers. *)
Variable R : Type.

(** S 33-54, [ChainSetup], with the resolvers and the names of their providers.
    The region, the HTTP client and the property bag are not kept. *)
Record setup := mkSetup {
  s_config : option merged; s_profile : option text; s_resolvers : list (text * R);
  s_current : option text; s_terminal : bool }.

(** What a provider may do with the setup object, S 91-123. *)
Inductive op :=
| SetCurrent (name : text) | SetConfig (c : merged) | SetProfile (p : text) | AddResolver (r : R) | AddTerminal (r : R).

Definition add_resolver (r : R) (s : setup) : setup * option exn :=
  if s_terminal s then (s, Some RuntimeError)
  else match s_current s with
       | None => (s, Some RuntimeError)
       | Some n => (mkSetup (s_config s) (s_profile s) (s_resolvers s ++ [(n, r)]) (s_current s) (s_terminal s), None)
       end.
Definition do_op (o : op) (s : setup) : setup * option exn :=
  match o with
  | SetCurrent n =>
    if s_terminal s then (s, Some RuntimeError)
    else (mkSetup (s_config s) (s_profile s) (s_resolvers s) (Some n) (s_terminal s), None)
  | SetConfig c =>
    match s_config s with
    | Some _ => (s, Some RuntimeError)
    | None => (mkSetup (Some c) (s_profile s) (s_resolvers s) (s_current s) (s_terminal s), None)
    end
  | SetProfile p => (mkSetup (s_config s) (Some p) (s_resolvers s) (s_current s) (s_terminal s), None)
  | AddResolver r => add_resolver r s
  | AddTerminal r =>
    match add_resolver r s with
    | (s', None) => (mkSetup (s_config s') (s_profile s') (s_resolvers s') (s_current s') true, None)
    | (s', Some e) => (s', Some e)
    end
  end.

(** What the [setup] method of a provider does in a run: it reads the setup
    object, acts on it and looks at the exception this raised, raises or returns. *)
Inductive script :=
| Return
| Raise (e : exn)
| Look (k : setup -> script)
| Do (o : op) (k : option exn -> script).
Fixpoint run_script (p : script) (s : setup) : setup * option exn :=
  match p with
  | Return => (s, None)
  | Raise e => (s, Some e)
  | Look k => run_script (k s) s
  | Do o k => let (s', e) := do_op o s in run_script (k e) s'
  end.

(** S 126-145, [ChainIdentityProvider]. *)
Record provider := mkProvider { p_name : text; p_ordering : ordering; p_setup : script }.

(** C 97-117, [_validate_providers]: whether it returns.  [names] and [taken] are
    the keys of the two dictionaries. *)
Fixpoint validate (names : list text) (taken : list slot) (ps : list provider) : bool :=
  match ps with
  | [] => true
  | p :: r =>
    if mem_text (p_name p) names then false
    else match p_ordering p with
         | Standard s =>
           if existsb (slot_eqb s) taken then false else validate (p_name p :: names) (s :: taken) r
         | _ => validate (p_name p :: names) taken r
         end
  end.

(** C 70-90, [sort_key], without the discovery index. *)
Definition sort_key (p : provider) : option (nat * nat) :=
  match p_ordering p with
  | Before s => Some (slot_index s, 0%nat)
  | Standard s => Some (slot_index s, 1%nat)
  | After s => Some (slot_index s, 2%nat)
  | Unsupported => None
  end.
Definition key := (nat * nat * nat)%type.
(** Tuples in order. *)
Definition key_leb (a b : key * provider) : bool :=
  match fst a, fst b with
  | (x1, y1, z1), (x2, y2, z2) =>
    if Nat.eqb x1 x2 then if Nat.eqb y1 y2 then Nat.leb z1 z2 else Nat.ltb y1 y2 else Nat.ltb x1 x2
  end.
(** [sorted] computes all keys first. *)
Fixpoint keyed (n : nat) (ps : list provider) : option (list (key * provider)) :=
  match ps with
  | [] => Some []
  | p :: r =>
    match sort_key p, keyed (S n) r with
    | Some (x, y), Some l => Some ((x, y, n, p) :: l)
    | _, _ => None
    end
  end.
(** C 63-94, [_sort_by_ordering]; [None] is IdentityChainConfigurationError. *)
Definition sort_by_ordering (ps : list provider) : option (list provider) :=
  match keyed 0 ps with
  | Some l => Some (map snd (sorted key_leb l))
  | None => None
  end.

(** C 206-210: the names of the providers set up, the setup and the exception. *)
Fixpoint set_up (ps : list provider) (s : setup) : list text * (setup * option exn) :=
  match ps with
  | [] => ([], (s, None))
  | p :: r =>
    match do_op (SetCurrent (p_name p)) s with
    | (s1, Some e) => ([], (s1, Some e))
    | (s1, None) =>
      match run_script (p_setup p) s1 with
      | (s2, Some e) => ([p_name p], (s2, Some e))
      | (s2, None) =>
        if s_terminal s2 then ([p_name p], (s2, None))
        else let (names, res) := set_up r s2 in (p_name p :: names, res)
      end
    end
  end.

(** C 120-139, [_find_unclaimed_sources]: name and package. *)
Definition find_unclaimed (detected : slot -> bool) (ps : list provider) : list (text * text) :=
  let claimed s := existsb (fun p => match p_ordering p with Standard s' => slot_eqb s s' | _ => false end) ps in
  flat_map (fun s =>
      if claimed s || negb (detected s) then []
      else match module_suggestion s with Some m => [(canonical_name s, m)] | None => [] end) slots.

Inductive created :=
| Created (resolvers : list (text * R)) (unclaimed : list (text * text))
| ConfigurationError
| SetupError (e : exn).

(** C 175-218, [create], for the discovered providers; with the providers that were set up. *)
Definition create (detected : slot -> bool) (config : option merged) (profile : option text) (ps : list provider)
  : list text * created :=
  if negb (validate [] [] ps) then ([], ConfigurationError)
  else match sort_by_ordering ps with
       | None => ([], ConfigurationError)
       | Some sorted_ps =>
         match set_up sorted_ps (mkSetup config profile [] None false) with
         | (names, (s, None)) => (names, Created (s_resolvers s) (find_unclaimed detected ps))
         | (names, (_, Some e)) => (names, SetupError e)
         end
       end.

(** ** Resolving *)

(** [IdentityChainError] is an identity error with what failed. *)
Inductive resolution I :=
| Resolved (id : I)
| Failed (e : exn)
| ChainError (failures : list (text * exn)) (unclaimed : list (text * text)).
Arguments Resolved {I}. Arguments Failed {I}. Arguments ChainError {I}.

(** C 220-244, [get_identity], where [answer] is what a resolver answers in this
    call; with the resolvers asked. *)
Fixpoint chain_get {I} (answer : R -> result I) (unclaimed : list (text * text)) (failures : list (text * exn))
  (rs : list (text * R)) : list (text * R) * resolution I :=
  match rs with
  | [] => ([], ChainError failures unclaimed)
  | (n, r) :: rest =>
    match answer r with
    | Ok id => ([(n, r)], Resolved id)
    | Err e =>
      if is_identity_error e then
        let (asked, res) := chain_get answer unclaimed (failures ++ [(n, e)]) rest in ((n, r) :: asked, res)
      else ([(n, r)], Failed e)
    end
  end.
End Chain.
Arguments Resolved {I}. Arguments Failed {I}. Arguments ChainError {I}.
Arguments SetCurrent {R}. Arguments SetConfig {R}. Arguments SetProfile {R}. Arguments AddResolver {R}. Arguments AddTerminal {R}.
Arguments Return {R}. Arguments Raise {R}. Arguments Look {R}. Arguments Do {R}.
Arguments Created {R}. Arguments ConfigurationError {R}. Arguments SetupError {R}.

(** ** The providers of this package *)

(** environment.py, static.py. *)
Inductive resolver := EnvironmentResolver | StaticResolver (c : credentials).

Section Builtin.
Variable environ : text -> option text.
(** [load_config()]. *)
Variable loaded : result merged.

(** P/providers/environment.py 15-40. *)
Definition environment_provider : provider resolver :=
  mkProvider _ (canonical_name ENVIRONMENT) (Standard ENVIRONMENT)
    (if negb (truthy (environ (lit "AWS_ACCESS_KEY_ID"))) || negb (truthy (environ (lit "AWS_SECRET_ACCESS_KEY")))
     then Return else Do (AddTerminal EnvironmentResolver) (fun e => match e with Some e => Raise e | None => Return end)).

(** P/providers/shared_config.py 13-37. *)
Definition shared_config_provider : provider resolver :=
  mkProvider _ (canonical_name SHARED_CONFIG) (Standard SHARED_CONFIG)
    (Look (fun s =>
       let select := Look (fun s =>
         Do (SetProfile (if truthy (s_profile _ s) then match s_profile _ s with Some p => p | None => [] end
                         else if truthy (environ (lit "AWS_PROFILE")) then
                           match environ (lit "AWS_PROFILE") with Some p => p | None => [] end
                         else lit "default"))
            (fun e => match e with Some e => Raise e | None => Return end)) in
       match s_config _ s with
       | Some _ => select
       | None =>
         match loaded with
         | Err e => Raise e
         | Ok m => Do (SetConfig m) (fun e => match e with Some e => Raise e | None => select end)
         end
       end)).

(** P/providers/profile.py 16-51, [ProfileSessionCredentialsProvider]. *)
Definition session_provider : provider resolver :=
  mkProvider _ (canonical_name PROFILE_SESSION_KEYS) (Standard PROFILE_SESSION_KEYS)
    (Look (fun s =>
       match s_config _ s, s_profile _ s with
       | Some m, Some p =>
         match get m p (lit "aws_access_key_id"), get m p (lit "aws_secret_access_key"), get m p (lit "aws_session_token") with
         | Some k, Some sk, Some t =>
           Do (AddTerminal (StaticResolver (mkCreds k sk (Some t) None (get m p (lit "aws_account_id")))))
              (fun e => match e with Some e => Raise e | None => Return end)
         | _, _, _ => Return
         end
       | _, _ => Return
       end)).
(** P/providers/profile.py 54-87, [ProfileStaticCredentialsProvider]. *)
Definition static_provider : provider resolver :=
  mkProvider _ (canonical_name PROFILE_STATIC_KEYS) (Standard PROFILE_STATIC_KEYS)
    (Look (fun s =>
       match s_config _ s, s_profile _ s with
       | Some m, Some p =>
         match get m p (lit "aws_access_key_id"), get m p (lit "aws_secret_access_key") with
         | Some k, Some sk =>
           Do (AddTerminal (StaticResolver (mkCreds k sk None None (get m p (lit "aws_account_id")))))
              (fun e => match e with Some e => Raise e | None => Return end)
         | _, _ => Return
         end
       | _, _ => Return
       end)).

(** ../environment.py 19-42, the first call, and ../static.py 22-27. *)
Definition resolver_get (r : resolver) : result credentials :=
  match r with
  | EnvironmentResolver =>
    if negb (truthy (environ (lit "AWS_ACCESS_KEY_ID"))) || negb (truthy (environ (lit "AWS_SECRET_ACCESS_KEY")))
    then Err IdentityErr
    else match environ (lit "AWS_ACCESS_KEY_ID"), environ (lit "AWS_SECRET_ACCESS_KEY") with
         | Some k, Some s => Ok (mkCreds k s (environ (lit "AWS_SESSION_TOKEN")) None (environ (lit "AWS_ACCOUNT_ID")))
         | _, _ => Err IdentityErr
         end
  | StaticResolver c => Ok c
  end.
Definition builtin : list (provider resolver) :=
  [environment_provider; shared_config_provider; session_provider; static_provider].
End Builtin.
