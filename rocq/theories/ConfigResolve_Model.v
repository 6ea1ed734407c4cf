(** Resolution of the AWS configuration.
    P = packages/smithy-aws-core/src/smithy_aws_core/config
    C = P/context.py, R = P/resolvers.py, A = P/aws_config.py, V = P/validators.py, T = P/types.py *)
From Verif Require Import Base PyText_Model PyDict_Model ConfigFile_Model.
From Coq Require Import ZArith.
Local Open Scope N_scope.

(** Values of configuration fields.  [VUnset] is T 19, [UNSET]; [VOther] is any
    object that is none of the others and equal to no string. *)
Inductive value := VUnset | VNone | VBool (b : bool) | VInt (z : Z) | VStr (t : text) | VOther (n : nat).

(** T 22-28, [ConfigSource]. *)
Inductive source := ENV | PROFILE | DEFAULT | OVERRIDE.

(** exceptions.py, and what the file system raises. *)
Inductive cerror :=
| ConfigParseError (line : nat) (why : reason)
| ConfigValidationError
| ProfileNotFoundError
| OtherError (e : exn).

Inductive outcome A := Done (a : A) | Fail (e : cerror).
Arguments Done {A}. Arguments Fail {A}.

(** What reading a file gives: its text, nothing (filesystem.py 46-50) or another
    exception, such as that of a text that is not UTF-8. *)
Inductive file := Content (t : option text) | ReadError (e : exn).

Section Resolve.
(** [os.environ], which does not change while a configuration is resolved. *)
Variable environ : text -> option text.
(** What the [n]th load of the files finds at a path. *)
Variable disk : nat -> text -> file.
(** [str(Path(p).expanduser())]. *)
Variable norm_path : text -> text.
(** [int(t)] for a string; [None] is ValueError. *)
Variable py_int : text -> option Z.

(** ** Context *)

(** C 110-148, [SharedConfigContext], with the number of loads so far. *)
Record ctx := mkCtx {
  c_profile : text;
  c_origin : option text;
  c_config_path : option text;
  c_credentials_path : option text;
  c_cached : option merged;
  c_loads : nat
}.

(** C 27-54, [_resolve_config_paths].  A [Path] is always true. *)
Definition resolve_config_paths (config credentials : option text) : text * text :=
  (norm_path (match config with
              | Some p => p
              | None => match environ (lit "AWS_CONFIG_FILE") with Some p => p | None => lit "~/.aws/config" end
              end),
   norm_path (match credentials with
              | Some p => p
              | None => match environ (lit "AWS_SHARED_CREDENTIALS_FILE") with Some p => p | None => lit "~/.aws/credentials" end
              end)).

(** F 45-63, [parse_config_file]. *)
Definition read_and_parse (n : nat) (path : text) : outcome sections :=
  match disk n path with
  | ReadError e => Fail (OtherError e)
  | Content c =>
    match parse_config_file c with
    | Parsed s => Done s
    | BadLine l w => Fail (ConfigParseError l w)
    | Crash e => Fail (OtherError e)
    end
  end.

(** C 57-86, [load_config]. *)
Definition load (n : nat) (config credentials : option text) : outcome merged :=
  let paths := resolve_config_paths config credentials in
  match read_and_parse n (fst paths) with
  | Fail e => Fail e
  | Done raw_config =>
    match read_and_parse n (snd paths) with
    | Fail e => Fail e
    | Done raw_credentials =>
      Done (merge (standardize raw_config CONFIG) (standardize raw_credentials CREDENTIALS))
    end
  end.

(** C 184-201, [_resolve_profile_name]. *)
Definition resolve_profile_name (explicit : option text) : text * option text :=
  match explicit with
  | Some p => (p, Some (lit "the profile argument"))
  | None => match environ (lit "AWS_PROFILE") with
            | Some p => (p, Some (lit "AWS_PROFILE"))
            | None => (lit "default", None)
            end
  end.

(** C 117-148, [SharedConfigContext.__init__]. *)
Definition new_ctx (profile config credentials : option text) : ctx :=
  let po := resolve_profile_name profile in
  mkCtx (fst po) (snd po) config credentials None 0.

(** C 170-182, [parsed_profiles]. *)
Definition parsed_profiles (c : ctx) : ctx * outcome merged :=
  match c_cached c with
  | Some m => (c, Done m)
  | None =>
    let n := S (c_loads c) in
    match load (c_loads c) (c_config_path c) (c_credentials_path c) with
    | Done m => (mkCtx (c_profile c) (c_origin c) (c_config_path c) (c_credentials_path c) (Some m) n, Done m)
    | Fail e => (mkCtx (c_profile c) (c_origin c) (c_config_path c) (c_credentials_path c) None n, Fail e)
    end
  end.

(** ** Resolvers *)

Definition resolved : Type := value * source.

(** The first true value. *)
Fixpoint first_true (l : list (option text)) : option text :=
  match l with
  | [] => None
  | v :: r => if truthy v then v else first_true r
  end.

(** R 13-42, [_resolve_str]. *)
Definition resolve_str (env_vars profile_keys : list text) (c : ctx) : ctx * outcome resolved :=
  match first_true (map environ env_vars) with
  | Some v => (c, Done (VStr v, ENV))
  | None =>
    match profile_keys with
    | [] => (c, Done (VUnset, DEFAULT))
    | _ =>
      match parsed_profiles c with
      | (c', Fail e) => (c', Fail e)
      | (c', Done m) =>
        match first_true (map (get m (c_profile c')) profile_keys) with
        | Some v => (c', Done (VStr v, PROFILE))
        | None => (c', Done (VUnset, DEFAULT))
        end
      end
    end
  end.

(** R 45-67, [_resolve_int]. *)
Definition resolve_int (env_vars profile_keys : list text) (c : ctx) : ctx * outcome resolved :=
  match resolve_str env_vars profile_keys c with
  | (c', Done (VStr t, s)) =>
    match py_int t with
    | Some z => (c', Done (VInt z, s))
    | None => (c', Fail ConfigValidationError)
    end
  | (c', Done _) => (c', Done (VUnset, DEFAULT))
  | (c', Fail e) => (c', Fail e)
  end.

(** R 70-80, [resolve_region]. *)
Definition resolve_region : ctx -> ctx * outcome resolved :=
  resolve_str [lit "AWS_REGION"; lit "AWS_DEFAULT_REGION"] [lit "region"].

(** R 83-109, [resolve_retry_mode].  The warnings are left out. *)
Definition resolve_retry_mode (c : ctx) : ctx * outcome resolved :=
  match resolve_str [lit "AWS_RETRY_MODE"] [lit "retry_mode"] c with
  | (c', Done (VStr t, s)) =>
    if text_eqb t (lit "legacy") then (c', Done (VStr (lit "standard"), s))
    else if text_eqb t (lit "adaptive") then (c', Done (VStr (lit "standard"), s))
    else (c', Done (VStr t, s))
  | r => r
  end.

(** R 112-122, [resolve_max_attempts]. *)
Definition resolve_max_attempts : ctx -> ctx * outcome resolved :=
  resolve_int [lit "AWS_MAX_ATTEMPTS"] [lit "max_attempts"].

(** ** Validators *)

Definition is_digit (c : N) : bool := (48 <=? c) && (c <=? 57).
Definition region_char (c : N) : bool :=
  is_digit c || ((65 <=? c) && (c <=? 90)) || ((97 <=? c) && (c <=? 122)) || (c =? 45).
(** V 12: the pattern on a text that ends where [$] matches. *)
Definition region_body (t : text) : bool :=
  (1 <=? List.length t)%nat && (List.length t <=? 63)%nat && forallb region_char t
  && negb (forallb is_digit t) && negb (hd 0 t =? 45) && negb (last t 0 =? 45).
(** [$] also matches before a newline at the end of the text. *)
Definition region_pattern (t : text) : bool :=
  region_body t || ((last t 0 =? 10) && region_body (removelast t)).

(** V 15-32, [validate_region]; true is a return, false is ConfigValidationError. *)
Definition validate_region (v : value) : bool :=
  match v with VStr t => region_pattern t | _ => false end.
(** V 35-58, [validate_retry_mode]: RetryStrategyType is "simple", "standard"
    (smithy_core/retries.py 12), and "simple" is removed. *)
Definition validate_retry_mode (v : value) : bool :=
  match v with VStr t => text_eqb t (lit "standard") | _ => false end.
(** V 61-81, [validate_max_attempts]. *)
Definition validate_max_attempts (v : value) : bool :=
  match v with
  | VNone => true
  | VInt z => negb (z <? 1)%Z
  | _ => false
  end.
(** V 84-99, [validate_profile]. *)
Definition validate_profile (name : text) (profiles : sections) : bool := dict_has name profiles.

(** ** Configuration objects *)

(** T 39-70, [FieldSpec].  A default factory is represented by what it returns. *)
Record fspec := mkSpec {
  f_default : value;
  f_resolver : option (ctx -> ctx * outcome resolved);
  f_validator : option (value -> bool)
}.

(** A configuration: its attributes, the sources and the context. *)
Record config := mkConfig { i_attrs : list (text * value); i_sources : list (text * source); i_ctx : ctx }.

(** A 48-64, [_FIELDS] of [AsyncAwsConfig]. *)
Definition aws_fields : list (text * fspec) :=
  [(lit "region", mkSpec VNone (Some resolve_region) (Some validate_region));
   (lit "retry_mode", mkSpec (VStr (lit "standard")) (Some resolve_retry_mode) (Some validate_retry_mode));
   (lit "max_attempts", mkSpec VNone (Some resolve_max_attempts) (Some validate_max_attempts))].

(** The class: subclasses may have other fields. *)
Variable fields : list (text * fspec).

Definition validates (s : fspec) (v : value) : bool :=
  match f_validator s with Some f => f v | None => true end.

(** A 186-198, [__setattr__], for attributes other than [_sources] and [_ctx]: the
    configuration afterwards, and the exception raised. *)
Definition set_attr (i : config) (name : text) (v : value) : config * option cerror :=
  match dict_get name fields with
  | Some spec =>
    if dict_has name (i_sources i) then
      if validates spec v then
        (mkConfig (dict_set name v (i_attrs i)) (dict_set name OVERRIDE (i_sources i)) (i_ctx i), None)
      else (i, Some ConfigValidationError)
    else (mkConfig (dict_set name v (i_attrs i)) (i_sources i) (i_ctx i), None)
  | None => (mkConfig (dict_set name v (i_attrs i)) (i_sources i) (i_ctx i), None)
  end.

Definition mark (i : config) (name : text) (s : source) : config :=
  mkConfig (i_attrs i) (dict_set name s (i_sources i)) (i_ctx i).
Definition with_ctx (i : config) (c : ctx) : config := mkConfig (i_attrs i) (i_sources i) c.

(** A 134-142, [_create_instance], and A 112. *)
Definition create_instance (c : ctx) : config :=
  mkConfig (fold_left (fun d f => dict_set (fst f) VUnset d) fields []) [] c.

(** [setattr] and the assignment to [_sources] that follows it. *)
Definition put (i : config) (name : text) (v : value) (s : source) : outcome config :=
  match set_attr i name v with (i', None) => Done (mark i' name s) | (_, Some e) => Fail e end.

(** A 153-175, one round of the loop. *)
Definition resolve_field (overrides : list (text * value)) (i : config) (name : text) (spec : fspec) : outcome config :=
  let set :=
    match dict_get name overrides with
    | Some v => put i name v OVERRIDE
    | None =>
      match f_resolver spec with
      | Some f =>
        match f (i_ctx i) with
        | (c, Fail e) => Fail e
        | (c, Done (VUnset, _)) => put (with_ctx i c) name (f_default spec) DEFAULT
        | (c, Done (v, s)) => put (with_ctx i c) name v s
        end
      | None => put i name (f_default spec) DEFAULT
      end
    end in
  match set with
  | Fail e => Fail e
  | Done i' =>
    match dict_get name (i_attrs i') with
    | Some v => if validates spec v then Done i' else Fail ConfigValidationError
    | None => Fail (OtherError AttributeError)
    end
  end.

Fixpoint resolve_each (overrides : list (text * value)) (todo : list (text * fspec)) (i : config) : outcome config :=
  match todo with
  | [] => Done i
  | (name, spec) :: r =>
    match resolve_field overrides i name spec with
    | Done i' => resolve_each overrides r i'
    | Fail e => Fail e
    end
  end.

(** A 144-175, [_resolve_fields]. *)
Definition resolve_fields (overrides : list (text * value)) (i : config) : outcome config :=
  if forallb (fun o => dict_has (fst o) fields) overrides then resolve_each overrides fields i
  else Fail ConfigValidationError.

(** A 73-117, [resolve]. *)
Definition resolve (profile config_path credentials_path : option text) (overrides : list (text * value)) : outcome config :=
  let c := new_ctx profile config_path credentials_path in
  match c_origin c with
  | Some _ =>
    match parsed_profiles c with
    | (c', Fail e) => Fail e
    | (c', Done m) =>
      if validate_profile (c_profile c') (m_profiles m) then resolve_fields overrides (create_instance c')
      else Fail ProfileNotFoundError
    end
  | None => resolve_fields overrides (create_instance c)
  end.

(** A sequence of assignments by the user, who catches what is raised. *)
Fixpoint assign_all (i : config) (l : list (text * value)) : config :=
  match l with
  | [] => i
  | (name, v) :: r => assign_all (fst (set_attr i name v)) r
  end.

(** [getattr] and A 119-125, [source_of]. *)
Definition get_attr (i : config) (name : text) : option value := dict_get name (i_attrs i).
Definition source_of (i : config) (name : text) : option source := dict_get name (i_sources i).

End Resolve.
