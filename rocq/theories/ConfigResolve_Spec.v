(** What a resolved configuration should hold, for C36 and C37. *)
From Verif Require Import Base PyText_Model PyDict_Model ConfigFile_Model ConfigResolve_Model.
From Coq Require Import ZArith.
Local Open Scope N_scope.

(** [t] is what the first of the names with a non-empty text has. *)
Definition first_set (names : list text) (lookup : text -> option text) (t : text) : Prop :=
  exists before n after, names = before ++ [n] ++ after /\ lookup n = Some t /\ t <> []
    /\ forall x, In x before -> lookup x = None \/ lookup x = Some [].
Definition none_set (names : list text) (lookup : text -> option text) : Prop :=
  forall x, In x names -> lookup x = None \/ lookup x = Some [].

(** What is documented for a field: its environment variables, its keys in a
    profile, what a text means and the default. *)
Record setting := mkSetting {
  env_names : list text;
  profile_keys : list text;
  means : text -> option value;
  default : value
}.

Definition region : setting :=
  mkSetting [lit "AWS_REGION"; lit "AWS_DEFAULT_REGION"] [lit "region"] (fun t => Some (VStr t)) VNone.
(** The unsupported modes are replaced by the standard one. *)
Definition retry_mode : setting :=
  mkSetting [lit "AWS_RETRY_MODE"] [lit "retry_mode"]
    (fun t => Some (VStr (if mem_text t [lit "legacy"; lit "adaptive"] then lit "standard" else t))) (VStr (lit "standard")).
Definition max_attempts (py_int : text -> option Z) : setting :=
  mkSetting [lit "AWS_MAX_ATTEMPTS"] [lit "max_attempts"] (fun t => option_map VInt (py_int t)) VNone.

Definition settings (py_int : text -> option Z) : list (text * setting) :=
  [(lit "region", region); (lit "retry_mode", retry_mode); (lit "max_attempts", max_attempts py_int)].

(** Where the value of a setting comes from. *)
Inductive given (override : option value) (env profile : text -> option text) (f : setting) : value -> source -> Prop :=
| by_override v : override = Some v -> given override env profile f v OVERRIDE
| by_env t v : override = None -> first_set (env_names f) env t -> means f t = Some v -> given override env profile f v ENV
| by_profile t v : override = None -> none_set (env_names f) env -> first_set (profile_keys f) profile t ->
    means f t = Some v -> given override env profile f v PROFILE
| by_default : override = None -> none_set (env_names f) env -> none_set (profile_keys f) profile ->
    given override env profile f (default f) DEFAULT.

(** The profile in use, and whether it was asked for. *)
Definition active_profile (explicit : option text) (env : text -> option text) (p : text) (asked : bool) : Prop :=
  (explicit = Some p /\ asked = true)
  \/ (explicit = None /\ env (lit "AWS_PROFILE") = Some p /\ asked = true)
  \/ (explicit = None /\ env (lit "AWS_PROFILE") = None /\ p = lit "default" /\ asked = false).

(** A field for which the files are read: neither overridden nor in the environment. *)
Definition reads_files (override : option value) (env : text -> option text) (f : setting) : Prop :=
  override = None /\ none_set (env_names f) env.

(** ** Valid values *)

Definition digit (c : N) : Prop := 48 <= c <= 57.
Definition region_letter (c : N) : Prop := digit c \/ 65 <= c <= 90 \/ 97 <= c <= 122 \/ c = 45.
(** A host label: 1 to 63 letters, digits and hyphens, no hyphen first or last, not
    all digits. *)
Definition region_name (t : text) : Prop :=
  (1 <= List.length t <= 63)%nat /\ (forall c, In c t -> region_letter c) /\ (exists c, In c t /\ ~ digit c)
  /\ (forall r, t <> 45 :: r) /\ (forall r, t <> r ++ [45]).

Definition valid (name : text) (v : value) : Prop :=
  (name = lit "region" /\ exists t, v = VStr t /\ (region_name t \/ exists r, t = r ++ [10] /\ region_name r))
  \/ (name = lit "retry_mode" /\ v = VStr (lit "standard"))
  \/ (name = lit "max_attempts" /\ (v = VNone \/ exists z, v = VInt z /\ (1 <= z)%Z)).
