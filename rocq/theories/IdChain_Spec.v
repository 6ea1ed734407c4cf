(** What users of the identity chain rely on. *)
From Verif Require Import Base PyText_Model ConfigFile_Model Identity_Model IdChain_Model.
From Coq Require Import Permutation Sorting.Sorted.

(** The documented order of the slots. *)
Definition documented : list slot :=
  [ENVIRONMENT; WEB_IDENTITY_TOKEN_ENV; SHARED_CONFIG; PROFILE_SESSION_KEYS; PROFILE_STATIC_KEYS;
   PROFILE_ASSUME_ROLE; PROFILE_WEB_IDENTITY; PROFILE_SSO_SESSION; PROFILE_LOGIN;
   PROFILE_CREDENTIAL_PROCESS; ECS_CONTAINER; EC2_INSTANCE_METADATA].
Definition earlier (a b : slot) : Prop := exists x y z, documented = x ++ a :: y ++ b :: z.

(** The first place is to be before the second: another slot, or the same slot
    and Before, Standard, After. *)
Inductive ahead : ordering -> ordering -> Prop :=
| ahead_slot o1 o2 a b : In o1 [Before a; Standard a; After a] -> In o2 [Before b; Standard b; After b] ->
    earlier a b -> ahead o1 o2
| ahead_before_standard a : ahead (Before a) (Standard a)
| ahead_standard_after a : ahead (Standard a) (After a)
| ahead_before_after a : ahead (Before a) (After a).

Section Spec.
Context {R : Type}.
Notation provider := (provider R).

(** Of the providers discovered at positions [i] and [j], [i] comes first. *)
Definition comes_first (ps : list provider) (i j : nat) : Prop :=
  exists p q, nth_error ps i = Some p /\ nth_error ps j = Some q
    /\ (ahead (p_ordering R p) (p_ordering R q) \/ (p_ordering R p = p_ordering R q /\ (i < j)%nat)).

(** The positions of the discovered providers in the order of the chain. *)
Definition in_order (ps : list provider) (idx : list nat) : Prop :=
  Permutation idx (seq 0 (List.length ps)) /\ StronglySorted (comes_first ps) idx.
Definition at_positions (ps : list provider) (idx : list nat) (out : list provider) : Prop :=
  Forall2 (fun i p => nth_error ps i = Some p) idx out.

(** The standard slots claimed. *)
Definition claims (ps : list provider) : list slot :=
  flat_map (fun p => match p_ordering R p with Standard s => [s] | _ => [] end) ps.

(** The setup after these providers, one after the other. *)
Definition after (ps : list provider) (s : setup R) : setup R :=
  fold_left (fun s p => fst (run_script R (p_setup R p) (fst (do_op R (SetCurrent (p_name R p)) s)))) ps s.

(** A provider that adds some resolvers, the last of them perhaps terminal. *)
Fixpoint adding (rs : list R) (last : option R) : script R :=
  match rs with
  | r :: rest => Do (AddResolver r) (fun e => match e with Some e => Raise e | None => adding rest last end)
  | [] =>
    match last with
    | Some t => Do (AddTerminal t) (fun e => match e with Some e => Raise e | None => Return end)
    | None => Return
    end
  end.
Record plain := mkPlain { a_name : text; a_ordering : ordering; a_adds : list R; a_last : option R }.
Definition provider_of (a : plain) : provider := mkProvider R (a_name a) (a_ordering a) (adding (a_adds a) (a_last a)).
(** Their chain: what they add, up to the first terminal resolver. *)
Fixpoint chain_of (l : list plain) : list (text * R) :=
  match l with
  | [] => []
  | a :: r =>
    map (pair (a_name a)) (a_adds a)
    ++ match a_last a with Some t => [(a_name a, t)] | None => chain_of r end
  end.
End Spec.

(** ** Default credentials *)

Definition nonempty (v : option text) : Prop := exists t, v = Some t /\ t <> [].

(** The credentials of a profile. *)
Inductive Keys (m : merged) (p : text) : option credentials -> Prop :=
| Keys_session k s t :
    get m p (lit "aws_access_key_id") = Some k -> get m p (lit "aws_secret_access_key") = Some s ->
    get m p (lit "aws_session_token") = Some t ->
    Keys m p (Some (mkCreds k s (Some t) None (get m p (lit "aws_account_id"))))
| Keys_static k s :
    get m p (lit "aws_access_key_id") = Some k -> get m p (lit "aws_secret_access_key") = Some s ->
    get m p (lit "aws_session_token") = None ->
    Keys m p (Some (mkCreds k s None None (get m p (lit "aws_account_id"))))
| Keys_none :
    get m p (lit "aws_access_key_id") = None \/ get m p (lit "aws_secret_access_key") = None -> Keys m p None.

(** The credentials the chain of this package is to give. *)
Inductive Default (environ : text -> option text) (config : option merged) (loaded : result merged) (profile : option text)
  : option credentials -> Prop :=
| Default_environment k s :
    environ (lit "AWS_ACCESS_KEY_ID") = Some k -> k <> [] -> environ (lit "AWS_SECRET_ACCESS_KEY") = Some s -> s <> [] ->
    Default environ config loaded profile
      (Some (mkCreds k s (environ (lit "AWS_SESSION_TOKEN")) None (environ (lit "AWS_ACCOUNT_ID"))))
| Default_profile m p r :
    ~ (nonempty (environ (lit "AWS_ACCESS_KEY_ID")) /\ nonempty (environ (lit "AWS_SECRET_ACCESS_KEY"))) ->
    (config = Some m \/ config = None /\ loaded = Ok m) ->
    (profile = Some p /\ p <> []
     \/ ~ nonempty profile /\ environ (lit "AWS_PROFILE") = Some p /\ p <> []
     \/ ~ nonempty profile /\ ~ nonempty (environ (lit "AWS_PROFILE")) /\ p = lit "default") ->
    Keys m p r -> Default environ config loaded profile r.
