(** The auth resolvers of the library, for the pipeline of Client_Model.
    A = packages/smithy-core/src/smithy_core/auth.py *)
From Verif Require Import Base Client_Model.

(** A 29-40: [AuthOption]. *)
Record auth_option (ID P : Type) := mkOption { scheme_id : ID; identity_properties : P; signer_properties : P }.
Arguments mkOption {ID P}. Arguments scheme_id {ID P}. Arguments identity_properties {ID P}. Arguments signer_properties {ID P}.

(** A 43-57: [DefaultAuthResolver.resolve_auth_scheme], given the operation's
    [effective_auth_schemes]; [empty] is what [TypedProperties()] makes. *)
Definition default_resolver {ID P} (empty : P) (effective : list ID) : list (auth_option ID P) :=
  map (fun id => mkOption id empty empty) effective.
(** A 60-66: [NoAuthResolver.resolve_auth_scheme]. *)
Definition no_auth_resolver {ID P} : list (auth_option ID P) := [].

(** A pipeline whose auth options are those of A. *)
Definition with_options (S : sorts) (ID : Type) : sorts :=
  mkSorts (Inp S) (Req S) (Resp S) (Outp S) (Exc S) (Endp S) (auth_option ID (Props S)) (Scheme S) (Ident S) (Props S) (Tok S).

(** A call with one of these resolvers: client.py 539-547; the schemes a client
    supports are a dictionary by scheme id. *)
Definition with_resolver {S ID W} (options : list (auth_option ID (Props S))) (supported : ID -> option (Scheme S))
    (E : env (with_options S ID) W) : env (with_options S ID) W := {|
  e_interceptor := e_interceptor E;
  e_serialize := e_serialize E;
  e_endpoint := e_endpoint E;
  e_set_endpoint := e_set_endpoint E;
  e_auth_options := ret (S := with_options S ID) (options : list (Opt (with_options S ID)));
  e_supported := fun o : Opt (with_options S ID) => supported (scheme_id o);
  e_set_scheme := e_set_scheme E;
  e_identity_props := e_identity_props E;
  e_signer_props := e_signer_props E;
  e_opt_identity_props := fun o : Opt (with_options S ID) => identity_properties o;
  e_opt_signer_props := fun o : Opt (with_options S ID) => signer_properties o;
  e_update := e_update E;
  e_identity := e_identity E;
  e_sign := e_sign E;
  e_future := e_future E;
  e_send := e_send E;
  e_is_timeout := e_is_timeout E;
  e_timeout := e_timeout E;
  e_deserialize := e_deserialize E;
  e_copy := e_copy E;
  e_rewind := e_rewind E;
  e_acquire := e_acquire E;
  e_delay := e_delay E;
  e_refresh := e_refresh E;
  e_success := e_success E;
  e_retryable := e_retryable E;
  e_long_polling := e_long_polling E;
  e_is_smithy := e_is_smithy E;
  e_smithy := e_smithy E
|}.
