(** A call whose retry strategy is one of the library's: aio/client.py lines 323-375
    with aio/retries.py (R). *)
From Coq Require Import QArith.
From Verif Require Import Base Retry_Model Client_Model.

(** A pipeline whose retry tokens are those of R. *)
Definition with_tokens (S : sorts) : sorts :=
  mkSorts (Inp S) (Req S) (Resp S) (Outp S) (Exc S) (Endp S) (Opt S) (Scheme S) (Ident S) (Props S) token.

(** A call with a given strategy, client.py 332-336, 345 and 360-371. *)
Definition with_strategy {S W} (acquire : W -> (token + Exc S) * W)
    (refresh : token -> Exc S -> W -> (token + (option Q + Exc S)) * W)
    (success : token -> W -> option (Exc S) * W)
    (E : env (with_tokens S) W) : env (with_tokens S) W := {|
  e_interceptor := e_interceptor E;
  e_serialize := e_serialize E;
  e_endpoint := e_endpoint E;
  e_set_endpoint := e_set_endpoint E;
  e_auth_options := e_auth_options E;
  e_supported := e_supported E;
  e_set_scheme := e_set_scheme E;
  e_identity_props := e_identity_props E;
  e_signer_props := e_signer_props E;
  e_opt_identity_props := e_opt_identity_props E;
  e_opt_signer_props := e_opt_signer_props E;
  e_update := e_update E;
  e_identity := e_identity E;
  e_sign := e_sign E;
  e_future := e_future E;
  e_send := e_send E;
  e_is_timeout := e_is_timeout E;
  e_timeout := e_timeout E;
  e_deserialize := e_deserialize E;
  e_copy := e_copy E;
  e_rewind := e_rewind E;
  e_acquire := acquire;
  e_delay := k_delay;
  e_refresh := refresh;
  e_success := fun t w => match success t w with (None, w') => (inl tt, w') | (Some e, w') => (inr e, w') end;
  e_retryable := e_retryable E;
  e_long_polling := e_long_polling E;
  e_is_smithy := e_is_smithy E;
  e_smithy := e_smithy E
|}.

(** [max_attempts] is set by the constructors (R 78-80 and 159-178) and by nothing
    afterwards; everything else in the strategy may be changed by other operations
    that share it, here by any component of the call. *)
Definition standard_of (m : Z) (s : standard) : standard := mkStandard (d_backoff s) (d_throttling s) m (d_quota s).
Definition simple_of (m : Z) (s : simple) : simple := mkSimple (s_backoff s) m.

Section Strategies.
  Context {S : sorts} {W : Type}.
  Variable info : Exc S -> option retry_info.      (* the retry attributes of an error *)
  Variable of_exn : exn -> Exc S.
  Variable draw : W -> Q * W.                      (* the random source *)

  (** R 122-261: a call with a [StandardRetryStrategy]. *)
  Definition with_standard (m : Z) : env (with_tokens S) (standard * W) -> env (with_tokens S) (standard * W) :=
    with_strategy
      (fun w => std_acquire (standard_of m (fst w), snd w))
      (fun t e w => std_refresh info of_exn draw t e (standard_of m (fst w), snd w))
      (fun t w => std_success t (standard_of m (fst w), snd w)).

  (** R 64-119: a call with a [SimpleRetryStrategy]. *)
  Definition with_simple (m : Z) : env (with_tokens S) (simple * W) -> env (with_tokens S) (simple * W) :=
    with_strategy
      (fun w => smp_acquire (simple_of m (fst w), snd w))
      (fun t e w => smp_refresh info of_exn draw t e (simple_of m (fst w), snd w))
      (fun t w => smp_success t (simple_of m (fst w), snd w)).
End Strategies.
