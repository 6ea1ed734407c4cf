(** What callers of an identity resolver rely on, in terms of what is observed. *)
From Verif Require Import Base Identity_Model.
From Coq Require Import ZArith.

Definition unexpired (expiration : option Z) (now : Z) : Prop :=
  match expiration with None => True | Some e => (now < e)%Z end.

Section Log.
Context {I : Type}.

(** The identity most recently answered since the last invalidation, for what was
    observed from first to last. *)
Definition latest (log : list (obs I)) : option I :=
  fold_left (fun v o => match o with Answered _ (Ok id) => Some id | Invalidated => None | _ => v end) log None.

Definition of_task (i : nat) (o : obs I) : bool :=
  match o with
  | Called j _ | Asked j _ | Answered j _ | Returned j _ | Raised j _ => Nat.eqb i j
  | Invalidated => false
  end.
(** What concerns one task. *)
Definition mine (i : nat) (log : list (obs I)) : list (obs I) := filter (of_task i) log.

(** The calls of a resolver that asks [sources] others in turn, going on after
    the errors that are [skipped]. *)
Variable sources : nat.
Variable skipped : exn -> Prop.

(** A call in which the first [p] resolvers have failed. *)
Inductive Trying (i : nat) : nat -> list (obs I) -> Prop :=
| Trying_start now : Trying i 0 [Called i now]
| Trying_next p l e : Trying i p l -> (p < sources)%nat -> skipped e ->
    Trying i (S p) (l ++ [Asked i p; Answered i (Err e)]).

(** A call that has ended: with the cached identity; with the identity of the
    first resolver that has one; with an error that is not skipped; or with an
    identity error after all have failed. *)
Inductive Complete (i : nat) : list (obs I) -> Prop :=
| Complete_cached now id : Complete i [Called i now; Returned i id]
| Complete_first p l id : Trying i p l -> (p < sources)%nat ->
    Complete i (l ++ [Asked i p; Answered i (Ok id); Returned i id])
| Complete_error p l e : Trying i p l -> (p < sources)%nat -> ~ skipped e ->
    Complete i (l ++ [Asked i p; Answered i (Err e); Raised i e])
| Complete_none l : Trying i sources l -> Complete i (l ++ [Raised i IdentityErr]).

(** Ended calls, and nothing else. *)
Definition idle (i : nat) (log : list (obs I)) : Prop :=
  exists calls, mine i log = List.concat calls /\ Forall (Complete i) calls.
(** Ended calls, and one that waits for the resolver at [p]. *)
Definition busy (i p : nat) (log : list (obs I)) : Prop :=
  exists calls l, mine i log = List.concat calls ++ l ++ [Asked i p] /\ Forall (Complete i) calls
    /\ Trying i p l /\ (p < sources)%nat.
End Log.

(** ** Container credentials *)

(** Hosts credentials may be asked from. *)
Definition permitted (ip_loopback : text -> option bool) (host : text) : Prop :=
  ip_loopback host = Some true
  \/ host = lit "169.254.170.2" \/ host = lit "169.254.170.23" \/ host = lit "fd00:ec2::23"
  \/ host = lit "localhost".

(** The instant an ISO 8601 text means: a time without an offset is in UTC. *)
Definition instant (d : datetime) : Z :=
  match dt_offset d with None => dt_local d | Some o => (dt_local d - o)%Z end.
