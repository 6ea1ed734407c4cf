(** What is observed of a tree of identity resolvers, read off the log alone. *)
From Verif Require Import Base Identity_Model Identity_Spec ResolverTree_Model ResolverTasks_Model.
From Coq Require Import ZArith.

Section Spec.
  Context {I : Type}.
  Variable expires : I -> option Z.

  (** The sources below a resolver, from left to right, and whether none of them is
      the environment. *)
  Fixpoint sources (t : tree) : list source :=
    match t with TLeaf _ k => [k] | TChained ts | TChain ts => flat_map sources ts end.
  Fixpoint no_environment (t : tree) : bool :=
    match t with
    | TLeaf LEnvironment _ => false
    | TLeaf _ _ => true
    | TChained ts | TChain ts => forallb no_environment ts
    end.

  (** The resolver at a place of a tree. *)
  Fixpoint resolver_at (t : tree) (p : path) : option tree :=
    match p with
    | [] => Some t
    | n :: q =>
      match t with
      | TLeaf _ _ => None
      | TChained ts | TChain ts => match nth_error ts n with Some t' => resolver_at t' q | None => None end
      end
    end.

  (** [mid] is what was observed during the call of the task [i] that began last. *)
  Definition during (i : nat) (log mid : list (obs I)) : Prop :=
    exists before, log = before ++ Began i :: mid /\ ~ In (Began i) mid /\ forall x, ~ In (Ended i x) mid.
  (** Every call that has begun has ended. *)
  Definition idle (log : list (obs I)) : Prop :=
    forall before i mid, log = before ++ Began i :: mid -> exists x, In (Ended i x) mid.

  (** What a call may end with, from what was observed during the call. *)
  Definition justified (root : tree) (i : nat) (mid : list (obs I)) (r : result I) : Prop :=
    match r with
    | Ok id =>
      (** a source has answered it, or it was found and had not expired, or it was
          found in a resolver of environment variables *)
      (exists k, In k (sources root) /\ In (Answered i k (Ok id)) mid)
      \/ (exists p now, In (Found i p false id now) mid /\ unexpired (expires id) now)
      \/ (no_environment root = false /\ exists p now, In (Found i p true id now) mid)
    | Err IdentityErr =>
      (** every source was asked and has none *)
      forall k, In k (sources root) -> In (Answered i k (Err IdentityErr)) mid
    | Err e => exists k, In k (sources root) /\ In (Answered i k (Err e)) mid
    end.

  (** The sources a task asked, in order. *)
  Fixpoint asked (i : nat) (mid : list (obs I)) : list source :=
    match mid with
    | [] => []
    | Asked j k :: rest => if Nat.eqb j i then k :: asked i rest else asked i rest
    | _ :: rest => asked i rest
    end.
End Spec.

(** A list is another one without some of its elements. *)
Inductive among {A} : list A -> list A -> Prop :=
| Am_nil : among [] []
| Am_take x a b : among a b -> among (x :: a) (x :: b)
| Am_skip x a b : among a b -> among a (x :: b).
