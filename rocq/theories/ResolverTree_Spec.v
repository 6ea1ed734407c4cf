(** What a tree of identity resolvers is for: its sources in their order, and the
    first of them that has an identity. *)
From Verif Require Import Base ResolverTree_Model.

Section Spec.
  Context {I : Type}.

  (** The sources below a resolver, from left to right. *)
  Fixpoint sources (r : resolver I) : list source :=
    match r with
    | Direct k | Environment k _ | Caching _ k _ | Foreign k _ => [k]
    | Chained _ rs | Chain rs => flat_map sources rs
    end.

  (** Ask one source after the other until one answers with something else than
      SmithyIdentityError: what it answers, and the sources asked. *)
  Fixpoint first (answers : source -> result I) (ks : list source) : result I * list source :=
    match ks with
    | [] => (Err IdentityErr, [])
    | k :: rest =>
      match answers k with
      | Err IdentityErr => (fst (first answers rest), k :: snd (first answers rest))
      | x => (x, [k])
      end
    end.

  (** A resolver as it is made, with nothing kept. *)
  Fixpoint fresh (r : resolver I) : Prop :=
    match r with
    | Direct _ | Foreign _ _ => True
    | Environment _ held | Caching _ _ held => held = None
    | Chained held rs => held = None /\ (fix all (rs : list (resolver I)) : Prop := match rs with [] => True | r :: rest => fresh r /\ all rest end) rs
    | Chain rs => (fix all (rs : list (resolver I)) : Prop := match rs with [] => True | r :: rest => fresh r /\ all rest end) rs
    end.

  (** Resolvers of which [p] holds for every leaf. *)
  Fixpoint leaves (p : resolver I -> Prop) (r : resolver I) : Prop :=
    match r with
    | Direct _ | Foreign _ _ | Environment _ _ | Caching _ _ _ => p r
    | Chained _ rs | Chain rs =>
      (fix all (rs : list (resolver I)) : Prop := match rs with [] => True | r :: rest => leaves p r /\ all rest end) rs
    end.
  (** Nothing from the environment, and nobody's own resolver. *)
  Definition tidy : resolver I -> Prop :=
    leaves (fun r => match r with Environment _ _ | Foreign _ _ => False | _ => True end).
  (** The sources read by resolvers of environment variables. *)
  Fixpoint environments (r : resolver I) : list source :=
    match r with
    | Environment k _ => [k]
    | Chained _ rs | Chain rs => flat_map environments rs
    | _ => []
    end.
End Spec.
