(** Identity resolvers made of identity resolvers, called one after the other
    (calls that overlap are the subject of Identity_Model).
    I = packages/smithy-core/src/smithy_core/aio/identity.py
    D = packages/smithy-core/src/smithy_core/aio/interfaces/identity.py
    P = packages/smithy-aws-core/src/smithy_aws_core/identity
    Simplification: a resolver has one place in the tree; one object put into two
    chains is modelled as two. *)
From Verif Require Import Base Identity_Model.
From Coq Require Import ZArith.

Section Resolvers.
  Context {I : Type}.
  Variable expires : I -> option Z.

  (** What a resolver reads, by number: a metadata service, the environment, the
      properties of the call, whatever a subclass does in [_get_identity]. *)
  Definition source := nat.

  (** When a kept identity is given again: I 22, [CachingIdentityResolver]; P/imds.py
      200-204 and P/container.py 177-181, only with an expiration. *)
  Inductive keeping := WhileUnexpired | UntilExpiration.
  Definition usable (how : keeping) (id : I) (now : Z) : bool :=
    match how with
    | WhileUnexpired => negb (is_expired (expires id) now)
    | UntilExpiration => match expires id with Some e => Z.ltb now e | None => false end
    end.

  Inductive resolver :=
  | Direct (k : source)
      (** no cache: P/static.py 9-35, smithy_http/aio/identity/apikey.py 26-38 *)
  | Environment (k : source) (held : option I)  (** P/environment.py 11-42 *)
  | Caching (how : keeping) (k : source) (held : option I)
      (** a subclass as of I 15-31, [IMDSCredentialsResolver], [ContainerCredentialsResolver] *)
  | Chained (held : option I) (rs : list resolver)  (** I 34-68 *)
  | Chain (rs : list resolver)  (** P/chain/__init__.py 142-249, each in a [NamedResolver] *)
  | Foreign (k : source) (e : exn).  (** somebody's resolver whose [invalidate] raises *)

  (** [await resolver.get_identity(...)] at a time, with what every source says at
      that time: what is left of the resolver, how the call ends, the sources read. *)
  Section Get.
    Variable now : Z.
    Variable answers : source -> result I.
    Fixpoint get (r : resolver) : resolver * (result I * list source) :=
      let try := (fix try (rs : list resolver) : list resolver * (result I * list source) :=
        (** I 53-62; P/chain/__init__.py 223-244, where the error is a subclass of
            SmithyIdentityError *)
        match rs with
        | [] => ([], (Err IdentityErr, []))
        | r :: rest =>
          let '(r', (x, a)) := get r in
          match x with
          | Err IdentityErr => let '(rest', (y, b)) := try rest in (r' :: rest', (y, a ++ b))
          | _ => (r' :: rest, (x, a))
          end
        end) in
      match r with
      | Direct k | Foreign k _ => (r, (answers k, [k]))
      | Environment k (Some id) => (r, (Ok id, []))
      | Environment k None =>
        match answers k with Ok id => (Environment k (Some id), (Ok id, [k])) | Err e => (r, (Err e, [k])) end
      | Caching how k held =>
        let ask := match answers k with
                   | Ok id => (Caching how k (Some id), (Ok id, [k]))
                   | Err e => (r, (Err e, [k]))
                   end in
        match held with Some id => if usable how id now then (r, (Ok id, [])) else ask | None => ask end
      | Chained held rs =>
        let ask := let '(rs', (x, a)) := try rs in
                   (Chained (match x with Ok id => Some id | Err _ => held end) rs', (x, a)) in
        match held with Some id => if usable WhileUnexpired id now then (r, (Ok id, [])) else ask | None => ask end
      | Chain rs => let '(rs', p) := try rs in (Chain rs', p)
      end.
  End Get.

  (** [await resolver.invalidate()]: what is left of the resolver, and how the call
      ends.  D 22-27 for [Direct], [Environment]; I 29-31, P/imds.py 236-238,
      P/container.py 211-213 for [Caching]; I 64-68 for [Chained];
      P/chain/__init__.py 246-249 and P/chain/provider.py 28-30 for [Chain]. *)
  Fixpoint invalidate (r : resolver) : resolver * option exn :=
    let all := (fix all (rs : list resolver) : list resolver * option exn :=
      match rs with
      | [] => ([], None)
      | r :: rest =>
        match invalidate r with
        | (r', None) => let (rest', e) := all rest in (r' :: rest', e)
        | (r', Some e) => (r' :: rest, Some e)
        end
      end) in
    match r with
    | Direct _ | Environment _ _ => (r, None)
    | Caching how k _ => (Caching how k None, None)
    | Chained _ rs => let (rs', e) := all rs in (Chained None rs', e)
    | Chain rs => let (rs', e) := all rs in (Chain rs', e)
    | Foreign _ e => (r, Some e)
    end.

  (** What a program does with a resolver, one call after the other. *)
  Inductive call := Get (now : Z) (answers : source -> result I) | Invalidate.
  Definition step (c : call) (r : resolver) : resolver :=
    match c with Get now answers => fst (get now answers r) | Invalidate => fst (invalidate r) end.
  Fixpoint run (cs : list call) (r : resolver) : resolver :=
    match cs with [] => r | c :: rest => run rest (step c r) end.
End Resolvers.
Arguments resolver : clear implicits.
Arguments call : clear implicits.
