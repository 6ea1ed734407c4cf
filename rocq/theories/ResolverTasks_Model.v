(** Trees of identity resolvers used by several tasks at once.
    I = packages/smithy-core/src/smithy_core/aio/identity.py
    P = packages/smithy-aws-core/src/smithy_aws_core/identity
    Simplifications: tasks may change places after every step of [get_identity], and
    time may pass, not only where asyncio suspends a task, so there are more schedules
    here than there are in Python.  [invalidate] of these resolvers never suspends, so
    it is one step.  One object in two places of a tree is modelled as two. *)
From Verif Require Import Base Identity_Model ResolverTree_Model.
From Coq Require Import ZArith.

Section Tasks.
  Context {I : Type}.
  Variable expires : I -> option Z.

  (** The resolvers, without what they keep. *)
  Inductive leaf := LDirect | LEnvironment | LCaching (how : keeping).
  Inductive tree :=
  | TLeaf (kind : leaf) (k : source)
  | TChained (ts : list tree)      (** I 34-68 *)
  | TChain (ts : list tree).       (** P/chain/__init__.py 142-249 *)
  (** Whether a leaf gives what it keeps: P/environment.py 22-23; I 22, P/imds.py
      200-204, P/container.py 177-181. *)
  Definition gives (kind : leaf) (id : I) (now : Z) : bool :=
    match kind with
    | LDirect => false
    | LEnvironment => true
    | LCaching how => usable expires how id now
    end.
  (** Whether a leaf keeps what it is answered. *)
  Definition keeps (kind : leaf) : bool := match kind with LDirect => false | _ => true end.

  (** The place of a resolver in the tree. *)
  Definition path := list nat.
  Definition path_eqb (p q : path) : bool := if list_eq_dec Nat.eq_dec p q then true else false.

  (** Where a call is: about to enter a resolver; waiting for a source; a call has
      ended. *)
  Inductive control :=
  | Eval (p : path) (t : tree)
  | Wait (p : path) (kind : leaf) (k : source)
  | Back (x : result I).
  (** A chain that waits for one of its resolvers: its place, whether it keeps
      identities, the number of the next resolver and those that are left. *)
  Record frame := mkFrame { fr_path : path; fr_keeps : bool; fr_next : nat; fr_rest : list tree }.

  (** What is observed: a call begins; a kept identity is found at a place and a time, in
      the environment's resolver or in another one; a source is asked and answers; a call
      ends; an invalidation. *)
  Inductive obs :=
  | Began (i : nat)
  | Found (i : nat) (p : path) (environment : bool) (id : I) (now : Z)
  | Asked (i : nat) (k : source)
  | Answered (i : nat) (k : source) (r : result I)
  | Ended (i : nat) (r : result I)
  | Invalidated.

  Record state := mkState {
    held : path -> option I;
    tasks : nat -> option (control * list frame);
    log : list obs }.
  Definition fresh_state : state := mkState (fun _ => None) (fun _ => None) [].

  Definition keep (p : path) (v : option I) (s : state) : state :=
    mkState (fun q => if path_eqb q p then v else held s q) (tasks s) (log s).
  Definition set_task (i : nat) (c : option (control * list frame)) (s : state) : state :=
    mkState (held s) (fun j => if Nat.eqb j i then c else tasks s j) (log s).
  Definition see (o : obs) (s : state) : state := mkState (held s) (tasks s) (log s ++ [o]).

  (** One step of the task [i], which is not waiting for a source. *)
  Definition move (i : nat) (now : Z) (c : control) (st : list frame) (s : state) : state :=
    match c with
    | Wait _ _ _ => s
    | Eval p (TLeaf kind k) =>
      match held s p with
      | Some id =>
        if gives kind id now
        then see (Found i p (match kind with LEnvironment => true | _ => false end) id now) (set_task i (Some (Back (Ok id), st)) s)
        else see (Asked i k) (set_task i (Some (Wait p kind k, st)) s)
      | None => see (Asked i k) (set_task i (Some (Wait p kind k, st)) s)
      end
    | Eval p (TChained ts) =>     (* I 22-23; 53 *)
      match held s p with
      | Some id =>
        if usable expires WhileUnexpired id now then see (Found i p false id now) (set_task i (Some (Back (Ok id), st)) s)
        else set_task i (Some (Back (Err IdentityErr), mkFrame p true 0 ts :: st)) s
      | None => set_task i (Some (Back (Err IdentityErr), mkFrame p true 0 ts :: st)) s
      end
    | Eval p (TChain ts) => set_task i (Some (Back (Err IdentityErr), mkFrame p false 0 ts :: st)) s
    | Back x =>
      match st with
      | [] => see (Ended i x) (set_task i None s)
      | f :: st' =>
        match x with
        | Ok id =>                (* I 56 and 23-24; P/chain/__init__.py 223-244 *)
          let s' := set_task i (Some (Back (Ok id), st')) s in
          if fr_keeps f then keep (fr_path f) (Some id) s' else s'
        | Err IdentityErr =>      (* I 53-62: the next one, or raise *)
          match fr_rest f with
          | t :: ts => set_task i (Some (Eval (fr_path f ++ [fr_next f]) t, mkFrame (fr_path f) (fr_keeps f) (S (fr_next f)) ts :: st')) s
          | [] => set_task i (Some (Back (Err IdentityErr), st')) s
          end
        | Err e => set_task i (Some (Back (Err e), st')) s
        end
      end
    end.

  (** The places of the resolvers of environment variables, which [invalidate] leaves
      as they are. *)
  Fixpoint environment_at (t : tree) (p : path) : bool :=
    match t, p with
    | TLeaf LEnvironment _, [] => true
    | TLeaf _ _, _ => false
    | TChained ts, n :: q | TChain ts, n :: q =>
      (fix at_ (ts : list tree) (n : nat) : bool :=
         match ts, n with
         | [], _ => false
         | t :: _, O => environment_at t q
         | _ :: ts, S n => at_ ts n
         end) ts n
    | _, [] => false
    end.

  (** The places [invalidate] visits, in order: a chain forgets what it keeps before
      it goes to its resolvers (I 64-68; P/chain/__init__.py 246-249). *)
  Fixpoint places (t : tree) (p : path) : list path :=
    let walk := (fix walk (ts : list tree) (n : nat) : list path :=
      match ts with
      | [] => []
      | t :: ts => places t (p ++ [n]) ++ walk ts (S n)
      end) in
    match t with
    | TLeaf _ _ => [p]
    | TChained ts => p :: walk ts O
    | TChain ts => walk ts O
    end.

  (** What happens: a task calls [get_identity]; it goes on, at a time; the source it
      waits for answers; somebody calls [invalidate]. No [invalidate] of the library
      suspends, so that it is one event; [Forgets] is what one that does suspend, in
      somebody's own resolver, makes of it: the call of [invalidate] at one place. *)
  Inductive event := Start (i : nat) | Step (i : nat) (now : Z) | Answer (i : nat) (r : result I) | Invalidates | Forgets (p : path).
  Definition step (root : tree) (e : event) (s : state) : state :=
    match e with
    | Start i =>
      match tasks s i with
      | Some _ => s
      | None => see (Began i) (set_task i (Some (Eval [] root, [])) s)
      end
    | Step i now => match tasks s i with Some (c, st) => move i now c st s | None => s end
    | Answer i r =>
      match tasks s i with
      | Some (Wait p kind k, st) =>
        let s' := see (Answered i k r) (set_task i (Some (Back r, st)) s) in
        match r with Ok id => if keeps kind then keep p (Some id) s' else s' | Err _ => s' end
      | _ => s
      end
    | Invalidates => see Invalidated (mkState (fun p => if environment_at root p then held s p else None) (tasks s) (log s))
    | Forgets p => if environment_at root p then s else keep p None s
    end.
  Fixpoint run (root : tree) (es : list event) (s : state) : state :=
    match es with [] => s | e :: rest => run root rest (step root e s) end.
End Tasks.
Arguments obs : clear implicits.
Arguments state : clear implicits.
Arguments event : clear implicits.
