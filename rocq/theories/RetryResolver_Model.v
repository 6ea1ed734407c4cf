(** Which retry strategy a client gets.
    A = packages/smithy-core/src/smithy_core/aio/retries.py
    R = packages/smithy-core/src/smithy_core/retries.py *)
From Verif Require Import Base.
From Coq Require Import ZArith.

(** R 16-24, [RetryStrategyOptions]. *)
Record options := mkOptions { o_mode : text; o_max : option Z }.
Definition default_options : options := mkOptions (lit "standard") None.

(** What is configured: a strategy object, options, nothing, or something else. *)
Inductive given := GivenStrategy (n : nat) | GivenOptions (o : options) | GivenNone | GivenOther.

Inductive kind := Simple | Standard.
(** A strategy object: one of the program's own, or the [id]th that was made. *)
Inductive strategy := Own (n : nat) | Made (id : nat) (k : kind) (max_attempts : Z).

(** A 55-63: the match on the mode; 63-79 and 135-158, the constructors.
    Standard checks its number of attempts (A 161-164). *)
Definition create (o : options) (id : nat) : result strategy :=
  if text_eqb (o_mode o) (lit "simple") then
    Ok (Made id Simple (match o_max o with Some n => n | None => 5%Z end))
  else if text_eqb (o_mode o) (lit "standard") then
    let n := match o_max o with Some n => n | None => 3%Z end in
    if (n <? 0)%Z then Err ValueError else Ok (Made id Standard n)
  else Err ValueError.

(** The arguments of [_create_retry_strategy], with [self]: one cache for the
    whole class, and so for all resolvers. *)
Record key := mkKey { k_resolver : nat; k_options : options }.
Definition option_z_eqb (a b : option Z) : bool :=
  match a, b with Some x, Some y => (x =? y)%Z | None, None => true | _, _ => false end.
Definition key_eqb (a b : key) : bool :=
  Nat.eqb (k_resolver a) (k_resolver b) && text_eqb (o_mode (k_options a)) (o_mode (k_options b))
    && option_z_eqb (o_max (k_options a)) (o_max (k_options b)).

(** [functools.lru_cache] with its default size: the entries, the one used last
    first; and how many strategies were made. *)
Definition MAXSIZE : nat := 128.
Record cache := mkCache { entries : list (key * strategy); made : nat }.
Definition new_cache : cache := mkCache [] 0.
Fixpoint find (k : key) (l : list (key * strategy)) : option strategy :=
  match l with
  | [] => None
  | (k', v) :: r => if key_eqb k k' then Some v else find k r
  end.
Fixpoint drop (k : key) (l : list (key * strategy)) : list (key * strategy) :=
  match l with
  | [] => []
  | (k', v) :: r => if key_eqb k k' then r else (k', v) :: drop k r
  end.
(** A hit is moved to the front.  A miss calls the function; what raises is not
    kept; a full cache loses the entry used longest ago. *)
Definition cached_create (k : key) (c : cache) : result strategy * cache :=
  match find k (entries c) with
  | Some v => (Ok v, mkCache ((k, v) :: drop k (entries c)) (made c))
  | None =>
    match create (k_options k) (made c) with
    | Err e => (Err e, c)
    | Ok v => (Ok v, mkCache ((k, v) :: firstn (MAXSIZE - 1) (entries c)) (S (made c)))
    end
  end.

(** A 27-45, [resolve_retry_strategy] of a resolver. *)
Definition resolve (resolver : nat) (g : given) (c : cache) : result strategy * cache :=
  match g with
  | GivenStrategy n => (Ok (Own n), c)
  | GivenNone => cached_create (mkKey resolver default_options) c
  | GivenOptions o => cached_create (mkKey resolver o) c
  | GivenOther => (Err TypeError, c)
  end.

(** Calls of resolvers, in order, with what they give. *)
Fixpoint resolve_all (calls : list (nat * given)) (c : cache) : list (result strategy) :=
  match calls with
  | [] => []
  | (n, g) :: rest => let (r, c') := resolve n g c in r :: resolve_all rest c'
  end.
