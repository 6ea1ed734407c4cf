(** Shared vocabulary of the model: bytes, text, exceptions as values, and
    fixed-width integers as written by Python's [struct]. *)
From Coq Require Export List NArith ZArith Bool Lia String Ascii.
From Coq Require Export ZifyBool ZifyNat ZifyN.
Export ListNotations.
#[global] Open Scope list_scope.

#[global] Arguments N.add : simpl never.
#[global] Arguments N.sub : simpl never.
#[global] Arguments N.mul : simpl never.
#[global] Arguments N.div : simpl never.
#[global] Arguments N.modulo : simpl never.
#[global] Arguments N.pow : simpl never.
#[global] Arguments N.lxor : simpl never.
#[global] Arguments N.land : simpl never.
#[global] Arguments N.lor : simpl never.
#[global] Arguments N.shiftr : simpl never.
#[global] Arguments N.shiftl : simpl never.
#[global] Arguments N.testbit : simpl never.
#[global] Arguments N.eqb : simpl never.
#[global] Arguments N.ltb : simpl never.
#[global] Arguments N.leb : simpl never.
#[global] Arguments Z.add : simpl never.
#[global] Arguments Z.sub : simpl never.
#[global] Arguments Z.mul : simpl never.
#[global] Arguments Z.pow : simpl never.
#[global] Arguments Z.div : simpl never.
#[global] Arguments Z.modulo : simpl never.
#[global] Arguments Z.eqb : simpl never.
#[global] Arguments Z.ltb : simpl never.
#[global] Arguments Z.leb : simpl never.

(** The exception classes the modelled code can raise.  One constructor per
    Python class; messages are not modelled. *)
Inductive exn : Type :=
| ValueError | TypeError | KeyError | IndexError | OverflowError
| StructError                (* struct.error *)
| UnicodeError               (* UnicodeEncodeError / UnicodeDecodeError *)
| OSError | RuntimeError | AttributeError | AssertionError | NotImplementedErr
| ExpectationNotMet          (* smithy_core.exceptions.ExpectationNotMetError *)
| SmithyErr                  (* smithy_core.exceptions.SmithyError *)
| SerializationErr
| RetryErr                   (* smithy_core.exceptions.RetryError *)
| IdentityErr                (* smithy_core.exceptions.SmithyIdentityError *)
| ChecksumMismatch | DuplicateHeader | InvalidEventBytes | InvalidHeadersLength
| InvalidHeaderValue | InvalidHeaderValueLength | InvalidIntegerValue | InvalidPayloadLength
| OtherErr (tag : nat).      (* any other exception, told apart by a tag *)

Inductive result (A : Type) : Type :=
| Ok (a : A)
| Err (e : exn).
Arguments Ok {A} a.
Arguments Err {A} e.

Definition bind {A B} (r : result A) (f : A -> result B) : result B :=
  match r with Ok a => f a | Err e => Err e end.
Notation "'do' x <- r ; k" := (bind r (fun x => k))
  (at level 200, x name, r at level 100, k at level 200, right associativity).
Notation "'do' ' p <- r ; k" := (bind r (fun p => k))
  (at level 200, p strict pattern, r at level 100, k at level 200, right associativity).

Definition is_ok {A} (r : result A) : bool := match r with Ok _ => true | Err _ => false end.

(** Byte strings and text.  A byte string is a list of numbers below 256, a
    text is a list of Unicode code points. *)
Definition bytes := list N.
Definition text := list N.

Definition is_byte (b : N) : bool := N.ltb b 256.
Definition all_bytes (bs : list N) : bool := forallb is_byte bs.

(** Literal text, for readability of constants in the model. *)
Fixpoint lit (s : string) : list N :=
  match s with
  | EmptyString => []
  | String a r => N_of_ascii a :: lit r
  end.

(** Equality of texts. *)
Fixpoint text_eqb (a b : list N) : bool :=
  match a, b with
  | [], [] => true
  | x :: a', y :: b' => N.eqb x y && text_eqb a' b'
  | _, _ => false
  end.

Definition mem_text (k : text) (l : list text) : bool := existsb (text_eqb k) l.

(** Lengths as [N], so that limits such as 16 MiB can be compared. *)
Definition len {A} (l : list A) : N := N.of_nat (List.length l).

(** [struct.pack("!B" / "!H" / "!I" / "!Q")]: big endian, [k] bytes. *)
Fixpoint be_bytes (k : nat) (n : N) : bytes :=
  match k with
  | O => []
  | S k' => (N.modulo (N.div n (256 ^ N.of_nat k')) 256) :: be_bytes k' n
  end.

(** The unsigned value of a big endian byte string. *)
Fixpoint be_val_acc (acc : N) (bs : bytes) : N :=
  match bs with
  | [] => acc
  | b :: r => be_val_acc (acc * 256 + b) r
  end.
Definition be_val (bs : bytes) : N := be_val_acc 0 bs.

(** Two's complement reading and writing, [k] bytes. *)
Definition twos_of_Z (k : nat) (z : Z) : N := Z.to_N (z mod (2 ^ (8 * Z.of_nat k))).
Definition Z_of_twos (k : nat) (n : N) : Z :=
  if Z.ltb (Z.of_N n) (2 ^ (8 * Z.of_nat k - 1)) then Z.of_N n
  else (Z.of_N n - 2 ^ (8 * Z.of_nat k))%Z.

(** A blocking byte source with the semantics of [io.BytesIO.read]: [read(n)]
    returns at most [n] bytes, fewer only at the end; a negative [n] reads
    everything. *)
Definition src_read (n : Z) (s : bytes) : bytes * bytes :=
  if Z.ltb n 0 then (s, [])
  else (firstn (Z.to_nat n) s, skipn (Z.to_nat n) s).
