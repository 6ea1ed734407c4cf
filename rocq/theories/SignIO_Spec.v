(** What the readers of the signers promise. *)
From Verif Require Import Base Streams_Model Streams_Spec.

(** The position of an in-memory file after a script. *)
Fixpoint file_after (content : bytes) (pos : nat) (ops : list fop) : nat :=
  match ops with
  | [] => pos
  | FRead n :: r =>
    file_after content (pos + (let avail := (List.length content - pos)%nat in if Z.ltb n 0 then avail else Nat.min (Z.to_nat n) avail)) r
  | FSeek off w :: r => file_after content (Z.to_nat (file_target content pos off w)) r
  | FTell :: r => file_after content pos r
  end.

(** [None] as a size reads everything. *)
Definition given_size (size : option Z) : Z := match size with Some n => n | None => -1 end.

(** [k] chunks are enough for [n] bytes, of which [have] are there already: they
    bring the bytes, or there are no more. *)
Definition enough (n have : nat) (chunks : list bytes) (k : nat) : Prop :=
  (n <= have + List.length (List.concat (firstn k chunks)))%nat \/ (List.length chunks <= k)%nat.
