(** What a bounded first-in-first-out buffer should do, in terms of the calls
    made and what they returned.  Histories have the oldest event first. *)
From Verif Require Import Base Provider_Model.

Definition history (p : provider) : list event := rev (log p).

(** The chunks of the writes that returned, in the order they returned. *)
Definition accepted (h : list event) : list bytes :=
  flat_map (fun e => match e with Returned _ (Write b) Done => [b] | _ => [] end) h.
(** The chunks handed to readers, in order. *)
Definition delivered (h : list event) : list bytes :=
  flat_map (fun e => match e with Returned _ Next (Chunk b) => [b] | _ => [] end) h.
(** Some call closed the provider without flushing. *)
Definition discarded (h : list event) : Prop := exists i, In (Called i (Close false)) h.

(** [i] was called and has not returned. *)
Definition pending (h : list event) (i : nat) (c : call) : Prop :=
  In (Called i c) h /\ forall r, ~ In (Returned i c r) h.

Definition producer (c : call) : bool := match c with Next => false | _ => true end.

(** One producer and one consumer: neither makes a call while its last one is
    still waiting; nobody is cancelled. *)
Definition busy (prod : bool) (p : provider) : bool :=
  existsb (fun w => Bool.eqb (producer (w_call w)) prod) (waiters p).
Definition one_each (a : action) (p : provider) : bool :=
  match a with
  | Start c => negb (busy (producer c) p)
  | Resume _ => true
  | Wake _ | Cancel _ => false
  end.
Fixpoint orderly (acts : list action) (p : provider) : bool :=
  match acts with
  | [] => true
  | a :: rest => one_each a p && match act a p with Some p' => orderly rest p' | None => false end
  end.

(** What may still happen while a producer's call waits: its own resumption and
    what the reader does. *)
Definition reader_side (a : action) : bool :=
  match a with Start Next | Resume _ => true | _ => false end.

(** Nothing can run: every unfinished call waits and none was woken. *)
Definition stuck (p : provider) : Prop := forall w, In w (waiters p) -> w_woken w = false.
