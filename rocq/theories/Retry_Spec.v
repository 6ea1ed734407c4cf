(** What the retry machinery is documented to do, written without its helpers. *)
From Coq Require Import QArith Qminmax.
From Verif Require Import Base Retry_Model.
Local Open Scope Z_scope.

(** ** The quota as an indivisible counter *)
Definition price (e : option retry_info) : Z :=
  match e with Some (mkInfo _ _ true) => 5 | _ => 14 end.

(** The effect of one call on a counter limited to [cap], and its outcome. *)
Definition counter (cap avail : Z) (c : qcall) : Z * qout :=
  match c with
  | QAcquire e => if price e <=? avail then (avail - price e, QGot (price e)) else (avail, QRefused)
  | QRelease a => (Z.min cap (avail + (if a =? 0 then 1 else a)), QReleased)
  end.

(** A history of calls explained by the counter: every recorded outcome is the
    one the counter gives, and the last value is [avail]. *)
Inductive explained (cap : Z) : list (nat * qcall * qout) -> Z -> Prop :=
| ex_start : explained cap [] cap
| ex_call log avail i c avail' o :
    explained cap log avail -> counter cap avail c = (avail', o) ->
    explained cap (log ++ [(i, c, o)]) avail'.

(** The calls of one thread, in the order in which they took effect. *)
Definition calls_of (i : nat) (log : list (nat * qcall * qout)) : list qcall :=
  map (fun x => snd (fst x)) (filter (fun x => Nat.eqb (fst (fst x)) i) log).

Definition release_ok (c : qcall) : Prop := match c with QRelease a => 0 <= a | _ => True end.

(** A thread has ended when it has nothing left to do. *)
Definition ended_thread (t : qthread) : Prop := t = mkThread QIdle [].

(** ** Accounting over operations *)
(** What the last retry of the operation cost, if it was retried. *)
Fixpoint last_price (op : nat) (rev_history : list observed) : option Z :=
  match rev_history with
  | [] => None
  | Started i :: r => if Nat.eqb i op then None else last_price op r
  | Retried i t :: r => if Nat.eqb i op then Some (if t then 5 else 14) else last_price op r
  | _ :: r => last_price op r
  end.

(** The charge of one observation, given what came before (latest first). *)
Definition charge (rev_before : list observed) (o : observed) : Z :=
  match o with
  | Started _ => 0
  | Retried _ t => if t then 5 else 14
  | GaveUp _ => 0
  | Succeeded op => match last_price op rev_before with Some c => - c | None => -1 end
  end.

Fixpoint charges (rev_before : list observed) (h : list observed) : list Z :=
  match h with
  | [] => []
  | o :: r => charge rev_before o :: charges (o :: rev_before) r
  end.

Definition total (l : list Z) : Z := fold_right Z.add 0 l.

(** What is owed after a list of charges when what is given back beyond the
    debt is lost: the largest total over the ends of the list. *)
Fixpoint owed (l : list Z) : Z :=
  match l with
  | [] => 0
  | c :: r => Z.max (total (c :: r)) (owed r)
  end.

(** ** Documented delays *)
(** [capped = min(max_backoff, scale * 2 ** (retry_attempt - 1))]. *)
Definition capped (scale mx : Q) (n : Z) : Q := Qmin (scale * 2 ^ (n - 1)) mx.

(** The documented range of a delay, by jitter type. *)
Definition documented (scale mx prev : Q) (j : jitter) (n : Z) (d : Q) : Prop :=
  match j with
  | JNone => d == capped scale mx n
  | JFull => 0 <= d <= capped scale mx n
  | JDefault => capped scale mx n / 2 <= d <= capped scale mx n
  | JDecorrelated => Qmin scale mx <= d <= Qmin (scale + 3 * prev) mx
  end%Q.

(** ** The retry loop *)
Section LoopSpec.
  Context {Out Err Tok : Type}.
  Variable delay_of : Tok -> Q.

  Definition pause (t : Tok) : list (action Out Err Tok) :=
    if Qeq_bool (delay_of t) 0 then [] else [ASleep (delay_of t)].

  (** One failed round that is followed by another: sleep as the token says,
      attempt, ask for a new token, put the body back to its start. *)
  Definition round (x : Tok * Out * Err) : list (action Out Err Tok) :=
    let '(t, o, e) := x in pause t ++ [AAttempt o; ARefresh t e; ARewind].

  Definition attempts (tr : list (action Out Err Tok)) : list Out :=
    flat_map (fun a => match a with AAttempt o => [o] | _ => [] end) tr.
  Definition successes (tr : list (action Out Err Tok)) : list Tok :=
    flat_map (fun a => match a with ASuccess t => [t] | _ => [] end) tr.

  Context {W : Type}.
  Variable refresh : Tok -> Err -> W -> (Tok + (option Q + Err)) * W.
  Variable failure : Out -> option Err.
  Variable long_polling : bool.

  (** How a run of the loop looks: failed rounds, each answered by a token and a
      rewind, then one last round. *)
  Inductive last_round (t : Tok) : list (action Out Err Tok) -> ended Out Err -> Out -> Prop :=
  | lr_success o : failure o = None ->
      last_round t (pause t ++ [AAttempt o; ASuccess t]) (Returned o) o
  | lr_success_raises o e : failure o = None ->
      last_round t (pause t ++ [AAttempt o; ASuccess t]) (Threw e) o
  | lr_refused o e back : failure o = Some e ->
      (back = [] \/ exists d, back = [ASleep d] /\ long_polling = true) ->
      last_round t (pause t ++ [AAttempt o; ARefresh t e] ++ back) (Threw e) o
  | lr_refresh_raises o e e' : failure o = Some e ->
      last_round t (pause t ++ [AAttempt o; ARefresh t e]) (Threw e') o
  | lr_rewind_raises o e e' : failure o = Some e ->
      last_round t (pause t ++ [AAttempt o; ARefresh t e; ARewind]) (Threw e') o.

  (** Tokens of successive rounds come from refreshing the previous one. *)
  Fixpoint linked (t : Tok) (rounds : list (Tok * Out * Err)) (tlast : Tok) : Prop :=
    match rounds with
    | [] => t = tlast
    | (t0, o, e) :: r =>
      t = t0 /\ failure o = Some e /\ exists t' w w', refresh t0 e w = (inl t', w') /\ linked t' r tlast
    end.

End LoopSpec.
