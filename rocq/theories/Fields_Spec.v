(** What a header collection should hold, as a function of the history of the
    program alone.  A collection is described by the list of its changes, the
    latest first. *)
From Verif Require Import Base Fields_Model.

Inductive change :=
| Put (k : text) (r : ref)      (* assigned *)
| PutNew (k : text) (r : ref)   (* merged in: only matters if the name is not there *)
| Drop (k : text).              (* deleted *)

(** The field found under a (case folded) name: the last assignment wins. *)
Fixpoint lookup (h : list change) (k : text) : option ref :=
  match h with
  | [] => None
  | Put k' r :: h' => if text_eqb k k' then Some r else lookup h' k
  | PutNew k' r :: h' =>
    match lookup h' k with
    | Some x => Some x
    | None => if text_eqb k k' then Some r else None
    end
  | Drop k' :: h' => if text_eqb k k' then None else lookup h' k
  end.

(** The order of the names: first insertion, since the last deletion. *)
Fixpoint order (h : list change) : list text :=
  match h with
  | [] => []
  | Put k _ :: h' | PutNew k _ :: h' => if mem_text k (order h') then order h' else order h' ++ [k]
  | Drop k :: h' => filter (fun x => negb (text_eqb k x)) (order h')
  end.

Section Spec.
  Variable lower : text -> text.

  (** Field names never change after construction. *)
  Record history := mkHistory { h_names : list text; h_cols : list (list change) }.
  Definition no_history : history := mkHistory [] [].

  Definition h_name (hs : history) (r : ref) : text := nth r (h_names hs) [].
  Definition h_changes (hs : history) (c : ref) : list change := nth c (h_cols hs) [].
  (** The fields of a collection, in order. *)
  Definition h_fields (hs : history) (c : ref) : list (option ref) :=
    map (lookup (h_changes hs c)) (order (h_changes hs c)).
  Definition record (hs : history) (c : ref) (new : list change) : history :=
    mkHistory (h_names hs) (update c (new ++ h_changes hs c) (h_cols hs)).

  Definition h_step (o : op) (hs : history) : history :=
    match o with
    | ONewField n _ _ => mkHistory (h_names hs ++ [n]) (h_cols hs)
    | ONewFields rs =>
      let ks := map (fun r => lower (h_name hs r)) rs in
      if has_dup ks then hs   (* rejected *)
      else mkHistory (h_names hs)
             (h_cols hs ++ [rev (map (fun r => Put (lower (h_name hs r)) r) rs)])
    | OSetItem c n r =>
      if text_eqb (lower n) (lower (h_name hs r)) then record hs c [Put (lower n) r]
      else hs                 (* rejected *)
    | OSetField c r => record hs c [Put (lower (h_name hs r)) r]
    | ODelItem c n => record hs c [Drop (lower n)]
    | OExtend c d =>
      record hs c
        (rev (flat_map (fun o => match o with
                                 | Some r => [PutNew (lower (h_name hs r)) r]
                                 | None => []
                                 end) (h_fields hs d)))
    | OAdd _ _ | OSetValues _ _ | ORemove _ _ => hs
    end.
  Definition history_of (ops : list op) : history := fold_left (fun hs o => h_step o hs) ops no_history.
End Spec.

(** The values of a field, as the API shows them. *)
Definition values_of (lower : text -> text) (st : state) (c : ref) (name : text) : option (list text) :=
  match get_item lower c name st with
  | Some r => match deref st r with Some f => Some (f_values f) | None => None end
  | None => None
  end.

(** Two collections without a common [Field] object. *)
Definition unshared (st : state) (c d : ref) : Prop :=
  forall r, In r (iterate c st) -> In r (iterate d st) -> False.
