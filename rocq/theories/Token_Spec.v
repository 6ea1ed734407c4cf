(** What users of the token cache rely on, of what can be seen. *)
From Verif Require Import Base Token_Model.

(** The token fetched last. *)
Definition latest (l : list obs) : option token :=
  fold_left (fun t o => match o with Fetched _ t' => Some t' | _ => t end) l None.

(** The caller whose request is in progress after [l]. *)
Inductive requesting : list obs -> caller -> Prop :=
| requesting_now l i t : requesting (l ++ [Sent i t]) i
| requesting_still l i o :
    requesting l i ->
    (forall t, o <> Fetched i t) -> (forall e, o <> Failed i e) -> o <> Cancelled i ->
    requesting (l ++ [o]) i.

(** The caller is in a call after [l]. *)
Inductive calling : list obs -> caller -> Prop :=
| calling_now l i : calling (l ++ [Called i]) i
| calling_still l i o :
    calling l i ->
    (forall t c, o <> Returned i t c) -> (forall e, o <> Raised i e) -> o <> Cancelled i ->
    calling (l ++ [o]) i.
