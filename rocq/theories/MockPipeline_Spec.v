(** What a transport saw of a call, in order: the requests and how they were answered. *)
From Verif Require Import Base Client_Model Client_Spec.
Fixpoint transmitted {S} (es : list (event S)) : list (Req S * (Resp S + Exc S)) :=
  match es with
  | [] => []
  | EvSend r x :: rest => (r, x) :: transmitted rest
  | _ :: rest => transmitted rest
  end.
