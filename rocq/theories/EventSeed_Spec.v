(** The signature in an Authorization header. *)
From Verif Require Import Base.
Local Open Scope N_scope.

(** The value ends with the signature, in hexadecimal digits, after its name. *)
Definition carries (value : text) (signature : text) : Prop :=
  (exists front, value = front ++ lit ", Signature=" ++ signature) /\
  Forall (fun c => 48 <= c <= 57 \/ 97 <= c <= 102) signature.
