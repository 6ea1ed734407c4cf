(** Responses of the awsQuery protocol, as trees. *)
From Verif Require Import Base HttpVal_Model Xml_Model Xml_Spec.
From Verif Require Errors_Model HttpBind_Model HttpBind_Spec.
Local Open Scope N_scope.

(** A document without its attributes. *)
Fixpoint strip (x : xml) : Errors_Model.xml :=
  let (n, ch) := x in Errors_Model.Elem (n_tag n) (n_text n) (map strip ch).
(** The body is that document. *)
Definition holds (iterparse : bytes -> list event) (fromstring : bytes -> option Errors_Model.xml) (b : bytes) (x : xml) : Prop :=
  b <> [] /\ iterparse b = events x /\ fromstring b = Some (strip x).

(** The value of a structure whose members are these elements. *)
Definition contents (leaf : schema -> kind -> text -> scalar -> Prop) (shapes : nat -> shape) (def : shape) (ch : list xml) (v : value) : Prop :=
  exists l2 l3, single leaf shapes (d_members def) ch l2 /\ regrouped leaf shapes (d_members def) ch [] ch l3 /\ v = VStruct (gather (l2 ++ l3)).

(** The first element of that name. *)
Definition first_named (name : text) (ch : list xml) (c : xml) : Prop :=
  exists pre post, ch = pre ++ c :: post /\ named name c /\ forall y, In y pre -> ~ named name y.

(** No member is bound to a part of the response. *)
Definition unbound (ms : list HttpBind_Model.member) : Prop :=
  forall m, In m ms -> HttpBind_Spec.placed (HttpBind_Spec.response_places m) HttpBind_Spec.InBody /\
    HttpBind_Model.m_streaming m = false.
