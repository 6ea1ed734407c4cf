(** What a service receives of an operation's input. *)
From Verif Require Import Base Utf8_Model PyText_Model PyDict_Model Fields_Model Http_Model Http_Spec HttpVal_Model HttpVal_Spec HttpBind_Model HttpBind_Spec.
From Verif Require PyDecimal_Model Transport_Model Transport_Spec.
Local Open Scope N_scope.

(** The path of an endpoint that the paths of operations are put behind: it starts with a
    slash and one slash at its end makes no difference. *)
Definition without_last_slash (p : text) : text := match rev p with c :: r => if c =? 47 then rev r else p | [] => [] end.
Definition endpoint_base (p : option text) : text :=
  match p with None | Some [] => [] | Some (c :: r) => (if c =? 47 then [] else [47]) ++ without_last_slash (c :: r) end.
(** The host, as the target of a connection is written (RFC 9110, section 7.2). *)
Definition plain_host (host : text) (port : option N) (v : text) : Prop :=
  v = host ++ match port with Some p => 58 :: PySort_Model.dec p | None => [] end.

Section Spec.
  Variable pads_year : bool.
  Variable repr : Time_Model.float -> text.
  Variable lower : text -> text.
  (** The input: its schema and its values. *)
  Variable ms : list member.
  Variable vals : list (nat * value).

  (** Floating point numbers of the path: zero has no exponent. *)
  Definition plain_zeros : Prop := forall m d, set_at request_places ms vals AtPath m (VOne (HFloat (FFin d))) ->
    PyDecimal_Model.d_coeff d = 0 -> PyDecimal_Model.d_exp d = 0%Z.
  (** A label of the path, percent-decoded, is the text of the member of its name. *)
  Definition label_says (n label : text) : Prop :=
    exists m s t, set_at request_places ms vals AtPath m (VOne s) /\ m_name m = n /\ query_text pads_year repr (m_leaf m) s = Ok t /\ decode label = Some t.
  (** A segment of the path: what the pattern has there, or the value of the label. *)
  Definition segment_says (seg : list piece) (t : text) : Prop :=
    match seg with
    | [Lit l] => t = l
    | [Label n] => label_says n t
    | _ => False
    end.
  (** The parameters of endpoint, operation and members, in order. *)
  Definition all_params (endpoint operation : list (text * option text)) (params : list (text * text)) : list (text * option text) :=
    endpoint ++ operation ++ map (fun kv => (fst kv, Some (snd kv))) params.
  Definition or_empty (o : option text) : text := match o with Some s => s | None => [] end.

  (** The lines that come from the members and describe the body. *)
  Definition described (lines : list (text * text)) (ct : option text) (cl : option N) : list (text * text) :=
    lines ++ if_some (fun t => (lit "content-type", t)) ct ++ if_some (fun n => (lit "content-length", PySort_Model.dec n)) cl.
End Spec.

(** The bytes of a body: those in memory, those of the input's stream, those of the events. *)
Definition body_says (streams : N -> Transport_Model.body) (events : Transport_Model.body) (b : body) : bytes :=
  match b with
  | BBytes bs => bs
  | BStream s => Transport_Spec.content (streams s)
  | BEvents => Transport_Spec.content events
  end.
(** A source that can be iterated again from its start. *)
Definition starts_again (b : Transport_Model.body) : Prop := Transport_Spec.restarting b \/ exists c, b = Transport_Model.BRestart c.
Definition body_starts_again (streams : N -> Transport_Model.body) (events : Transport_Model.body) (b : body) : Prop :=
  match b with BBytes _ => False | BStream s => starts_again (streams s) | BEvents => starts_again events end.
(** Patterns without a question mark. *)
Definition no_mark (p : piece) : Prop := match p with Lit t => ~ In 63 t | _ => True end.
