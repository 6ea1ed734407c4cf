(** What an error made from a response is to be. *)
From Verif Require Import Base PyText_Model Fields_Model Shape_Model Shape_Spec Errors_Model.
From Verif Require Import Time_Model.
Local Open Scope Z_scope.

(** ** Integers in text *)

(** Decimal digits, single underscores between them allowed. *)
Inductive digits_text : text -> Z -> Prop :=
| D_one c : (48 <= c <= 57)%N -> digits_text [c] (Z.of_N c - 48)
| D_more t v c : digits_text t v -> (48 <= c <= 57)%N -> digits_text (t ++ [c]) (10 * v + (Z.of_N c - 48))
| D_under t v c : digits_text t v -> (48 <= c <= 57)%N -> digits_text (t ++ [95%N; c]) (10 * v + (Z.of_N c - 48)).
Definition white (t : text) : Prop := forall c, In c t -> is_space c = true.
(** An integer with white space around it. *)
Inductive int_text : text -> Z -> Prop :=
| I_plain a t v b : white a -> white b -> digits_text t v -> int_text (a ++ t ++ b) v
| I_plus a t v b : white a -> white b -> digits_text t v -> int_text (a ++ 43%N :: t ++ b) v
| I_minus a t v b : white a -> white b -> digits_text t v -> int_text (a ++ 45%N :: t ++ b) (- v).

(** ** Fields *)

(** The values of a field; the keys of [fs] are distinct names in lower case. *)
Definition has_values (fs : fields) (name : text) (vs : list text) : Prop :=
  exists f, In (name, f) fs /\ f_values f = vs.
Definition lacks {V} (d : list (text * V)) (name : text) : Prop := ~ In name (map fst d).

(** ** Codes *)

(** The code before a colon, if it has one. *)
Definition before_colon (code b : text) : Prop :=
  ~ In 58%N b /\ (code = b \/ exists r, code = b ++ 58%N :: r).
(** A code denotes an identifier with a name: the code itself if it has a [#], otherwise
    the shape of that name in the namespace. *)
Inductive denotes (code namespace : text) (id name : text) : Prop :=
| Full ns m : before_colon code id -> id_form id ns name m -> denotes code namespace id name
| Short b ns m : before_colon code b -> ~ In 35%N b -> b <> [] -> namespace <> [] ->
    id = namespace ++ [35%N] ++ b -> id_form id ns name m -> denotes code namespace id name.
(** It names nothing. *)
Definition nameless (code namespace : text) : Prop :=
  exists b, before_colon code b /\ ~ In 35%N b /\ (b = [] \/ namespace = []).

(** ** Registries *)

(** The nearest registry with the identifier counts. *)
Inductive registered (id : text) (s : shape) : registry -> Prop :=
| Here types sub : In (id, s) types -> registered id s (Registry types sub)
| Below types r : lacks types id -> registered id s r -> registered id s (Registry types (Some r)).
(** Identifiers are registered once in each. *)
Inductive sound : registry -> Prop :=
| Sound types sub : NoDup (map fst types) -> (forall r, sub = Some r -> sound r) -> sound (Registry types sub).
Definition unknown (reg : registry) (id : text) : Prop := forall s, ~ registered id s reg.

(** The shape for an identifier: the one registered for it; otherwise the one registered
    for the first error of the operation that has its name. *)
Inductive resolves (reg : registry) (errors : list shape_id) (id name : text) (s : shape) : Prop :=
| Direct : registered id s reg -> resolves reg errors id name s
| By_name pre e post : unknown reg id -> errors = pre ++ e :: post -> (forall x, In x pre -> s_name x <> name) ->
    s_name e = name -> registered (s_id e) s reg -> resolves reg errors id name s.

(** ** Responses of restJson1 *)

(** The code in the header: the first value. *)
Definition header_code (fs : fields) (code : text) : Prop :=
  exists r, has_values fs (lit "x-amzn-errortype") (code :: r).
(** The header names no error. *)
Definition header_silent (fs : fields) (namespace : text) : Prop :=
  forall code, header_code fs code -> nameless code namespace.
Definition json_body (fs : fields) : Prop := has_values fs (lit "content-type") [lit "application/json"].
(** The code in the body. *)
Inductive body_code : jdoc -> text -> Prop :=
| B_type m c : In (lit "__type", JString c) m -> body_code (JMap m) c
| B_code m c : lacks m (lit "__type") -> In (lit "code", JString c) m -> body_code (JMap m) c.
Definition proper (d : jdoc) : Prop := forall m, d = JMap m -> NoDup (map fst m).

(** The response names an identifier: in the header, with the namespace of the operation,
    or else in a JSON body, with the namespace of the service. *)
Inductive named (namespace service : text) (fs : fields) (document : result jdoc) (id name : text) : Prop :=
| In_header code : header_code fs code -> denotes code namespace id name -> named namespace service fs document id name
| In_body d code : header_silent fs namespace -> json_body fs -> document = Ok d -> body_code d code ->
    denotes code service id name -> named namespace service fs document id name.
(** It names none, and has no JSON body to look into. *)
Definition anonymous (namespace : text) (fs : fields) : Prop := header_silent fs namespace /\ ~ json_body fs.

(** ** The flags of an error without a shape *)
Record unmodeled (status : Z) (after : option float) (e : call_error) : Prop := {
  u_shape : ce_shape e = None;
  u_client : ce_fault e = Some Client <-> status < 500;
  u_server : ce_fault e = Some Server <-> 500 <= status;
  u_throttling : ce_throttling e = true <-> status = 429;
  u_timeout : ce_timeout e = true <-> status = 408;
  u_safe : ce_safe e = Some true <-> status = 429 \/ status = 408;
  u_unsafe : ce_safe e <> Some false;
  u_after : ce_after e = after }.
(** The modeled error as it was read, with the time to wait if the response gives one. *)
Definition modeled_as (read e : call_error) (after : option float) : Prop :=
  ce_shape e = ce_shape read /\ ce_fault e = ce_fault read /\ ce_safe e = ce_safe read
  /\ ce_throttling e = ce_throttling read /\ ce_timeout e = ce_timeout read
  /\ ce_after e = match after with Some x => Some x | None => ce_after read end.

(** ** Responses of awsQuery *)

(** The name of an element without its namespace. *)
Inductive tag_name : text -> text -> Prop :=
| T_plain t : hd 0%N t <> 123%N -> tag_name t t
| T_qualified ns t : ~ In 125%N ns -> tag_name (123%N :: ns ++ 125%N :: t) t.
Definition is_named (n : text) (x : xml) : Prop := tag_name (x_tag x) n.
(** The first child of that name. *)
Definition first_child (n : text) (x c : xml) : Prop :=
  exists pre post, x_children x = pre ++ c :: post /\ is_named n c /\ (forall y, In y pre -> ~ is_named n y).
(** <ErrorResponse> <Error> <Code> code *)
Definition query_code (x : xml) (code : text) : Prop :=
  is_named (lit "ErrorResponse") x
  /\ exists e c, first_child (lit "Error") x e /\ first_child (lit "Code") e c /\ x_text c = Some code.
(** Tags as a parser gives them. *)
Inductive proper_xml : xml -> Prop :=
| PX t c l : (exists n, tag_name t n) -> (forall y, In y l -> proper_xml y) -> proper_xml (Elem t c l).
(** The shape for a code: the one of the first error of the operation with that code, if it
    is registered, or else the one of that name in the namespace of the service. *)
Inductive query_resolves (reg : registry) (errors : list (shape_id * option text)) (service code : text) (s : shape) : Prop :=
| Q_trait pre i post : errors = pre ++ (i, Some code) :: post -> (forall x, In x pre -> snd x <> Some code) ->
    registered (s_id i) s reg -> query_resolves reg errors service code s
| Q_name : (forall pre i post, errors = pre ++ (i, Some code) :: post -> (forall x, In x pre -> snd x <> Some code) -> unknown reg (s_id i)) ->
    registered (service ++ [35%N] ++ code) s reg -> query_resolves reg errors service code s.
