(** Responses on the wire. *)
From Verif Require Import Base Fields_Model HttpBind_Model HttpBind_Spec ResponseWire_Model.
Local Open Scope N_scope.

(** A line for each value of each header, in order. *)
Definition wire_lines (fields : list (text * field)) : list (text * text) :=
  List.concat (map (fun kf => map (fun v => (f_name (snd kf), v)) (f_values (snd kf))) fields).

(** The names an output is read from. *)
Definition asked (ms : list member) (name : text) : Prop :=
  name = lit "content-length" \/ exists m, In m ms /\ m_header m = Some name.
(** Lines that say the same: those lines, or, if nobody asks for headers by prefix, any
    with the same values for the names that are asked for, in whatever case and between
    whatever others. *)
Definition says_same (lower : text -> text) (ms : list member) (lines sent : list (text * text)) : Prop :=
  lines = sent \/
  ((forall m, In m ms -> m_prefix m = None) /\ forall name, asked ms name -> lines_named lower name lines = lines_named lower name sent).

(** The body in chunks of any sizes; the CRT's last one is empty. *)
Inductive brings : transport -> bytes -> Prop :=
| B_crt chunks rest : Forall (fun c => c <> []) chunks -> brings (Crt (chunks ++ [] :: rest)) (List.concat chunks)
| B_aiohttp all : brings (Aiohttp all) all.
