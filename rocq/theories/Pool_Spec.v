(** Origins of requests and of connections. *)
From Verif Require Import Base Pool_Model.
Local Open Scope Z_scope.

(** The port a URI means. *)
Inductive port_of : url -> Z -> Prop :=
| P_explicit u p : u_port u = Some p -> port_of u p
| P_http u : u_port u = None -> u_scheme u = lit "http" -> port_of u 80
| P_https u : u_port u = None -> u_scheme u = lit "https" -> port_of u 443.
(** A connection to the origin of a URI: its host, its port, and TLS for that host just
    for https. *)
Record leads_to (k : connection) (u : url) : Prop := {
  l_host : k_host k = u_host u;
  l_port : port_of u (k_port k);
  l_tls : (u_scheme u = lit "http" /\ k_tls k = None) \/ (u_scheme u = lit "https" /\ k_tls k = Some (u_host u)) }.
