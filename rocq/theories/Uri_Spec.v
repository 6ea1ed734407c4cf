(** Hosts by RFC 3986, section 3.2.2, and the parts of a URI by its appendix B. *)
From Verif Require Import Base PyText_Model Http_Model.
Local Open Scope N_scope.

Definition letter (c : N) : Prop := (65 <= c <= 90) \/ (97 <= c <= 122).
Definition a_digit (c : N) : Prop := 48 <= c <= 57.
Definition unreserved (c : N) : Prop := letter c \/ a_digit c \/ In c (lit "-._~").
Definition sub_delim (c : N) : Prop := In c (lit "!$&'()*+,;=").
Definition hexdig (c : N) : Prop := a_digit c \/ (65 <= c <= 70) \/ (97 <= c <= 102).

(** Characters of a set, and percent-encoded ones. *)
Definition encoded (ok : N -> Prop) (s : text) : Prop :=
  exists parts, s = List.concat parts /\
    Forall (fun p => (exists c, p = [c] /\ ok c) \/ (exists a b, p = [37; a; b] /\ hexdig a /\ hexdig b)) parts.
Definition reg_name (s : text) : Prop := encoded (fun c => unreserved c \/ sub_delim c) s.

(** Numbers of up to three digits (RFC 3986 asks for numbers below 256). *)
Definition short_number (s : text) : Prop := (1 <= List.length s <= 3)%nat /\ Forall a_digit s.
Definition octet (s : text) : Prop :=
  exists n, n < 256 /\ s = (if n <? 10 then [48 + n] else if n <? 100 then [48 + n / 10; 48 + n mod 10]
                            else [48 + n / 100; 48 + n / 10 mod 10; 48 + n mod 10]).
Definition dotted (number : text -> Prop) (s : text) : Prop :=
  exists a b c d, number a /\ number b /\ number c /\ number d /\ s = a ++ lit "." ++ b ++ lit "." ++ c ++ lit "." ++ d.

(** IPv6: groups of up to four hexadecimal digits; an IPv4 address may stand for
    the last two.  Eight of them, or fewer with one [::] for those left out. *)
Definition h16 (s : text) : Prop := (1 <= List.length s <= 4)%nat /\ Forall hexdig s.
Definition groups (number : text -> Prop) (gs : list text) (n : nat) : Prop :=
  (Forall h16 gs /\ n = List.length gs)
  \/ (exists hs v4, gs = hs ++ [v4] /\ Forall h16 hs /\ dotted number v4 /\ n = (List.length hs + 2)%nat).
Definition ipv6 (number : text -> Prop) (s : text) : Prop :=
  (exists gs, groups number gs 8 /\ s = join (lit ":") gs)
  \/ (exists before after n, Forall h16 before /\ groups number after n /\ (List.length before + n <= 7)%nat
        /\ s = join (lit ":") before ++ lit "::" ++ join (lit ":") after).
(** A zone (RFC 4007, RFC 6874) after one of the marks. *)
Definition zone (marks : list text) (s : text) : Prop :=
  s = [] \/ (exists m z, In m marks /\ z <> [] /\ encoded unreserved z /\ s = m ++ z).
Definition ipv6_zone (number : text -> Prop) (marks : list text) (s : text) : Prop :=
  exists a z, ipv6 number a /\ zone marks z /\ s = a ++ z.
Definition ip_future (v : list N) (s : text) : Prop :=
  exists x hs cs, In x v /\ hs <> [] /\ Forall hexdig hs /\ cs <> []
    /\ Forall (fun c => unreserved c \/ sub_delim c \/ c = 58) cs /\ s = [x] ++ hs ++ lit "." ++ cs.
Definition ip_literal (number : text -> Prop) (marks : list text) (v : list N) (s : text) : Prop :=
  exists a, (ipv6_zone number marks a \/ ip_future v a) /\ s = lit "[" ++ a ++ lit "]".

(** The hosts of RFC 3986, with the zones of RFC 6874. *)
Definition rfc_host (s : text) : Prop :=
  reg_name s \/ dotted octet s \/ ip_literal octet [lit "%25"] (lit "vV") s.
(** The code's: IPv4 addresses of any short numbers, zones after a bare percent
    sign too, [v] in lower case. *)
Definition zone_marks : list text := [lit "%25"; lit "%"].
Definition code_host (s : text) : Prop := reg_name s \/ ip_literal short_number zone_marks (lit "v") s.

(** ** The parts of a URI *)

(** The text before the first of some characters, and the rest. *)
Fixpoint upto_any (stop : text) (s : text) : text * text :=
  match s with
  | [] => ([], [])
  | c :: r => if existsb (N.eqb c) stop then ([], s) else let (a, b) := upto_any stop r in (c :: a, b)
  end.
Record parts := mkParts { scheme_of : option text; authority_of : option text; path_of : text; query_of : option text; fragment_of : option text }.
(** Appendix B: a scheme before a colon, an authority after two slashes, a path, a
    query after a question mark, a fragment after a number sign. *)
Definition parts_of (s : text) : parts :=
  let '(sch, s) := match upto_any (lit ":/?#") s with
                   | (c :: n, 58 :: r) => (Some (c :: n), r)
                   | _ => (None, s)
                   end in
  let '(auth, s) := match s with
                    | 47 :: 47 :: r => let (a, r) := upto_any (lit "/?#") r in (Some a, r)
                    | _ => (None, s)
                    end in
  let '(path, s) := upto_any (lit "?#") s in
  let '(query, s) := match s with 63 :: r => let (q, r) := upto_any (lit "#") r in (Some q, r) | _ => (None, s) end in
  mkParts sch auth path query (match s with 35 :: r => Some r | _ => None end).
(** An authority: [[userinfo "@"] host [":" port]] (section 3.2); [host] is one of
    the hosts above, the port is digits. *)
Definition authority (s : text) (userinfo : option text) (host : text) (port : option text) : Prop :=
  s = match userinfo with Some x => x ++ lit "@" | None => [] end ++ host ++ match port with Some p => lit ":" ++ p | None => [] end
  /\ match userinfo with Some x => encoded (fun c => unreserved c \/ sub_delim c \/ c = 58) x | None => True end
  /\ code_host host
  /\ match port with Some p => Forall a_digit p | None => True end.
(** The parts a URI can be made of: a scheme, a user and a password without
    characters that must be encoded, a host, a path, a query and a fragment. *)
Definition well_formed (u : uri) : Prop :=
  u_scheme u <> [] /\ (forall c, In c (u_scheme u) -> ~ In c (lit ":/?#"))
  /\ (forall n, u_username u = Some n -> encoded (fun c => unreserved c \/ sub_delim c) n)
  /\ (forall p, u_password u = Some p -> encoded (fun c => unreserved c \/ sub_delim c \/ c = 58) p)
  /\ u_host u <> [] /\ ~ In 10 (u_host u)
  /\ (forall p c, u_path u = Some p -> In c p -> ~ In c (lit "?#"))
  /\ (forall q c, u_query u = Some q -> In c q -> c <> 35).
(** What stands for the host: an address without brackets gets them. *)
Definition host_written (host s : text) : Prop :=
  (ipv6_zone short_number zone_marks host /\ s = lit "[" ++ host ++ lit "]") \/ (code_host host /\ s = host).
Definition userinfo_written (user password : option text) : option text :=
  match user with
  | None => None
  | Some n => Some (n ++ match password with Some p => lit ":" ++ p | None => [] end)
  end.
(** An absolute path; parts that are present and not empty. *)
Definition path_written (p : option text) : text :=
  match p with Some (47 :: r) => 47 :: r | Some (c :: r) => 47 :: c :: r | _ => [] end.
Definition part_written (p : option text) : option text := match p with Some (c :: r) => Some (c :: r) | _ => None end.

(** ** Endpoints given as text *)
Definition down (c : N) : N := if (65 <=? c) && (c <=? 90) then c + 32 else c.
Definition scheme_name (s : text) : Prop :=
  exists c r, s = c :: r /\ letter c /\ Forall (fun d => letter d \/ a_digit d \/ In d (lit "+-.")) r.
(** The host without brackets; letters before its first percent sign in lower case. *)
Definition host_read (h s : text) : Prop :=
  exists b x y, (h = lit "[" ++ b ++ lit "]" \/ (h = b /\ ~ In 91 b)) /\ b = x ++ y /\ ~ In 37 x /\ (y = [] \/ exists z, y = 37 :: z) /\ s = map down x ++ y.
Definition number_of (s : text) : N := fold_left (fun n c => 10 * n + (c - 48)) s 0.
Definition port_read (p : option text) : option N := match p with Some (c :: r) => Some (number_of (c :: r)) | _ => None end.
