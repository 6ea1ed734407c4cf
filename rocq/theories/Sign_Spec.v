(** Specification of SigV4 request signing, independent of the order in which the
    code visits headers and parameters. *)
From Verif Require Import Base Utf8_Model PyText_Model PyDict_Model PySort_Model Header_Model Sign_Model.
From Coq Require Import Sorting.Sorted Sorting.Permutation.
Local Open Scope N_scope.

(** ASCII lower case. *)
Definition lower_char (c : N) : N := if (65 <=? c) && (c <=? 90) then c + 32 else c.
Definition ascii (s : text) : Prop := Forall (fun c => c < 128) s.
Definition lowers_ascii (lower : text -> text) : Prop := forall s, ascii s -> lower s = map lower_char s.

(** The headers that proxies may change, and the signature itself. *)
Definition UNSIGNED : list text :=
  [lit "accept"; lit "accept-encoding"; lit "authorization"; lit "connection"; lit "expect"; lit "user-agent";
   lit "x-amzn-trace-id"].

(** ** Percent encoding, RFC 3986 section 2.1 *)

(** The digit with value [v]. *)
Definition hex_digit (c v : N) : Prop :=
  (48 <= c <= 57 /\ c = v + 48) \/ (65 <= c <= 70 /\ c = v + 55) \/ (97 <= c <= 102 /\ c = v + 87).
(** The characters after a percent sign are no two hex digits. *)
Definition no_escape (r : text) : Prop := ~ exists a b r' x y, r = a :: b :: r' /\ hex_digit a x /\ hex_digit b y.
Inductive Octets : text -> bytes -> Prop :=
| O_end : Octets [] []
| O_escape a b x y r bs : hex_digit a x -> hex_digit b y -> Octets r bs -> Octets (37 :: a :: b :: r) (16 * x + y :: bs)
| O_char c r bs : c <> 37 \/ no_escape r -> Octets r bs -> Octets (c :: r) (c :: bs).

Section Spec.
  Variables (lower upper : text -> text) (sha256 : bytes -> bytes) (hmac : bytes -> bytes -> bytes)
    (utf8_replace : bytes -> text).

  (** What the collection API builds: one field per normalised name, under it. *)
  Definition wf_fields (fs : fields) : Prop :=
    NoDup (map fst fs) /\ forall k f, In (k, f) fs -> k = lower (f_name f).

  (** The request has a header of this (lower case) name with these values. *)
  Definition header (fs : fields) (name : text) (values : list text) : Prop :=
    exists k f, In (k, f) fs /\ lower (f_name f) = name /\ f_values f = values.
  Definition has_header (fs : fields) (name : text) : Prop := exists vs, header fs name vs.

  (** Two header collections with the same headers, whatever their order, the case
      of their names and the headers that are never signed. *)
  Definition same_headers (f g : fields) : Prop :=
    forall n vs, ~ In n UNSIGNED -> (header f n vs <-> header g n vs).

  (** The same parameters in another order. *)
  Definition same_query (a b : option text) : Prop :=
    match a, b with
    | Some q, Some q' => Permutation (split_on 38 q) (split_on 38 q')
    | None, None => True
    | _, _ => False
    end.
  Definition same_target (a b : uri) : Prop :=
    u_scheme a = u_scheme b /\ u_username a = u_username b /\ u_password a = u_password b /\
    u_host a = u_host b /\ u_port a = u_port b /\ u_path a = u_path b /\ same_query (u_query a) (u_query b).

  (** The same bytes, however they are delivered. *)
  Definition streamed (b : body) : Prop := match b with Seek _ _ | Once _ | Many _ => True | _ => False end.
  Definition same_body (a b : body) : Prop := a = b \/ (streamed a /\ streamed b /\ contents a = contents b).

  Definition same_request (a b : request) : Prop :=
    same_target (r_dest a) (r_dest b) /\ upper (r_method a) = upper (r_method b) /\
    same_body (r_body a) (r_body b) /\ same_headers (r_fields a) (r_fields b).

  (** The header lines of the canonical request: every signable header of the
      request once, in strict order of its lower case name, and the host. *)
  Definition before (a b : text * text) : Prop := text_leb (fst a) (fst b) = true /\ fst a <> fst b.
  Definition host_line (u : uri) (fs : fields) (n v : text) : Prop :=
    n = lit "host" /\ ~ has_header fs (lit "host") /\ v = normalize_host_field u.
  Definition signed_lines (u : uri) (fs : fields) (lines : list (text * text)) : Prop :=
    StronglySorted before lines /\
    forall n v, In (n, v) lines <->
      (~ In n UNSIGNED /\ exists vs, header fs n vs /\ v = as_string vs) \/ host_line u fs n v.

  (** What a text with escapes stands for: its ASCII stretches are octets of UTF-8. *)
  Inductive Decoded : text -> text -> Prop :=
  | De_end : Decoded [] []
  | De_other c s t : 128 <= c -> Decoded s t -> Decoded (c :: s) (c :: t)
  | De_ascii a bs s t : a <> [] -> ascii a -> (s = [] \/ exists c s', s = c :: s' /\ 128 <= c) ->
      Octets a bs -> Decoded s t -> Decoded (a ++ s) (utf8_replace bs ++ t).
  (** A name or value of a form: a plus sign is a space. *)
  Definition stands_for (s t : text) : Prop :=
    exists u, u = map (fun c => if c =? 43 then 32 else c) s /\ ((~ In 37 u /\ t = u) \/ (In 37 u /\ Decoded u t)).
  (** [name=value], or a name alone with the empty value. *)
  Definition parameter (part name value : text) : Prop :=
    (exists a b, part = a ++ [61] ++ b /\ ~ In 61 a /\ stands_for a name /\ stands_for b value)
    \/ (~ In 61 part /\ stands_for part name /\ value = []).

  (** The parameters: each read, percent encoded, and sorted. *)
  Definition query_line (query : option text) (line : text) : Prop :=
    match query with
    | None => line = []
    | Some q => exists pairs, StronglySorted (fun a b => pair_leb a b = true) pairs /\
        line = join [38] (map (fun kv => fst kv ++ [61] ++ snd kv) pairs) /\
        exists parts, Permutation parts pairs /\
          Forall2 (fun p kv => exists name value, parameter p name value /\
                     urlquote [] name = Ok (fst kv) /\ urlquote [] value = Ok (snd kv))
            (filter (fun p => negb (text_eqb p [])) (split_on 38 q)) parts
    end.

  Definition Canonical (p : sigprops) (r : request) (fs : fields) (payload canonical : text) : Prop :=
    exists path query lines,
      format_canonical_path (u_path (r_dest r)) p = Ok path /\
      query_line (u_query (r_dest r)) query /\
      signed_lines (r_dest r) fs lines /\
      canonical = upper (r_method r) ++ [10] ++ path ++ [10] ++ query ++ [10] ++
        List.concat (map (fun kv => fst kv ++ [58] ++ join [32] (words (snd kv)) ++ [10]) lines) ++ [10] ++
        join [59] (map fst lines) ++ [10] ++ payload.

  (** The string to sign: the algorithm, the date, the scope and the digest of the
      canonical request, a line each. *)
  Definition StringToSign (region service date canonical sts : text) : Prop :=
    exists bs, utf8_encode canonical = Ok bs /\
      sts = lit "AWS4-HMAC-SHA256" ++ [10] ++ date ++ [10] ++
        (firstn 8 date ++ lit "/" ++ region ++ lit "/" ++ service ++ lit "/aws4_request") ++ [10] ++ EventIO_Model.hexlify (sha256 bs).
  (** The signature: a chain of keys over day, region, service and "aws4_request". *)
  Definition Signature (secret region service date sts sig : text) : Prop :=
    exists k0 day reg svc end_ msg,
      utf8_encode (lit "AWS4" ++ secret) = Ok k0 /\ utf8_encode (firstn 8 date) = Ok day /\ utf8_encode region = Ok reg /\
      utf8_encode service = Ok svc /\ utf8_encode (lit "aws4_request") = Ok end_ /\ utf8_encode sts = Ok msg /\
      sig = EventIO_Model.hexlify (hmac (hmac (hmac (hmac (hmac k0 day) reg) svc) end_) msg).
End Spec.
