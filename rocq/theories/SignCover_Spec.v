(** Specification of what a request signature covers. *)
From Verif Require Import Base Utf8_Model PyText_Model Sign_Model Sign_Spec.
From Coq Require Import Sorting.Permutation.
Local Open Scope N_scope.

(** The words of a text, between stretches of white space. *)
Inductive Words : text -> list text -> Prop :=
| W_end sp : Forall (fun c => is_space c = true) sp -> Words sp []
| W_word sp w rest ws :
    Forall (fun c => is_space c = true) sp -> w <> [] -> Forall (fun c => is_space c = false) w ->
    (rest = [] \/ exists c r, rest = c :: r /\ is_space c = true) ->
    Words rest ws -> Words (sp ++ w ++ rest) (w :: ws).

Section Cover.
  Variables (lower upper : text -> text) (sha256 : bytes -> bytes) (hmac : bytes -> bytes -> bytes)
    (utf8_replace : bytes -> text).

  (** A request that HTTP can carry: no line feed in the method, no line feed and
      no colon in the name of a header, and no line feed in a path that is signed
      as it is. *)
  Definition plain (p : sigprops) (r : request) : Prop :=
    ~ In 10 (upper (r_method r)) /\
    (forall n vs, header lower (r_fields r) n vs -> ~ In 10 n /\ ~ In 58 n) /\
    (sp_encode_path p = Some false -> forall path, u_path (r_dest r) = Some path -> ~ In 10 path).

  (** The parameters of a query, names and values decoded. *)
  Definition parameters (query : option text) (ps : list (text * text)) : Prop :=
    match query with
    | None => ps = []
    | Some q => Forall2 (fun part nv => parameter utf8_replace part (fst nv) (snd nv))
                  (filter (fun p => negb (text_eqb p [])) (split_on 38 q)) ps
    end.
  Definition same_parameters (q q' : option text) : Prop :=
    exists ps ps', parameters q ps /\ parameters q' ps' /\ Permutation ps ps'.

  (** The value of a header that is signed, or of the host line. *)
  Definition signed_value (u : uri) (fs : fields) (n v : text) : Prop :=
    (~ In n UNSIGNED /\ exists vs, header lower fs n vs /\ v = as_string vs) \/ host_line lower u fs n v.
  (** The same signed headers, and their values have the same words. *)
  Definition same_values (r r' : request) : Prop :=
    forall n ws, (exists v, signed_value (r_dest r) (r_fields r) n v /\ Words v ws) <->
                 (exists v, signed_value (r_dest r') (r_fields r') n v /\ Words v ws).

  (** The same path, once normalised. *)
  Definition same_path (p : sigprops) (a b : option text) : Prop :=
    let slashes := get_or true (sp_encode_path p) in
    remove_dot_segments (get_or (lit "/") a) slashes = remove_dot_segments (get_or (lit "/") b) slashes.

  (** Two requests that say the same in all that a signature covers. *)
  Definition agree (p : sigprops) (r r' : request) : Prop :=
    upper (r_method r) = upper (r_method r') /\
    same_path p (u_path (r_dest r)) (u_path (r_dest r')) /\
    same_parameters (u_query (r_dest r)) (u_query (r_dest r')) /\
    same_values r r'.
  (** The digests of their bodies are the same. *)
  Definition same_digest (p : sigprops) (r r' : request) : Prop :=
    streamed (r_body r) -> streamed (r_body r') -> sp_payload_signing p <> Some false ->
    sha256 (contents (r_body r)) = sha256 (contents (r_body r')).

  (** The two texts of a signed request that are hashed: its canonical request, and
      the string to sign. *)
  Definition hashed (p : sigprops) (date : text) (s : request) (canonical to_sign : bytes) : Prop :=
    exists payload c sts, Canonical lower upper utf8_replace p s (r_fields s) payload c /\
      utf8_encode c = Ok canonical /\
      StringToSign sha256 (sp_region p) (sp_service p) date c sts /\ utf8_encode sts = Ok to_sign.
  (** The key of a day, region and service. *)
  Definition signing_key (secret : text) (p : sigprops) (date : text) (key : bytes) : Prop :=
    exists k0 day reg svc, utf8_encode (lit "AWS4" ++ secret) = Ok k0 /\ utf8_encode (firstn 8 date) = Ok day /\
      utf8_encode (sp_region p) = Ok reg /\ utf8_encode (sp_service p) = Ok svc /\
      key = hmac (hmac (hmac (hmac k0 day) reg) svc) (lit "aws4_request").
End Cover.
