(** The published rules of AWS Signature Version 4, as a service that checks a
    request follows them: from the message it received, not from the code that
    made it.  Encodings are those of Encode_Spec.v, dot segments are removed as in
    RFC 3986, and parameters are read as in Sign_Spec.v. *)
From Verif Require Import Base Encode_Spec Sign_Model SignPath_Spec Sign_Spec.
From Coq Require Import Sorting.Sorted Sorting.Permutation.
Local Open Scope N_scope.

(** A message: names of headers are in lower case. *)
Record message := mkMessage {
  m_method : text; m_scheme : text; m_host : text; m_port : option N; m_path : option text; m_query : option text;
  m_headers : list (text * list text); m_body : bytes }.

Fixpoint between (sep : text) (l : list text) : text :=
  match l with
  | [] => []
  | [x] => x
  | x :: r => x ++ sep ++ between sep r
  end.

(** The order of characters: a text comes before another if it is a proper prefix
    of it, or has the smaller character where they first differ. *)
Definition Before (a b : text) : Prop :=
  exists p, (a = p /\ exists c r, b = p ++ c :: r) \/
            (exists c d r r', a = p ++ c :: r /\ b = p ++ d :: r' /\ c < d).

(** ** The path: without dot segments, percent encoded but for its slashes *)
Definition Path_line (path : option text) (line : text) : Prop :=
  exists n, Dots [] (match path with Some p => p | None => lit "/" end) n /\ Escaped (lit "/") n line.

(** ** The parameters: each read and percent encoded, sorted by name, then value *)
Definition Pieces (sep : N) (s : text) (l : list text) : Prop :=
  l <> [] /\ s = between [sep] l /\ Forall (fun x => ~ In sep x) l.
Definition Not_after (a b : text * text) : Prop :=
  a = b \/ Before (fst a) (fst b) \/ (fst a = fst b /\ Before (snd a) (snd b)).

(** ** The headers *)

(** Blanks at the ends are left out, and those between words are one space. *)
Definition Blank (c : N) : Prop := c = 32 \/ c = 9.
Inductive Split_words : text -> list text -> Prop :=
| SW_end sp : Forall Blank sp -> Split_words sp []
| SW_word sp w rest ws : Forall Blank sp -> w <> [] -> Forall (fun c => ~ Blank c) w ->
    (rest = [] \/ exists c r, rest = c :: r /\ Blank c) -> Split_words rest ws -> Split_words (sp ++ w ++ rest) (w :: ws).
(** A header with one value, or with several between commas. *)
Definition Value (vs : list text) (v : text) : Prop :=
  vs = [v] \/ ((forall x, vs <> [x]) /\ v = between (lit ",") vs).
(** The host as it is sent: the port is left out if it is the scheme's own. *)
Definition own_port (scheme : text) (port : N) : Prop :=
  (scheme = lit "http" /\ port = 80) \/ (scheme = lit "https" /\ port = 443).
Definition Host (m : message) (v : text) : Prop :=
  match m_port m with
  | None => v = m_host m
  | Some port => (own_port (m_scheme m) port /\ v = m_host m) \/
                 (~ own_port (m_scheme m) port /\ exists t, Decimal port t /\ v = m_host m ++ lit ":" ++ t)
  end.
Definition Raw_line (m : message) (n v : text) : Prop :=
  (~ In n UNSIGNED /\ exists vs, In (n, vs) (m_headers m) /\ Value vs v) \/
  (n = lit "host" /\ (forall vs, ~ In (lit "host", vs) (m_headers m)) /\ Host m v).
Definition Lines (m : message) (lines : list (text * text)) : Prop :=
  StronglySorted (fun a b => Before (fst a) (fst b)) lines /\
  forall n t, In (n, t) lines <-> exists v ws, Raw_line m n v /\ Split_words v ws /\ t = between (lit " ") ws.

Section Rules.
  Variables (sha256 : bytes -> bytes) (hmac : bytes -> bytes -> bytes) (utf8_replace : bytes -> text).

  Inductive Params : list text -> list (text * text) -> Prop :=
  | PS_end : Params [] []
  | PS_empty ps l : Params ps l -> Params ([] :: ps) l
  | PS_param p name value k v ps l : p <> [] -> parameter utf8_replace p name value ->
      Escaped [] name k -> Escaped [] value v -> Params ps l -> Params (p :: ps) ((k, v) :: l).
  Definition Query_line (query : option text) (line : text) : Prop :=
    match query with
    | None => line = []
    | Some q => exists parts pairs sorted, Pieces 38 q parts /\ Params parts pairs /\ Permutation pairs sorted /\
        StronglySorted Not_after sorted /\ line = between (lit "&") (map (fun kv => fst kv ++ lit "=" ++ snd kv) sorted)
    end.

  (** The body: its digest, unless it is not signed. *)
  Definition Payload_line (unsigned : bool) (m : message) (line : text) : Prop :=
    if unsigned then line = lit "UNSIGNED-PAYLOAD" else Hex (sha256 (m_body m)) line.

  (** ** The signature of a message, and the names of the headers it covers *)
  Definition Signed (unsigned : bool) (region service date secret : text) (m : message) (names sig : text) : Prop :=
    exists path query lines payload canonical hashed to_sign message_bytes digest k0 day reg svc end_,
      Path_line (m_path m) path /\ Query_line (m_query m) query /\ Lines m lines /\ Payload_line unsigned m payload /\
      names = between (lit ";") (map fst lines) /\
      Utf8 (m_method m ++ [10] ++ path ++ [10] ++ query ++ [10]
            ++ List.concat (map (fun l => fst l ++ lit ":" ++ snd l ++ [10]) lines) ++ [10] ++ names ++ [10] ++ payload) canonical /\
      Hex (sha256 canonical) hashed /\
      to_sign = lit "AWS4-HMAC-SHA256" ++ [10] ++ date ++ [10]
        ++ (firstn 8 date ++ lit "/" ++ region ++ lit "/" ++ service ++ lit "/aws4_request") ++ [10] ++ hashed /\
      Utf8 to_sign message_bytes /\
      Utf8 (lit "AWS4" ++ secret) k0 /\ Utf8 (firstn 8 date) day /\ Utf8 region reg /\ Utf8 service svc /\
      Utf8 (lit "aws4_request") end_ /\
      digest = hmac (hmac (hmac (hmac (hmac k0 day) reg) svc) end_) message_bytes /\ Hex digest sig.
End Rules.

(** ** Where the rules leave no choice *)

(** An absolute path without empty segments; a path that ends in a slash has no
    dot segments either. *)
Definition tidy (path : text) : Prop :=
  exists init last, path = lit "/" ++ between (lit "/") (init ++ [last]) /\
    Forall (fun s => s <> [] /\ ~ In 47 s) init /\ ~ In 47 last /\
    (last = [] -> Forall (fun s => s <> lit "." /\ s <> lit "..") init).
(** Printable ASCII, spaces and tabs. *)
Definition visible (s : text) : Prop := Forall (fun c => c = 9 \/ 32 <= c <= 126) s.
(** Values that can stand in a list without quotes. *)
Definition plain_values (vs : list text) : Prop :=
  Forall visible vs /\ ((forall x, vs <> [x]) -> Forall (fun v => ~ In 44 v /\ ~ In 34 v) vs).
Definition plain_message (m : message) : Prop :=
  (forall path, m_path m = Some path -> tidy path) /\ visible (m_host m) /\
  forall n vs, In (n, vs) (m_headers m) -> ~ In n UNSIGNED -> plain_values vs.

(** The message that a request is sent as: the name of a header in lower case, the
    method in upper case, the bytes of the body. *)
Definition carries (lower upper : text -> text) (r : request) (m : message) : Prop :=
  m_method m = upper (r_method r) /\ m_scheme m = u_scheme (r_dest r) /\ m_host m = u_host (r_dest r) /\
  m_port m = u_port (r_dest r) /\ m_path m = u_path (r_dest r) /\ m_query m = u_query (r_dest r) /\
  (forall n vs, In (n, vs) (m_headers m) <-> header lower (r_fields r) n vs) /\ m_body m = contents (r_body r).
