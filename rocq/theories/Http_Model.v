(** Model of the request target: query strings, path patterns, endpoint
    application, API key signing and the user agent. *)
From Verif Require Import Base Utf8_Model PyText_Model PyDict_Model Fields_Model.
Local Open Scope N_scope.

Definition AMP : N := 38.
Definition EQUALS : N := 61.
Definition SLASH : N := 47.

(** * Query strings
    smithy_http/utils.py 109-125, [join_query_params]. *)
Definition render_param (param : text * option text) : result text :=
  match snd param with
  | None => urlquote [] (fst param)
  | Some v => do k <- urlquote [] (fst param); do w <- urlquote [] v; Ok (k ++ [EQUALS] ++ w)
  end.
Fixpoint join_query_params (params : list (text * option text)) (query : text) : result text :=
  match params with
  | [] => Ok query
  | param :: rest =>
    let query1 := match query with [] => [] | _ => query ++ [AMP] end in
    do p <- render_param param;
    join_query_params rest (query1 ++ p)
  end.

(** * Path patterns
    smithy_core/types.py 185-221, [PathPattern].  [str.format] is modelled for
    replacement fields that are plain names ([{name}]) and for doubled braces;
    the other forms (conversions, format specs, attribute and item access) give
    [NotImplementedErr], an exception the code never raises itself. *)
Section Pattern.
  (** The regular expression class [\w] above ASCII. *)
  Variable uni_word : N -> bool.
  Definition is_word (c : N) : bool :=
    if c <? 128 then
      ((48 <=? c) && (c <=? 57)) || ((65 <=? c) && (c <=? 90)) || (c =? 95) || ((97 <=? c) && (c <=? 122))
    else uni_word c.

  Fixpoint take_word (s : text) : text * text :=
    match s with
    | [] => ([], [])
    | c :: r => if is_word c then let (w, t) := take_word r in (c :: w, t) else ([], s)
    end.

  (** types.py 28, [_GREEDY_LABEL_RE.findall(pattern)] for the expression
      [\{(\w+)\+\}]. *)
  Fixpoint greedy_labels (s : text) : list text :=
    match s with
    | [] => []
    | c :: r =>
      if c =? 123 then
        match take_word r with
        | ((_ :: _) as w, 43 :: 125 :: _) => w :: greedy_labels r
        | _ => greedy_labels r
        end
      else greedy_labels r
    end.

  (** [pattern.replace("+}", "}")]. *)
  Fixpoint drop_plus (s : text) : text :=
    match s with
    | [] => []
    | c :: r =>
      if c =? 43 then
        match r with
        | d :: r' => if d =? 125 then 125 :: drop_plus r' else c :: drop_plus r
        | [] => [c]
        end
      else c :: drop_plus r
    end.

  Definition is_digit (c : N) : bool := (48 <=? c) && (c <=? 57).

  (** The value of the replacement field [name]. *)
  Definition field_value (kwargs : list (text * text)) (name : text) : result text :=
    if existsb (fun c => (c =? 33) || (c =? 58) || (c =? 46) || (c =? 91) || (c =? 123)) name
    then Err NotImplementedErr
    else if forallb is_digit name then Err IndexError      (* positional *)
    else match dict_get name kwargs with
         | Some v => Ok v
         | None => Err KeyError
         end.

  (** [s.format( **kwargs )]. [name] collects the replacement field that is being
      read, if any. *)
  Fixpoint str_format (kwargs : list (text * text)) (name : option text) (s : text) : result text :=
    match name, s with
    | None, [] => Ok []
    | Some _, [] => Err ValueError                        (* expected '}' *)
    | None, c :: r =>
      if c =? 123 then
        match r with
        | d :: r' => if d =? 123 then do t <- str_format kwargs None r'; Ok (123 :: t)
                     else str_format kwargs (Some []) r
        | [] => Err ValueError
        end
      else if c =? 125 then
        match r with
        | d :: r' => if d =? 125 then do t <- str_format kwargs None r'; Ok (125 :: t)
                     else Err ValueError
        | [] => Err ValueError
        end
      else do t <- str_format kwargs None r; Ok (c :: t)
    | Some n, c :: r =>
      if c =? 125 then
        do v <- field_value kwargs n; do t <- str_format kwargs None r; Ok (v ++ t)
      else str_format kwargs (Some (n ++ [c])) r
    end.

  (** types.py 205-220, [PathPattern.format]. *)
  Definition path_format (pattern : text) (kwargs : list (text * text)) : result text :=
    if existsb (fun kv => has SLASH (snd kv) && negb (mem_text (fst kv) (greedy_labels pattern))) kwargs
    then Err ValueError
    else
      do r <- str_format kwargs None (drop_plus pattern);
      if has_sub [SLASH; SLASH] r then Err ValueError else Ok r.

  (** smithy_http/serializers.py 681-687, [HTTPPathSerializer.write_string]: the
      label value that is stored ([urlquote]'s default [safe] is ["/"]). *)
  Definition label_value (pattern : text) (key : text) (value : text) : result text :=
    if mem_text key (greedy_labels pattern) then urlquote [SLASH] value else urlquote [] value.
  (** Serializing a list of string labels and formatting the path, 640-651 and
      681-687. *)
  Fixpoint label_values (pattern : text) (labels : list (text * text)) (acc : list (text * text))
      : result (list (text * text)) :=
    match labels with
    | [] => Ok acc
    | (k, v) :: rest => do q <- label_value pattern k v; label_values pattern rest (dict_set k q acc)
    end.
  Definition serialize_path (pattern : text) (labels : list (text * text)) : result text :=
    do kwargs <- label_values pattern labels [];
    path_format pattern kwargs.

  (** serializers.py 731-761, [HostPrefixSerializer]: [write_string] also stores
      the value, quoted with [safe="."], and [host_prefix] formats the pattern. *)
  Fixpoint prefix_values (labels acc : list (text * text)) : result (list (text * text)) :=
    match labels with
    | [] => Ok acc
    | (k, v) :: rest => do q <- urlquote [46] v; prefix_values rest (dict_set k q acc)
    end.
  Definition host_prefix (pattern : text) (labels : list (text * text)) : result text :=
    do params <- prefix_values labels [];
    str_format params None pattern.
End Pattern.

(** * URIs
    smithy_core/__init__.py 30-63.  [host_ok] stands for the two host regular
    expressions. *)
Record uri := mkUri {
  u_scheme : text; u_username : option text; u_password : option text; u_host : text;
  u_port : option N; u_path : option text; u_query : option text; u_fragment : option text }.

Definition make_uri (host_ok : text -> bool) (u : uri) : result uri :=
  if host_ok (u_host u) then Ok u else Err SmithyErr.

(** [a or b] on ports: zero is false. *)
Definition or_port (a b : option N) : option N :=
  match a with Some (N.pos _) => a | _ => b end.

(** [posixpath.join(a, b)]. *)
Definition path_join (a b : text) : text :=
  if starts_with [SLASH] b then b
  else match a with
       | [] => b
       | _ => if ends_with [SLASH] a then a ++ b else a ++ [SLASH] ++ b
       end.

Definition is_slash (c : N) : bool := c =? SLASH.

(** smithy_http/aio/protocols.py 37-68, [set_service_endpoint]: the destination
    of the request afterwards. *)
Definition set_service_endpoint (host_ok : text -> bool) (endpoint previous : uri) : result uri :=
  let path := or_text (u_path previous) (u_path endpoint) in
  let path := match u_path endpoint, u_path previous with
              | Some p, Some q => Some (path_join p (lstrip_by is_slash q))
              | _, _ => path
              end in
  let path := match path with
              | Some p => if starts_with [SLASH] p then path else Some ([SLASH] ++ p)
              | None => path
              end in
  let query := or_text (u_query previous) (u_query endpoint) in
  let query := match u_query endpoint, u_query previous with
               | Some q, Some p =>
                 if truthy (Some q) && truthy (Some p) then Some (q ++ [AMP] ++ p) else query
               | _, _ => query
               end in
  make_uri host_ok
    (mkUri (u_scheme endpoint) (or_text (u_username endpoint) (u_username previous))
       (or_text (u_password endpoint) (u_password previous)) (u_host endpoint)
       (or_port (u_port endpoint) (u_port previous)) path query
       (or_text (u_fragment endpoint) (u_fragment previous))).

(** smithy_http/aio/__init__.py 13-20, [HTTPRequest]; the body is an opaque
    reference, the fields are those of one collection, by folded name. *)
Record request := mkRequest {
  r_destination : uri; r_method : text; r_body : nat; r_fields : list (text * field) }.

(** smithy_http/endpoints.py 12-30, [HTTPEndpoint]: a URI and a [headers]
    property.  The whole of [set_service_endpoint] on a request. *)
Record endpoint := mkEndpoint { e_uri : uri; e_headers : list (text * field) }.
Definition apply_endpoint (host_ok : text -> bool) (e : endpoint) (r : request) : result request :=
  do d <- set_service_endpoint host_ok (e_uri e) (r_destination r);
  Ok (mkRequest d (r_method r) (r_body r) (r_fields r)).

(** * API keys
    smithy_http/aio/auth/apikey.py 40-79; the new [Field] is a fresh object. *)
Inductive key_location := InQuery | InHeader.

Definition api_key_sign (lower : text -> text) (host_ok : text -> bool)
    (name : text) (location : key_location) (scheme : option text) (api_key : text)
    (r : request) : result request :=
  match location with
  | InQuery =>
    let d := r_destination r in
    let query := match u_query d with Some q => q | None => [] end in
    let query := match query with [] => [] | _ => query ++ [AMP] end in
    let query := query ++ name ++ [EQUALS] ++ api_key in
    do d' <- make_uri host_ok
       (mkUri (u_scheme d) (u_username d) (u_password d) (u_host d) (u_port d)
          (u_password d) (Some query) (u_fragment d));
    Ok (mkRequest d' (r_method r) (r_body r) (r_fields r))
  | InHeader =>
    let value := match scheme with Some s => s ++ [32] ++ api_key | None => api_key end in
    Ok (mkRequest (r_destination r) (r_method r) (r_body r)
          (dict_set (lower name) (mkField name [value] Header) (r_fields r)))
  end.

(** * User agent
    smithy_http/user_agent.py 8 and 100-115, [sanitize_user_agent_string_component]. *)
Definition ua_allowed (c : N) : bool :=
  ((65 <=? c) && (c <=? 90)) || ((97 <=? c) && (c <=? 122)) || ((48 <=? c) && (c <=? 57))
  || has c (lit "!$%&'*+-.^_`|~").
Definition sanitize (allow_hash : bool) (raw : text) : text :=
  map (fun c => if ua_allowed c || (allow_hash && (c =? 35)) then c else 45) raw.

(** user_agent.py 11-34, [UserAgentComponent.__str__], and 37-48,
    [RawStringUserAgentComponent.__str__]. *)
Inductive component :=
| Component (prefix name : text) (value : option text)
| RawComponent (value : text).
Definition component_str (c : component) : text :=
  match c with
  | Component prefix name value =>
    let clean_prefix := sanitize true prefix in
    let clean_name := sanitize false name in
    match value with
    | None | Some [] => clean_prefix ++ [SLASH] ++ clean_name
    | Some v => clean_prefix ++ [SLASH] ++ clean_name ++ [35] ++ sanitize true v
    end
  | RawComponent v => v
  end.

(** user_agent.py 51-97, [UserAgent.__str__]: the lists in their fixed order. *)
Record user_agent := mkUserAgent {
  ua_sdk : list component; ua_internal : list component; ua_ua : list component;
  ua_api : list component; ua_os : list component; ua_language : list component;
  ua_env : list component; ua_config : list component; ua_feat : list component;
  ua_additional : list component }.
Definition ua_components (u : user_agent) : list component :=
  ua_sdk u ++ ua_internal u ++ ua_ua u ++ ua_api u ++ ua_os u ++ ua_language u ++ ua_env u
  ++ ua_config u ++ ua_feat u ++ ua_additional u.
Definition user_agent_str (u : user_agent) : text := join [32] (map component_str (ua_components u)).

(** smithy_http/interceptors/user_agent.py 33-153, [_UserAgentBuilder.build]. *)
Record platform := mkPlatform {
  pl_name : option text; pl_version : option text; pl_machine : option text;
  pl_python : option text; pl_implementation : option text; pl_sdk : option text }.
Definition allowed_os : list text :=
  [lit "windows"; lit "linux"; lit "macos"; lit "android"; lit "ios"; lit "watchos"; lit "tvos"; lit "other"].
Definition os_metadata (lower : text -> text) (p : platform) : list component :=
  match pl_name p with
  | None | Some [] => [Component (lit "os") (lit "other") None]
  | Some n =>
    let l := lower n in
    if mem_text l allowed_os then [Component (lit "os") l (pl_version p)]
    else if text_eqb l (lit "darwin") then [Component (lit "os") (lit "macos") (pl_version p)]
    else [Component (lit "os") (lit "other") None; Component (lit "md") n (pl_version p)]
  end.
Definition build_user_agent (lower : text -> text) (p : platform) : user_agent :=
  mkUserAgent
    (match pl_sdk p with Some ((_ :: _) as v) => [Component (lit "python") v None] | _ => [] end)
    [] [Component (lit "ua") (lit "2.1") None] []
    (os_metadata lower p
     ++ match pl_machine p with Some ((_ :: _) as m) => [Component (lit "md") (lit "arch") (Some (lower m))] | _ => [] end)
    (Component (lit "lang") (lit "python") (pl_python p)
     :: match pl_implementation p with Some ((_ :: _) as i) => [Component (lit "md") (lit "pyimpl") (Some i)] | _ => [] end)
    [] [] [] [].

(** smithy_aws_core/interceptors/user_agent.py 41-73,
    [UserAgentInterceptor.read_after_serialization]; the versions are inputs. *)
Definition aws_user_agent (version core_version : text) (crt : option text) (suffix app_id : option text)
    (sdk_version service_id : text) (u : user_agent) : user_agent :=
  mkUserAgent
    ([Component (lit "aws-sdk-python") version None; Component (lit "md") (lit "smithy-core") (Some core_version)]
     ++ match crt with Some v => [Component (lit "md") (lit "awscrt") (Some v)] | None => [] end)
    (ua_internal u) (ua_ua u)
    (ua_api u ++ [Component (lit "api") service_id (Some sdk_version)])
    (ua_os u) (ua_language u) (ua_env u) (ua_config u) (ua_feat u)
    (ua_additional u
     ++ match app_id with Some a => [Component (lit "app") a None] | None => [] end
     ++ match suffix with Some s => [RawComponent s] | None => [] end).
