(** Model of SigV4 request signing
    (packages/aws-sdk-signers/src/aws_sdk_signers/signers.py and _http.py). *)
From Verif Require Import Base Utf8_Model PyText_Model PyDict_Model PySort_Model Header_Model.
From Verif Require EventIO_Model.
Local Open Scope N_scope.

(** ** Paths *)

Definition DOT : text := [46].
Definition DOTDOT : text := [46; 46].

(** signers.py 996-1003, the loop over the segments; [output] has its last element
    first. *)
Fixpoint dot_loop (segs : list text) (output : list text) : list text :=
  match segs with
  | [] => output
  | s :: r =>
    if text_eqb s DOT then dot_loop r output
    else if negb (text_eqb s DOTDOT) then dot_loop r (s :: output)
    else match output with
         | [] => dot_loop r output
         | _ :: o => dot_loop r o
         end
  end.

(** [s.replace("//", "/")]: one pass from the left. *)
Fixpoint replace_slashes (s : text) : text :=
  match s with
  | [] => []
  | c :: r =>
    match r with
    | d :: r' => if (c =? 47) && (d =? 47) then 47 :: replace_slashes r' else c :: replace_slashes r
    | [] => [c]
    end
  end.

(** signers.py 988-1011, [_remove_dot_segments]; smithy_core/utils.py 230-255 is
    the same code with another default. *)
Definition remove_dot_segments (path : text) (remove_consecutive_slashes : bool) : text :=
  let output := rev (dot_loop (split_on 47 path) []) in
  let output :=
    if starts_with [47] path && match output with [] => true | o :: _ => match o with [] => false | _ => true end end
    then [] :: output else output in
  let output :=
    match output with
    | [] => []
    | _ => if ends_with [47; 46] path || ends_with [47; 46; 46] path then output ++ [[]] else output
    end in
  let result := join [47] output in
  if remove_consecutive_slashes then replace_slashes result else result.

(** ** Reading a query string: [urllib.parse.parse_qsl] *)

Definition hex_val (c : N) : option N :=
  if (48 <=? c) && (c <=? 57) then Some (c - 48)
  else if (65 <=? c) && (c <=? 70) then Some (c - 55)
  else if (97 <=? c) && (c <=? 102) then Some (c - 87)
  else None.

(** [unquote_to_bytes]: a percent sign with two hex digits is a byte, any other
    character stays. *)
Fixpoint unquote_to_bytes (s : text) : bytes :=
  match s with
  | [] => []
  | c :: r =>
    if c =? 37 then
      match r with
      | a :: b :: r' =>
        match hex_val a, hex_val b with
        | Some x, Some y => 16 * x + y :: unquote_to_bytes r'
        | _, _ => c :: unquote_to_bytes r
        end
      | _ => c :: unquote_to_bytes r
      end
    else c :: unquote_to_bytes r
  end.

(** The text cut into maximal runs of ASCII characters ([true]) and others. *)
Fixpoint ascii_runs (s : text) : list (bool * text) :=
  match s with
  | [] => []
  | c :: r =>
    let a := c <? 128 in
    match ascii_runs r with
    | (a', w) :: rs => if Bool.eqb a a' then (a, c :: w) :: rs else (a, [c]) :: (a', w) :: rs
    | [] => [(a, [c])]
    end
  end.

(** [s.split()]: the words between white space. *)
Fixpoint words_from (w : text) (s : text) : list text :=
  match s with
  | [] => match w with [] => [] | _ => [rev w] end
  | c :: r =>
    if is_space c then match w with [] => words_from [] r | _ => rev w :: words_from [] r end
    else words_from (c :: w) r
  end.
Definition words (s : text) : list text := words_from [] s.

(** ** Requests: _http.py *)

(** _http.py 221-247, [URI]; the fragment is not used. *)
Record uri := mkUri {
  u_scheme : text; u_username : option text; u_password : option text; u_host : text;
  u_port : option N; u_path : option text; u_query : option text }.

(** _http.py 26-47, [Field]; the kind does not matter for signing. *)
Record field := mkField { f_name : text; f_values : list text }.
(** _http.py 107-136, [Fields]: the entries, keyed by normalised name. *)
Definition fields := list (text * field).

(** Bodies.  [Seek]: a seekable stream at a position, iterated to its end.
    [Once]: an iterator, empty once it has been read.  [Many]: a collection of
    chunks that can be iterated again.  [OtherKind]: an async body for the sync
    signer and the reverse. *)
Inductive body := NoBody | Seek (data : bytes) (pos : nat) | Once (chunks : list bytes)
| Many (chunks : list bytes) | OtherKind.

(** _http.py 339-351, [AWSRequest]. *)
Record request := mkRequest { r_dest : uri; r_method : text; r_body : body; r_fields : fields }.

(** S 44-50, [SigV4SigningProperties]. *)
Record sigprops := mkSigProps {
  sp_region : text; sp_service : text; sp_date : option text;
  sp_payload_signing : option bool; sp_checksum : option bool; sp_encode_path : option bool }.

(** The identity; whether it has expired is read from the clock once. *)
Record ident := mkIdent { i_access : text; i_secret : text; i_token : option text; i_expired : bool }.

(** _http.py 65-83, [Field.as_string] with the default delimiter. *)
Definition as_string (values : list text) : text :=
  match values with
  | [] => []
  | [v] => v
  | _ => join [44] (map quote_and_escape values)
  end.

(** _http.py 249-275, [URI.netloc]. *)
Definition netloc (u : uri) : text :=
  let userinfo :=
    match u_username u with
    | Some n => n ++ match u_password u with None => [] | Some p => 58 :: p end ++ [64]
    | None => []
    end in
  let port := match u_port u with Some p => 58 :: dec p | None => [] end in
  userinfo ++ u_host u ++ port.

(** S 26-34, HEADERS_EXCLUDED_FROM_SIGNING. *)
Definition EXCLUDED : list text :=
  [lit "accept"; lit "accept-encoding"; lit "authorization"; lit "connection"; lit "expect";
   lit "user-agent"; lit "x-amzn-trace-id"].
(** S 35, DEFAULT_PORTS. *)
Definition default_port (scheme : text) : option N :=
  if text_eqb scheme (lit "http") then Some 80
  else if text_eqb scheme (lit "https") then Some 443 else None.
Definition UNSIGNED_PAYLOAD : text := lit "UNSIGNED-PAYLOAD".
Definition EVENT_STREAM_CONTENT_TYPE : text := lit "application/vnd.amazon.eventstream".
Definition EVENT_STREAM_HASH : text := lit "STREAMING-AWS4-HMAC-SHA256-EVENTS".
Definition EMPTY_SHA256_HASH : text := lit "e3b0c44298fc1c149afbf4c8996fb92427ae41e4649b934ca495991b7852b855".
Definition SHA_HEADER : text := lit "X-Amz-Content-SHA256".
Definition LF : text := [10].

Definition get_or {A} (d : A) (o : option A) : A := match o with Some x => x | None => d end.

(** What iterating a body yields, as one text of bytes. *)
Definition contents (b : body) : bytes :=
  match b with
  | NoBody | OtherKind => []
  | Seek data pos => skipn pos data
  | Once cs | Many cs => List.concat cs
  end.

Fixpoint map_r {A B} (f : A -> result B) (l : list A) : result (list B) :=
  match l with
  | [] => Ok []
  | x :: r => do y <- f x; do ys <- map_r f r; Ok (y :: ys)
  end.

Section Signer.
  (** [str.lower], [str.upper], SHA-256, HMAC-SHA-256 and UTF-8 decoding with
      [errors="replace"]: the theorems hold for every such function. *)
  Variables (lower upper : text -> text) (sha256 : bytes -> bytes) (hmac : bytes -> bytes -> bytes)
    (utf8_replace : bytes -> text).
  (** Whether this is [AsyncSigV4Signer] (S 431-825) rather than [SigV4Signer]
      (S 53-428): the two classes hold the same code twice, but for
      [_format_canonical_payload]. *)
  Variable async : bool.

  (** [urllib.parse.unquote]. *)
  Definition unquote (s : text) : text :=
    if has 37 s then
      List.concat (map (fun r => if fst r : bool then utf8_replace (unquote_to_bytes (snd r)) else snd r) (ascii_runs s))
    else s.
  (** One parameter of [parse_qsl(qs, keep_blank_values=True)]. *)
  Definition qsl_pair (name_value : text) : text * text :=
    let (n, v) := cut_at 61 name_value in
    (unquote (replace_char 43 [32] n), unquote (replace_char 43 [32] (get_or [] v))).
  Definition parse_qsl (qs : text) : list (text * text) :=
    map qsl_pair (filter (fun p => match p with [] => false | _ => true end) (split_on 38 qs)).

  (** _http.py 138-151, [Fields.set_field]. *)
  Definition set_field (f : field) (fs : fields) : fields := dict_set (lower (f_name f)) f fs.
  (** _http.py 217-218, [name in fields]; 158-161, [fields[name]]. *)
  Definition in_fields (name : text) (fs : fields) : bool := dict_has (lower name) fs.
  Definition get_field (name : text) (fs : fields) : option field := dict_get (lower name) fs.

  (** S 194-214, [_apply_required_fields]. *)
  Definition apply_required_fields (date : text) (i : ident) (fs : fields) : fields :=
    let fs := if negb (in_fields (lit "Date") fs) && negb (in_fields (lit "X-Amz-Date") fs)
              then set_field (mkField (lit "X-Amz-Date") [date]) fs else fs in
    match i_token i with
    | Some token =>
      if negb (in_fields (lit "X-Amz-Security-Token") fs)
      then set_field (mkField (lit "X-Amz-Security-Token") [token]) fs else fs
    | None => fs
    end.

  (** S 356-366, [_should_sha256_sign_payload]. *)
  Definition should_sign_payload (u : uri) (p : sigprops) : bool :=
    if negb (text_eqb (u_scheme u) (lit "https")) then true else get_or true (sp_payload_signing p).

  (** S 383-422 and 775-813, [_compute_payload_hash]: the hash, the body of the
      request that is being signed, and the caller's body object afterwards. *)
  Definition compute_payload_hash (u : uri) (p : sigprops) (b : body) : body * result (text * body) :=
    if negb (should_sign_payload u p) then (b, Ok (UNSIGNED_PAYLOAD, b))
    else
      let digest := EventIO_Model.hexlify (sha256 (contents b)) in
      match b with
      | NoBody => (b, Ok (EMPTY_SHA256_HASH, b))
      | OtherKind => (b, Err TypeError)
      | Seek data pos => (Seek data pos, Ok (digest, Seek data pos))
      | Once cs => (Once [], Ok (digest, Seek (contents b) 0))
      | Many cs => (Many cs, Ok (digest, Seek (contents b) 0))
      end.

  (** S 815-819, [_is_event_stream]. *)
  Definition is_event_stream (fs : fields) : bool :=
    match get_field (lit "Content-Type") fs with
    | Some f => text_eqb (as_string (f_values f)) EVENT_STREAM_CONTENT_TYPE
    | None => false
    end.

  (** S 368-381 and 748-773, [_format_canonical_payload]: the payload, and the
      fields and body of the request afterwards. *)
  Definition format_canonical_payload (u : uri) (p : sigprops) (b : body) (fs : fields)
    : body * result (text * fields * body) :=
    let compute :=
      let (old, res) := compute_payload_hash u p b in
      (old, do '(payload_hash, b') <- res;
            Ok (payload_hash,
                if get_or false (sp_checksum p) then set_field (mkField SHA_HEADER [payload_hash]) fs else fs,
                b')) in
    if async then
      match get_field SHA_HEADER fs with
      | Some (mkField _ [v]) => (b, Ok (v, fs, b))
      | _ =>
        if is_event_stream fs
        then (b, Ok (EVENT_STREAM_HASH, set_field (mkField SHA_HEADER [EVENT_STREAM_HASH]) fs, b))
        else compute
      end
    else compute.

  (** S 302-312, [_format_canonical_path]. *)
  Definition format_canonical_path (path : option text) (p : sigprops) : result text :=
    let path := get_or [47] path in
    if get_or true (sp_encode_path p) then urlquote [47] (remove_dot_segments path true)
    else Ok (remove_dot_segments path false).

  (** S 314-324, [_format_canonical_query]. *)
  Definition quote_pair (kv : text * text) : result (text * text) :=
    do k <- urlquote [] (fst kv); do v <- urlquote [] (snd kv); Ok (k, v).
  Definition show_pair (kv : text * text) : text := fst kv ++ [61] ++ snd kv.
  Definition format_canonical_query (query : option text) : result text :=
    match query with
    | None => Ok []
    | Some q =>
      do parts <- map_r quote_pair (parse_qsl q);
      Ok (join [38] (map show_pair (sorted pair_leb parts)))
    end.

  (** S 344-349, [_normalize_host_field]. *)
  Definition normalize_host_field (u : uri) : text :=
    match u_port u, default_port (u_scheme u) with
    | Some p, Some d =>
      if p =? d then netloc (mkUri (u_scheme u) (u_username u) (u_password u) (u_host u) None (u_path u) (u_query u))
      else netloc u
    | _, _ => netloc u
    end.

  (** S 339-342, [_is_signable_header]. *)
  Definition is_signable_header (name : text) : bool := negb (existsb (text_eqb name) EXCLUDED).

  (** S 326-337, [_normalize_signing_fields]. *)
  Definition signable (fs : fields) : list (text * text) :=
    fold_left (fun d e =>
        let name := lower (f_name (snd e)) in
        if is_signable_header name then dict_set name (as_string (f_values (snd e))) d else d)
      fs [].
  Definition normalize_signing_fields (u : uri) (fs : fields) : list (text * text) :=
    let d := signable fs in
    let d := if dict_has (lit "host") d then d else dict_set (lit "host") (normalize_host_field u) d in
    sorted pair_leb d.

  (** S 351-354, [_format_canonical_fields]. *)
  Definition format_canonical_fields (d : list (text * text)) : text :=
    List.concat (map (fun kv => fst kv ++ [58] ++ join [32] (words (snd kv)) ++ LF) d).

  (** S 216-255, [canonical_request]: as [format_canonical_payload], with the text. *)
  Definition canonical_request (p : sigprops) (r : request) : body * result (text * fields * body) :=
    let (old, res) := format_canonical_payload (r_dest r) p (r_body r) (r_fields r) in
    (old,
     do '(payload, fs, b) <- res;
     do path <- format_canonical_path (u_path (r_dest r)) p;
     do query <- format_canonical_query (u_query (r_dest r));
     let d := normalize_signing_fields (r_dest r) fs in
     Ok (upper (r_method r) ++ LF ++ path ++ LF ++ query ++ LF ++ format_canonical_fields d ++ LF
           ++ join [59] (map fst d) ++ LF ++ payload, fs, b)).

  (** S 294-300, [_scope]. *)
  Definition scope (date : text) (p : sigprops) : text :=
    firstn 8 date ++ [47] ++ sp_region p ++ [47] ++ sp_service p ++ lit "/aws4_request".

  (** S 257-292, [string_to_sign]. *)
  Definition string_to_sign (canonical : text) (date : text) (p : sigprops) : result text :=
    do bs <- utf8_encode canonical;
    Ok (lit "AWS4-HMAC-SHA256" ++ LF ++ date ++ LF ++ scope date p ++ LF ++ EventIO_Model.hexlify (sha256 bs)).

  (** S 165-166, [_hash]; 135-163, [_signature]. *)
  Definition hash (key : bytes) (value : text) : result bytes := do m <- utf8_encode value; Ok (hmac key m).
  Definition signature (sts secret : text) (date : text) (p : sigprops) : result text :=
    do key <- utf8_encode (lit "AWS4" ++ secret);
    do k_date <- hash key (firstn 8 date);
    do k_region <- hash k_date (sp_region p);
    do k_service <- hash k_region (sp_service p);
    do k_signing <- hash k_service (lit "aws4_request");
    do sig <- hash k_signing sts;
    Ok (EventIO_Model.hexlify sig).

  (** S 113-133, [generate_authorization_field]. *)
  Definition authorization_value (credential : text) (signed_headers : list text) (sig : text) : text :=
    lit "AWS4-HMAC-SHA256 Credential=" ++ credential ++ lit ", SignedHeaders=" ++ join [59] signed_headers
      ++ lit ", Signature=" ++ sig.

  (** S 56-111 and 434-487, [sign]: the caller's body object afterwards, and the
      signed request or an exception.  [now] is the clock in the signing format.
      Nothing else of the caller's request can change: the fields are deep-copied
      (_http.py 353-369) and the destination is immutable. *)
  Definition sign (now : text) (i : ident) (p : sigprops) (r : request) : body * result request :=
    if i_expired i then (r_body r, Err ValueError)
    else
      let date := get_or now (sp_date p) in
      let fs := apply_required_fields date i (r_fields r) in
      let (old, res) := canonical_request p (mkRequest (r_dest r) (r_method r) (r_body r) fs) in
      (old,
       do '(canonical, fs, b) <- res;
       do sts <- string_to_sign canonical date p;
       do sig <- signature sts (i_secret i) date p;
       let names := map fst (normalize_signing_fields (r_dest r) fs) in
       let auth := authorization_value (i_access i ++ [47] ++ scope date p) names sig in
       Ok (mkRequest (r_dest r) (r_method r) b (set_field (mkField (lit "Authorization") [auth]) fs))).
End Signer.

(** packages/smithy-http/src/smithy_http/aio/crt.py 287-305, the header lines that
    [_marshal_request] sends.  Every field has the kind [header] here. *)
Definition marshal_headers (lower : text -> text) (u : uri) (fs : fields) : list (text * text) :=
  let fs := if in_fields lower (lit "host") fs then fs
            else set_field lower (mkField (lit "host") [netloc u]) fs in
  let fs := if in_fields lower (lit "accept") fs then fs
            else set_field lower (mkField (lit "accept") [lit "*/*"]) fs in
  flat_map (fun e => map (fun v => (f_name (snd e), v)) (f_values (snd e))) fs.
