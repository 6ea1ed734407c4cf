(** Hosts, URIs and endpoints: smithy_core/rfc3986.py, smithy_core/__init__.py
    lines 31-140, smithy_core/endpoints.py lines 57-91, smithy_core/aio/endpoints.py
    and smithy_aws_core/endpoints/standard_regional.py; urllib.parse of CPython 3.12
    (urlparse, urlunparse) as far as they use it. *)
From Verif Require Import Base PyText_Model PySort_Model Http_Model.
Local Open Scope N_scope.

(** * Regular expressions
    The patterns are used for whether they match, anchored at both ends, hence
    the order in which alternatives are tried does not matter. *)
Inductive re :=
| RNone
| REps
| RChar (p : N -> bool)
| RCat (a b : re)
| RAlt (a b : re)
| RStar (a : re).

Fixpoint nullable (r : re) : bool :=
  match r with
  | RNone | RChar _ => false
  | REps | RStar _ => true
  | RCat a b => nullable a && nullable b
  | RAlt a b => nullable a || nullable b
  end.
(** What may follow a first character. *)
Definition cat (a b : re) : re := match a, b with RNone, _ | _, RNone => RNone | REps, _ => b | _, _ => RCat a b end.
Definition alt (a b : re) : re := match a, b with RNone, _ => b | _, RNone => a | _, _ => RAlt a b end.
Fixpoint deriv (c : N) (r : re) : re :=
  match r with
  | RNone | REps => RNone
  | RChar p => if p c then REps else RNone
  | RCat a b => if nullable a then alt (cat (deriv c a) b) (deriv c b) else cat (deriv c a) b
  | RAlt a b => alt (deriv c a) (deriv c b)
  | RStar a => cat (deriv c a) (RStar a)
  end.
Fixpoint full_match (r : re) (s : text) : bool :=
  match s with [] => nullable r | c :: t => full_match (deriv c r) t end.
(** [re.compile("^" + r + "$").match(s)]: [$] also matches before a newline that
    ends the text. *)
Definition anchored (r : re) (s : text) : bool :=
  full_match r s || match rev s with 10 :: t => full_match r (rev t) | _ => false end.

(** Notations of patterns: literal text, [{n}], [{0,n}], [?], [+]. *)
Definition chr (c : N) : re := RChar (N.eqb c).
Fixpoint rlit (s : text) : re := match s with [] => REps | [c] => chr c | c :: t => RCat (chr c) (rlit t) end.
Fixpoint times (n : nat) (r : re) : re := match n with O => REps | S k => RCat r (times k r) end.
Fixpoint upto (n : nat) (r : re) : re := match n with O => REps | S k => RAlt REps (RCat r (upto k r)) end.
Definition opt (r : re) : re := RAlt REps r.
Definition plus (r : re) : re := RCat r (RStar r).
Definition between (a b c : N) : bool := (a <=? c) && (c <=? b).

(** * rfc3986.py *)
(** line 27: [!$&'()\*+,;=] *)
Definition sub_delimiters (c : N) : bool := has c (lit "!$&'()*+,;=").
(** line 29: [A-Za-z0-9._~\-] *)
Definition unreserved_re (c : N) : bool := between 65 90 c || between 97 122 c || between 48 57 c || has c (lit "._~-").
Definition hex (c : N) : bool := between 48 57 c || between 65 70 c || between 97 102 c.
Definition digit (c : N) : bool := between 48 57 c.
(** line 32 *)
Definition PCT_ENCODED : re := RCat (chr 37) (times 2 (RChar hex)).
(** lines 41-43 *)
Definition REG_NAME : re := RStar (RAlt PCT_ENCODED (RChar (fun c => sub_delimiters c || unreserved_re c))).
(** line 45: [([0-9]{1,3}\.){3}[0-9]{1,3}] *)
Definition octet_re : re := RCat (RChar digit) (upto 2 (RChar digit)).
Definition IPv4_RE : re := RCat (times 3 (RCat octet_re (chr 46))) octet_re.
(** line 47: [[0-9A-Fa-f]{1,4}] *)
Definition HEXDIG_RE : re := RCat (RChar hex) (upto 3 (RChar hex)).
(** line 49 *)
Definition LS32_RE : re := RAlt (RCat HEXDIG_RE (RCat (chr 58) HEXDIG_RE)) IPv4_RE.
(** lines 56-75 *)
Definition hexc : re := RCat HEXDIG_RE (chr 58).
Definition dcolon : re := rlit (lit "::").
Definition variations : list re :=
  [ RCat (times 6 hexc) LS32_RE;
    RCat dcolon (RCat (times 5 hexc) LS32_RE);
    RCat (opt HEXDIG_RE) (RCat dcolon (RCat (times 4 hexc) LS32_RE));
    RCat (opt (RCat (opt hexc) HEXDIG_RE)) (RCat dcolon (RCat (times 3 hexc) LS32_RE));
    RCat (opt (RCat (upto 2 hexc) HEXDIG_RE)) (RCat dcolon (RCat (times 2 hexc) LS32_RE));
    RCat (opt (RCat (upto 3 hexc) HEXDIG_RE)) (RCat dcolon (RCat hexc LS32_RE));
    RCat (opt (RCat (upto 4 hexc) HEXDIG_RE)) (RCat dcolon LS32_RE);
    RCat (opt (RCat (upto 5 hexc) HEXDIG_RE)) (RCat dcolon HEXDIG_RE);
    RCat (opt (RCat (upto 6 hexc) HEXDIG_RE)) dcolon ].
(** line 77 *)
Definition IPv6_RE : re := fold_right RAlt RNone variations.
(** line 79: [v[0-9A-Fa-f]+\.[...:]+] *)
Definition IPv_FUTURE_RE : re :=
  RCat (chr 118) (RCat (plus (RChar hex)) (RCat (chr 46) (plus (RChar (fun c => unreserved_re c || sub_delimiters c || (c =? 58)))))).
(** line 82 *)
Definition ZONE_ID : re := plus (RAlt (RChar unreserved_re) PCT_ENCODED).
(** line 84 *)
Definition IPv6_ADDRZ_RFC4007_RE : re := RCat IPv6_RE (opt (RCat (RAlt (rlit (lit "%25")) (chr 37)) ZONE_ID)).
(** lines 87-90 *)
Definition IP_LITERAL_RE : re := RCat (chr 91) (RCat (RAlt IPv6_ADDRZ_RFC4007_RE IPv_FUTURE_RE) (chr 93)).
(** lines 93-97 *)
Definition HOST_RE : re := RAlt REG_NAME (RAlt IPv4_RE IP_LITERAL_RE).
(** lines 111-113 *)
Definition HOST_MATCHER : text -> bool := anchored HOST_RE.
Definition IPv4_MATCHER : text -> bool := anchored IPv4_RE.
Definition IPv6_MATCHER : text -> bool := anchored (RCat (chr 91) (RCat IPv6_ADDRZ_RFC4007_RE (chr 93))).

(** * URI *)
Definition bracketed (s : text) : text := [91] ++ s ++ [93].
(** __init__.py lines 58-63, [URI.__post_init__] *)
Definition host_ok (h : text) : bool := HOST_MATCHER h || IPv6_MATCHER (bracketed h).
(** lines 102-110, [URI._host_type] *)
Inductive host_kind := IPv6 | IPv4 | DOMAIN | UNKNOWN.
Definition host_type (h : text) : host_kind :=
  if IPv6_MATCHER (bracketed h) then IPv6
  else if IPv4_MATCHER h then IPv4
  else if HOST_MATCHER h then DOMAIN
  else UNKNOWN.
(** lines 77-95, [URI._netloc] *)
Definition uri_netloc (u : uri) : text :=
  let userinfo :=
    match u_username u with
    | Some n => n ++ match u_password u with None => [] | Some p => 58 :: p end ++ [64]
    | None => []
    end in
  let port := match u_port u with Some p => 58 :: dec p | None => [] end in
  let host := match host_type (u_host u) with IPv6 => bracketed (u_host u) | _ => u_host u end in
  userinfo ++ host ++ port.
(** urllib.parse.urlunsplit; [uses_netloc] as in CPython 3.12 *)
Definition uses_netloc : list text :=
  [[]; lit "ftp"; lit "http"; lit "gopher"; lit "nntp"; lit "telnet"; lit "imap"; lit "wais"; lit "file"; lit "mms"; lit "https";
   lit "shttp"; lit "snews"; lit "prospero"; lit "rtsp"; lit "rtsps"; lit "rtspu"; lit "rsync"; lit "svn"; lit "svn+ssh"; lit "sftp";
   lit "nfs"; lit "git"; lit "git+ssh"; lit "ws"; lit "wss"; lit "itms-services"].
Definition suffix_of (mark : N) (part : option text) : text :=
  match part with Some (c :: r) => mark :: c :: r | _ => [] end.
Definition urlunsplit (scheme netloc url : text) (query fragment : option text) : text :=
  let url :=
    if negb (text_eqb netloc []) || (negb (text_eqb scheme []) && mem_text scheme uses_netloc && negb (starts_with (lit "//") url)) then
      let url := match url with [] => [] | c :: _ => if c =? 47 then url else 47 :: url end in
      lit "//" ++ netloc ++ url
    else url in
  let url := match scheme with [] => url | _ => scheme ++ [58] ++ url end in
  url ++ suffix_of 63 query ++ suffix_of 35 fragment.
(** lines 112-126, [URI.build]; [urlunparse] with no parameters *)
Definition build (u : uri) : text :=
  urlunsplit (u_scheme u) (uri_netloc u) (match u_path u with Some p => p | None => [] end) (u_query u) (u_fragment u).

(** * urlparse *)
(** [s.rpartition(c)[2]] *)
Definition after_last (c : N) (s : text) : text := rev (fst (cut_at c (rev s))).
(** [_splitnetloc] after the two slashes *)
Fixpoint split_netloc (s : text) : text * text :=
  match s with
  | [] => ([], [])
  | c :: r => if has c (lit "/?#") then ([], s) else let (a, b) := split_netloc r in (c :: a, b)
  end.
Definition scheme_char (c : N) : bool := between 65 90 c || between 97 122 c || between 48 57 c || has c (lit "+-.").
Definition ascii_letter (c : N) : bool := between 65 90 c || between 97 122 c.
Definition lower_letter (c : N) : N := if between 65 90 c then c + 32 else c.
(** [_splitparams]: the part of the last segment from its first semicolon *)
Definition split_params (url : text) : text :=
  if has 47 url then
    let seg := after_last 47 url in
    firstn (List.length url - List.length seg) url ++ fst (cut_at 59 seg)
  else fst (cut_at 59 url).
Definition uses_params : list text :=
  [[]; lit "ftp"; lit "hdl"; lit "prospero"; lit "http"; lit "imap"; lit "https"; lit "shttp"; lit "rtsp"; lit "rtsps"; lit "rtspu";
   lit "sip"; lit "sips"; lit "mms"; lit "sftp"; lit "tel"].
Record parsed := mkParsed { p_scheme : text; p_netloc : text; p_path : text; p_query : text }.

Section Parse.
  (** [_check_bracketed_host] (the ipaddress module), whether [_checknetloc] lets a
      netloc pass that is not ASCII, and [str.lower]. *)
  Variable bracketed_host_ok : text -> bool.
  Variable nfkc_ok : text -> bool.
  Variable lower : text -> text.

  Definition is_ascii (s : text) : bool := forallb (fun c => c <? 128) s.
  (** [_check_bracketed_netloc] *)
  Definition bracketed_netloc_ok (netloc : text) : bool :=
    let hp := after_last 64 netloc in
    match cut_at 91 hp with
    | (before, Some br) =>
      match before with
      | [] =>
        let (h, port) := cut_at 93 br in
        match port with Some (c :: _) => c =? 58 | _ => true end && bracketed_host_ok h
      | _ => false
      end
    | (_, None) => bracketed_host_ok (fst (cut_at 58 hp))
    end.
  Definition netloc_ok (netloc : text) : bool :=
    negb (has 91 netloc && negb (has 93 netloc)) && negb (has 93 netloc && negb (has 91 netloc))
    && (if has 91 netloc && has 93 netloc then bracketed_netloc_ok netloc else true).
  (** [urlsplit], with the characters [urlparse] drops; the fragment is not used *)
  Definition urlparse (url : text) : result parsed :=
    let url := lstrip_by (fun c => c <=? 32) url in
    let url := filter (fun c => negb (has c [9; 13; 10])) url in
    let (scheme, url) :=
      match cut_at 58 url with
      | (c :: r, Some rest) => if ascii_letter c && forallb scheme_char (c :: r) then (map lower_letter (c :: r), rest) else ([], url)
      | _ => ([], url)
      end in
    do nu <- (if starts_with (lit "//") url then
                let (netloc, rest) := split_netloc (skipn 2 url) in
                if netloc_ok netloc then Ok (netloc, rest) else Err ValueError
              else Ok ([], url));
    let (netloc, url) := (nu : text * text) in
    let url := fst (cut_at 35 url) in
    let (url, query) := cut_at 63 url in
    if is_ascii netloc || nfkc_ok netloc then
      Ok (mkParsed scheme netloc (if mem_text scheme uses_params && has 59 url then split_params url else url)
            (match query with Some q => q | None => [] end))
    else Err ValueError.
  (** [_hostinfo], [hostname] and [port] *)
  Definition hostinfo (netloc : text) : text * option text :=
    let hi := after_last 64 netloc in
    let (h, port) :=
      match cut_at 91 hi with
      | (_, Some br) =>
        let (h, rest) := cut_at 93 br in
        (h, match rest with Some r => snd (cut_at 58 r) | None => None end)
      | (_, None) => cut_at 58 hi
      end in
    (h, match port with Some [] => None | _ => port end).
  Definition hostname (netloc : text) : option text :=
    match fst (hostinfo netloc) with
    | [] => None
    | h => let (a, z) := cut_at 37 h in Some (lower a ++ match z with Some z => 37 :: z | None => [] end)
    end.
  Definition port_of (netloc : text) : result (option N) :=
    match snd (hostinfo netloc) with
    | None => Ok None
    | Some p => match digits_val 0 p with
                | Some n => if n <=? 65535 then Ok (Some n) else Err ValueError
                | None => Err ValueError
                end
    end.

  (** * Endpoints *)
  Inductive endpoint_uri := EText (s : text) | EUri (u : uri).
  (** endpoints.py lines 57-91, [resolve_static_uri], from the config's
      [endpoint_uri]; OtherErr 62 is EndpointResolutionError *)
  Definition resolve_static_uri (config : option (option endpoint_uri)) : result (option uri) :=
    match config with
    | None | Some None => Ok None
    | Some (Some (EUri u)) => Ok (Some u)
    | Some (Some (EText s)) =>
      do p <- urlparse s;
      match hostname (p_netloc p) with
      | None => Err (OtherErr 62)
      | Some h =>
        do port <- port_of (p_netloc p);
        do u <- make_uri host_ok (mkUri (p_scheme p) None None h port (Some (p_path p)) (Some (p_query p)) None);
        Ok (Some u)
      end
    end.
  (** aio/endpoints.py lines 11-21 *)
  Definition static_endpoint (config : option (option endpoint_uri)) : result uri :=
    do u <- resolve_static_uri config;
    match u with Some u => Ok u | None => Err (OtherErr 62) end.
  (** standard_regional.py lines 14-33; the config also has a region *)
  Definition regional_endpoint (prefix : text) (config : option (option endpoint_uri)) (region : option (option text)) : result uri :=
    do u <- resolve_static_uri config;
    match u with
    | Some u => Ok u
    | None =>
      match region with
      | Some (Some r) =>
        make_uri host_ok (mkUri (lit "https") None None (prefix ++ [46] ++ r ++ [46] ++ lit "amazonaws.com") None None None None)
      | _ => Err (OtherErr 62)
      end
    end.
End Parse.
