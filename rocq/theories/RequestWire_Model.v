(** From the input of an operation to the wire:
    S = packages/smithy-http/src/smithy_http/serializers.py, P = aio/protocols.py,
    C = aio/crt.py, A = aio/aiohttp.py. *)
From Verif Require Import Base PyDict_Model Fields_Model Http_Model HttpBind_Model.
From Verif Require Transport_Model Uri_Model.
Local Open Scope N_scope.

(** S 189-201: the destination of the request that was serialized; packages/smithy-core
    __init__.py 34: the scheme of a URI is https where none is given *)
Definition destination (q : HttpBind_Model.request) : uri :=
  mkUri (lit "https") None None (q_host q) None (Some (q_path q)) (Some (q_query q)) None.
(** The body of the request, S 97, 130, 145 and 170: a reader around the bytes or around the
    stream of the input, or the provider that events are written to.  [streams] are the
    streams the input can hold, [events] is the provider with what is written to it. *)
Definition request_body (streams : N -> Transport_Model.body) (events : Transport_Model.body) (b : body) : Transport_Model.body :=
  match b with
  | BBytes bs => Transport_Model.BWrapped (Transport_Model.wrap (Transport_Model.BBytes bs))
  | BStream s => Transport_Model.BWrapped (Transport_Model.wrap (streams s))
  | BEvents => events
  end.

(** What a client is given to send: where to connect to, the method, the target, the header
    lines and the body. *)
Record sent := mkSent {
  s_connect : text * text * option N; s_method : text; s_target : text; s_lines : list (text * text); s_body : Transport_Model.body }.
(** P 37-68 and C 163-184, C 282-315 *)
Definition crt_send (lower : text -> text) (host_ok : text -> bool) (method : text)
    (streams : N -> Transport_Model.body) (events : Transport_Model.body) (e : endpoint) (q : HttpBind_Model.request) : result sent :=
  do r <- apply_endpoint host_ok e (Http_Model.mkRequest (destination q) method 0 (q_fields q));
  let d := r_destination r in
  Ok (mkSent (u_scheme d, u_host d, u_port d) (r_method r) (Transport_Model.render_path (u_path d) (u_query d))
        (fst (Transport_Model.marshal_request lower (Uri_Model.uri_netloc d) (Http_Model.r_fields r))) (request_body streams events (q_body q))).

(** What aiohttp is given; the query as the parameters it adds to the target.  A request
    without a query has none. *)
Record given := mkGiven {
  g_connect : text * text * option N; g_user : option text * option text; g_method : text; g_path : text; g_params : list (text * list text);
  g_lines : list (text * text); g_body : option Transport_Model.wrapped }.
(** P 37-68 and A 76-112, A 127-137 *)
Definition aiohttp_send (lower : text -> text) (host_ok : text -> bool) (unquote_plus : text -> text) (method : text)
    (streams : N -> Transport_Model.body) (events : Transport_Model.body) (e : endpoint) (q : HttpBind_Model.request) : result given :=
  do r <- apply_endpoint host_ok e (Http_Model.mkRequest (destination q) method 0 (q_fields q));
  let d := r_destination r in
  let framed := dict_has (lower (lit "content-length")) (Http_Model.r_fields r) || dict_has (lower (lit "transfer-encoding")) (Http_Model.r_fields r) in
  do body <- Transport_Model.aiohttp_body framed (request_body streams events (q_body q));
  Ok (mkGiven (u_scheme d, u_host d, u_port d) (u_username d, u_password d) (r_method r) (match u_path d with Some p => p | None => [] end)
        (match u_query d with Some s => Transport_Model.parse_qs unquote_plus s | None => [] end)
        (Transport_Model.aiohttp_headers (Http_Model.r_fields r)) body).
