(** The connections of the CRT client: packages/smithy-http/src/smithy_http/aio/crt.py,
    lines 138-280.  Calls run at the same time on one event loop; they give way only where
    they wait for a connection, for the closing of one, or for an asynchronous body. *)
From Verif Require Import Base.
Local Open Scope Z_scope.

(** The parts of a URI that matter here, and the key of line 231. *)
Record url := mkUrl { u_scheme : text; u_host : text; u_port : option Z }.
Definition port_eqb (a b : option Z) : bool :=
  match a, b with Some x, Some y => x =? y | None, None => true | _, _ => false end.
Definition url_eqb (a b : url) : bool :=
  (text_eqb (u_scheme a) (u_scheme b) && text_eqb (u_host a) (u_host b) && port_eqb (u_port a) (u_port b))%bool.

(** A connection: the host and the port it was opened to, the server name of its TLS, its
    version, whether it is open, and the call it was opened for. *)
Record connection := mkConn { k_host : text; k_port : Z; k_tls : option text; k_h2 : bool; k_open : bool; k_call : nat }.

(** Where a call is: waiting for its connection; reading its body, with a connection that
    was open or not when it was taken; the request is on a connection, open or not at that
    moment; or an exception. *)
Inductive phase := Connecting | Buffering (id : nat) (taken : bool) | Sent (id : nat) (taken now : bool) | Failed (e : exn).
Record call := mkCall { c_url : url; c_async : bool; c_phase : phase }.
Record state := mkState { conns : list connection; pool : list (url * nat); calls : list call }.
Definition init : state := mkState [] [] [].

(** [self._connections.get(key)]; the latest entry for a key is the one that counts. *)
Fixpoint lookup (u : url) (p : list (url * nat)) : option nat :=
  match p with [] => None | (k, id) :: r => if url_eqb k u then Some id else lookup u r end.
Definition is_open (st : state) (id : nat) : bool := match nth_error (conns st) id with Some c => k_open c | None => false end.
Definition is_h2 (st : state) (id : nat) : bool := match nth_error (conns st) id with Some c => k_h2 c | None => false end.
Fixpoint update {A} (i : nat) (x : A) (l : list A) : list A :=
  match l, i with [], _ => [] | _ :: r, O => x :: r | y :: r, S i' => y :: update i' x r end.

Section Pool.
  (** client_config.force_http_2 *)
  Variable force_http_2 : bool.

  (** lines 179-192: an HTTP/2 request goes out at once, and so does one whose body needs
      no waiting; otherwise the body is read first *)
  Definition obtained (async : bool) (id : nat) (st : state) : phase :=
    if (is_h2 st id || negb async)%bool then Sent id (is_open st id) (is_open st id) else Buffering id (is_open st id).
  (** lines 244-258: the port and the server name, if the scheme is known *)
  Definition dial (u : url) : option (Z * option text) :=
    if text_eqb (u_scheme u) (lit "http") then Some (match u_port u with Some p => p | None => 80 end, None)
    else if text_eqb (u_scheme u) (lit "https") then Some (match u_port u with Some p => p | None => 443 end, Some (u_host u))
    else None.
  (** lines 175-177 and 227-237, up to the first wait.  Making the request of the CRT from
      ours, line 176, is not part of this. *)
  Definition start (u : url) (async : bool) (st : state) : state :=
    let create := match dial u with Some _ => Connecting | None => Failed SmithyErr end in
    let ph := match lookup u (pool st) with
              | Some id => if is_open st id then obtained async id st else create
              | None => create
              end in
    mkState (conns st) (pool st) (calls st ++ [mkCall u async ph]).
  (** lines 219-225, 237-239 and 268-280: the connection is there, in one version or
      another, and has perhaps been closed already *)
  Definition opened (c : nat) (h2 alive : bool) (st : state) : state :=
    match nth_error (calls st) c with
    | Some (mkCall u async Connecting) =>
      match dial u with
      | Some (port, tls) =>
        let id := List.length (conns st) in
        if (force_http_2 && negb h2)%bool then
          mkState (conns st ++ [mkConn (u_host u) port tls h2 false c]) (pool st) (update c (mkCall u async (Failed SmithyErr)) (calls st))
        else
          let st' := mkState (conns st ++ [mkConn (u_host u) port tls h2 alive c]) ((u, id) :: pool st) (calls st) in
          mkState (conns st') (pool st') (update c (mkCall u async (obtained async id st')) (calls st'))
      | None => st
      end
    | _ => st
    end.
  (** The connection cannot be made, or the call is cancelled while it waits. *)
  Definition fails (c : nat) (e : exn) (st : state) : state :=
    match nth_error (calls st) c with
    | Some (mkCall u async (Connecting | Buffering _ _)) => mkState (conns st) (pool st) (update c (mkCall u async (Failed e)) (calls st))
    | _ => st
    end.
  (** lines 186-190, after the body is there *)
  Definition body_read (c : nat) (st : state) : state :=
    match nth_error (calls st) c with
    | Some (mkCall u async (Buffering id taken)) => mkState (conns st) (pool st) (update c (mkCall u async (Sent id taken (is_open st id))) (calls st))
    | _ => st
    end.
  (** A connection is closed by the other side, or by the CRT. *)
  Definition closed (id : nat) (st : state) : state :=
    match nth_error (conns st) id with
    | Some k => mkState (update id (mkConn (k_host k) (k_port k) (k_tls k) (k_h2 k) false (k_call k)) (conns st)) (pool st) (calls st)
    | None => st
    end.

  Inductive event := Start (u : url) (async : bool) | Opened (c : nat) (h2 alive : bool) | Fails (c : nat) (e : exn) | BodyRead (c : nat) | Closed (id : nat).
  Definition step (st : state) (e : event) : state :=
    match e with
    | Start u async => start u async st
    | Opened c h2 alive => opened c h2 alive st
    | Fails c e => fails c e st
    | BodyRead c => body_read c st
    | Closed id => closed id st
    end.
  Definition run (es : list event) : state := fold_left step es init.
End Pool.
