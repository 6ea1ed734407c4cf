(** Model of the event signer (aws_sdk_signers/signers.py, class AsyncEventSigner,
    lines 828-986, cited as S) and of the event publisher and receiver
    (smithy_aws_event_stream/aio/__init__.py, cited as P). *)
From Verif Require Import Base Utf8_Model EventStream_Model.
Local Open Scope N_scope.

(** binascii.hexlify and hexdigest: lower-case hexadecimal digits. *)
Definition hex_digit (d : N) : N := if d <? 10 then 48 + d else 87 + d.
Definition hexlify (b : bytes) : list N := flat_map (fun x => [hex_digit (x / 16); hex_digit (x mod 16)]) b.

(** The signing properties read by the signer (S 900-911, 979-985). *)
Record sprops := mkProps { sp_region : text; sp_service : text; sp_date : option text }.

(** One reading of the clock: the [:date] header value and its strftime form.
    Simplification: the two are unrelated inputs. *)
Record instant := mkInstant { t_millis : Z; t_stamp : text }.

Record signer := mkSigner { sg_prior : bytes; sg_final : bool }.

Section Signing.
  (** SHA-256 and HMAC-SHA-256 are arbitrary functions. *)
  Context (sha256 : bytes -> bytes) (hmac : bytes -> bytes -> bytes).

  (** S 979-985: [_scope]. *)
  Definition scope (stamp : text) (p : sprops) : text :=
    firstn 8 stamp ++ lit "/" ++ sp_region p ++ lit "/" ++ sp_service p ++ lit "/aws4_request".

  (** S 942-958: [_event_string_to_sign]. *)
  Definition event_string_to_sign (stamp scp : text) (encoded_headers payload prior : bytes) : result text :=
    do pr <- utf8_decode prior;
    Ok (lit "AWS4-HMAC-SHA256-PAYLOAD" ++ [10] ++ stamp ++ [10] ++ scp ++ [10] ++ pr ++ [10] ++
        hexlify (sha256 encoded_headers) ++ [10] ++ hexlify (sha256 payload)).

  (** S 960-977: [_sign_event]; [secret] is the identity's secret key. *)
  Definition sign_event (secret stamp sts : text) (p : sprops) : result bytes :=
    do key <- utf8_encode secret;
    do today <- utf8_encode (firstn 8 stamp);
    let k_date := hmac (lit "AWS4" ++ key) today in
    do region <- utf8_encode (sp_region p);
    let k_region := hmac k_date region in
    do service <- utf8_encode (sp_service p);
    let k_service := hmac k_region service in
    let k_signing := hmac k_service (lit "aws4_request") in
    do s <- utf8_encode sts;
    Ok (hmac k_signing s).

  (** S 884-934: the body of [_sign_payload] under the lock, up to the update of
      the signer: the signed message, with its signature. *)
  Definition sign_body (st : signer) (secret : text) (p : sprops) (now : instant) (payload : bytes)
    : result (message * bytes) :=
    if sg_final st then Err RuntimeError
    else
      let stamp := match sp_date p with Some d => d | None => t_stamp now end in
      let date_header := (lit ":date", HTimestamp (t_millis now)) in
      do eh <- get_headers_bytes [date_header];
      do sts <- event_string_to_sign stamp (scope stamp p) eh payload (sg_prior st);
      do sg <- sign_event secret stamp sts p;
      Ok (mkMessage [date_header; (lit ":chunk-signature", HBlob sg)] payload, sg).

  (** S 935-938: the update of the signer. *)
  Definition sign_commit (sg : bytes) (is_final : bool) (st : signer) : signer :=
    mkSigner (hexlify sg) (orb is_final (sg_final st)).

  (** S 840-940 without contention: [sign] and [sign_empty]. *)
  Definition sign_payload (st : signer) (secret : text) (p : sprops) (now : instant) (payload : bytes) (is_final : bool)
    : result (message * signer) :=
    do '(m, sg) <- sign_body st secret p now payload;
    Ok (m, sign_commit sg is_final st).
  Definition sign (st : signer) (secret : text) (p : sprops) (now : instant) (ev : message) : result (message * signer) :=
    do payload <- encode_message ev;
    sign_payload st secret p now payload false.
  Definition sign_empty (st : signer) (secret : text) (p : sprops) (now : instant) (ev : message) : result (message * signer) :=
    match m_headers ev, m_payload ev with
    | [], [] => sign_payload st secret p now [] true
    | _, _ => Err ValueError
    end.

  (** ** Concurrent use of one signer.  A job is a call of [_sign_payload]; it
      waits for the lock, runs its body, which awaits several coroutines, and
      commits; [JAbort]-ing inputs stand for a job cancelled at an await.  The
      lock goes to any waiting job: more schedules than asyncio's FIFO. *)
  Record job := mkJob { j_secret : text; j_props : sprops; j_now : instant; j_payload : bytes; j_final : bool }.
  Inductive jpc :=
  | JWait (j : job)
  | JLocked (j : job)
  | JSigned (j : job) (m : message) (sg : bytes)
  | JDone (r : result message).
  Record ssys := mkSys { y_signer : signer; y_lock : option nat; y_jobs : list jpc; y_log : list (job * message) }.

  Fixpoint set_nth {A} (n : nat) (x : A) (l : list A) : list A :=
    match n, l with
    | O, _ :: r => x :: r
    | S n', y :: r => y :: set_nth n' x r
    | _, [] => []
    end.

  Definition holds (i : nat) (lk : option nat) : bool :=
    match lk with Some k => Nat.eqb k i | None => false end.

  (** One step of job [i]; [cancel] = the event loop cancels it at this point.
      [y_log] is a history variable: the messages signed, in commit order. *)
  Definition sstep (i : nat) (cancel : bool) (y : ssys) : ssys :=
    match nth_error (y_jobs y) i with
    | Some (JWait j) =>
      if cancel then mkSys (y_signer y) (y_lock y) (set_nth i (JDone (Err (OtherErr 0))) (y_jobs y)) (y_log y)
      else match y_lock y with
           | None => mkSys (y_signer y) (Some i) (set_nth i (JLocked j) (y_jobs y)) (y_log y)
           | Some _ => y
           end
    | Some (JLocked j) =>
      if holds i (y_lock y) then
        if cancel then mkSys (y_signer y) None (set_nth i (JDone (Err (OtherErr 0))) (y_jobs y)) (y_log y)
        else
          match sign_body (y_signer y) (j_secret j) (j_props j) (j_now j) (j_payload j) with
          | Err e => mkSys (y_signer y) None (set_nth i (JDone (Err e)) (y_jobs y)) (y_log y)
          | Ok (m, sg) => mkSys (y_signer y) (y_lock y) (set_nth i (JSigned j m sg) (y_jobs y)) (y_log y)
          end
      else y
    | Some (JSigned j m sg) =>
      if holds i (y_lock y) then
        if cancel then mkSys (y_signer y) None (set_nth i (JDone (Err (OtherErr 0))) (y_jobs y)) (y_log y)
        else mkSys (sign_commit sg (j_final j) (y_signer y)) None (set_nth i (JDone (Ok m)) (y_jobs y))
               (y_log y ++ [(j, m)])
      else y
    | _ => y
    end.

  Fixpoint srun (sched : list (nat * bool)) (y : ssys) : ssys :=
    match sched with [] => y | (i, c) :: r => srun r (sstep i c y) end.
  Definition sinit (seed : bytes) (jobs : list job) : ssys := mkSys (mkSigner seed false) None (map JWait jobs) [].

  (** ** The publisher (P 39-111).  A call of [send] or [close] is a task; its
      atomic steps are the stretches between awaits that can suspend: resolving
      the identity, writing, closing the writer.  Signing itself never suspends
      when uncontended, and no task is suspended inside it.  [send] is given the
      outcome of [event.serialize]: an exception, or the message written, or
      [None] if the event wrote nothing.  Messages carry a number because the
      signer overwrites them in place and the serializer keeps the last one. *)
  Inductive pact := AWrite (f : bytes) | AClose.
  Record pub := mkPub { p_closed : bool; p_last : option (nat * message); p_next : nat;
                        p_signing : option (sprops * signer); p_trace : list pact }.
  Definition pub_init (signing : option (sprops * bytes)) : pub :=
    mkPub false None 0 (match signing with Some (p, seed) => Some (p, mkSigner seed false) | None => None end) [].

  (** What the environment answers in one step. *)
  Record pinput := mkIn { i_ident : result text; i_now : instant; i_write : option exn; i_close : option exn }.

  Inductive ppc :=
  | PSend (ser : result (option message))
  | PSendIdent (id : nat) (m : message)
  | PSendWriting
  | PClose (then_raise : option exn)
  | PCloseIdent (then_raise : option exn)
  | PCloseWriting (then_raise : option exn)
  | PCloseWriter (raised then_raise : option exn)
  | PDone (r : option exn).

  Definition emit (a : pact) (s : pub) : pub :=
    mkPub (p_closed s) (p_last s) (p_next s) (p_signing s) (p_trace s ++ [a]).

  (** P 75-78: encode, then call [writer.write]. *)
  Definition hand_over (m : message) (s : pub) (next : ppc) (fail : exn -> ppc) : ppc * pub :=
    match encode_message m with
    | Err e => (fail e, s)
    | Ok f => (next, emit (AWrite f) s)
    end.

  Definition pstep (i : pinput) (pc : ppc) (s : pub) : ppc * pub :=
    match pc with
    (* P 54-66 *)
    | PSend ser =>
      if p_closed s then (PDone (Some OSError), s)
      else
        match ser with
        | Err e => (PDone (Some e), s)
        | Ok om =>
          let s1 := match om with
                    | Some m => mkPub (p_closed s) (Some (p_next s, m)) (S (p_next s)) (p_signing s) (p_trace s)
                    | None => s end in
          match p_last s1 with
          | None => (PDone (Some ExpectationNotMet), s1)
          | Some (id, m) =>
            match p_signing s1 with
            | Some _ => (PSendIdent id m, s1)
            | None => hand_over m s1 PSendWriting (fun e => PDone (Some e))
            end
          end
        end
    (* P 66-78: the identity arrives *)
    | PSendIdent id m =>
      match i_ident i, p_signing s with
      | Err e, _ => (PDone (Some e), s)
      | Ok secret, Some (p, st) =>
        match sign st secret p (i_now i) m with
        | Err e => (PDone (Some e), s)
        | Ok (sm, st') =>
          let last' := match p_last s with
                       | Some (k, lm) => if Nat.eqb k id then Some (k, sm) else Some (k, lm)
                       | None => None end in
          let s1 := mkPub (p_closed s) last' (p_next s) (Some (p, st')) (p_trace s) in
          hand_over sm s1 PSendWriting (fun e => PDone (Some e))
        end
      | Ok _, None => (PDone (Some AttributeError), s)
      end
    (* P 78-81: the write ends *)
    | PSendWriting =>
      match i_write i with
      | None => (PDone None, s)
      | Some _ => (PClose (Some OSError), s)
      end
    (* P 83-92 *)
    | PClose k =>
      if p_closed s then (PDone k, s)
      else
        let s1 := mkPub true (p_last s) (p_next s) (p_signing s) (p_trace s) in
        match p_signing s1 with
        | Some _ => (PCloseIdent k, s1)
        | None => (PCloseWriter None k, emit AClose s1)
        end
    (* P 92-103: identity for the end frame *)
    | PCloseIdent k =>
      match i_ident i, p_signing s with
      | Err e, _ => (PCloseWriter (Some e) k, emit AClose s)
      | Ok secret, Some (p, st) =>
        match sign_empty st secret p (i_now i) (mkMessage [] []) with
        | Err e => (PCloseWriter (Some e) k, emit AClose s)
        | Ok (sm, st') =>
          let s1 := mkPub (p_closed s) (p_last s) (p_next s) (Some (p, st')) (p_trace s) in
          match encode_message sm with
          | Err e => (PCloseWriter (Some e) k, emit AClose s1)
          | Ok f => (PCloseWriting k, emit (AWrite f) s1)
          end
        end
      | Ok _, None => (PDone (Some AttributeError), s)
      end
    (* P 103-106: the end frame's write ends; finally: the writer is closed *)
    | PCloseWriting k => (PCloseWriter (i_write i) k, emit AClose s)
    (* P 106-107: the writer's close ends *)
    | PCloseWriter raised k =>
      (PDone (match i_close i with Some e => Some e
              | None => match raised with Some e => Some e | None => k end end), s)
    | PDone _ => (pc, s)
    end.

  (** Running one call to its end: at most seven steps.  [None] = not finished
      after the given inputs. *)
  Fixpoint prun_task (ins : list pinput) (pc : ppc) (s : pub) : option (option exn * pub) :=
    match pc with
    | PDone r => Some (r, s)
    | _ => match ins with
           | [] => None
           | i :: r => let (pc', s') := pstep i pc s in prun_task r pc' s'
           end
    end.

  (** Concurrent calls: each schedule entry advances one task. *)
  Record psys := mkPSys { q_pub : pub; q_tasks : list ppc }.
  Definition qstep (i : nat) (inp : pinput) (q : psys) : psys :=
    match nth_error (q_tasks q) i with
    | None => q
    | Some pc => let (pc', s') := pstep inp pc (q_pub q) in mkPSys s' (set_nth i pc' (q_tasks q))
    end.
  Fixpoint qrun (sched : list (nat * pinput)) (q : psys) : psys :=
    match sched with [] => q | (i, inp) :: r => qrun r (qstep i inp q) end.
End Signing.

(** ** The receiver (P 114-168).  The deserializer is any function from a decoded
    message to a result (the prelude and checksum are not read by it); [value] tells whether the result wraps an exception that
    is raised to the caller (P 152-154). *)
Inductive received (E : Type) := RVal (e : E) | RExc (x : exn).
Arguments RVal {E} e.
Arguments RExc {E} x.

Definition is_event_error (e : exn) : bool :=
  match e with
  | ChecksumMismatch | DuplicateHeader | InvalidEventBytes | InvalidHeadersLength | InvalidHeaderValue
  | InvalidHeaderValueLength | InvalidIntegerValue | InvalidPayloadLength => true
  | _ => false
  end.

Section Receiver.
  Context {S E : Type} (read : Z -> S -> result (bytes * S)) (deser : message -> result (received E)).
  Record recv := mkRecv { r_closed : bool; r_src : S; r_src_closes : nat }.

  (** P 157-164: [close]. *)
  Definition r_close (r : recv) : recv :=
    if r_closed r then r else mkRecv true (r_src r) (Datatypes.S (r_src_closes r)).

  (** P 128-155: [receive].  An exception while decoding leaves the source at an
      unspecified position; the state after it keeps the old one, which is not
      observable because the receiver is closed. *)
  Definition receive (r : recv) : result (option E) * recv :=
    if r_closed r then (Ok None, r)
    else
      match decode_event_from read (r_src r) with
      | Err e => (Err (if is_event_error e then e else OSError), r_close r)
      | Ok (None, s') => (Ok None, mkRecv false s' (r_src_closes r))
      | Ok (Some ev, s') =>
        let r' := mkRecv false s' (r_src_closes r) in
        match deser (e_message ev) with
        | Err e => (Err e, r')
        | Ok (RExc x) => (Err x, r')
        | Ok (RVal v) => (Ok (Some v), r')
        end
      end.

  Inductive rop := RReceive | RClose.
  Definition r_step (op : rop) (r : recv) : result (option E) * recv :=
    match op with RReceive => receive r | RClose => (Ok None, r_close r) end.
  Fixpoint r_run (ops : list rop) (r : recv) : list (result (option E)) * recv :=
    match ops with
    | [] => ([], r)
    | op :: rest => let (o, r1) := r_step op r in let (os, r2) := r_run rest r1 in (o :: os, r2)
    end.
End Receiver.
Arguments recv : clear implicits.
Arguments mkRecv {S}.
Arguments r_closed {S}.
Arguments r_src {S}.
Arguments r_src_closes {S}.
