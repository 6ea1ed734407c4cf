(** The HTTP client for tests.
    M = packages/smithy-http/src/smithy_http/testing/mockhttp.py
    A = packages/smithy-http/src/smithy_http/aio/__init__.py
    [send] has no await, so the calls of any tasks come one after the other.
    Simplifications: destinations and request bodies are opaque values; the reading
    of the body of a response is in Streams_Model. *)
From Verif Require Import Base PyDict_Model Fields_Model.
From Coq Require Import ZArith.

Section Mock.
  Context {D B : Type}.
  Variable lower : text -> text.

  (** A 13-20, [HTTPRequest]: a mutable dataclass; [fields] refers to an object. *)
  Record request := mkRequest { q_destination : D; q_method : text; q_fields : nat; q_body : B }.
  (** A 27-45, [HTTPResponse] with a [Fields] object of its own, seen as its dict. *)
  Record response := mkResponse { p_status : Z; p_fields : list (text * field); p_body : bytes }.
  (** M 50-56: a queued response; [None] is the new empty list of [headers or []],
      [Some l] the caller's list. *)
  Record queued := mkQueued { d_status : Z; d_headers : option nat; d_body : bytes }.

  (** The objects of the program (requests, [Fields], lists of pairs, by number) and
      the two attributes of the client, M 35-36. *)
  Record world := mkWorld {
    w_requests : nat -> request;
    w_fields : nat -> list (text * field);
    w_lists : nat -> list (text * text);
    w_queue : list queued;
    w_captured : list request }.

  Definition put {A} (i : nat) (x : A) (f : nat -> A) : nat -> A := fun j => if Nat.eqb j i then x else f j.

  (** What a program does. *)
  Inductive op :=
  | AddResponse (status : Z) (headers : option nat) (body : bytes)
  | Send (r : nat)
  | ChangeRequest (r : nat) (q : request)                 (** attributes of a request are assigned *)
  | ChangeFields (f : nat) (d : list (text * field))      (** fields of a collection are set, removed, changed *)
  | ChangeList (l : nat) (tuples : list (text * text)).   (** a list of pairs is changed *)

  (** M 38-56, [add_response]. *)
  Definition add_response (status : Z) (headers : option nat) (body : bytes) (w : world) : world :=
    let held := match headers with
                | Some l => match w_lists w l with [] => None | _ => Some l end
                | None => None
                end in
    mkWorld (w_requests w) (w_fields w) (w_lists w) (w_queue w ++ [mkQueued status held body]) (w_captured w).
  (** M 58-85, [send]; [copy(request)] makes a new object with the same attributes;
      [KeyError] stands for MockHTTPClientError. *)
  Definition send (r : nat) (w : world) : world * result response :=
    let captured := w_captured w ++ [w_requests w r] in
    match w_queue w with
    | d :: rest =>
      (mkWorld (w_requests w) (w_fields w) (w_lists w) rest captured,
       Ok (mkResponse (d_status d)
             (tuples_loop lower Header (match d_headers d with Some l => w_lists w l | None => [] end) [])
             (d_body d)))
    | [] => (mkWorld (w_requests w) (w_fields w) (w_lists w) [] captured, Err KeyError)
    end.
  (** M 87-90, [call_count]; 92-95, [captured_requests], each with what its fields
      show when it is looked at. *)
  Definition call_count (w : world) : nat := List.length (w_captured w).
  Definition captured_requests (w : world) : list (request * list (text * field)) :=
    map (fun q => (q, w_fields w (q_fields q))) (w_captured w).

  Definition step (o : op) (w : world) : world * option (result response) :=
    match o with
    | AddResponse s h b => (add_response s h b w, None)
    | Send r => let (w', x) := send r w in (w', Some x)
    | ChangeRequest r q => (mkWorld (put r q (w_requests w)) (w_fields w) (w_lists w) (w_queue w) (w_captured w), None)
    | ChangeFields f d => (mkWorld (w_requests w) (put f d (w_fields w)) (w_lists w) (w_queue w) (w_captured w), None)
    | ChangeList l t => (mkWorld (w_requests w) (w_fields w) (put l t (w_lists w)) (w_queue w) (w_captured w), None)
    end.
  (** A program: the world after it, and how each [send] ended. *)
  Fixpoint run (ops : list op) (w : world) : world * list (result response) :=
    match ops with
    | [] => (w, [])
    | o :: rest =>
      let (w1, x) := step o w in
      let (w2, xs) := run rest w1 in
      (w2, match x with Some x => x :: xs | None => xs end)
    end.
  (** M 25-36, [__init__]. *)
  Definition start (requests : nat -> request) (fields : nat -> list (text * field)) (lists : nat -> list (text * text)) : world :=
    mkWorld requests fields lists [] [].
End Mock.
Arguments request : clear implicits.
Arguments world : clear implicits.
Arguments op : clear implicits.
