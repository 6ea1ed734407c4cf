(** What a holder of objects sees, and which objects are as they were. *)
From Verif Require Import Base PyDict_Model Fields_Model Attempt_Model.
From Verif Require Sign_Model.

(** The entries of a collection, with what the field objects hold. *)
Fixpoint fields_seen (objects : list field) (es : entries) : option Sign_Model.fields :=
  match es with
  | [] => Some []
  | (k, r) :: rest =>
    match nth_error objects r, fields_seen objects rest with
    | Some f, Some fs => Some ((k, Sign_Model.mkField (f_name f) (f_values f)) :: fs)
    | _, _ => None
    end
  end.

(** A request, with all that it refers to. *)
Definition request_seen (s : store) (q : ref) : option Sign_Model.request :=
  match nth_error (s_reqs s) q with
  | None => None
  | Some rq =>
    match nth_error (cols (s_state s)) (q_fields rq), nth_error (s_bodies s) (q_body rq) with
    | Some es, Some b =>
      match fields_seen (heap (s_state s)) es with
      | Some fs => Some (Sign_Model.mkRequest (q_dest rq) (q_method rq) b fs)
      | None => None
      end
    | _, _ => None
    end
  end.

(** The headers of a request as they are sent: names and values in order. *)
Definition headers_seen (s : store) (q : ref) : option (list (text * list text)) :=
  match nth_error (s_reqs s) q with
  | None => None
  | Some rq =>
    match nth_error (cols (s_state s)) (q_fields rq) with
    | None => None
    | Some es =>
      match fields_seen (heap (s_state s)) es with
      | Some fs => Some (map (fun kf => (Sign_Model.f_name (snd kf), Sign_Model.f_values (snd kf))) fs)
      | None => None
      end
    end
  end.

(** All objects there were, but for one body perhaps, are there and hold what
    they held. *)
Record untouched (but : option ref) (s s' : store) : Prop := {
  same_requests : forall q x, nth_error (s_reqs s) q = Some x -> nth_error (s_reqs s') q = Some x;
  same_collections : forall c x, nth_error (cols (s_state s)) c = Some x -> nth_error (cols (s_state s')) c = Some x;
  same_fields : forall r x, nth_error (heap (s_state s)) r = Some x -> nth_error (heap (s_state s')) r = Some x;
  same_bodies : forall b x, but <> Some b -> nth_error (s_bodies s) b = Some x -> nth_error (s_bodies s') b = Some x }.

(** The request [q] and its headers are objects that were not there before. *)
Definition own_objects (s s' : store) (q : ref) : Prop :=
  nth_error (s_reqs s) q = None /\
  exists rq es, nth_error (s_reqs s') q = Some rq /\ nth_error (cols (s_state s)) (q_fields rq) = None /\
    nth_error (cols (s_state s')) (q_fields rq) = Some es /\
    forall k r, In (k, r) es -> nth_error (heap (s_state s)) r = None.

(** ** Attempts *)

(** An attempt assigns attributes of its own requests only: those with numbers
    from [n]. *)
Definition own_request (n : nat) (a : action) : Prop :=
  match a with
  | SetDest q _ | SetMethod q _ | SetBody q _ | SetFields q _ => (n <= q)%nat
  | _ => True
  end.
(** It changes no field or collection that was there before it. *)
Definition own_headers (st : state) (a : action) : Prop :=
  match a with
  | OnHeaders o =>
    match o with
    | ONewField _ _ _ | ONewFields _ => True
    | OSetItem c _ _ | OSetField c _ | ODelItem c _ => (List.length (cols st) <= c)%nat
    | OAdd r _ | OSetValues r _ | ORemove r _ => (List.length (heap st) <= r)%nat
    | OExtend _ _ => False
    end
  | _ => True
  end.

(** A property of all actions of all attempts, given the request and the objects
    each attempt starts with. *)
Inductive Every (P : ref -> store -> action -> Prop) : list (ref * store) -> list (list action) -> Prop :=
| every_none : Every P [] []
| every_more q s starts l rest : Forall (P q s) l -> Every P starts rest -> Every P ((q, s) :: starts) (l :: rest).
