(** Where the members of a structure go in an HTTP message: the tables of the Smithy
    HTTP bindings, independently of the serializers. *)
From Verif Require Import Base Utf8_Model PyText_Model PySort_Model PyDict_Model Fields_Model Http_Model Http_Spec HttpVal_Model HttpVal_Spec HttpBind_Model.
From Verif Require Time_Model Utf8_Proofs.

Inductive place :=
| AtHeader (name : text) | AtHeaders (prefix : text) | AtQuery (key : text) | AtQueries
| AtPath | AtHost | AtStatus | AsPayload | InBody.

(** The places the traits of a member name. *)
Definition if_set {A} (b : bool) (x : A) : list A := if b then [x] else [].
Definition if_some {A B} (f : A -> B) (o : option A) : list B := match o with Some x => [f x] | None => [] end.
Definition request_places (m : member) : list place :=
  if_set (m_payload m) AsPayload ++ if_set (m_host m) AtHost ++ if_some AtHeaders (m_prefix m)
  ++ if_some AtHeader (m_header m) ++ if_set (m_query_params m) AtQueries ++ if_some AtQuery (m_query m)
  ++ if_set (m_label m) AtPath.
Definition response_places (m : member) : list place :=
  if_set (m_payload m) AsPayload ++ if_some AtHeaders (m_prefix m) ++ if_some AtHeader (m_header m)
  ++ if_set (m_status m) AtStatus.
(** At most one trait; a member without one is in the body. *)
Definition placed (places : list place) (p : place) : Prop :=
  places = [p] \/ (places = [] /\ p = InBody).

(** A schema the bindings can be applied to: one place for each member; a payload
    leaves no member to the body; maps go to the places for maps; names differ. *)
Definition wants_map (p : place) : bool := match p with AtHeaders _ | AtQueries => true | _ => false end.
Definition wants_other (p : place) : bool := match p with AtHeader _ | AtQuery _ => true | _ => false end.
Definition in_body (p : place) : bool := match p with InBody | AtHost | AsPayload => true | _ => false end.
Record good_schema (places : member -> list place) (ms : list member) : Prop := mkGood {
  g_one : forall m, In m ms -> exists p, placed (places m) p;
  g_payload : forall i j mi mj p, nth_error ms i = Some mi -> placed (places mi) AsPayload ->
    nth_error ms j = Some mj -> placed (places mj) p -> in_body p = true -> i = j;
  g_map : forall m p, In m ms -> placed (places m) p -> wants_map p = true -> m_shape m = ShMap;
  g_other : forall m p, In m ms -> placed (places m) p -> wants_other p = true -> m_shape m <> ShMap;
  g_names : NoDup (map m_name ms)
}.
(** A value of the member's shape. *)
Definition has_shape (m : member) (v : value) : Prop :=
  match m_shape m, v with
  | ShScalar k, VOne s => kind_of s = k
  | ShScalar KBlob, VData _ => m_streaming m = true
  | ShEnum, VOne (HText _) => True
  | ShList k _, VList l => forall s, In (Some s) l -> kind_of s = k
  | ShMap, VMap _ => True
  | ShStruct, VOther _ | ShUnion, VOther _ | ShDocument, VOther _ => True
  | _, _ => False
  end.
(** The members that are set, in the order they are written, each once. *)
Definition written (ms : list member) (vals : list (nat * value)) : Prop :=
  NoDup (map fst vals) /\
  forall i v, In (i, v) vals -> exists m, nth_error ms i = Some m /\ has_shape m v.

Section Spec.
  Variable pads_year : bool.
  Variable repr : Time_Model.float -> text.
  Variable lower : text -> text.
  Variable media_type : text.
  Variable codec_value : nat * value -> result bytes.
  Variable codec_struct : list (nat * value) -> result bytes.

  (** The lines a value gives where lines can be repeated: one for a single value, one
      for each element of a list, in order, one for each entry of a map. *)
  Definition element_texts (f : scalar -> result text) (l : list (option scalar)) (ts : list text) : Prop :=
    Forall2 (fun e t => exists s, e = Some s /\ f s = Ok t) l ts.
  Definition elements (m : member) : leaf := match m_shape m with ShList _ e => e | _ => m_leaf m end.
  Definition keyed_lines (f : leaf -> scalar -> result text) (m : member) (key : text) (v : value) (lines : list (text * text)) : Prop :=
    exists ts, lines = map (fun t => (key, t)) ts /\
      match v with
      | VOne s => exists t, ts = [t] /\ f (m_leaf m) s = Ok t
      | VList l => element_texts (f (elements m)) l ts
      | _ => False
      end.
  Definition header_lines (m : member) (p : place) (v : value) (lines : list (text * text)) : Prop :=
    match p with
    | AtHeader key => keyed_lines (header_text pads_year repr) m key v lines
    | AtHeaders prefix => exists es, v = VMap (map (fun e => (fst e, IText (snd e))) es) /\
        lines = map (fun e => (prefix ++ fst e, snd e)) es
    | _ => lines = []
    end.
  Definition entry_params (e : text * item) : list (text * text) :=
    match e with (k, IText s) => [(k, s)] | (k, ITexts l) => map (fun s => (k, s)) l end.
  Definition query_params (m : member) (p : place) (v : value) (params : list (text * text)) : Prop :=
    match p with
    | AtQuery key => keyed_lines (query_text pads_year repr) m key v params
    | AtQueries => exists es, v = VMap es /\ params = flat_map entry_params es
    | _ => params = []
    end.
  (** What every written member contributes, in the order of writing. *)
  Definition contributions {X} (places : member -> list place) (ms : list member)
      (f : member -> place -> value -> list X -> Prop) (vals : list (nat * value)) (all : list X) : Prop :=
    exists parts, all = List.concat parts /\
      Forall2 (fun iv part => exists m p, nth_error ms (fst iv) = Some m /\ placed (places m) p /\ f m p (snd iv) part) vals parts.

  (** The values of a header, whatever the case of its name. *)
  Definition header_values (fields : list (text * field)) (name : text) : list text :=
    match dict_get (lower name) fields with Some f => f_values f | None => [] end.
  Definition lines_named (name : text) (lines : list (text * text)) : list text :=
    map snd (filter (fun l => text_eqb (lower name) (lower (fst l))) lines).

  (** The text of a label of the path pattern [ps], and of the host. *)
  Definition label_of (ps : list piece) (m : member) (v : value) (t : text) : Prop :=
    exists s greedy, v = VOne s /\ (greedy = true <-> is_greedy (m_name m) ps) /\
      label_text pads_year repr greedy (m_leaf m) s = Ok t.
  Definition host_label_of (v : value) (t : text) : Prop :=
    exists s, v = VOne (HText s) /\ urlquote [46%N] s = Ok t.

  (** The member written at a place. *)
  Definition set_at (places : member -> list place) (ms : list member) (vals : list (nat * value)) (p : place) (m : member) (v : value) : Prop :=
    exists i, In (i, v) vals /\ nth_error ms i = Some m /\ placed (places m) p.

  (** The body, its type and its length, by what the schema has.  [with_enum]: is the text
      of an enumeration sent as it is? *)
  Definition is_event_stream (m : member) : Prop := m_streaming m = true /\ m_shape m = ShUnion.
  Definition sent_raw (with_enum : bool) (m : member) : Prop :=
    m_shape m = ShScalar KText \/ m_shape m = ShScalar KBlob \/ (with_enum = true /\ m_shape m = ShEnum).
  Definition default_type (m : member) : text :=
    match m_shape m with ShScalar KBlob => lit "application/octet-stream" | _ => lit "text/plain" end.
  Definition or_type (o : option text) (t : text) : text := match o with Some x => x | None => t end.
  Definition size (bs : bytes) : N := N.of_nat (List.length bs).
  (** the bytes of a value sent as it is *)
  Inductive raw_bytes : value -> bytes -> Prop :=
  | Raw_text s bs : utf8_encode s = Ok bs -> raw_bytes (VOne (HText s)) bs
  | Raw_blob bs : raw_bytes (VOne (HBlob bs)) bs
  | Raw_data bs : raw_bytes (VData (DBytes bs)) bs.
  Inductive body_of (with_enum omit_empty : bool) (places : member -> list place) (ms : list member) (vals : list (nat * value))
      : body -> option text -> option N -> Prop :=
  | Body_events m : In m ms -> is_event_stream m ->
      (forall p m' v, in_body p = true -> ~ set_at places ms vals p m' v) ->
      body_of with_enum omit_empty places ms vals BEvents (Some (lit "application/vnd.amazon.eventstream")) None
  | Body_raw i m v bs : (forall m, In m ms -> ~ is_event_stream m) -> nth_error ms i = Some m -> placed (places m) AsPayload ->
      sent_raw with_enum m -> In (i, v) vals -> raw_bytes v bs ->
      body_of with_enum omit_empty places ms vals (BBytes bs) (Some (or_type (m_media m) (default_type m))) (Some (size bs))
  | Body_stream i m s : (forall m, In m ms -> ~ is_event_stream m) -> nth_error ms i = Some m -> placed (places m) AsPayload ->
      sent_raw with_enum m -> In (i, VData (DStream s)) vals ->
      body_of with_enum omit_empty places ms vals (BStream s) (Some (or_type (m_media m) (default_type m))) None
  | Body_raw_unset i m : (forall m, In m ms -> ~ is_event_stream m) -> nth_error ms i = Some m -> placed (places m) AsPayload ->
      sent_raw with_enum m -> ~ In i (map fst vals) ->
      body_of with_enum omit_empty places ms vals (BBytes []) (Some (or_type (m_media m) (default_type m))) None
  | Body_value i m v bs : (forall m, In m ms -> ~ is_event_stream m) -> nth_error ms i = Some m -> placed (places m) AsPayload ->
      ~ sent_raw with_enum m -> In (i, v) vals -> codec_value (i, v) = Ok bs ->
      body_of with_enum omit_empty places ms vals (BBytes bs) (Some (or_type (m_media m) media_type)) (Some (size bs))
  | Body_value_unset i m : (forall m, In m ms -> ~ is_event_stream m) -> nth_error ms i = Some m -> placed (places m) AsPayload ->
      ~ sent_raw with_enum m -> ~ In i (map fst vals) ->
      body_of with_enum omit_empty places ms vals (BBytes []) (Some (or_type (m_media m) media_type)) (Some 0%N)
  | Body_struct keep bs : (forall m, In m ms -> ~ is_event_stream m /\ ~ placed (places m) AsPayload) ->
      omit_empty = false \/ (exists m p, In m ms /\ placed (places m) p /\ in_body p = true) ->
      (* exactly the members of the body, in order *)
      (forall i m p, nth_error ms i = Some m -> placed (places m) p -> keep i = in_body p) ->
      codec_struct (filter (fun iv => keep (fst iv)) vals) = Ok bs ->
      body_of with_enum omit_empty places ms vals (BBytes bs) (Some media_type) (Some (size bs))
  | Body_none : (forall m, In m ms -> ~ is_event_stream m /\ forall p, placed (places m) p -> in_body p = false) ->
      omit_empty = true ->
      body_of with_enum omit_empty places ms vals (BBytes []) None None.

  (** A value that its place can take. *)
  Definition writable (ps : list piece) (m : member) (p : place) (v : value) : Prop :=
    match p with
    | AtHeader _ | AtHeaders _ => exists lines, header_lines m p v lines
    | AtQuery _ | AtQueries => exists params, query_params m p v params /\
        forall k t, In (k, t) params -> Utf8_Proofs.valid_text k = true /\ Utf8_Proofs.valid_text t = true
    | AtPath => exists t, label_of ps m v t
    | AtHost => exists t, host_label_of v t
    | AtStatus => exists z, v = VOne (HInt z)
    | AsPayload | InBody => True
    end.
  (** The headers of the message: what the members give, then the type and the length. *)
  Definition fields_of (places : member -> list place) (ms : list member) (vals : list (nat * value)) (ct : option text) (cl : option N)
      (fields : list (text * field)) : Prop :=
    exists lines, contributions places ms header_lines vals lines /\
      forall name, header_values fields name =
        lines_named name (lines ++ if_some (fun t => (lit "content-type", t)) ct ++ if_some (fun n => (lit "content-length", dec n)) cl).
End Spec.
