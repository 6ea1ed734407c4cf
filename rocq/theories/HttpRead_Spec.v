(** What reading a response is expected to give back, independently of the
    deserializer. *)
From Verif Require Import Base Header_Spec HttpVal_Model HttpVal_Spec HttpBind_Model HttpBind_Spec.
From Verif Require Time_Model.
Local Open Scope N_scope.

(** Folding of ASCII texts; what [str.lower] does to others is left open. *)
Definition ascii (s : text) : Prop := Forall (fun c => c < 128) s.
Definition fold_char (c : N) : N := if (65 <=? c) && (c <=? 90) then c + 32 else c.
Definition folds (lower : text -> text) : Prop := forall s, ascii s -> lower s = map fold_char s.

(** The value that comes back for one that was written: the same, where scalars are
    compared as in HttpVal_Spec and a streamed blob comes back as data. *)
Inductive back : value -> value -> Prop :=
| Back_same v : back v v
| Back_one a b : same a b -> back (VOne a) (VOne b)
| Back_list l l' : Forall2 same l l' -> back (VList (map Some l)) (VList (map Some l'))
| Back_streamed bs : back (VOne (HBlob bs)) (VData (DBytes bs)).

Section Read.
  Variable pads_year : bool.
  Variable nearest : PyDecimal_Model.decimal -> float.
  Variable lower : text -> text.
  Variable codec_value : nat * value -> result bytes.
  Variable codec_struct : list (nat * value) -> result bytes.
  Variable decode_value : nat -> bytes -> result value.
  Variable decode_struct : bytes -> result (list (nat * value)).

  (** A value in one header: scalars that a header carries; lists that are not empty and
      hold no null.  A list of one text is read as a list of texts, so that the text must
      be an element that stands for itself. *)
  Definition header_carries (m : member) (v : value) : Prop :=
    match m_shape m, v with
    | ShList _ lf, VList l =>
        l <> [] /\ (forall e, In e l -> exists s, e = Some s /\ carried pads_year nearest lf s) /\
        (forall s, l = [Some (HText s)] -> if lf_media lf then s <> [] else HeaderList s [s])
    | ShScalar _, VOne s | ShEnum, VOne s => carried pads_year nearest (m_leaf m) s
    | _, _ => False
    end.
  (** Entries in headers with a common prefix: texts under ASCII names that differ. *)
  Definition headers_carry (v : value) : Prop :=
    exists es, v = VMap (map (fun e => (fst e, IText (snd e))) es) /\
      Forall (fun e => ascii (fst e)) es /\ NoDup (map (fun e => map fold_char (fst e)) es).

  (** The headers of a schema can be told apart: names differ when folded, among
      themselves and from those the serializer adds; there is at most one prefix, and no
      other header starts with it.  At most one member is the status. *)
  Definition under (prefix name : text) : Prop := exists rest, lower name = lower prefix ++ rest.
  Record apart (ms : list member) : Prop := mkApart {
    ap_header : forall i j mi mj k l, nth_error ms i = Some mi -> nth_error ms j = Some mj ->
      placed (response_places mi) (AtHeader k) -> placed (response_places mj) (AtHeader l) -> lower k = lower l -> i = j;
    ap_added : forall m k, In m ms -> placed (response_places m) (AtHeader k) ->
      lower k <> lower (lit "content-type") /\ lower k <> lower (lit "content-length");
    ap_prefix : forall m p, In m ms -> placed (response_places m) (AtHeaders p) ->
      ascii p /\ ~ under p (lit "content-type") /\ ~ under p (lit "content-length") /\
      (forall m' k, In m' ms -> placed (response_places m') (AtHeader k) -> ~ under p k);
    ap_one : forall i j mi mj p q, nth_error ms i = Some mi -> nth_error ms j = Some mj ->
      placed (response_places mi) (AtHeaders p) -> placed (response_places mj) (AtHeaders q) -> i = j;
    ap_status : forall i j mi mj, nth_error ms i = Some mi -> nth_error ms j = Some mj ->
      placed (response_places mi) AtStatus -> placed (response_places mj) AtStatus -> i = j
  }.

  (** The payload of a schema: no events; an enumeration is not sent as its text and
      other streams than blobs do not occur. *)
  Definition plain_payload (ms : list member) : Prop :=
    (forall m, In m ms -> ~ is_event_stream m) /\
    (forall m, In m ms -> placed (response_places m) AsPayload ->
       m_shape m <> ShEnum /\ (m_streaming m = true -> m_shape m = ShScalar KBlob)).
  (** An unset payload is read as empty, not at all, or (for a document or a single
      value) as a value that is not there: the last must be set. *)
  Definition may_be_unset (m : member) : Prop :=
    match m_shape m with
    | ShScalar KText | ShScalar KBlob | ShList _ _ | ShMap | ShStruct | ShUnion => True
    | _ => False
    end.
  (** The codec gives back what it wrote, in at least one byte. *)
  Definition codec_back (vals : list (nat * value)) : Prop :=
    (forall i v bs, In (i, v) vals -> codec_value (i, v) = Ok bs ->
       bs <> [] /\ exists v', decode_value i bs = Ok v' /\ back v v') /\
    (forall kept bs, (forall iv, In iv kept -> In iv vals) -> codec_struct kept = Ok bs ->
       bs <> [] /\ exists ys, decode_struct bs = Ok ys /\ Forall2 (fun a b => fst a = fst b /\ back (snd a) (snd b)) kept ys).

  (** A written value its place gives back. *)
  Definition returns (m : member) (p : place) (v : value) : Prop :=
    match p with
    | AtHeader _ => header_carries m v
    | AtHeaders _ => headers_carry v
    | _ => True
    end.
  (** What is read for a member that was not written: the status of the response, no
      header under the prefix, an empty payload. *)
  Definition unset_reads (status : Z) (m : member) (p : place) (v : value) : Prop :=
    match p with
    | AtStatus => v = VOne (HInt status)
    | AtHeaders _ => v = VMap []
    | AsPayload =>
      match m_shape m with
      | ShScalar KText => v = VOne (HText [])
      | ShScalar KBlob => v = VOne (HBlob []) \/ v = VData (DBytes [])
      | _ => False
      end
    | _ => False
    end.
End Read.
