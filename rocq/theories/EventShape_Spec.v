(** What the members of an event look like on the wire, and when two sets of members
    are the same, said without the serializer's or deserializer's helpers. *)
From Verif Require Import Base Utf8_Model EventStream_Model EventShape_Model.
Local Open Scope N_scope.

Section Spec.
  Context {V : Type}.
  Notation members := (list (member * value V)).

  (** The value a structure ends up with for the member called [n]: the last one set. *)
  Fixpoint value_of (n : text) (vs : members) : option (value V) :=
    match vs with
    | [] => None
    | (m, v) :: r => match value_of n r with Some w => Some w | None => if text_eqb n (mb_name m) then Some v else None end
    end.
  Definition same_members (a b : members) : Prop := forall n, value_of n a = value_of n b.

  (** The header value that stands for a member's value in the event stream format:
      types 0-1 boolean, 2 byte, 3 short, 4 integer, 5 long, 6 blob, 7 string, 8 timestamp. *)
  Inductive on_wire : mtype -> value V -> hvalue -> Prop :=
  | w_bool b : on_wire TBool (VBool b) (HBool b)
  | w_byte z : on_wire TByte (VInt z) (HByte z)
  | w_short z : on_wire TShort (VInt z) (HShort z)
  | w_int z : on_wire TInteger (VInt z) (HInt z)
  | w_intenum z : on_wire TIntEnum (VInt z) (HInt z)
  | w_long z : on_wire TLong (VInt z) (HLong z)
  | w_string s : on_wire TString (VText s) (HString s)
  | w_enum s : on_wire TEnum (VText s) (HString s)
  | w_blob b : on_wire TBlob (VBlob b) (HBlob b)
  | w_time ms : on_wire TTimestamp (VTime ms) (HTimestamp ms).

  (** An event structure as Smithy's model validation lets through: distinct names
      that are identifiers (here: do not start with a colon), no member bound to both
      places, at most one payload member, and with one every other member a header. *)
  Definition event_shape (sh : shape) : Prop :=
    NoDup (map mb_name (sh_members sh)) /\
    Forall (fun m => forall r, mb_name m <> 58 :: r) (sh_members sh) /\
    Forall (fun m => mb_header m = true -> mb_payload m = false) (sh_members sh) /\
    (forall m, In m (sh_members sh) -> mb_payload m = true ->
       forall m', In m' (sh_members sh) -> m' <> m -> mb_header m' = true).

  (** Members of an event: each at most once, header members with values of their
      types, and a string or blob payload with text or bytes. *)
  Definition event_members (sh : shape) (ws : members) : Prop :=
    NoDup (map (fun mv => mb_name (fst mv)) ws) /\
    Forall (fun mv => In (fst mv) (sh_members sh)) ws /\
    Forall (fun mv => mb_header (fst mv) = true -> exists h, on_wire (mb_type (fst mv)) (snd mv) h) ws /\
    Forall (fun mv => mb_payload (fst mv) = true -> (mb_type (fst mv) = TString -> exists s, snd mv = VText s) /\
                                                    (mb_type (fst mv) = TBlob -> exists b, snd mv = VBlob b)) ws.

  Definition in_header (mv : member * value V) : bool := mb_header (fst mv).
  Definition in_body (mv : member * value V) : bool := negb (mb_header (fst mv)).

  (** The payload of an event and the media type it is labelled with, given the
      codec's media type, the bytes it writes for a structure and for lone members:
      without a payload member, the members that are not headers as a structure; with
      one, the text or bytes of a string or blob as they are and anything else as the
      codec writes it. *)
  Inductive payload_of (media : text) (cs : shape -> members -> result bytes) (cv : members -> result bytes)
      (sh : shape) (ws : members) : bytes -> text -> Prop :=
  | p_struct b : Forall (fun m => mb_payload m = false) (sh_members sh) ->
      cs sh (filter in_body ws) = Ok b -> payload_of media cs cv sh ws b media
  | p_text pm s b : In pm (sh_members sh) -> mb_payload pm = true -> mb_type pm = TString ->
      In (pm, VText s) ws -> utf8_encode s = Ok b ->
      payload_of media cs cv sh ws b (match mb_media pm with Some t => t | None => lit "text/plain" end)
  | p_blob pm b : In pm (sh_members sh) -> mb_payload pm = true -> mb_type pm = TBlob ->
      In (pm, VBlob b) ws ->
      payload_of media cs cv sh ws b (match mb_media pm with Some t => t | None => lit "application/octet-stream" end)
  | p_unset pm t : In pm (sh_members sh) -> mb_payload pm = true -> mb_type pm = TString \/ mb_type pm = TBlob ->
      (forall v, ~ In (pm, v) ws) -> payload_of media cs cv sh ws [] t
  | p_other pm b : In pm (sh_members sh) -> mb_payload pm = true -> mb_type pm <> TString -> mb_type pm <> TBlob ->
      cv (filter in_body ws) = Ok b ->
      payload_of media cs cv sh ws b (match mb_media pm with Some t => t | None => media end).

  (** The headers that say what a message is: an exception by its name in the union,
      an event by its name, the initial message of a client or of a server. *)
  Definition says (client : bool) (name : option text) (sh : shape) : option (text * text * text) :=
    match sh_error sh, name with
    | true, Some n => Some (lit "exception", lit ":exception-type", n)
    | true, None => None
    | false, Some n => Some (lit "event", lit ":event-type", n)
    | false, None => Some (lit "event", lit ":event-type", if client then lit "initial-request" else lit "initial-response")
    end.

  (** The codec reads back what it wrote, and does not write nothing. *)
  Definition struct_back (cs : shape -> members -> result bytes) (rs : shape -> bytes -> result members)
      (sh : shape) (ws : members) : Prop :=
    forall b, cs sh ws = Ok b -> b <> [] /\ exists vs, rs sh b = Ok vs /\ same_members vs ws.
  Definition value_back (cv : members -> result bytes) (rv : member -> bytes -> result (value V)) (ws : members) : Prop :=
    match ws with
    | [] => cv [] = Ok []
    | (pm, v) :: _ => forall b, cv ws = Ok b -> b <> [] /\ rv pm b = Ok v
    end.

  (** Everything the event holds can come back: the codec reads back what it wrote,
      and a string or blob payload that is set is not empty. *)
  Definition comes_back (cs : shape -> members -> result bytes) (cv : members -> result bytes)
      (rs : shape -> bytes -> result members) (rv : member -> bytes -> result (value V)) (sh : shape) (ws : members) : Prop :=
    (Forall (fun m => mb_payload m = false) (sh_members sh) -> struct_back cs rs sh (filter in_body ws)) /\
    (forall pm, In pm (sh_members sh) -> mb_payload pm = true -> mb_type pm <> TString -> mb_type pm <> TBlob ->
       value_back cv rv (filter in_body ws)) /\
    (forall pm v, In (pm, v) ws -> mb_payload pm = true -> v <> VText [] /\ v <> VBlob []).
End Spec.
