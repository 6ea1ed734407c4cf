(** The calls a shape makes to the JSON serializer, one by one, up to the first
    that raises: smithy_core/serializers.py and
    packages/smithy-json/src/smithy_json/_private/serializers.py. *)
From Verif Require Import Base Utf8_Model PyText_Model PySort_Model PyDict_Model PyDecimal_Model Base64_Model Json_Model.
Local Open Scope N_scope.
Local Open Scope w_scope.

(** The writing methods of [ShapeSerializer], smithy_core/serializers.py lines
    93-220.  A data stream is bytes (or a bytearray) or something to be read
    later. *)
Inductive stream := SBytes (bs : bytes) | SReader.
Inductive method :=
| MNull | MBoolean (b : bool)
| MByte (z : Z) | MShort (z : Z) | MInteger (z : Z) | MLong (z : Z) | MBigInteger (z : Z)
| MFloat (f : float) | MDouble (f : float) | MBigDecimal (d : bigdec)
| MString (s : text) | MBlob (bs : bytes) | MTimestamp (trait : option tformat) (t : Z)
| MDocument (p : plain) | MDataStream (s : stream).

(** A call; [serialize_members], or the code that writes a list or a map, may
    raise at any point ([CRaise]).  The schema a structure member is written with
    is that of a member, given by name, or not that of a member at all. *)
Inductive call :=
| CWrite (m : method)
| CRaise (e : exn)
| CStruct (schema : N) (ms : list (option text * call))
| CList (l : list call)
| CMap (l : list (text * call)).

(** [UnsupportedStreamError] *)
Definition unsupported : exn := OtherErr 77.
Definition wraise (e : exn) : W := ([], Some e).

Section Calls.
  Variable st : settings.
  Variable env : N -> node.
  Variable ts_ser : tformat -> Z -> tstext.

  (** JSONShapeSerializer, lines 56-109, with the methods it inherits:
      serializers.py (core) lines 114, 122, 138, 154, 162 and 218-220. *)
  Definition json_write (m : method) : W :=
    match m with
    | MNull => write_null
    | MBoolean b => write_bool b
    | MByte z => write_int z
    | MShort z => write_int z
    | MInteger z => write_int z
    | MLong z => write_int z
    | MBigInteger z => write_int z
    | MFloat f => write_float f
    | MDouble f => write_float f
    | MBigDecimal d => write_decimal d
    | MString s => write_string s
    | MBlob bs => write_string (b64encode bs)
    | MTimestamp trait t => write_timestamp st ts_ser trait t
    | MDocument p => write_plain p
    | MDataStream s =>
      (match s with SBytes bs => write_string (b64encode bs) | SReader => wnone end) ;; wraise unsupported
    end.

  (** [write_more], unless it is the first: lines 142-145, 183-186, 219-222. *)
  Definition separator (first : bool) : W := if first then wnone else wraw [44].
  (** JSONStructSerializer.before, lines 141-152. *)
  Definition struct_before (first : bool) (schema : N) (k : option text) : W :=
    separator first ;;
    match k with
    | Some k => member_key st env schema k
    | None => wraise ExpectationNotMet
    end.
  (** Both [after]s, lines 154-155 and 190-191. *)
  Definition after : W := wnone.
  (** InterceptingSerializer: serializers.py (core) lines 256-350; for a scalar as
      for a structure, list or map, [after] runs if nothing was raised. *)
  Definition intercepted (before delegate : W) : W := before ;; delegate ;; after.
  (** [__enter__] and [__exit__], lines 128-139, 169-180, 205-216: the end is
      written unless there is an exception. *)
  Definition within (start : bytes) (body : W) (stop : bytes) : W :=
    wraw start ;; (match snd body with None => body ;; wraw stop | Some _ => body end).

  (** The members through [before] and [after]; the entries of a map, lines 218-225. *)
  Fixpoint make (c : call) : W :=
    match c with
    | CWrite m => json_write m
    | CRaise e => wraise e
    | CStruct schema ms =>
      within [123]
        ((fix go (first : bool) (ms : list (option text * call)) : W :=
            match ms with
            | [] => wnone
            | (k, x) :: r => intercepted (struct_before first schema k) (make x) ;; go false r
            end) true ms)
        [125]
    | CList l =>
      within [91]
        ((fix go (first : bool) (l : list call) : W :=
            match l with
            | [] => wnone
            | x :: r => intercepted (separator first) (make x) ;; go false r
            end) true l)
        [93]
    | CMap l =>
      within [123]
        ((fix go (first : bool) (l : list (text * call)) : W :=
            match l with
            | [] => wnone
            | (k, x) :: r => separator first ;; write_key k ;; make x ;; go false r
            end) true l)
        [125]
    end.
End Calls.
