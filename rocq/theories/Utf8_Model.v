(** Model of [str.encode("utf-8")] and [bytes.decode("utf-8")] (strict error
    handler), as used throughout the repository, e.g.
    smithy_aws_event_stream/events.py lines 426, 516, 682. *)
From Verif Require Import Base.
Local Open Scope N_scope.

(** A Unicode scalar value: what a Python [str] may contain and still be
    encodable (lone surrogates raise UnicodeEncodeError). *)
Definition is_scalar (c : N) : bool :=
  (c <? 0xD800) || ((0xE000 <=? c) && (c <? 0x110000)).

Definition utf8_encode_cp (c : N) : result bytes :=
  if c <? 0x80 then Ok [c]
  else if c <? 0x800 then Ok [0xC0 + c / 64; 0x80 + c mod 64]
  else if (0xD800 <=? c) && (c <? 0xE000) then Err UnicodeError
  else if c <? 0x10000 then
    Ok [0xE0 + c / 4096; 0x80 + (c / 64) mod 64; 0x80 + c mod 64]
  else if c <? 0x110000 then
    Ok [0xF0 + c / 262144; 0x80 + (c / 4096) mod 64; 0x80 + (c / 64) mod 64; 0x80 + c mod 64]
  else Err UnicodeError.

Fixpoint utf8_encode (s : text) : result bytes :=
  match s with
  | [] => Ok []
  | c :: r => do b <- utf8_encode_cp c; do bs <- utf8_encode r; Ok (b ++ bs)
  end.

Definition is_cont (b : N) : bool := (0x80 <=? b) && (b <? 0xC0).

(** Strict decoding: continuation bytes are checked, overlong forms, surrogates
    and values above U+10FFFF are rejected. *)
Fixpoint utf8_decode (bs : bytes) : result text :=
  match bs with
  | [] => Ok []
  | b0 :: r0 =>
    if b0 <? 0x80 then do s <- utf8_decode r0; Ok (b0 :: s)
    else if b0 <? 0xC2 then Err UnicodeError
    else if b0 <? 0xE0 then
      match r0 with
      | b1 :: r1 =>
        if is_cont b1 then
          do s <- utf8_decode r1; Ok (((b0 - 0xC0) * 64 + (b1 - 0x80)) :: s)
        else Err UnicodeError
      | [] => Err UnicodeError
      end
    else if b0 <? 0xF0 then
      match r0 with
      | b1 :: b2 :: r2 =>
        if is_cont b1 && is_cont b2 then
          let c := (b0 - 0xE0) * 4096 + (b1 - 0x80) * 64 + (b2 - 0x80) in
          if (c <? 0x800) || ((0xD800 <=? c) && (c <? 0xE000)) then Err UnicodeError
          else do s <- utf8_decode r2; Ok (c :: s)
        else Err UnicodeError
      | _ => Err UnicodeError
      end
    else if b0 <? 0xF5 then
      match r0 with
      | b1 :: b2 :: b3 :: r3 =>
        if is_cont b1 && is_cont b2 && is_cont b3 then
          let c := (b0 - 0xF0) * 262144 + (b1 - 0x80) * 4096 + (b2 - 0x80) * 64 + (b3 - 0x80) in
          if (c <? 0x10000) || (0x110000 <=? c) then Err UnicodeError
          else do s <- utf8_decode r3; Ok (c :: s)
        else Err UnicodeError
      | _ => Err UnicodeError
      end
    else Err UnicodeError
  end.
