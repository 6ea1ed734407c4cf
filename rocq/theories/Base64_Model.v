(** CPython base64.b64encode and base64.b64decode (binascii.a2b_base64, not strict). *)
From Verif Require Import Base.
Local Open Scope N_scope.

(** The alphabet: the character of a value below 64. *)
Definition b64_char (v : N) : N :=
  if v <? 26 then 65 + v else if v <? 52 then 71 + v else if v <? 62 then v - 4 else if v =? 62 then 43 else 47.
(** The value of a character. *)
Definition b64_val (c : N) : option N :=
  if (65 <=? c) && (c <=? 90) then Some (c - 65)
  else if (97 <=? c) && (c <=? 122) then Some (c - 71)
  else if (48 <=? c) && (c <=? 57) then Some (c + 4)
  else if c =? 43 then Some 62
  else if c =? 47 then Some 63
  else None.

(** [b64encode]: three bytes are four characters, with [=] for what is missing. *)
Fixpoint b64encode (bs : bytes) : text :=
  match bs with
  | [] => []
  | [a] => [b64_char (a / 4); b64_char (a mod 4 * 16); 61; 61]
  | [a; b] => [b64_char (a / 4); b64_char (a mod 4 * 16 + b / 16); b64_char (b mod 16 * 4); 61]
  | a :: b :: c :: r =>
    b64_char (a / 4) :: b64_char (a mod 4 * 16 + b / 16) :: b64_char (b mod 16 * 4 + c / 64) :: b64_char (c mod 64) :: b64encode r
  end.

(** The loop of [a2b_base64]: characters outside the alphabet are skipped; a
    padding that completes a quad ends the data.  [None] is binascii.Error, a
    ValueError. *)
Fixpoint b64_loop (pos left pads : N) (s : text) : option bytes :=
  match s with
  | [] => if pos =? 0 then Some [] else None
  | c :: r =>
    if c =? 61 then
      if (2 <=? pos) && (4 <=? pos + pads + 1) then Some []
      else b64_loop pos left (if 2 <=? pos then pads + 1 else pads) r
    else match b64_val c with
         | None => b64_loop pos left pads r
         | Some v =>
           if pos =? 0 then b64_loop 1 v 0 r
           else if pos =? 1 then option_map (cons (left * 4 + v / 16)) (b64_loop 2 (v mod 16) 0 r)
           else if pos =? 2 then option_map (cons (left * 16 + v / 4)) (b64_loop 3 (v mod 4) 0 r)
           else option_map (cons (left * 64 + v)) (b64_loop 0 0 0 r)
         end
  end.
(** [b64decode] of a str that has only ASCII characters; otherwise ValueError. *)
Definition b64decode (s : text) : result bytes :=
  if forallb (fun c => c <? 128) s then
    match b64_loop 0 0 0 s with Some b => Ok b | None => Err ValueError end
  else Err ValueError.
