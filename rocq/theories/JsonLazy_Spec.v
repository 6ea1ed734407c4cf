(** The JSON values Python values stand for. *)
From Verif Require Import Base PyDecimal_Model Json_Model Json_Spec JsonLazy_Model.
Local Open Scope N_scope.

(** A JSON text with this value says this Python value; a number with a point or an
    exponent is a float of the same value and sign. *)
Inductive says : json -> pyval -> Prop :=
| Sa_null : says JNull YNull
| Sa_bool b : says (JBool b) (YBool b)
| Sa_int n z : integral n = true -> num_value n = (z, 0%Z) -> says (JNum n) (YInt z)
| Sa_float n d : integral n = false -> same_value (num_value n) (dec_value d) -> n_neg n = d_neg d -> says (JNum n) (YFloat (FFin d))
| Sa_str s : says (JStr s) (YStr s)
| Sa_list js l : Forall2 says js l -> says (JArr js) (YList l)
| Sa_dict js l : Forall2 (fun a b => fst a = fst b /\ says (snd a) (snd b)) js l -> says (JObj js) (YDict l).

(** No high surrogate before a low one: together they are one character of JSON. *)
Definition is_high (c : N) : Prop := 0xD800 <= c < 0xDC00.
Definition is_low (c : N) : Prop := 0xDC00 <= c < 0xE000.
Definition unpaired (s : text) : Prop :=
  Forall (fun c => c < 0x110000) s /\ forall x c d y, s = x ++ c :: d :: y -> ~ (is_high c /\ is_low d).

(** A float is the one its decimal is read as. *)
Definition exact (float_of : decimal -> float) (d : decimal) : Prop :=
  (d_coeff d = 0 -> d_exp d = 0%Z) /\
  forall d', same_value (dec_value d') (dec_value d) -> d_neg d' = d_neg d -> float_of d' = FFin d.
(** The values that have a JSON text: all floats are finite, the keys of a dict differ. *)
Inductive json_able (float_of : decimal -> float) : pyval -> Prop :=
| Ja_null : json_able float_of YNull
| Ja_bool b : json_able float_of (YBool b)
| Ja_int z : json_able float_of (YInt z)
| Ja_float d : exact float_of d -> json_able float_of (YFloat (FFin d))
| Ja_str s : unpaired s -> json_able float_of (YStr s)
| Ja_list l : Forall (json_able float_of) l -> json_able float_of (YList l)
| Ja_dict l : NoDup (map fst l) -> Forall (fun a => unpaired (fst a) /\ json_able float_of (snd a)) l -> json_able float_of (YDict l).

(** The values Python counts as false: null, false, zero, and what is empty. *)
Definition falsy (v : pyval) : Prop :=
  v = YNull \/ v = YBool false \/ v = YInt 0 \/ (exists d, v = YFloat (FFin d) /\ d_coeff d = 0) \/
  v = YStr [] \/ v = YList [] \/ v = YDict [].
