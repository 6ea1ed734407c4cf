(** CPython decimal.Decimal: finite numbers, [normalize] and [str]. *)
From Verif Require Import Base PySort_Model.

(** Sign, coefficient and exponent. *)
Record decimal := mkDec { d_neg : bool; d_coeff : N; d_exp : Z }.

(** The digits of the coefficient. *)
Definition digits_of (c : N) : nat := List.length (dec c).

(** [_fix] for a number within the exponent range: rounding to the precision of
    the context, half to even. *)
Definition fix_precision (prec : nat) (d : decimal) : decimal :=
  let n := digits_of (d_coeff d) in
  if Nat.leb n prec then d
  else
    let drop := (n - prec)%nat in
    let p := N.pow 10 (N.of_nat drop) in
    let q := N.div (d_coeff d) p in
    let r := N.modulo (d_coeff d) p in
    let up := N.ltb p (2 * r) || (N.eqb p (2 * r) && N.odd q) in
    let q' := if up then N.add q 1 else q in
    if N.eqb q' (N.pow 10 (N.of_nat prec)) then mkDec (d_neg d) (N.div q' 10) (d_exp d + Z.of_nat drop + 1)
    else mkDec (d_neg d) q' (d_exp d + Z.of_nat drop).

(** The trailing zeros go. *)
Fixpoint strip_zeros (fuel : nat) (c : N) (e : Z) : N * Z :=
  match fuel with
  | O => (c, e)
  | S f => if N.eqb (N.modulo c 10) 0 then strip_zeros f (N.div c 10) (e + 1) else (c, e)
  end.
(** [Decimal.normalize]. *)
Definition normalize (prec : nat) (d : decimal) : decimal :=
  let d := fix_precision prec d in
  if N.eqb (d_coeff d) 0 then mkDec (d_neg d) 0 0
  else let (c, e) := strip_zeros (digits_of (d_coeff d)) (d_coeff d) (d_exp d) in mkDec (d_neg d) c e.

(** The format "%+d". *)
Definition signed (z : Z) : text :=
  (if Z.ltb z 0 then lit "-" else lit "+") ++ dec (Z.abs_N z).
(** [Decimal.__str__]. *)
Definition decimal_text (d : decimal) : text :=
  let ds := dec (d_coeff d) in
  let n := Z.of_nat (List.length ds) in
  let leftdigits := (d_exp d + n)%Z in
  let dotplace := if Z.leb (d_exp d) 0 && Z.ltb (-6) leftdigits then leftdigits else 1%Z in
  let sign := if d_neg d then lit "-" else [] in
  let body :=
    if Z.leb dotplace 0 then lit "0." ++ repeat 48%N (Z.to_nat (- dotplace)) ++ ds
    else if Z.leb n dotplace then ds ++ repeat 48%N (Z.to_nat (dotplace - n))
    else firstn (Z.to_nat dotplace) ds ++ lit "." ++ skipn (Z.to_nat dotplace) ds in
  let exp := if Z.eqb leftdigits dotplace then [] else lit "E" ++ signed (leftdigits - dotplace) in
  sign ++ body ++ exp.
