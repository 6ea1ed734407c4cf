(** What resolving should give. *)
From Verif Require Import Base RetryResolver_Model.
From Coq Require Import ZArith.

(** The options that are meant, if any. *)
Definition asked (g : given) : option options :=
  match g with
  | GivenOptions o => Some o
  | GivenNone => Some (mkOptions (lit "standard") None)
  | _ => None
  end.

(** Whether a result is one the configuration allows. *)
Inductive Fits : given -> result strategy -> Prop :=
| fits_own n : Fits (GivenStrategy n) (Ok (Own n))
| fits_other : Fits GivenOther (Err TypeError)
| fits_simple g m id : asked g = Some (mkOptions (lit "simple") m) ->
    Fits g (Ok (Made id Simple (match m with Some n => n | None => 5%Z end)))
| fits_standard g m id : asked g = Some (mkOptions (lit "standard") m) -> (forall n, m = Some n -> (0 <= n)%Z) ->
    Fits g (Ok (Made id Standard (match m with Some n => n | None => 3%Z end)))
| fits_negative g n : asked g = Some (mkOptions (lit "standard") (Some n)) -> (n < 0)%Z -> Fits g (Err ValueError)
| fits_unknown g mode m : asked g = Some (mkOptions mode m) -> mode <> lit "simple" -> mode <> lit "standard" ->
    Fits g (Err ValueError).
