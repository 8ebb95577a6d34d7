(** * What the last step of the obliquity should be. *)
From Coq Require Import ZArith Reals.
From Flocq Require Import Core IEEE754.Binary.
From Verif Require Import TimeModel DoubleModel DoubleSpec VectorSpec SkyModel SkySpec.
Local Open Scope R_scope.

(** Degrees to radians with an error of at most four roundings of doubles: the constant, the product, the quotient and the
    conversion to double. *)
Definition good_radians (f : double -> double) : Prop := forall x, dfinite x -> 1 <= dval x <= 360 ->
  dfinite (f x) /\ Rabs (dval (f x) - dval x * PI / 180) <= bpow radix2 (-51) * (dval x * PI / 180).
