(** * What the arithmetic of spherical representations in doubles should be. *)
From Coq Require Import ZArith Reals.
From Flocq Require Import Core IEEE754.Binary.
From Verif Require Import TextModel TextSpec DoubleModel DoubleSpec VectorModel VectorSpec SkyModel SkySpec SkyArithModel.
Local Open Scope R_scope.

(** Vectors of real numbers. *)
Definition radd (p q : rvec) : rvec := RV (rx p + rx q) (ry p + ry q) (rz p + rz q).
Definition rcross (p q : rvec) : rvec := RV (ry p * rz q - rz p * ry q) (rz p * rx q - rx p * rz q) (rx p * ry q - ry p * rx q).

(** The vector an operand stands for, in the units it has been cast to. *)
Definition plain_vector (o : operand) : rvec := match o with Angles s p => sph_vector s p | Axes v => vval v end.
Definition operand_vector (fx fy fz : option double) (o : operand) : rvec :=
  let v := plain_vector o in RV (rx v * ratio fx) (ry v * ratio fy) (rz v * ratio fz).

(** An operand of ordinary size and the factors that can go with it: a spherical operand has one unit of length. *)
Definition operand_ok (fx fy fz : option double) (o : operand) : Prop :=
  cast_ok fx /\ cast_ok fy /\ cast_ok fz /\
  match o with Angles _ p => sph_ok p /\ fy = fx /\ fz = fx | Axes v => vec_ok v end.

(** The spherical point [o] is the vector [t], computed from operands of total size [z]. Its distance is right to 2^-45 of that
    size. Its vector is right to 2^-19 of its length besides, and much better if it does not point to a pole. *)
Definition close_to (s : angular) (o : dsph) (t : rvec) (z : R) : Prop :=
  dfinite (s1 o) /\ dfinite (s2 o) /\ dfinite (s3 o) /\
  Rabs (dval (s3 o) - rlength t) <= bpow radix2 (-45) * z /\
  within (bpow radix2 (-19) * rlength t + bpow radix2 (-47) * z) (sph_vector s o) t /\
  (Rabs (rz t) <= 7 / 8 * rlength t -> within (bpow radix2 (-42) * rlength t + bpow radix2 (-47) * z) (sph_vector s o) t).

(** The result is not all but cancelled, and of ordinary size. *)
Definition clear_of (t : rvec) (z : R) : Prop := bpow radix2 (-40) * z <= rlength t /\ bpow radix2 (-380) <= rlength t <= bpow radix2 380.
