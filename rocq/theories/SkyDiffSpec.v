(** * What the differentials in doubles should be. *)
From Coq Require Import ZArith Reals.
From Flocq Require Import Core IEEE754.Binary.
From Verif Require Import TextModel TextSpec DoubleModel DoubleSpec VectorModel VectorSpec SkyModel SkySpec SkyArithModel SkyArithSpec SkyDiffModel.
Local Open Scope R_scope.

(** The vector a differential stands for; for the coslat kind the second angle is the second number over the cosine of the first. *)
Definition coslat_vector (p : dsph) : rvec := scale (dval (s3 p)) (sph_direction Polar (dval (s1 p)) (dval (s2 p) / cos (dval (s1 p)))).
Definition true_velocity (b : velocity) : rvec :=
  match b with VAxes v => vval v | VAngles s p => sph_vector s p | VCoslat p => coslat_vector p end.

(** The same vector read from the stored numbers as plain spherical coordinates. *)
Definition stored_vector (b : velocity) : rvec :=
  match b with VAxes v => vval v | VAngles s p => sph_vector s p | VCoslat p => sph_vector Polar p end.

(** What the division by the cosine may cost: it grows as the first angle comes near to 90 degrees. *)
Definition coslat_cost (p : dsph) : R := bpow radix2 (-51) * (Rabs (dval (s2 p)) / (cos (dval (s1 p)) * cos (dval (s1 p)))) * dval (s3 p).
Definition velocity_cost (b : velocity) : R := match b with VCoslat p => coslat_cost p | _ => 0 end.

(** Ordinary size; for the coslat kind also a second number of ordinary size and a first angle not too near to 90 degrees. *)
Definition coslat_ok (p : dsph) : Prop := sph_ok p /\ Rabs (dval (s2 p)) <= 8 /\ bpow radix2 (-40) <= Rabs (cos (dval (s1 p))).
Definition velocity_ok (fx fy fz : option double) (b : velocity) : Prop :=
  cast_ok fx /\ cast_ok fy /\ cast_ok fz /\
  match b with VAxes v => vec_ok v | VAngles _ p => sph_ok p /\ fy = fx /\ fz = fx | VCoslat p => coslat_ok p /\ fy = fx /\ fz = fx end.

(** The vector in other units. *)
Definition in_units (fx fy fz : option double) (v : rvec) : rvec := RV (rx v * ratio fx) (ry v * ratio fy) (rz v * ratio fz).

(** As [close_to], with a further error [e]. *)
Definition close_by (s : angular) (o : dsph) (t : rvec) (z e : R) : Prop :=
  dfinite (s1 o) /\ dfinite (s2 o) /\ dfinite (s3 o) /\
  Rabs (dval (s3 o) - rlength t) <= bpow radix2 (-45) * z + 2 * e /\
  within (bpow radix2 (-19) * rlength t + bpow radix2 (-47) * z + 2 * e) (sph_vector s o) t.

(** The result is not all but cancelled, of ordinary size, and much larger than the further error. *)
Definition well_clear (t : rvec) (z e : R) : Prop :=
  bpow radix2 (-39) * z <= rlength t /\ 8 * e <= rlength t /\ bpow radix2 (-379) <= rlength t <= bpow radix2 379.

(** A time to multiply by. *)
Definition time_ok (t : double) : Prop := dfinite t /\ (dval t = 0 \/ bpow radix2 (-200) <= Rabs (dval t) <= bpow radix2 200).

(** The numbers [w] are those of the vector [m] with its second angle multiplied by the cosine of its first, as a point: the second angle is
    brought to the range from 0 to 180 degrees. *)
Definition coslat_of (w m : dsph) : Prop :=
  let D := sph_direction Polar (dval (s1 m)) (dval (s2 m) * cos (dval (s1 m))) in
  dfinite (s1 w) /\ dfinite (s2 w) /\ dfinite (s3 w) /\ Rabs (dval (s3 w) - dval (s3 m)) <= bpow radix2 (-48) * dval (s3 m) /\
  within (bpow radix2 (-20) * dval (s3 m)) (sph_vector Polar w) (scale (dval (s3 m)) D) /\
  (Rabs (rz D) <= 8 / 9 -> within (bpow radix2 (-43) * dval (s3 m)) (sph_vector Polar w) (scale (dval (s3 m)) D)).
