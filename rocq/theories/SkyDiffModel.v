(** * Model of the differentials in doubles.

    include/boost/astronomy/coordinate/diff/base_differential.hpp
    include/boost/astronomy/coordinate/diff/*_differential.hpp

    [DiffModel] describes the same functions over the real numbers. Conventions are those of [SkyModel] and [SkyArithModel]: doubles,
    angles in radians, the factor of each change of units an argument ([None] if the units are the same). *)
From Coq Require Import ZArith.
From Verif Require Export SkyModel SkyArithModel.

(** A differential: Cartesian, of one of the two plain spherical kinds, or of the kind whose second number is the second angle times the
    cosine of the first. *)
Inductive velocity : Type := VAxes (v : dvec) | VAngles (s : angular) (p : dsph) | VCoslat (p : dsph).

Section Differentials.
Context (L : libm).

(** The division by the cosine, spherical_coslat_differential.hpp:497-499. *)
Definition uncoslat_d (p : dsph) : dsph := DS (s1 p) (d_div (s2 p) (m_cos L (s1 p))) (s3 p).

(** make_cartesian_differential of any kind: a copy (cartesian_differential.hpp:357-375), the transformation of the point
    (416-435), or that after the division (spherical_coslat_differential.hpp:465-508). *)
Definition vel_operand (b : velocity) : operand :=
  match b with VAxes v => Axes v | VAngles s p => Angles s p | VCoslat p => Angles Polar (uncoslat_d p) end.
Definition vel_cart_d (b : velocity) : dvec := cart_d L (vel_operand b).

(** operator+ with a Cartesian left operand, cartesian_differential.hpp:186-228. *)
Definition vel_axes_plus_d (fx fy fz : option double) (v : dvec) (b : velocity) : dvec := sum_d fx fy fz v (vel_cart_d b).

(** operator+ of the plain spherical kinds, spherical_differential.hpp:228-256 and spherical_equatorial_differential.hpp:228-256:
    Cartesian sum, made spherical (436-471). *)
Definition vel_angles_plus_d (s : angular) (old : double) (fx fy fz : option double) (p : dsph) (b : velocity) : dsph :=
  make_angular_d L s old (sum_d fx fy fz (to_cartesian_d L s p) (vel_cart_d b)).

(** make_spherical_coslat_differential of a Cartesian differential, spherical_coslat_differential.hpp:437-462: the second angle of the
    spherical form times the cosine of the first, then the constructor from a point (89-102), which goes through Cartesian
    coordinates. *)
Definition make_coslat_d (old : double) (v : dvec) : dsph :=
  let t := make_angular_d L Polar old v in
  from_cartesian_d L Polar old (to_cartesian_d L Polar (DS (s1 t) (d_mul (s2 t) (m_cos L (s1 t))) (s3 t))).

(** operator+ of the coslat kind, spherical_coslat_differential.hpp:233-261: the left operand becomes Cartesian without the division. *)
Definition vel_coslat_plus_d (old : double) (fx fy fz : option double) (p : dsph) (b : velocity) : dsph :=
  make_coslat_d old (sum_d fx fy fz (to_cartesian_d L Polar p) (vel_cart_d b)).

(** operator* by a time, cartesian_differential.hpp:231-267. *)
Definition vel_axes_times_d (v : dvec) (t : double) : dvec := DV (d_mul (dx v) t) (d_mul (dy v) t) (d_mul (dz v) t).

(** operator* by a time, spherical_differential.hpp:259-288, spherical_equatorial_differential.hpp:259-288,
    spherical_coslat_differential.hpp:264-293 ([Polar]): the constructor from a point, which goes through Cartesian coordinates, then the
    distance times the time. *)
Definition vel_angles_times_d (s : angular) (old : double) (p : dsph) (t : double) : dsph :=
  let q := from_cartesian_d L s old (to_cartesian_d L s p) in DS (s1 q) (s2 q) (d_mul (s3 q) t).

(** The Cartesian coordinates base_differential uses: bg::transform of the stored numbers, also of the coslat kind. *)
Definition vel_plain_d (b : velocity) : dvec :=
  match b with VAxes v => v | VAngles s p => to_cartesian_d L s p | VCoslat p => to_cartesian_d L Polar p end.

(** base_differential::magnitude, base_differential.hpp:77-100; std::pow(x, 2) is taken to be x * x. *)
Definition vel_magnitude_d (b : velocity) : double :=
  let p := vel_plain_d b in
  d_sqrt (d_add (d_add (d_add (d_of_Z 0) (d_mul (dx p) (dx p))) (d_mul (dy p) (dy p))) (d_mul (dz p) (dz p))).

(** base_differential::unit_vector, base_differential.hpp:50-75, as a Cartesian differential. *)
Definition vel_unit_d (b : velocity) : dvec :=
  let p := vel_plain_d b in let m := vel_magnitude_d b in DV (d_div (dx p) m) (d_div (dy p) m) (d_div (dz p) m).

End Differentials.
