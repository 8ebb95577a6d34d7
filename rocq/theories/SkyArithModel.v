(** * Model of the arithmetic of spherical representations in doubles.

    include/boost/astronomy/coordinate/arithmetic.hpp
    include/boost/astronomy/coordinate/rep/spherical_representation.hpp
    include/boost/astronomy/coordinate/rep/spherical_equatorial_representation.hpp

    [CoordModel] describes the same functions over the real numbers. Conventions are those of [VectorModel] and [SkyModel]:
    doubles, angles in radians, the factor of each change of units an argument ([None] if the units are the same). *)
From Coq Require Import ZArith.
From Verif Require Export SkyModel.

(** An operand: of one of the spherical kinds, or Cartesian. *)
Inductive operand : Type := Angles (s : angular) (p : dsph) | Axes (v : dvec).

Section Arithmetic.
Context (L : libm).

(** make_cartesian_representation(rep), cartesian_representation.hpp:361-381; 315-326 is a copy. *)
Definition cart_d (o : operand) : dvec := match o with Angles s p => to_cartesian_d L s p | Axes v => v end.

(** sum, arithmetic.hpp:373-427, with a spherical left operand: the constructor from a Cartesian point (spherical 104-117,
    equatorial 97-110) turns the result back; [old] is the second number of the fresh point. *)
Definition sph_sum_d (s : angular) (old : double) (fx fy fz : option double) (p : dsph) (b : operand) : dsph :=
  from_cartesian_d L s old (sum_d fx fy fz (to_cartesian_d L s p) (cart_d b)).

(** mean, arithmetic.hpp:431-477. *)
Definition sph_mean_d (s : angular) (old : double) (fx fy fz : option double) (p : dsph) (b : operand) : dsph :=
  from_cartesian_d L s old (mean_d fx fy fz (to_cartesian_d L s p) (cart_d b)).

(** operator+, spherical 244-271 and equatorial 237-264: the sum as a Cartesian representation is made spherical; the casts
    of angles and distance at the end are to the units they have. *)
Definition sph_plus_d (s : angular) (old : double) (fx fy fz : option double) (p : dsph) (b : operand) : dsph :=
  make_angular_d L s old (sum_d fx fy fz (to_cartesian_d L s p) (cart_d b)).

(** [bg::cross_product] of Cartesian points. *)
Definition cross_product_d (a b : dvec) : dvec :=
  DV (d_sub (d_mul (dy a) (dz b)) (d_mul (dz a) (dy b)))
     (d_sub (d_mul (dz a) (dx b)) (d_mul (dx a) (dz b)))
     (d_sub (d_mul (dx a) (dy b)) (d_mul (dy a) (dx b))).

(** cross with a spherical left operand, arithmetic.hpp:143-237; [g2] and [g3] are the factors from the units of y and z of
    the right operand to that of its x, and the factor of x is 1. *)
Definition sph_cross_d (s : angular) (old : double) (g2 g3 : double) (p : dsph) (b : operand) : dsph :=
  let v := cart_d b in
  from_cartesian_d L s old
    (cross_product_d (to_cartesian_d L s p) (DV (d_mul (dx v) (d_of_Z 1)) (d_mul (dy v) g2) (d_mul (dz v) g3))).

(** dot of any operands, arithmetic.hpp:240-283. *)
Definition operand_dot_d (gy gz hy hz : option double) (a b : operand) : double := dot_d gy gz hy hz (cart_d a) (cart_d b).

(** sum with a Cartesian left operand, arithmetic.hpp:373-427. *)
Definition axes_sum_d (fx fy fz : option double) (v : dvec) (b : operand) : dvec := sum_d fx fy fz v (cart_d b).

(** cross with a Cartesian left operand in one unit, arithmetic.hpp:36-140: the result stays Cartesian. (With other units: [cross_d] and
    [CoordModel].) *)
Definition axes_cross_d (v : dvec) (b : operand) : dvec := cross_d no_factors v (cart_d b).

(** magnitude and unit_vector of the spherical kinds, arithmetic.hpp:325-330 and 358-369: the distance; the same angles with the
    distance 1. *)
Definition sph_magnitude_d (p : dsph) : double := s3 p.
Definition sph_unit_d (p : dsph) : dsph := DS (s1 p) (s2 p) (d_of_Z 1).

End Arithmetic.
