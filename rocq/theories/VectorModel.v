(** * Model of the arithmetic of Cartesian representations in doubles.

    include/boost/astronomy/coordinate/arithmetic.hpp
    include/boost/astronomy/coordinate/rep/cartesian_representation.hpp

    [CoordModel] describes the same functions over the real numbers. CoordinateType is double; every operation rounds to
    nearest, ties to even, and is done by itself (no contraction to fused operations). Units are static in C++; what is
    left of them at run time is the factor of each conversion, an argument here. *)
From Coq Require Import ZArith.
From Flocq Require Import IEEE754.BinarySingleNaN IEEE754.Binary IEEE754.Bits.
From Verif Require Export DoubleModel.

Definition d_sqrt (x : double) : double := b64_sqrt mode_NE x.

(** The three numbers of the point. *)
Record dvec : Type := DV { dx : double; dy : double; dz : double }.

(** static_cast of a quantity to another unit of its dimension: a product with the conversion factor; [None] if the
    units are the same. *)
Definition cast (f : option double) (x : double) : double := match f with Some c => d_mul x c | None => x end.

(** sum, arithmetic.hpp:373-427, and operator+, cartesian_representation.hpp:206-237, of Cartesian operands. The factors are those from
    the units of the second operand to the units of the first. *)
Definition sum_d (fx fy fz : option double) (a b : dvec) : dvec :=
  DV (d_add (dx a) (cast fx (dx b))) (d_add (dy a) (cast fy (dy b))) (d_add (dz a) (cast fz (dz b))).

(** mean, arithmetic.hpp:431-477. *)
Definition mean_d (fx fy fz : option double) (a b : dvec) : dvec :=
  DV (d_div (d_add (dx a) (cast fx (dx b))) (d_of_Z 2)) (d_div (d_add (dy a) (cast fy (dy b))) (d_of_Z 2))
     (d_div (d_add (dz a) (cast fz (dz b))) (d_of_Z 2)).

(** The numbers with y and z cast to the unit of x (arithmetic.hpp:266-276, 309-311). *)
Definition in_x_d (gy gz : option double) (a : dvec) : dvec := DV (dx a) (cast gy (dy a)) (cast gz (dz a)).

(** [bg::dot_product] of points: x x' + (y y' + z z'). *)
Definition dot_product_d (p q : dvec) : double :=
  d_add (d_mul (dx p) (dx q)) (d_add (d_mul (dy p) (dy q)) (d_mul (dz p) (dz q))).

(** dot, arithmetic.hpp:240-283. *)
Definition dot_d (gy gz hy hz : option double) (a b : dvec) : double := dot_product_d (in_x_d gy gz a) (in_x_d hy hz b).

(** The six conversion factors in [cross] (1 where the units are the same). *)
Record cross_factors : Type := CF { a32 : double; b23 : double; a13 : double; b31 : double; a21 : double; b12 : double }.
Definition no_factors : cross_factors := let o := d_of_Z 1 in CF o o o o o o.

(** cross of Cartesian operands, arithmetic.hpp:41-140. *)
Definition cross_d (k : cross_factors) (a b : dvec) : dvec :=
  DV (d_sub (d_mul (dy a) (dz b)) (d_mul (d_mul (dz a) (a32 k)) (d_mul (dy b) (b23 k))))
     (d_sub (d_mul (dz a) (dx b)) (d_mul (d_mul (dx a) (a13 k)) (d_mul (dz b) (b31 k))))
     (d_sub (d_mul (dx a) (dy b)) (d_mul (d_mul (dy a) (a21 k)) (d_mul (dx b) (b12 k)))).

(** magnitude, arithmetic.hpp:286-319; std::pow(x, 2) is taken to be x * x. *)
Definition magnitude_d (gy gz : option double) (a : dvec) : double :=
  let p := in_x_d gy gz a in
  d_sqrt (d_add (d_of_Z 0) (d_add (d_add (d_mul (dx p) (dx p)) (d_mul (dy p) (dy p))) (d_mul (dz p) (dz p)))).

(** unit_vector, arithmetic.hpp:330-353; [xy] and [xz] are the factors from the unit of x to those of y and z. *)
Definition unit_vector_d (gy gz xy xz : option double) (a : dvec) : dvec :=
  let m := magnitude_d gy gz a in
  DV (d_div (dx a) m) (d_div (dy a) (cast xy m)) (d_div (dz a) (cast xz m)).
