(** Model of the coordinate representations and their arithmetic
    (include/boost/astronomy/coordinate/rep, arithmetic.hpp).

    Numbers are mathematical reals: rounding is not modelled here.  A unit is
    its positive conversion factor to a base unit of the same dimension, so a
    quantity of value x in unit u stands for the physical quantity x * u;
    angles have the radian as base unit.  Boost.Units conversions and
    Boost.Geometry's [transform] are taken by contract, as the definitions of
    the first two sections. *)

From Coq Require Import Reals Lra.
Local Open Scope R_scope.

(** ** Boost.Units: conversion of a value between two units
    ([static_cast<Q>(q).value()] and [conversion_factor]). *)

Definition conversion_factor (from to : R) : R := from / to.
Definition convert (from to x : R) : R := x * conversion_factor from to.

(** ** Boost.Geometry: points and [transform] *)

(** The three numbers of a [bg::model::point<T,3,CS>]. *)
Record vec := V { c0 : R; c1 : R; c2 : R }.

(** The coordinate systems used by the library:
    [cs::cartesian], [cs::spherical<radian>], [cs::spherical_equatorial<radian>]. *)
Inductive system := Cartesian | Spherical | Equatorial.

(** [std::atan2(y, x)] on reals (signed zeros are not modelled: a zero counts
    as positive zero). *)
Definition atan2 (y x : R) : R :=
  if Rlt_dec 0 x then atan (y / x)
  else if Rlt_dec x 0 then
    if Rle_dec 0 y then atan (y / x) + PI else atan (y / x) - PI
  else if Rlt_dec 0 y then PI / 2
  else if Rlt_dec y 0 then - PI / 2
  else 0.

(** [bg::transform] of a point of system [s] into a cartesian point. *)
Definition to_cartesian (s : system) (p : vec) : vec :=
  match s with
  | Cartesian => p
  | Spherical =>
      V (c2 p * sin (c1 p) * cos (c0 p))
        (c2 p * sin (c1 p) * sin (c0 p))
        (c2 p * cos (c1 p))
  | Equatorial =>
      V (c2 p * cos (c1 p) * cos (c0 p))
        (c2 p * cos (c1 p) * sin (c0 p))
        (c2 p * sin (c1 p))
  end.

Definition length_of (p : vec) : R := sqrt (c0 p * c0 p + c1 p * c1 p + c2 p * c2 p).

(** [bg::transform] of a cartesian point into an existing point of system [s]
    whose second coordinate is [old]: for the null vector that coordinate is
    left as it was. *)
Definition from_cartesian (s : system) (old : R) (p : vec) : vec :=
  match s with
  | Cartesian => p
  | Spherical =>
      V (atan2 (c1 p) (c0 p))
        (if Rlt_dec 0 (length_of p) then acos (c2 p / length_of p) else old)
        (length_of p)
  | Equatorial =>
      V (atan2 (c1 p) (c0 p))
        (if Rlt_dec 0 (length_of p) then asin (c2 p / length_of p) else old)
        (length_of p)
  end.

(** ** Representations *)

(** A representation object: its coordinate system, the numbers in its
    [point] member and the units of its three quantity types.
    rep/base_representation.hpp:40-68; the types are static in C++, a field
    here.  Angles are always stored in radians, whatever the angle units. *)
Record rep := Rep {
  r_sys : system;
  r_pt : vec;
  r_u1 : R;
  r_u2 : R;
  r_u3 : R
}.

(** The system and the three units of a representation type. *)
Record rtype := RType { t_sys : system; t_u1 : R; t_u2 : R; t_u3 : R }.

Definition type_of (r : rep) : rtype := RType (r_sys r) (r_u1 r) (r_u2 r) (r_u3 r).

Definition of_type (t : rtype) (p : vec) : rep := Rep (t_sys t) p (t_u1 t) (t_u2 t) (t_u3 t).

(** Unit in which the first two coordinates are stored in the point: radians
    for the angles, the quantity's own unit for cartesian components. *)
Definition stored_unit1 (t : rtype) : R :=
  match t_sys t with Cartesian => t_u1 t | _ => 1 end.
Definition stored_unit2 (t : rtype) : R :=
  match t_sys t with Cartesian => t_u2 t | _ => 1 end.

(** get_x/get_y/get_z (rep/cartesian_representation.hpp:145-166) and
    get_lat/get_lon/get_dist (rep/spherical_representation.hpp:174-203,
    rep/spherical_equatorial_representation.hpp): value in the unit of the
    quantity type. *)
Definition get1 (r : rep) : R := 
  match r_sys r with Cartesian => c0 (r_pt r) | _ => convert 1 (r_u1 r) (c0 (r_pt r)) end.
Definition get2 (r : rep) : R :=
  match r_sys r with Cartesian => c1 (r_pt r) | _ => convert 1 (r_u2 r) (c1 (r_pt r)) end.
Definition get3 (r : rep) : R := c2 (r_pt r).

(** set_x/set_y/set_z (rep/cartesian_representation.hpp:169-192) and
    set_lat/set_lon/set_dist (rep/spherical_representation.hpp:206-242). *)
Definition set_pt (r : rep) (p : vec) : rep := Rep (r_sys r) p (r_u1 r) (r_u2 r) (r_u3 r).
Definition set1 (r : rep) (x : R) : rep :=
  set_pt r (V (match r_sys r with Cartesian => x | _ => convert (r_u1 r) 1 x end)
              (c1 (r_pt r)) (c2 (r_pt r))).
Definition set2 (r : rep) (x : R) : rep :=
  set_pt r (V (c0 (r_pt r))
              (match r_sys r with Cartesian => x | _ => convert (r_u2 r) 1 x end)
              (c2 (r_pt r))).
Definition set3 (r : rep) (x : R) : rep :=
  set_pt r (V (c0 (r_pt r)) (c1 (r_pt r)) x).
(** set_x_y_z, set_lat_lon_dist: cartesian 174-179, spherical 206-217. *)
Definition set123 (r : rep) (x y z : R) : rep := set3 (set2 (set1 r x) y) z.

(** Constructor from three quantities of the type's own units
    (cartesian 68-71, spherical 87-95, equatorial 80-88); also
    make_*_representation(quantities) (254-274, 276-308).  The fresh object's
    numbers do not matter. *)
Definition build (t : rtype) (x y z : R) : rep := set123 (of_type t (V 0 0 0)) x y z.

(** Constructor from a Boost.Geometry point: cartesian 81-93 transforms it
    into the cartesian point; spherical 104-117 and equatorial 97-110
    transform to cartesian and from there into the fresh [point] member,
    whose second coordinate is [old].  The numbers are taken as they are: no
    unit conversion. *)
Definition from_point (t : rtype) (old : R) (s : system) (p : vec) : rep :=
  of_type t (from_cartesian (t_sys t) old (to_cartesian s p)).

(** make_cartesian_representation(rep): cartesian 315-326 is a copy;
    361-381 for another kind transforms the point and gives all three
    components the distance unit. *)
Definition make_cartesian (r : rep) : rep :=
  match r_sys r with
  | Cartesian => r
  | s => Rep Cartesian (to_cartesian s (r_pt r)) (r_u3 r) (r_u3 r) (r_u3 r)
  end.

(** make_spherical_representation(rep) and
    make_spherical_equatorial_representation(rep): spherical 355-374 copy of
    the same kind; 413-447 (equatorial 419-452) otherwise: through cartesian,
    y and z brought to the unit of x, into a point initialised with zeros,
    then the constructor from a point.  [s] is the kind made. *)
Definition make_angular (s : system) (old : R) (r : rep) : rep :=
  match s, r_sys r with
  | Spherical, Spherical => r
  | Equatorial, Equatorial => r
  | _, _ =>
      let t := make_cartesian r in
      let p := V (get1 t) (convert (r_u2 t) (r_u1 t) (get2 t))
                 (convert (r_u3 t) (r_u1 t) (get3 t)) in
      from_point (RType s 1 1 (r_u1 t)) old s (from_cartesian s 0 p)
  end.

(** Converting constructor from any representation: cartesian 112-142,
    spherical 134-171, equatorial 128-166 (each component of the made
    representation is cast to the target's quantity, angles to radians). *)
Definition construct (t : rtype) (old : R) (r : rep) : rep :=
  match t_sys t with
  | Cartesian =>
      let m := make_cartesian r in
      of_type t (V (convert (r_u1 m) (t_u1 t) (get1 m))
                   (convert (r_u2 m) (t_u2 t) (get2 m))
                   (convert (r_u3 m) (t_u3 t) (get3 m)))
  | s =>
      let m := make_angular s old r in
      of_type t (V (convert (r_u1 m) 1 (get1 m))
                   (convert (r_u2 m) 1 (get2 m))
                   (convert (r_u3 m) (t_u3 t) (get3 m)))
  end.

(** make_cartesian_representation<...>(cartesian) 289-304 and
    make_spherical_representation<...>(spherical) 329-345: change of units
    within one kind, component by component. *)
Definition change_units (u1 u2 u3 : R) (r : rep) : rep :=
  build (RType (r_sys r) u1 u2 u3)
        (convert (r_u1 r) u1 (get1 r)) (convert (r_u2 r) u2 (get2 r))
        (convert (r_u3 r) u3 (get3 r)).

(** base_representation::to_representation, rep/base_representation.hpp:53-63:
    the point constructor of the target, hence raw numbers. *)
Definition to_representation (t : rtype) (old : R) (r : rep) : rep :=
  from_point t old (r_sys r) (r_pt r).

(** base_representation::operator==, 76-104: both points transformed to
    cartesian, numbers compared. *)
Definition rep_eq (a b : rep) : bool :=
  let p := to_cartesian (r_sys a) (r_pt a) in
  let q := to_cartesian (r_sys b) (r_pt b) in
  (if Req_EM_T (c0 p) (c0 q) then true else false) &&
  (if Req_EM_T (c1 p) (c1 q) then true else false) &&
  (if Req_EM_T (c2 p) (c2 q) then true else false).

(** ** Arithmetic *)

(** operator+ of cartesian_representation, cartesian 206-237. *)
Definition plus_cartesian (a b : rep) : rep :=
  let m := make_cartesian b in
  from_point (type_of a) 0 Cartesian
    (V (get1 a + convert (r_u1 m) (r_u1 a) (get1 m))
       (get2 a + convert (r_u2 m) (r_u2 a) (get2 m))
       (get3 a + convert (r_u3 m) (r_u3 a) (get3 m))).

(** operator+ of the spherical kinds, spherical 244-271 (equatorial
    237-264): the stored point as cartesian in the distance unit, plus the
    addend, made spherical again and converted to the type of the left
    operand. *)
Definition plus (old : R) (a b : rep) : rep :=
  match r_sys a with
  | Cartesian => plus_cartesian a b
  | s =>
      let m := from_point (RType Cartesian (r_u3 a) (r_u3 a) (r_u3 a)) 0 s (r_pt a) in
      construct (type_of a) old (make_angular s old (plus_cartesian m (make_cartesian b)))
  end.

(** sum, arithmetic.hpp:373-427. *)
Definition sum (old : R) (a b : rep) : rep :=
  let m := make_cartesian a in
  let n := make_cartesian b in
  from_point (type_of a) old Cartesian
    (V (get1 m + convert (r_u1 n) (r_u1 m) (get1 n))
       (get2 m + convert (r_u2 n) (r_u2 m) (get2 n))
       (get3 m + convert (r_u3 n) (r_u3 m) (get3 n))).

(** mean, arithmetic.hpp:431-477. *)
Definition mean (old : R) (a b : rep) : rep :=
  let m := make_cartesian a in
  let n := make_cartesian b in
  from_point (type_of a) old Cartesian
    (V ((get1 m + convert (r_u1 n) (r_u1 m) (get1 n)) / 2)
       ((get2 m + convert (r_u2 n) (r_u2 m) (get2 n)) / 2)
       ((get3 m + convert (r_u3 n) (r_u3 m) (get3 n)) / 2)).

(** [bg::cross_product] of cartesian points. *)
Definition cross_product (p q : vec) : vec :=
  V (c1 p * c2 q - c2 p * c1 q)
    (c2 p * c0 q - c0 p * c2 q)
    (c0 p * c1 q - c1 p * c0 q).

(** cross with a cartesian left operand, arithmetic.hpp:41-140. *)
Definition cross_cartesian (a b : rep) : rep :=
  let n := make_cartesian b in
  let p := to_cartesian (r_sys a) (r_pt a) in
  let q := to_cartesian (r_sys b) (r_pt b) in
  from_point (RType Cartesian (r_u2 a * r_u3 n) (r_u3 a * r_u1 n) (r_u1 a * r_u2 n)) 0 Cartesian
    (V (c1 p * c2 q
          - (c2 p * conversion_factor (r_u3 a) (r_u2 a))
            * (c1 q * conversion_factor (r_u2 n) (r_u3 n)))
       (c2 p * c0 q
          - (c0 p * conversion_factor (r_u1 a) (r_u3 a))
            * (c2 q * conversion_factor (r_u3 n) (r_u1 n)))
       (c0 p * c1 q
          - (c1 p * conversion_factor (r_u2 a) (r_u1 a))
            * (c0 q * conversion_factor (r_u1 n) (r_u2 n)))).

(** cross with another left operand, arithmetic.hpp:143-237. *)
Definition cross_other (old : R) (a b : rep) : rep :=
  let m := make_cartesian a in
  let n := make_cartesian b in
  let p := r_pt m in
  let q := V (c0 (r_pt n) * conversion_factor (r_u1 n) (r_u1 n))
             (c1 (r_pt n) * conversion_factor (r_u2 n) (r_u1 n))
             (c2 (r_pt n) * conversion_factor (r_u3 n) (r_u1 n)) in
  from_point (RType (r_sys a) (r_u1 a) (r_u2 a) (r_u1 m * r_u1 n)) old Cartesian
             (cross_product p q).

(** The overload chosen: the first one when the left operand is cartesian. *)
Definition cross (old : R) (a b : rep) : rep :=
  match r_sys a with Cartesian => cross_cartesian a b | _ => cross_other old a b end.

(** A scalar quantity: value and unit. *)
Record quantity := Q { q_value : R; q_unit : R }.

(** [bg::dot_product] of cartesian points. *)
Definition dot_product (p q : vec) : R := c0 p * c0 q + c1 p * c1 q + c2 p * c2 q.

(** The numbers of a cartesian representation with y and z cast to the
    quantity type of x (dot: arithmetic.hpp:266-276; magnitude: 309-311). *)
Definition in_unit1 (m : rep) : vec :=
  V (get1 m) (convert (r_u2 m) (r_u1 m) (get2 m)) (convert (r_u3 m) (r_u1 m) (get3 m)).

(** dot, arithmetic.hpp:240-283. *)
Definition dot (a b : rep) : quantity :=
  let m := make_cartesian a in
  let n := make_cartesian b in
  Q (dot_product (in_unit1 m) (in_unit1 n)) (r_u1 m * r_u1 n).

(** magnitude: cartesian 286-319, other kinds 322-327 (the stored distance). *)
Definition magnitude (a : rep) : quantity :=
  match r_sys a with
  | Cartesian => Q (length_of (in_unit1 a)) (r_u1 a)
  | _ => Q (c2 (r_pt a)) (r_u3 a)
  end.

(** unit_vector: cartesian 330-353, other kinds 356-366.  A division by the
    magnitude zero has no meaning here (IEEE: NaN); theorems assume a
    non-zero vector. *)
Definition unit_vector (a : rep) : rep :=
  match r_sys a with
  | Cartesian =>
      let m := q_value (magnitude a) in
      let u := q_unit (magnitude a) in
      from_point (type_of a) 0 Cartesian
        (V (get1 a / m) (get2 a / convert u (r_u2 a) m) (get3 a / convert u (r_u3 a) m))
  | _ => set3 (set2 (set1 (of_type (type_of a) (V 0 0 0)) (get1 a)) (get2 a)) 1
  end.
