(** * Model of the sky conversions and of angles on the sky in doubles.

    include/boost/astronomy/coordinate/utility/utility.hpp
    include/boost/astronomy/coordinate/ref_frame/base_frame.hpp
    include/boost/astronomy/coordinate/sky_point.hpp
    include/boost/astronomy/coordinate/rep/*_representation.hpp

    [UtilModel], [CoordModel] and [FrameModel] describe the same functions over the real numbers. Numbers are doubles,
    every operation rounds to nearest, ties to even, and is done by itself. The functions of <cmath> are whatever the C
    library provides: an argument here. Angles are in radians: the casts to radians at the beginning of the
    constructors come before what is modelled here. *)
From Coq Require Import ZArith Bool.
From Flocq Require Import IEEE754.BinarySingleNaN IEEE754.Binary IEEE754.Bits.
From Verif Require Export DoubleModel VectorModel.

(** std::sin, std::cos, std::asin, std::acos, std::atan2. *)
Record libm : Type := LM {
  m_sin : double -> double;
  m_cos : double -> double;
  m_asin : double -> double;
  m_acos : double -> double;
  m_atan2 : double -> double -> double
}.

(** Unary minus. *)
Definition d_opp (x : double) : double := b64_opp x.

(** ** Conversions between sky coordinates *)

(** A uBLAS matrix with three columns, by rows; a column vector is a [dvec]. *)
Record dmat : Type := DM { drow0 : dvec; drow1 : dvec; drow2 : dvec }.

(** An entry of uBLAS [prod(m, v)]: starting from zero, the products are added from the left. *)
Definition row_product_d (r v : dvec) : double :=
  d_add (d_add (d_add (d_of_Z 0) (d_mul (dx r) (dx v))) (d_mul (dy r) (dy v))) (d_mul (dz r) (dz v)).
Definition product_d (m : dmat) (v : dvec) : dvec :=
  DV (row_product_d (drow0 m) v) (row_product_d (drow1 m) v) (row_product_d (drow2 m) v).

Section Sky.
Context (L : libm).

(** column_vector(u, v), utility.hpp:60-67. *)
Definition column_vector_d (u v : double) : dvec :=
  DV (d_mul (m_cos L u) (m_cos L v)) (d_mul (m_sin L u) (m_cos L v)) (m_sin L v).

(** ha_dec_horizon(phi), utility.hpp:91-103. *)
Definition ha_dec_horizon_d (phi : double) : dmat :=
  DM (DV (d_opp (m_sin L phi)) (d_of_Z 0) (m_cos L phi))
     (DV (d_of_Z 0) (d_of_Z (-1)) (d_of_Z 0))
     (DV (m_cos L phi) (d_of_Z 0) (m_sin L phi)).

(** ha_dec_ra_dec(ST), utility.hpp:127-139. *)
Definition ha_dec_ra_dec_d (st : double) : dmat :=
  DM (DV (m_cos L st) (m_sin L st) (d_of_Z 0))
     (DV (m_sin L st) (d_opp (m_cos L st)) (d_of_Z 0))
     (DV (d_of_Z 0) (d_of_Z 0) (d_of_Z 1)).

(** ecliptic_to_ra_dec(obliquity), utility.hpp:163-175. *)
Definition ecliptic_to_ra_dec_d (e : double) : dmat :=
  DM (DV (d_of_Z 1) (d_of_Z 0) (d_of_Z 0))
     (DV (d_of_Z 0) (m_cos L e) (d_opp (m_sin L e)))
     (DV (d_of_Z 0) (m_sin L e) (m_cos L e)).

(** ra_dec_to_ecliptic(obliquity), utility.hpp:199-211. *)
Definition ra_dec_to_ecliptic_d (e : double) : dmat :=
  DM (DV (d_of_Z 1) (d_of_Z 0) (d_of_Z 0))
     (DV (d_of_Z 0) (m_cos L e) (m_sin L e))
     (DV (d_of_Z 0) (d_opp (m_sin L e)) (m_cos L e)).

(** The literal with the digits [n] and seven decimals, of type double: the quotient of two exact numbers, correctly
    rounded. A minus sign in front is an operator. *)
Definition literal7 (n : Z) : double := d_div (d_of_Z n) (d_of_Z (10 ^ 7)).

(** galactic_to_ra_dec, utility.hpp:229-239. *)
Definition galactic_to_ra_dec_d : dmat :=
  DM (DV (d_opp (literal7 0669887)) (literal7 8727558) (d_opp (literal7 4835389)))
     (DV (d_opp (literal7 4927285)) (d_opp (literal7 4503470)) (d_opp (literal7 7445846)))
     (DV (d_opp (literal7 8676008)) (literal7 1883746) (literal7 4601998)).

(** ra_dec_to_galactic, utility.hpp:257-268. *)
Definition ra_dec_to_galactic_d : dmat :=
  DM (DV (d_opp (literal7 0669887)) (d_opp (literal7 8727558)) (d_opp (literal7 4835389)))
     (DV (literal7 4927285) (d_opp (literal7 4503470)) (literal7 7445846))
     (DV (d_opp (literal7 8676008)) (d_opp (literal7 1883746)) (literal7 4601998)).

(** extract_coordinates, utility.hpp:284-306. *)
Definition extract_coordinates_d (v : dvec) : double * double := (m_atan2 L (dy v) (dx v), m_asin L (dz v)).

(** One conversion as the examples do it: angles to a column vector, product with a matrix, angles extracted. *)
Definition convert_angles_d (m : dmat) (a : double * double) : double * double :=
  extract_coordinates_d (product_d m (column_vector_d (fst a) (snd a))).

(** ** Spherical points *)

(** The coordinate systems of Boost.Geometry the library uses for angles: [cs::spherical] (second angle from the z axis)
    and [cs::spherical_equatorial] (from the xy plane). *)
Inductive angular : Type := Polar | Equat.

(** The numbers of a point: two angles and the distance. *)
Record dsph : Type := DS { s1 : double; s2 : double; s3 : double }.

(** bg::transform into a Cartesian point (by contract); make_cartesian_representation, cartesian_representation.hpp:361-381. *)
Definition to_cartesian_d (s : angular) (p : dsph) : dvec :=
  match s with
  | Polar =>
      DV (d_mul (d_mul (s3 p) (m_sin L (s2 p))) (m_cos L (s1 p)))
         (d_mul (d_mul (s3 p) (m_sin L (s2 p))) (m_sin L (s1 p)))
         (d_mul (s3 p) (m_cos L (s2 p)))
  | Equat =>
      DV (d_mul (d_mul (s3 p) (m_cos L (s2 p))) (m_cos L (s1 p)))
         (d_mul (d_mul (s3 p) (m_cos L (s2 p))) (m_sin L (s1 p)))
         (d_mul (s3 p) (m_sin L (s2 p)))
  end.

(** sqrt(x * x + y * y + z * z), in bg::transform. *)
Definition length_d (p : dvec) : double :=
  d_sqrt (d_add (d_add (d_mul (dx p) (dx p)) (d_mul (dy p) (dy p))) (d_mul (dz p) (dz p))).

(** [0 < x]. *)
Definition positive_d (x : double) : bool := match b64_compare (d_of_Z 0) x with Some Lt => true | _ => false end.

(** bg::transform of a Cartesian point into a point whose second angle is [old] (by contract): that angle is left as it
    was if the length is not positive. *)
Definition from_cartesian_d (s : angular) (old : double) (p : dvec) : dsph :=
  DS (m_atan2 L (dy p) (dx p))
     (if positive_d (length_d p)
      then match s with Polar => m_acos L (d_div (dz p) (length_d p)) | Equat => m_asin L (d_div (dz p) (length_d p)) end
      else old)
     (length_d p).

(** make_spherical_representation, spherical_representation.hpp:413-447, and make_spherical_equatorial_representation,
    spherical_equatorial_representation.hpp:419-452, of a Cartesian representation with one unit: into a point of zeros,
    then the constructor from a point (spherical 104-117, equatorial 97-110), which goes through Cartesian coordinates
    once more, into a fresh point. *)
Definition make_angular_d (s : angular) (old : double) (p : dvec) : dsph :=
  from_cartesian_d s old (to_cartesian_d s (from_cartesian_d s (d_of_Z 0) p)).

(** ** Angles between directions *)

(** get_angular_separation, base_frame.hpp:106-112 (sky_point::separation, sky_point.hpp:107-111), of Cartesian data.
    Both operands have the same type, hence the same conversion factors. *)
Definition separation_d (gy gz : option double) (a b : dvec) : double :=
  m_acos L (d_div (dot_d gy gz gy gz a b) (d_mul (magnitude_d gy gz a) (magnitude_d gy gz b))).

(** The same, of spherical data: dot goes through Cartesian coordinates (arithmetic.hpp:262-263), the magnitude is the
    distance (322-327). *)
Definition sky_separation_d (s : angular) (p q : dsph) : double :=
  m_acos L (d_div (dot_product_d (to_cartesian_d s p) (to_cartesian_d s q)) (d_mul (s3 p) (s3 q))).

(** sky_point::positional_angle, sky_point.hpp:114-136, of spherical data with angles in radians. *)
Definition positional_angle_d (p q : dsph) : double :=
  let diff := d_sub (s2 q) (s2 p) in
  let coslat := m_cos L (s1 q) in
  let x := d_sub (d_mul (m_sin L (s1 q)) (m_cos L (s1 p))) (d_mul (d_mul coslat (m_sin L (s1 p))) (m_cos L diff)) in
  let y := d_mul (m_sin L diff) coslat in
  m_atan2 L y x.

End Sky.
