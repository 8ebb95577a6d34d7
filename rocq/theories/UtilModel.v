(** Model of coordinate/utility/utility.hpp: column vectors, the conversion
    matrices between sky coordinates, extraction of the angles and the
    obliquity of the ecliptic.  Over mathematical reals; angles are in radians
    (every constructor first casts its argument to radians).  The uBLAS matrix
    product is taken by contract ([mat_vec], [mat_mul]). *)

From Coq Require Import Reals ZArith.
From Verif Require Import CoordModel.
From Verif Require TimeModel.
Local Open Scope R_scope.

(** A 3x3 uBLAS matrix, by rows. *)
Record mat := M { row0 : vec; row1 : vec; row2 : vec }.

(** uBLAS [prod]. *)
Definition mat_vec (m : mat) (v : vec) : vec :=
  V (dot_product (row0 m) v) (dot_product (row1 m) v) (dot_product (row2 m) v).

(** column_vector, utility.hpp:54-78 (constructor 60-67). *)
Definition column_vector (u v : R) : vec := V (cos u * cos v) (sin u * cos v) (sin v).

(** ha_dec_horizon, utility.hpp:91-103. *)
Definition ha_dec_horizon (phi : R) : mat :=
  M (V (- sin phi) 0 (cos phi))
    (V 0 (-1) 0)
    (V (cos phi) 0 (sin phi)).

(** ha_dec_ra_dec, utility.hpp:127-139. *)
Definition ha_dec_ra_dec (st : R) : mat :=
  M (V (cos st) (sin st) 0)
    (V (sin st) (- cos st) 0)
    (V 0 0 1).

(** ecliptic_to_ra_dec, utility.hpp:163-175. *)
Definition ecliptic_to_ra_dec (e : R) : mat :=
  M (V 1 0 0)
    (V 0 (cos e) (- sin e))
    (V 0 (sin e) (cos e)).

(** ra_dec_to_ecliptic, utility.hpp:199-211. *)
Definition ra_dec_to_ecliptic (e : R) : mat :=
  M (V 1 0 0)
    (V 0 (cos e) (sin e))
    (V 0 (- sin e) (cos e)).

(** galactic_to_ra_dec, utility.hpp:229-239. *)
Definition galactic_to_ra_dec : mat :=
  M (V (- 0.0669887) 0.8727558 (- 0.4835389))
    (V (- 0.4927285) (- 0.4503470) (- 0.7445846))
    (V (- 0.8676008) 0.1883746 0.4601998).

(** ra_dec_to_galactic, utility.hpp:257-268. *)
Definition ra_dec_to_galactic : mat :=
  M (V (- 0.0669887) (- 0.8727558) (- 0.4835389))
    (V 0.4927285 (- 0.4503470) 0.7445846)
    (V (- 0.8676008) (- 0.1883746) 0.4601998).

(** extract_coordinates, utility.hpp:284-306. *)
Definition extract_coordinates (v : vec) : R * R := (atan2 (c1 v) (c0 v), asin (c2 v)).

(** One conversion as the examples do it: angles to a column vector, product
    with a matrix, angles extracted. *)
Definition convert_angles (m : mat) (a : R * R) : R * R :=
  extract_coordinates (mat_vec m (column_vector (fst a) (snd a))).

(** boost::gregorian::date::julian_day (by contract: the day number of the
    proleptic Gregorian calendar, gregorian_calendar_base::day_number). *)
Definition day_number (d : TimeModel.date) : Z :=
  (let a := (14 - TimeModel.d_month d) / 12 in
   let y := TimeModel.d_year d + 4800 - a in
   let m := TimeModel.d_month d + 12 * a - 3 in
   TimeModel.d_day d + (153 * m + 2) / 5 + 365 * y + y / 4 - y / 100 + y / 400 - 32045)%Z.

(** obliquity_of_ecliptic, utility.hpp:312-327: in radians. *)
Definition obliquity_of_ecliptic (d : TimeModel.date) : R :=
  let julian_date := IZR (day_number d) in
  let modified_julian_date := julian_date - 2451545 in
  let t := modified_julian_date / 36525 in
  let e_degrees := 23.439292 - (46.815 * t + (0.0006 - 0.00181 * t) * t * t) / 3600 in
  e_degrees * PI / 180.
