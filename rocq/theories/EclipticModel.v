(** * Model of the obliquity of the ecliptic in doubles: obliquity_of_ecliptic,
      include/boost/astronomy/coordinate/utility/utility.hpp:308-330. *)
From Coq Require Import ZArith.
From Flocq Require Import IEEE754.Bits.
From Verif Require Import TimeModel UtilModel DoubleModel VectorModel SkyModel.

(** A decimal literal of type double, digits [n] and [k] decimals: the quotient of two exact numbers, correctly rounded. *)
Definition literal (n : Z) (k : Z) : double := d_div (d_of_Z n) (d_of_Z (10 ^ k)).

(** utility.hpp:314-320; julian_day() is Boost's (see [UtilModel.day_number]). *)
Definition centuries_d (d : date) : double :=
  d_div (d_sub (d_of_Z (day_number d)) (d_of_Z 2451545)) (d_of_Z 36525).

(** utility.hpp:320: in degrees. *)
Definition obliquity_degrees_d (d : date) : double :=
  let t := centuries_d d in
  d_sub (literal 23439292 6)
        (d_div (d_add (d_mul (literal 46815 3) t)
                      (d_mul (d_mul (d_sub (literal 6 4) (d_mul (literal 181 5) t)) t) t))
               (d_of_Z 3600)).

(** utility.hpp:322: [e_degrees * PI / 180.0]. PI (line 31) is a long double, so the product and the quotient are too, and the
    result is converted to double on assignment. What a long double is depends on the platform, so this step is an
    argument: [to_radians]. *)
Definition obliquity_d (to_radians : double -> double) (d : date) : double := to_radians (obliquity_degrees_d d).

(** The step on a platform where long double is double: there PI is the double nearest to the literal of line 31. *)
Definition pi_d : double := b64_of_bits 4614256656552045848.
Definition plain_radians (x : double) : double := d_div (d_mul x pi_d) (d_of_Z 180).

(** Ecliptic to equatorial coordinates of the date, and back: the obliquity of the date put into the matrices
    (utility.hpp:163-175, 199-211), as test/coordinate/utility.cpp does it. *)
Definition ecliptic_at_d (L : libm) (to_radians : double -> double) (d : date) (a : double * double) : double * double :=
  convert_angles_d L (ecliptic_to_ra_dec_d L (obliquity_d to_radians d)) a.
Definition to_ecliptic_at_d (L : libm) (to_radians : double -> double) (d : date) (a : double * double) : double * double :=
  convert_angles_d L (ra_dec_to_ecliptic_d L (obliquity_d to_radians d)) a.
