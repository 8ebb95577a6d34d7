(** * Where a star stands: time and matrices put together. *)
From Coq Require Import Reals.
From Verif Require Import CppModel TimeModel UtilModel.
From Verif Require DoubleModel SkyModel.
Local Open Scope R_scope.

(** test/coordinate/utility.cpp:124-126: the sidereal time in hours is taken fifteen times, as degrees, and becomes radians
    where a matrix is made of it (utility.hpp:128). Here without the time zone the test adds. *)
Definition sidereal_angle (h : decimal_hour) : R := dh h * 15 * (PI / 180).

(** Right ascension and declination to azimuth and altitude, for the longitude [l], the time [t] and the latitude [phi]: LST
    (time_conversions.hpp:124-153), ha_dec_ra_dec (utility.hpp:127-139), then ha_dec_horizon (utility.hpp:91-103), one after the
    other as test/coordinate/utility.cpp:59-141 applies each. The angles between are those extract_coordinates gives. *)
Definition star_on_horizon (l : R) (dir : direction) (t : ptime) (phi : R) (star : R * R) : outcome (R * R) :=
  let! h := LST l dir t in
  Ret (convert_angles (ha_dec_horizon phi) (convert_angles (ha_dec_ra_dec (sidereal_angle h)) star)).

(** And back, with the same two matrices in the other order. *)
Definition star_from_horizon (l : R) (dir : direction) (t : ptime) (phi : R) (a : R * R) : outcome (R * R) :=
  let! h := LST l dir t in
  Ret (convert_angles (ha_dec_ra_dec (sidereal_angle h)) (convert_angles (ha_dec_horizon phi) a)).

(** The two conversions in doubles, for a sidereal time [st] and a latitude [phi] in radians. *)
Definition star_on_horizon_d (L : SkyModel.libm) (st phi : DoubleModel.double) (star : DoubleModel.double * DoubleModel.double) : DoubleModel.double * DoubleModel.double :=
  SkyModel.convert_angles_d L (SkyModel.ha_dec_horizon_d L phi) (SkyModel.convert_angles_d L (SkyModel.ha_dec_ra_dec_d L st) star).
