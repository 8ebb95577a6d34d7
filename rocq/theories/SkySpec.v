(** * What the sky conversions in doubles should be: the C library's functions up to their error, directions in space and
      the rotations between systems of sky coordinates. *)
From Coq Require Import ZArith Reals.
From Flocq Require Import Core IEEE754.Binary.
From Verif Require Import TextModel TextSpec DoubleModel DoubleSpec VectorModel VectorSpec SkyModel.
Local Open Scope R_scope.

(** ** The C library *)

(** A number between -1 and 1. *)
Definition in_unit (x : double) : Prop := dfinite x /\ -1 <= dval x <= 1.

(** [t] is the angle of the point (x, y), seen from the origin; any angle will do for the origin itself. *)
Definition angle_of (y x t : R) : Prop :=
  - PI <= t <= PI /\ x = sqrt (x * x + y * y) * cos t /\ y = sqrt (x * x + y * y) * sin t.

(** Sines and cosines never leave [-1, 1]. Absolute errors are at most one unit in the last place of the largest
    results. The inverse functions give a NaN, or in any case no number, outside their domain. *)
Record good_libm (L : libm) : Prop := {
  sin_good : forall x, dfinite x -> in_unit (m_sin L x) /\ Rabs (dval (m_sin L x) - sin (dval x)) <= bpow radix2 (-53);
  cos_good : forall x, dfinite x -> in_unit (m_cos L x) /\ Rabs (dval (m_cos L x) - cos (dval x)) <= bpow radix2 (-53);
  asin_good : forall x, in_unit x -> dfinite (m_asin L x) /\ Rabs (dval (m_asin L x) - asin (dval x)) <= bpow radix2 (-52);
  asin_domain : forall x, ~ in_unit x -> ~ dfinite (m_asin L x);
  acos_good : forall x, in_unit x -> dfinite (m_acos L x) /\ Rabs (dval (m_acos L x) - acos (dval x)) <= bpow radix2 (-51);
  acos_domain : forall x, ~ in_unit x -> ~ dfinite (m_acos L x);
  atan2_good : forall y x, dfinite y -> dfinite x ->
    dfinite (m_atan2 L y x) /\ exists t, angle_of (dval y) (dval x) t /\ Rabs (dval (m_atan2 L y x) - t) <= bpow radix2 (-51)
}.

(** The best possible library: every result is the double nearest to the true value. *)
Record rounded_libm (L : libm) : Prop := {
  sin_rounded : forall x, dfinite x -> dfinite (m_sin L x) /\ dval (m_sin L x) = nearest binary64 (sin (dval x));
  cos_rounded : forall x, dfinite x -> dfinite (m_cos L x) /\ dval (m_cos L x) = nearest binary64 (cos (dval x));
  asin_rounded : forall x, in_unit x -> dfinite (m_asin L x) /\ dval (m_asin L x) = nearest binary64 (asin (dval x));
  asin_outside : forall x, ~ in_unit x -> ~ dfinite (m_asin L x);
  acos_rounded : forall x, in_unit x -> dfinite (m_acos L x) /\ dval (m_acos L x) = nearest binary64 (acos (dval x));
  acos_outside : forall x, ~ in_unit x -> ~ dfinite (m_acos L x);
  atan2_rounded : forall y x, dfinite y -> dfinite x ->
    dfinite (m_atan2 L y x) /\ exists t, angle_of (dval y) (dval x) t /\ dval (m_atan2 L y x) = nearest binary64 t
}.

(** ** Directions *)

(** The unit vector with the given longitude and latitude. *)
Definition direction (lon lat : R) : rvec := RV (cos lon * cos lat) (sin lon * cos lat) (sin lat).

(** A statement about each of the three coordinates. *)
Definition each_r (P : (rvec -> R) -> Prop) : Prop := P rx /\ P ry /\ P rz.

(** No coordinate is off by more than [e]. *)
Definition within (e : R) (p q : rvec) : Prop := each_r (fun c => Rabs (c p - c q) <= e).

(** ** The true change of coordinates *)

(** Hour angle and declination to azimuth and altitude, for the latitude [phi] (and back). *)
Definition true_horizon (phi : R) (p : rvec) : rvec :=
  RV (- (sin phi * rx p) + cos phi * rz p) (- ry p) (cos phi * rx p + sin phi * rz p).
(** Hour angle to right ascension, for the sidereal time [st] (and back). *)
Definition true_ra_dec (st : R) (p : rvec) : rvec :=
  RV (cos st * rx p + sin st * ry p) (sin st * rx p - cos st * ry p) (rz p).
(** Ecliptic to equatorial, for the obliquity [e], and back. *)
Definition true_from_ecliptic (e : R) (p : rvec) : rvec := RV (rx p) (cos e * ry p - sin e * rz p) (sin e * ry p + cos e * rz p).
Definition true_to_ecliptic (e : R) (p : rvec) : rvec := RV (rx p) (cos e * ry p + sin e * rz p) (- (sin e * ry p) + cos e * rz p).

(** The conversions that depend on an angle: the computed matrix and the true map. *)
Inductive conversion (L : libm) (a : double) : dmat -> (rvec -> rvec) -> Prop :=
  | Horizon : conversion L a (ha_dec_horizon_d L a) (true_horizon (dval a))
  | RaDec : conversion L a (ha_dec_ra_dec_d L a) (true_ra_dec (dval a))
  | FromEcliptic : conversion L a (ecliptic_to_ra_dec_d L a) (true_from_ecliptic (dval a))
  | ToEcliptic : conversion L a (ra_dec_to_ecliptic_d L a) (true_to_ecliptic (dval a)).

(** What undoes a conversion. *)
Inductive undone_by (L : libm) (a : double) : dmat -> dmat -> Prop :=
  | HorizonBack : undone_by L a (ha_dec_horizon_d L a) (ha_dec_horizon_d L a)
  | RaDecBack : undone_by L a (ha_dec_ra_dec_d L a) (ha_dec_ra_dec_d L a)
  | EclipticBack : undone_by L a (ecliptic_to_ra_dec_d L a) (ra_dec_to_ecliptic_d L a)
  | EclipticForth : undone_by L a (ra_dec_to_ecliptic_d L a) (ecliptic_to_ra_dec_d L a).

(** The galactic matrices of the source, as real numbers, both ways. *)
Definition galactic_matrix (p : rvec) : rvec :=
  RV (- 669887 * rx p + 8727558 * ry p - 4835389 * rz p) (- 4927285 * rx p - 4503470 * ry p - 7445846 * rz p)
     (- 8676008 * rx p + 1883746 * ry p + 4601998 * rz p).
Definition to_galactic_matrix (p : rvec) : rvec :=
  RV (- 669887 * rx p - 8727558 * ry p - 4835389 * rz p) (4927285 * rx p - 4503470 * ry p + 7445846 * rz p)
     (- 8676008 * rx p - 1883746 * ry p + 4601998 * rz p).
Definition tenmillionth (p : rvec) : rvec := RV (rx p / 10000000) (ry p / 10000000) (rz p / 10000000).

(** ** Angles between vectors *)

(** The cosine of the angle between two vectors that are not null. *)
Definition rcos (p q : rvec) : R := rdot p q / (rlength p * rlength q).

(** A spherical point: two angles and a distance of ordinary size; the vector it stands for. *)
Definition sph_ok (p : dsph) : Prop :=
  dfinite (s1 p) /\ dfinite (s2 p) /\ dfinite (s3 p) /\ bpow radix2 (-200) <= dval (s3 p) <= bpow radix2 200.
Definition scale (r : R) (p : rvec) : rvec := RV (r * rx p) (r * ry p) (r * rz p).
Definition sph_direction (s : angular) (a b : R) : rvec :=
  match s with Polar => RV (sin b * cos a) (sin b * sin a) (cos b) | Equat => RV (cos b * cos a) (cos b * sin a) (sin b) end.
Definition sph_vector (s : angular) (p : dsph) : rvec := scale (dval (s3 p)) (sph_direction s (dval (s1 p)) (dval (s2 p))).

(** A computed separation [r], when the true cosine is [c]: if it is a number it is close; it is one unless the directions are
    all but equal or opposite; away from that it is much closer. *)
Definition sep_result (r : double) (c : R) : Prop :=
  (dfinite r -> Rabs (dval r - acos c) <= bpow radix2 (-21)) /\
  (Rabs c <= 1 - bpow radix2 (-47) -> dfinite r) /\
  (Rabs c <= 9 / 10 -> Rabs (dval r - acos c) <= bpow radix2 (-43)).

(** A Cartesian vector of ordinary length, and its direction. *)
Definition vec_ok (p : dvec) : Prop := vfinite p /\ bpow radix2 (-200) <= rlength (vval p) <= bpow radix2 200.
Definition unit_of (p : rvec) : rvec := scale (/ rlength p) p.

(** North and east at a point of the sphere. *)
Definition north (lat lon : R) : rvec := RV (- (sin lat * cos lon)) (- (sin lat * sin lon)) (cos lat).
Definition east (lon : R) : rvec := RV (- sin lon) (cos lon) 0.
