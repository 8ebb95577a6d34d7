(** * Properties of the conversion matrices and of the obliquity. *)

From Coq Require Import Reals ZArith Lia Lra.
From Verif Require Import CoordModel CoordSpec CoordProofs CoordArith UtilModel UtilSpec UtilProofs.
From Verif Require TimeModel TimeSpec.
Local Open Scope R_scope.

(** ** C48 *)

Theorem C48_involutions : forall x,
  inverse (ha_dec_horizon x) (ha_dec_horizon x) /\ orthogonal (ha_dec_horizon x) /\
  inverse (ha_dec_ra_dec x) (ha_dec_ra_dec x) /\ orthogonal (ha_dec_ra_dec x).
Proof.
  intros x. split; [split; apply horizon_involution|]. split; [apply horizon_orthogonal|].
  split; [split; apply radec_involution|]. apply radec_orthogonal.
Qed.
Print Assumptions C48_involutions.

Theorem C48_ecliptic : forall e, inverse (ecliptic_to_ra_dec e) (ra_dec_to_ecliptic e) /\
  orthogonal (ecliptic_to_ra_dec e) /\ orthogonal (ra_dec_to_ecliptic e).
Proof. intros e. split; [apply ecliptic_inverse | apply ecliptic_orthogonal]. Qed.
Print Assumptions C48_ecliptic.

(** What orthogonality and inversion mean for the vectors the user multiplies. *)
Theorem C48_on_vectors : forall x v,
  mat_vec (ha_dec_horizon x) (mat_vec (ha_dec_horizon x) v) = v /\
  mat_vec (ha_dec_ra_dec x) (mat_vec (ha_dec_ra_dec x) v) = v /\
  mat_vec (ra_dec_to_ecliptic x) (mat_vec (ecliptic_to_ra_dec x) v) = v /\
  mat_vec (ecliptic_to_ra_dec x) (mat_vec (ra_dec_to_ecliptic x) v) = v /\
  vnorm (mat_vec (ha_dec_horizon x) v) = vnorm v /\ vnorm (mat_vec (ha_dec_ra_dec x) v) = vnorm v /\
  vnorm (mat_vec (ecliptic_to_ra_dec x) v) = vnorm v /\ vnorm (mat_vec (ra_dec_to_ecliptic x) v) = vnorm v.
Proof.
  intros x v. destruct (ecliptic_inverse x) as [I1 I2]. destruct (ecliptic_orthogonal x) as [O1 O2].
  rewrite !mat_vec_mul, horizon_involution, radec_involution, I1, I2, mat_vec_identity.
  unfold vnorm. rewrite !orthogonal_norm; auto using horizon_orthogonal, radec_orthogonal.
  repeat split; reflexivity.
Qed.
Print Assumptions C48_on_vectors.

Example C48_case : mat_vec (ha_dec_ra_dec (PI / 2)) (V 1 0 0) = V 0 1 0.
Proof. unfold mat_vec, ha_dec_ra_dec, dot_product; cbn. rewrite cos_PI2, sin_PI2. f_equal; ring. Qed.

(** ** C49 *)

Theorem C49_round_trips : forall x a, sky_angles a ->
  convert_angles (ha_dec_horizon x) (convert_angles (ha_dec_horizon x) a) = a /\
  convert_angles (ha_dec_ra_dec x) (convert_angles (ha_dec_ra_dec x) a) = a /\
  convert_angles (ra_dec_to_ecliptic x) (convert_angles (ecliptic_to_ra_dec x) a) = a /\
  convert_angles (ecliptic_to_ra_dec x) (convert_angles (ra_dec_to_ecliptic x) a) = a.
Proof.
  intros x a A. destruct (ecliptic_inverse x) as [I1 I2]. destruct (ecliptic_orthogonal x) as [O1 O2].
  split; [apply round_trip; auto using horizon_involution, horizon_orthogonal|].
  split; [apply round_trip; auto using radec_involution, radec_orthogonal|].
  split; apply round_trip; assumption.
Qed.
Print Assumptions C49_round_trips.

(** Angles to a column vector and back. *)
Theorem C49_extract : forall a, sky_angles a -> extract_coordinates (column_vector (fst a) (snd a)) = a.
Proof. exact extract_column. Qed.
Print Assumptions C49_extract.

Theorem C49_column : forall v, vdot v v = 1 ->
  column_vector (fst (extract_coordinates v)) (snd (extract_coordinates v)) = v.
Proof. exact column_extract. Qed.
Print Assumptions C49_column.

Theorem C49_ranges : forall v,
  - PI < fst (extract_coordinates v) <= PI /\ - (PI / 2) <= snd (extract_coordinates v) <= PI / 2.
Proof. exact extract_ranges. Qed.
Print Assumptions C49_ranges.

(** The first angle is lost at the poles. *)
Theorem C49_pole_refuted : exists a, - PI < fst a <= PI /\ snd a = PI / 2 /\
  extract_coordinates (column_vector (fst a) (snd a)) <> a.
Proof.
  exists (1, PI / 2). pose proof PI2_3_2 as P. unfold PI2 in P.
  split; [cbn; lra|]. split; [reflexivity|].
  unfold extract_coordinates, column_vector; cbn [fst snd c0 c1 c2]. rewrite cos_PI2, sin_PI2.
  replace (sin 1 * 0) with 0 by ring. replace (cos 1 * 0) with 0 by ring.
  intros H. apply (f_equal fst) in H. cbn [fst] in H. unfold atan2 in H.
  destruct (Rlt_dec 0 0); lra.
Qed.
Print Assumptions C49_pole_refuted.

Example C49_case : sky_angles (PI, - (PI / 4)).
Proof. unfold sky_angles; cbn. pose proof PI_RGT_0. lra. Qed.

(** ** C50 *)

Theorem C50_not_inverse : ~ inverse galactic_to_ra_dec ra_dec_to_galactic.
Proof. intros [H _]. exact (galactic_not_inverse H). Qed.
Print Assumptions C50_not_inverse.

(** The vernal equinox, converted to galactic coordinates and back, is off by
    more than 30 degrees. *)
Theorem C50_equinox_off : 
  let v := column_vector 0 0 in
  let w := mat_vec galactic_to_ra_dec (mat_vec ra_dec_to_galactic v) in
  PI / 6 < acos (vdot v w / (vnorm v * vnorm w)).
Proof. exact galactic_far. Qed.
Print Assumptions C50_equinox_off.

Theorem C50_transpose_is_inverse_approximately : forall v, vdot v v = 1 ->
  let w := mat_vec (transpose ra_dec_to_galactic) (mat_vec ra_dec_to_galactic v) in
  Rabs (c0 w - c0 v) < 0.000001 /\ Rabs (c1 w - c1 v) < 0.000001 /\ Rabs (c2 w - c2 v) < 0.000001.
Proof. exact galactic_transpose. Qed.
Print Assumptions C50_transpose_is_inverse_approximately.

(** Extraction from a product with these matrices never leaves the domain of the arcsine. *)
Theorem C50_arcsine_defined : forall v, vdot v v = 1 ->
  -1 <= c2 (mat_vec ra_dec_to_galactic v) <= 1 /\ -1 <= c2 (mat_vec galactic_to_ra_dec v) <= 1.
Proof. exact galactic_asin_defined. Qed.
Print Assumptions C50_arcsine_defined.

Example C50_case : forall u v, vdot (column_vector u v) (column_vector u v) = 1.
Proof. exact column_unit. Qed.

(** ** C51 *)

(** The value in degrees, from the number of days since 2000-01-01 (see C35_days_between). *)
Theorem C51_value : forall n d, TimeSpec.gregorian d -> TimeSpec.days_from (TimeModel.mk_date 2000 1 1) d n ->
  let t := IZR n / 36525 in
  obliquity_of_ecliptic d * 180 / PI = 23.439292 - (46.815 * t + 0.0006 * t ^ 2 - 0.00181 * t ^ 3) / 3600.
Proof. exact obliquity_value. Qed.
Print Assumptions C51_value.

Example C51_value_case : TimeSpec.gregorian (TimeModel.mk_date 2000 3 11) /\
  TimeSpec.days_from (TimeModel.mk_date 2000 1 1) (TimeModel.mk_date 2000 3 11) 70.
Proof. split; [vm_compute; repeat split; discriminate|]. left. split; [lia|reflexivity]. Qed.

Theorem C51_decreasing : forall a b, TimeSpec.valid_date a -> TimeSpec.valid_date b ->
  TimeModel.later a b = true -> obliquity_of_ecliptic a < obliquity_of_ecliptic b.
Proof. exact obliquity_decreasing. Qed.
Print Assumptions C51_decreasing.

Theorem C51_range : forall d, TimeSpec.valid_date d ->
  22.6 < obliquity_of_ecliptic d * 180 / PI < 23.6.
Proof. exact obliquity_range. Qed.
Print Assumptions C51_range.

Example C51_case : TimeSpec.valid_date (TimeModel.mk_date 2009 7 6) /\ TimeSpec.valid_date (TimeModel.mk_date 1400 1 1) /\
  TimeModel.later (TimeModel.mk_date 2009 7 6) (TimeModel.mk_date 1400 1 1) = true.
Proof. vm_compute. repeat split; discriminate. Qed.

(** ** C71 *)

Theorem C71_hour_angle : forall st h dec, - (PI / 2) < dec < PI / 2 ->
  let a := convert_angles (ha_dec_ra_dec st) (h, dec) in
  same_angle (fst a) (st - h) /\ - PI < fst a <= PI /\ snd a = dec.
Proof. exact radec_difference. Qed.
Print Assumptions C71_hour_angle.

Theorem C71_horizon : forall phi ha dec,
  let a := convert_angles (ha_dec_horizon phi) (ha, dec) in
  sin (snd a) = sin phi * sin dec + cos phi * cos dec * cos ha /\
  cos (snd a) * cos (fst a) = cos phi * sin dec - sin phi * cos dec * cos ha /\
  cos (snd a) * sin (fst a) = - (cos dec * sin ha).
Proof. intros phi ha dec a. split; [apply horizon_altitude | apply horizon_azimuth]. Qed.
Print Assumptions C71_horizon.

Theorem C71_ecliptic : forall e lon lat,
  let a := convert_angles (ecliptic_to_ra_dec e) (lon, lat) in
  sin (snd a) = sin lat * cos e + cos lat * sin e * sin lon /\
  cos (snd a) * cos (fst a) = cos lat * cos lon /\
  cos (snd a) * sin (fst a) = cos lat * sin lon * cos e - sin lat * sin e.
Proof. exact ecliptic_declination. Qed.
Print Assumptions C71_ecliptic.

Example C71_case : sin (snd (convert_angles (ha_dec_horizon (PI / 2)) (1, PI / 6))) = 1 / 2.
Proof.
  destruct (C71_horizon (PI / 2) 1 (PI / 6)) as [H _]. cbn zeta in H. rewrite H.
  rewrite sin_PI2, cos_PI2, sin_PI6. ring.
Qed.
