(** Proofs about the conversion matrices and the obliquity. *)

From Coq Require Import Reals Lra Psatz ZArith Lia.
From Verif Require Import CoordModel CoordSpec CoordProofs UtilModel UtilSpec.
From Verif Require TimeModel TimeSpec TimeProofs CalendarProofs.
Local Open Scope R_scope.

Lemma mat_ext : forall a b, row0 a = row0 b -> row1 a = row1 b -> row2 a = row2 b -> a = b.
Proof. intros [] []; cbn; congruence. Qed.

Ltac mat_calc :=
  unfold mat_mul, transpose, identity, vdot; cbn; f_equal; f_equal.

Lemma horizon_involution : forall phi,
  mat_mul (ha_dec_horizon phi) (ha_dec_horizon phi) = identity.
Proof. intros. pose proof (sincos1 phi). mat_calc; lra. Qed.

Lemma horizon_orthogonal : forall phi, orthogonal (ha_dec_horizon phi).
Proof. intros. unfold orthogonal. pose proof (sincos1 phi). mat_calc; lra. Qed.

Lemma radec_involution : forall st, mat_mul (ha_dec_ra_dec st) (ha_dec_ra_dec st) = identity.
Proof. intros. pose proof (sincos1 st). mat_calc; lra. Qed.

Lemma radec_orthogonal : forall st, orthogonal (ha_dec_ra_dec st).
Proof. intros. unfold orthogonal. pose proof (sincos1 st). mat_calc; lra. Qed.

Lemma ecliptic_inverse : forall e, inverse (ecliptic_to_ra_dec e) (ra_dec_to_ecliptic e).
Proof. intros. pose proof (sincos1 e). split; mat_calc; lra. Qed.

Lemma ecliptic_orthogonal : forall e,
  orthogonal (ecliptic_to_ra_dec e) /\ orthogonal (ra_dec_to_ecliptic e).
Proof. intros. unfold orthogonal. pose proof (sincos1 e). split; mat_calc; lra. Qed.

(** ** Products *)

Lemma mat_vec_mul : forall a b v, mat_vec a (mat_vec b v) = mat_vec (mat_mul a b) v.
Proof.
  intros. unfold mat_vec, mat_mul, transpose, dot_product, vdot; cbn. f_equal; ring.
Qed.

Lemma mat_vec_identity : forall v, mat_vec identity v = v.
Proof. intros []. unfold mat_vec, dot_product; cbn. f_equal; ring. Qed.

Lemma orthogonal_norm : forall m v, orthogonal m -> vdot (mat_vec m v) (mat_vec m v) = vdot v v.
Proof.
  intros [[a00 a01 a02] [a10 a11 a12] [a20 a21 a22]] [x y z] H.
  unfold orthogonal, mat_mul, transpose, vdot, identity in H. cbn in H.
  injection H as E00 E01 E02 E10 E11 E12 E20 E21 E22.
  unfold mat_vec, dot_product, vdot. cbn.
  transitivity ((a00 * a00 + a10 * a10 + a20 * a20) * (x * x) + (a01 * a01 + a11 * a11 + a21 * a21) * (y * y)
     + (a02 * a02 + a12 * a12 + a22 * a22) * (z * z)
     + 2 * (a00 * a01 + a10 * a11 + a20 * a21) * (x * y) 
     + 2 * (a00 * a02 + a10 * a12 + a20 * a22) * (x * z)
     + 2 * (a01 * a02 + a11 * a12 + a21 * a22) * (y * z)); [ring|].
  rewrite E00, E11, E22, E01, E02, E12. ring.
Qed.

Lemma column_unit : forall u v, vdot (column_vector u v) (column_vector u v) = 1.
Proof.
  intros. unfold column_vector, vdot; cbn.
  pose proof (sincos1 u) as A. pose proof (sincos1 v) as B.
  transitivity (cos v * cos v * (cos u * cos u + sin u * sin u) + sin v * sin v); [ring|].
  rewrite A. lra.
Qed.

(** Extraction inverts [column_vector] away from the poles. *)
Lemma extract_column : forall a, sky_angles a -> extract_coordinates (column_vector (fst a) (snd a)) = a.
Proof.
  intros [u v] [Hu Hv]; cbn in *. unfold extract_coordinates, column_vector; cbn.
  assert (0 < cos v) by (apply cos_gt_0; lra).
  f_equal.
  - rewrite (Rmult_comm (sin u)), (Rmult_comm (cos u)). now apply atan2_polar.
  - apply asin_sin. lra.
Qed.

(** And [column_vector] inverts extraction on every unit vector. *)
Lemma column_extract : forall v, vdot v v = 1 ->
  column_vector (fst (extract_coordinates v)) (snd (extract_coordinates v)) = v.
Proof.
  intros [x y z] H. unfold vdot in H; cbn in H. unfold column_vector, extract_coordinates; cbn.
  assert (-1 <= z <= 1) by nra.
  rewrite cos_asin, sin_asin by assumption.
  replace (1 - z²) with (x * x + y * y) by (unfold Rsqr; lra).
  destruct (polar_parts x y) as [P Q]. f_equal; [rewrite Rmult_comm; exact P|rewrite Rmult_comm; exact Q].
Qed.

Lemma extract_ranges : forall v,
  - PI < fst (extract_coordinates v) <= PI /\
  - (PI / 2) <= snd (extract_coordinates v) <= PI / 2.
Proof. intros v. split; [apply atan2_range|apply asin_bound]. Qed.

Lemma round_trip : forall m n a, mat_mul n m = identity -> orthogonal m -> sky_angles a ->
  convert_angles n (convert_angles m a) = a.
Proof.
  intros m n a I O A. unfold convert_angles at 1. unfold convert_angles.
  rewrite column_extract.
  - rewrite mat_vec_mul, I, mat_vec_identity. now apply extract_column.
  - rewrite orthogonal_norm by assumption. apply column_unit.
Qed.

Lemma round_trip_vector : forall m n a, mat_mul n m = identity -> sky_angles a ->
  extract_coordinates (mat_vec n (mat_vec m (column_vector (fst a) (snd a)))) = a.
Proof. intros m n a I A. rewrite mat_vec_mul, I, mat_vec_identity. now apply extract_column. Qed.

(** ** What the matrices compute *)

Lemma horizon_altitude : forall phi ha dec,
  sin (snd (convert_angles (ha_dec_horizon phi) (ha, dec)))
  = sin phi * sin dec + cos phi * cos dec * cos ha.
Proof.
  intros. unfold convert_angles, extract_coordinates; cbn [fst snd].
  set (v := mat_vec _ _).
  assert (U : vdot v v = 1) by (unfold v; rewrite orthogonal_norm; [apply column_unit|apply horizon_orthogonal]).
  assert (B : -1 <= c2 v <= 1) by (unfold vdot in U; nra).
  rewrite sin_asin by assumption. unfold v, mat_vec, dot_product, column_vector; cbn. ring.
Qed.

Lemma horizon_azimuth : forall phi ha dec,
  let a := convert_angles (ha_dec_horizon phi) (ha, dec) in
  cos (snd a) * cos (fst a) = cos phi * sin dec - sin phi * cos dec * cos ha /\
  cos (snd a) * sin (fst a) = - (cos dec * sin ha).
Proof.
  intros phi ha dec a.
  assert (U : vdot (mat_vec (ha_dec_horizon phi) (column_vector ha dec))
                (mat_vec (ha_dec_horizon phi) (column_vector ha dec)) = 1)
    by (rewrite orthogonal_norm; [apply column_unit|apply horizon_orthogonal]).
  pose proof (column_extract _ U) as E. fold (convert_angles (ha_dec_horizon phi) (ha, dec)) in E.
  change (extract_coordinates (mat_vec (ha_dec_horizon phi) (column_vector ha dec))) with a in E.
  clearbody a. destruct a as [ra rb].
  unfold column_vector at 1 in E. unfold mat_vec, dot_product, column_vector in E; cbn in E.
  cbn. injection E as E0 E1 E2. split; lra.
Qed.

(** Hour angle <-> right ascension: the declination is kept and the new angle
    is the sidereal time minus the old one, up to whole turns. *)
Lemma radec_difference : forall st h dec, - (PI / 2) < dec < PI / 2 ->
  same_angle (fst (convert_angles (ha_dec_ra_dec st) (h, dec))) (st - h) /\
  - PI < fst (convert_angles (ha_dec_ra_dec st) (h, dec)) <= PI /\
  snd (convert_angles (ha_dec_ra_dec st) (h, dec)) = dec.
Proof.
  intros st h dec Hd. assert (C : 0 < cos dec) by (apply cos_gt_0; lra).
  assert (E : mat_vec (ha_dec_ra_dec st) (column_vector h dec)
              = V (cos dec * cos (st - h)) (cos dec * sin (st - h)) (sin dec)).
  { unfold mat_vec, dot_product, column_vector; cbn. rewrite cos_minus, sin_minus. f_equal; ring. }
  unfold convert_angles; cbn [fst snd]. rewrite E. unfold extract_coordinates; cbn [fst snd c0 c1 c2].
  assert (P : cos dec * cos (st - h) * (cos dec * cos (st - h))
            + cos dec * sin (st - h) * (cos dec * sin (st - h)) = cos dec * cos dec).
  { pose proof (sincos1 (st - h)). nra. }
  assert (P' : 0 < cos dec * cos (st - h) * (cos dec * cos (st - h))
            + cos dec * sin (st - h) * (cos dec * sin (st - h))) by (rewrite P; nra).
  split; [split|split].
  - rewrite atan2_cos by assumption. rewrite P, sqrt_square by lra. field. lra.
  - rewrite atan2_sin by assumption. rewrite P, sqrt_square by lra. field. lra.
  - apply atan2_range.
  - apply asin_sin. lra.
Qed.

(** Ecliptic to equatorial. *)
Lemma ecliptic_declination : forall e lon lat,
  let a := convert_angles (ecliptic_to_ra_dec e) (lon, lat) in
  sin (snd a) = sin lat * cos e + cos lat * sin e * sin lon /\
  cos (snd a) * cos (fst a) = cos lat * cos lon /\
  cos (snd a) * sin (fst a) = cos lat * sin lon * cos e - sin lat * sin e.
Proof.
  intros e lon lat a.
  assert (U : vdot (mat_vec (ecliptic_to_ra_dec e) (column_vector lon lat))
                (mat_vec (ecliptic_to_ra_dec e) (column_vector lon lat)) = 1)
    by (rewrite orthogonal_norm; [apply column_unit|apply ecliptic_orthogonal]).
  pose proof (column_extract _ U) as E. 
  change (extract_coordinates (mat_vec (ecliptic_to_ra_dec e) (column_vector lon lat))) with a in E.
  clearbody a. destruct a as [ra rb].
  unfold column_vector at 1 in E. unfold mat_vec, dot_product, column_vector in E; cbn in E.
  cbn. injection E as E0 E1 E2. repeat split; lra.
Qed.

(** ** Galactic matrices *)

Lemma galactic_product :
  c0 (row0 (mat_mul galactic_to_ra_dec ra_dec_to_galactic)) < 0.855.
Proof. unfold mat_mul, transpose, vdot; cbn. lra. Qed.

Lemma galactic_not_inverse :
  mat_mul galactic_to_ra_dec ra_dec_to_galactic <> identity.
Proof.
  intros H. pose proof galactic_product as P. rewrite H in P. cbn in P. lra.
Qed.

(** The vernal equinox comes back more than 30 degrees away. *)
Definition round_equinox : vec :=
  mat_vec galactic_to_ra_dec (mat_vec ra_dec_to_galactic (column_vector 0 0)).

Lemma galactic_far :
  PI / 6 < acos (vdot (column_vector 0 0) round_equinox
                 / (vnorm (column_vector 0 0) * vnorm round_equinox)).
Proof.
  assert (C : vnorm (column_vector 0 0) = 1).
  { unfold vnorm. rewrite column_unit. apply sqrt_1. }
  rewrite C, Rmult_1_l.
  assert (D : vdot (column_vector 0 0) round_equinox = c0 round_equinox).
  { unfold vdot, column_vector; cbn. rewrite cos_0, sin_0. ring. }
  assert (X : c0 round_equinox < 0.855 /\ 0 < c0 round_equinox).
  { unfold round_equinox, mat_vec, dot_product, column_vector; cbn. rewrite cos_0, sin_0. lra. }
  assert (N2 : 0.999 < vdot round_equinox round_equinox).
  { unfold round_equinox, mat_vec, dot_product, vdot, column_vector; cbn. rewrite cos_0, sin_0. lra. }
  assert (N : 0.999 < vnorm round_equinox).
  { unfold vnorm. apply Rsqr_incrst_0; [|lra|apply sqrt_pos].
    rewrite Rsqr_sqrt by lra. unfold Rsqr. lra. }
  rewrite D. set (x := c0 round_equinox) in *. set (n := vnorm round_equinox) in *.
  assert (Q : x / n < 0.86).
  { apply Rmult_lt_reg_r with n; [lra|]. replace (x / n * n) with x by (field; lra). lra. }
  assert (Q0 : 0 < x / n) by (apply Rdiv_lt_0_compat; lra).
  pose proof PI_RGT_0.
  destruct (Rle_dec (acos (x / n)) (PI / 6)) as [L|L]; [exfalso|lra].
  pose proof (acos_bound (x / n)).
  assert (K : cos (PI / 6) <= cos (acos (x / n))) by (apply cos_decr_1; lra).
  rewrite cos_acos, cos_PI6 in K by lra.
  assert (S3 : 1.73 < sqrt 3).
  { apply Rsqr_incrst_0; [|lra|apply sqrt_pos]. rewrite Rsqr_sqrt by lra. unfold Rsqr. lra. }
  lra.
Qed.

(** The transpose would be the inverse up to 1e-6. *)
Lemma galactic_transpose : forall v, vdot v v = 1 ->
  let w := mat_vec (transpose ra_dec_to_galactic) (mat_vec ra_dec_to_galactic v) in
  Rabs (c0 w - c0 v) < 0.000001 /\ Rabs (c1 w - c1 v) < 0.000001 /\ Rabs (c2 w - c2 v) < 0.000001.
Proof.
  intros [x y z] H w. unfold vdot in H; cbn in H.
  assert (-1 <= x <= 1) by nra. assert (-1 <= y <= 1) by nra. assert (-1 <= z <= 1) by nra.
  clear H. unfold w, mat_vec, dot_product, transpose; cbn.
  repeat split; apply Rabs_def1; lra.
Qed.

(** The declination always exists: the third component stays within [-1,1]. *)
Lemma galactic_asin_defined : forall v, vdot v v = 1 ->
  -1 <= c2 (mat_vec ra_dec_to_galactic v) <= 1 /\ -1 <= c2 (mat_vec galactic_to_ra_dec v) <= 1.
Proof.
  intros v H.
  assert (K : forall a, vdot a a <= 1 -> -1 <= dot_product a v <= 1).
  { intros a Ha. change (dot_product a v) with (vdot a v).
    assert (vdot a v * vdot a v <= 1).
    { assert (L : vdot a v * vdot a v <= vdot a a * vdot v v).
      { destruct a as [a b c], v as [x y z]. unfold vdot; cbn.
        pose proof (Rle_0_sqr (a * y - b * x)). pose proof (Rle_0_sqr (a * z - c * x)).
        pose proof (Rle_0_sqr (b * z - c * y)). unfold Rsqr in *. nra. }
      rewrite H in L. lra. }
    nra. }
  split; apply K; unfold vdot; cbn; lra.
Qed.

(** ** Obliquity *)

Ltac month_eval H :=
  repeat match type of H with
  | context [Z.eqb ?a ?b] =>
      let v := eval cbv in (Z.eqb a b) in
      match v with
      | true => change (Z.eqb a b) with true in H
      | false => change (Z.eqb a b) with false in H
      | _ => destruct (Z.eqb_spec a b)
      end
  end; cbn [orb andb negb] in H.

Lemma month_days_upper : forall y m, (1 <= m <= 12)%Z ->
  (TimeSpec.month_days y m <= (if m =? 2 then 28 + (if TimeSpec.leap y then 1 else 0) else 31))%Z.
Proof.
  intros y m H. unfold TimeSpec.month_days.
  destruct (Z.eqb_spec m 2); [destruct (TimeSpec.leap y); lia|].
  destruct ((_ || _)%bool); lia.
Qed.

Lemma day_number_year : forall d, TimeSpec.valid_date d ->
  let y := TimeModel.d_year d in
  (day_number (TimeModel.mk_date y 1 1) <= day_number d < day_number (TimeModel.mk_date (y + 1) 1 1))%Z.
Proof.
  intros [y m d] [Hy [Hm Hd]]. cbv zeta. cbn [TimeModel.d_year TimeModel.d_month TimeModel.d_day] in *. unfold day_number.
  cbv zeta. cbn [TimeModel.d_year TimeModel.d_month TimeModel.d_day].
  pose proof (month_days_upper y m Hm) as U.
  destruct (TimeProofs.months m Hm) as [->|[->|[->|[->|[->|[->|[->|[->|[->|[->|[->| ->]]]]]]]]]]];
    [change (1 =? 2)%Z with false in U | change (2 =? 2)%Z with true in U; destruct (TimeSpec.leap y) |
     change (3 =? 2)%Z with false in U | change (4 =? 2)%Z with false in U |
     change (5 =? 2)%Z with false in U | change (6 =? 2)%Z with false in U |
     change (7 =? 2)%Z with false in U | change (8 =? 2)%Z with false in U |
     change (9 =? 2)%Z with false in U | change (10 =? 2)%Z with false in U |
     change (11 =? 2)%Z with false in U | change (12 =? 2)%Z with false in U]; cbv iota in U; lia.
Qed.

Lemma day_number_step : forall y, (day_number (TimeModel.mk_date y 1 1) + 365
  <= day_number (TimeModel.mk_date (y + 1) 1 1))%Z.
Proof.
  intros. unfold day_number. cbv zeta. cbn [TimeModel.d_year TimeModel.d_month TimeModel.d_day]. lia.
Qed.

Lemma day_number_years : forall n y, 
  (day_number (TimeModel.mk_date y 1 1) <= day_number (TimeModel.mk_date (y + Z.of_nat n) 1 1))%Z.
Proof.
  induction n; intros y.
  - rewrite Z.add_0_r. lia.
  - pose proof (IHn (y + 1)%Z). pose proof (day_number_step y).
    replace (y + Z.of_nat (S n))%Z with (y + 1 + Z.of_nat n)%Z by lia. lia.
Qed.

Lemma day_number_mono : forall a b, TimeSpec.valid_date a -> TimeSpec.valid_date b ->
  TimeModel.later a b = true -> (day_number b < day_number a)%Z.
Proof.
  intros a b Va Vb H. apply TimeProofs.later_spec in H.
  destruct H as [H|[H1 H]].
  - pose proof (day_number_year a Va). pose proof (day_number_year b Vb).
    pose proof (day_number_years (Z.to_nat (TimeModel.d_year a - (TimeModel.d_year b + 1))) (TimeModel.d_year b + 1)) as K.
    cbv zeta in *.
    replace (TimeModel.d_year b + 1 + Z.of_nat (Z.to_nat (TimeModel.d_year a - (TimeModel.d_year b + 1))))%Z
      with (TimeModel.d_year a) in K by lia. lia.
  - destruct a as [y m d], b as [y' m' d']; cbn in H1, H. subst y'.
    destruct Va as [_ [Hm Hd]], Vb as [_ [Hm' Hd']].
    unfold day_number. cbv zeta. cbn [TimeModel.d_year TimeModel.d_month TimeModel.d_day] in *.
    destruct H as [H|[-> H]]; [|lia].
    unfold TimeSpec.month_days, TimeSpec.leap in Hd'.
    destruct (TimeProofs.months m Hm) as [->|[->|[->|[->|[->|[->|[->|[->|[->|[->|[->| ->]]]]]]]]]]];
    destruct (TimeProofs.months m' Hm') as [->|[->|[->|[->|[->|[->|[->|[->|[->|[->|[->| ->]]]]]]]]]]];
    try lia; month_eval Hd'; lia.
Qed.

Lemma day_number_range : forall d, TimeSpec.valid_date d ->
  (2232400 <= day_number d <= 5373484)%Z.
Proof.
  intros d H. pose proof (day_number_year d H) as [L U].
  destruct H as [Hy _]. set (y := TimeModel.d_year d) in *.
  pose proof (day_number_years (Z.to_nat (y - 1400)) 1400) as A.
  pose proof (day_number_years (Z.to_nat (9999 - y)) (y + 1)) as B.
  replace (1400 + Z.of_nat (Z.to_nat (y - 1400)))%Z with y in A by lia.
  replace (y + 1 + Z.of_nat (Z.to_nat (9999 - y)))%Z with 10000%Z in B by lia.
  change (day_number (TimeModel.mk_date 1400 1 1)) with 2232400%Z in A.
  change (day_number (TimeModel.mk_date 10000 1 1)) with 5373485%Z in B. lia.
Qed.

Definition centuries (d : TimeModel.date) : R := (IZR (day_number d) - 2451545) / 36525.

Lemma centuries_range : forall d, TimeSpec.valid_date d -> -6 < centuries d < 80.
Proof.
  intros d H. apply day_number_range in H as [L U]. apply IZR_le in L, U. unfold centuries.
  split.
  - apply Rmult_lt_reg_r with 36525; [lra|]. field_simplify; lra.
  - apply Rmult_lt_reg_r with 36525; [lra|]. field_simplify; lra.
Qed.

Definition obliquity_arcsec (t : R) : R := 46.815 * t + (0.0006 - 0.00181 * t) * t * t.

Lemma arcsec_increasing : forall t u, -6 < t -> t < u -> u < 80 ->
  obliquity_arcsec t < obliquity_arcsec u.
Proof.
  intros t u Ht H Hu. unfold obliquity_arcsec.
  assert (F : 0 < (u - t) * (46.815 + 0.0006 * (t + u) - 0.00181 * (t * t + t * u + u * u))).
  { apply Rmult_lt_0_compat; [lra|].
    assert (t * t <= 6400) by nra. assert (u * u <= 6400) by nra. assert (t * u <= 6400) by nra.
    lra. }
  lra.
Qed.

Lemma obliquity_decreasing : forall a b, TimeSpec.valid_date a -> TimeSpec.valid_date b ->
  TimeModel.later a b = true -> obliquity_of_ecliptic a < obliquity_of_ecliptic b.
Proof.
  intros a b Va Vb H. pose proof (centuries_range a Va). pose proof (centuries_range b Vb).
  apply day_number_mono in H; [|assumption..]. apply IZR_lt in H.
  assert (T : centuries b < centuries a).
  { unfold centuries. apply Rmult_lt_reg_r with 36525; [lra|]. field_simplify; lra. }
  pose proof (arcsec_increasing (centuries b) (centuries a) ltac:(lra) T ltac:(lra)) as A.
  unfold obliquity_of_ecliptic. fold (centuries a) (centuries b).
  fold (obliquity_arcsec (centuries a)) (obliquity_arcsec (centuries b)).
  pose proof PI_RGT_0. unfold Rdiv. nra.
Qed.

(** In degrees. *)
Lemma obliquity_range : forall d, TimeSpec.valid_date d ->
  22.6 < obliquity_of_ecliptic d * 180 / PI < 23.6.
Proof.
  intros d H. pose proof (centuries_range d H) as [L U].
  pose proof PI_RGT_0. unfold obliquity_of_ecliptic. fold (centuries d).
  fold (obliquity_arcsec (centuries d)).
  assert (A : obliquity_arcsec (-6) < obliquity_arcsec (centuries d) < obliquity_arcsec 80).
  { split.
    - unfold obliquity_arcsec. set (t := centuries d) in *.
      assert (F : 0 < (t + 6) * (46.815 + 0.0006 * (-6 + t) - 0.00181 * (36 + -6 * t + t * t))).
      { apply Rmult_lt_0_compat; [lra|]. assert (t * t <= 6400) by nra. lra. }
      lra.
    - unfold obliquity_arcsec. set (t := centuries d) in *.
      assert (F : 0 < (80 - t) * (46.815 + 0.0006 * (t + 80) - 0.00181 * (t * t + t * 80 + 6400))).
      { apply Rmult_lt_0_compat; [lra|]. assert (t * t <= 6400) by nra. lra. }
      lra. }
  set (q := obliquity_arcsec (centuries d)) in *. unfold obliquity_arcsec in A.
  replace ((23.439292 - q / 3600) * PI / 180 * 180 / PI) with (23.439292 - q / 3600) by (field; lra).
  lra.
Qed.

(** Boost's day number, and the formula of Meeus. *)
Lemma boost_number : forall d, TimeSpec.gregorian d -> day_number d = (TimeProofs.day_number true d + 1)%Z.
Proof.
  intros [y m d] [Hm _]. cbn [TimeModel.d_month] in Hm. unfold day_number, TimeProofs.day_number, TimeModel.shifted, TimeProofs.century, TimeProofs.base.
  cbn [TimeModel.d_year TimeModel.d_month TimeModel.d_day].
  destruct (TimeProofs.months m Hm) as [->|[->|[->|[->|[->|[->|[->|[->|[->|[->|[->| ->]]]]]]]]]]];
    cbn [Z.eqb Pos.eqb orb]; cbv zeta; lia.
Qed.

Lemma obliquity_value : forall n d, TimeSpec.gregorian d -> TimeSpec.days_from (TimeModel.mk_date 2000 1 1) d n ->
  let t := IZR n / 36525 in
  obliquity_of_ecliptic d * 180 / PI = 23.439292 - (46.815 * t + 0.0006 * t ^ 2 - 0.00181 * t ^ 3) / 3600.
Proof.
  intros n d G D. cbv zeta. apply CalendarProofs.days_from_number in D; [|split; cbn; lia|exact G].
  change (TimeProofs.day_number true (TimeModel.mk_date 2000 1 1)) with 2451544%Z in D.
  unfold obliquity_of_ecliptic. cbv zeta. rewrite boost_number by exact G.
  replace (TimeProofs.day_number true d + 1)%Z with (n + 2451545)%Z by lia. rewrite plus_IZR.
  replace (IZR n + 2451545 - 2451545) with (IZR n) by ring. field. apply PI_neq0.
Qed.
