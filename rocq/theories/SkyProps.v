(** * The sky in doubles: conversions between systems of coordinates, separations, positional angles and representations. *)
From Coq Require Import ZArith Reals Lia Lra.
From Flocq Require Import Core IEEE754.Binary IEEE754.Bits.
From Verif Require Import TextModel TextSpec DoubleModel DoubleSpec DoubleProofs DoubleUnits VectorModel VectorSpec VectorProofs VectorLength VectorUnit VectorProps SkyModel SkySpec SkyAngles SkyProofs SkyConvert SkySeparation SkyTransform SkyLibrary.
Local Open Scope R_scope.

(** There are libraries as demanded; the best one is correctly rounded. *)
Example C106_library : exists L, rounded_libm L /\ good_libm L.
Proof. exists best_libm. split; [exact best_rounded|apply rounded_good, best_rounded]. Qed.
Print Assumptions C106_library.

(** ** C106 *)

Theorem C106_conversions L a m t u v : good_libm L -> conversion L a m t -> dfinite a -> dfinite u -> dfinite v ->
  let q := convert_angles_d L m (u, v) in let p := t (direction (dval u) (dval v)) in let r := sqrt (rx p * rx p + ry p * ry p) in
  dfinite (fst q) /\
  Rabs (r * cos (dval (fst q)) - rx p) <= bpow radix2 (-47) /\ Rabs (r * sin (dval (fst q)) - ry p) <= bpow radix2 (-47) /\
  (dfinite (snd q) -> Rabs (sin (dval (snd q)) - rz p) <= bpow radix2 (-48) /\ Rabs (dval (snd q) - asin (rz p)) <= bpow radix2 (-22) /\
     within (bpow radix2 (-22)) (direction (dval (fst q)) (dval (snd q))) p) /\
  (Rabs (rz p) <= 1 - bpow radix2 (-49) -> dfinite (snd q)) /\
  (Rabs (rz p) <= 9 / 10 -> Rabs (dval (snd q) - asin (rz p)) <= bpow radix2 (-45) /\
     within (bpow radix2 (-45)) (direction (dval (fst q)) (dval (snd q))) p).
Proof. intros G. exact (conversion_angles L G a m t u v). Qed.
Print Assumptions C106_conversions.

(** A star in the zenith has no altitude, even with the best library. *)
Theorem C106_zenith_refuted L : rounded_libm L ->
  exists a u v, dfinite a /\ dfinite u /\ dfinite v /\ dval a = 35 / 512 /\ dval u = 0 /\ dval v = 35 / 512 /\ ~ dfinite (snd (convert_angles_d L (ha_dec_horizon_d L a) (u, v))).
Proof.
  intros G. destruct zenith_val as [F V]. exists zenith_d, (d_of_Z 0), zenith_d. split; [exact F|]. split; [apply zero_ok|]. split; [exact F|]. split; [exact V|]. split; [apply zero_ok|]. split; [exact V|]. exact (zenith_not L G).
Qed.
Print Assumptions C106_zenith_refuted.

(** Half a radian in every place: all four conversions start from numbers, and no image is near a pole. *)
Definition half : double := d_div (d_of_Z 1) (d_of_Z 2).
Lemma half_val : dfinite half /\ dval half = / 2.
Proof. split; [vm_compute; reflexivity|]. rewrite (val_is half false 4503599627370496 (-53)) by (vm_compute; reflexivity). cbn [cond_Zopp]. change (bpow radix2 (-53)) with (/ 9007199254740992). lra. Qed.

Lemma sin_half_bound : 0 < sin (/ 2) <= / 2 /\ 7 / 8 <= cos (/ 2) < 1.
Proof.
  pose proof PI2_1 as P. pose proof PI_RGT_0. assert (Hs : sin (/ 2) < / 2) by (apply sin_lt_x; lra). assert (0 < sin (/ 2)) by (apply sin_gt_0; lra).
  split; [lra|]. pose proof (sin2_cos2 (/ 2)) as Q. unfold Rsqr in Q. 
  assert (Lo : 1 - / 2 * / 2 / 2 <= cos (/ 2)).
  { destruct (cos_bound (/ 2) 0) as [K _]; try lra. unfold cos_approx in K. change (2 * 0 + 1)%nat with 1%nat in K. cbn [sum_f_R0] in K. pose proof (cos_step (/ 2) 0) as T. rewrite cos_term_0 in *. cbn [INR] in T. lra. }
  pose proof (COS_bound (/ 2)). split; [lra|]. assert (0 < sin (/ 2) * sin (/ 2)) by (apply Rmult_lt_0_compat; assumption). assert (cos (/ 2) <> 1) by (intros E; rewrite E in Q; lra). lra.
Qed.

Example C106_case L : dfinite half /\ dfinite (d_of_Z 0) /\
  conversion L half (ecliptic_to_ra_dec_d L half) (true_from_ecliptic (dval half)) /\
  Rabs (rz (true_from_ecliptic (dval half) (direction (dval (d_of_Z 0)) (dval half)))) <= 9 / 10 /\
  true_from_ecliptic (dval half) (direction (dval (d_of_Z 0)) (dval half)) <> direction (dval (d_of_Z 0)) (dval half).
Proof.
  destruct half_val as [F V]. destruct zero_ok as [F0 V0']. assert (V0 : dval (d_of_Z 0) = 0) by exact V0'. split; [exact F|]. split; [exact F0|]. split; [constructor|]. rewrite V, V0. unfold true_from_ecliptic, direction. cbn [rx ry rz]. rewrite sin_0, cos_0.
  destruct sin_half_bound as [S C]. split.
  - replace (sin (/ 2) * (0 * cos (/ 2)) + cos (/ 2) * sin (/ 2)) with (cos (/ 2) * sin (/ 2)) by ring. rewrite Rabs_pos_eq; nra.
  - intros E. apply (f_equal ry) in E. cbn [ry] in E. nra.
Qed.

(** ** C107 *)

Theorem C107_round_trip L a m n u v : good_libm L -> undone_by L a m n -> dfinite a -> dfinite u -> dfinite v ->
  let q := convert_angles_d L m (u, v) in let b := convert_angles_d L n q in
  dfinite (snd q) -> dfinite (snd b) -> within (bpow radix2 (-20)) (direction (dval (fst b)) (dval (snd b))) (direction (dval u) (dval v)).
Proof. intros G I A U V. exact (proj1 (round_trip_angles L G a m n u v I A U V)). Qed.
Print Assumptions C107_round_trip.

Theorem C107_away_from_poles L a m n t u v : good_libm L -> conversion L a m t -> undone_by L a m n -> dfinite a -> dfinite u -> dfinite v ->
  Rabs (rz (t (direction (dval u) (dval v)))) <= 7 / 8 -> Rabs (sin (dval v)) <= 7 / 8 ->
  let b := convert_angles_d L n (convert_angles_d L m (u, v)) in
  dfinite (fst b) /\ dfinite (snd b) /\ within (bpow radix2 (-43)) (direction (dval (fst b)) (dval (snd b))) (direction (dval u) (dval v)).
Proof. intros G. exact (round_trip_clear L G a m n t u v). Qed.
Print Assumptions C107_away_from_poles.

Example C107_case L : undone_by L half (ecliptic_to_ra_dec_d L half) (ra_dec_to_ecliptic_d L half) /\ Rabs (sin (dval half)) <= 7 / 8 /\
  Rabs (rz (true_from_ecliptic (dval half) (direction (dval (d_of_Z 0)) (dval half)))) <= 7 / 8.
Proof.
  destruct half_val as [F V]. destruct zero_ok as [F0 V0']. assert (V0 : dval (d_of_Z 0) = 0) by exact V0'. destruct sin_half_bound as [S C]. split; [constructor|]. rewrite V, V0. split; [rewrite Rabs_pos_eq; lra|].
  unfold true_from_ecliptic, direction. cbn [rx ry rz]. rewrite sin_0. replace (sin (/ 2) * (0 * cos (/ 2)) + cos (/ 2) * sin (/ 2)) with (cos (/ 2) * sin (/ 2)) by ring. rewrite Rabs_pos_eq; nra.
Qed.

(** ** C108 *)

Theorem C108_galactic L u v : good_libm L -> dfinite u -> dfinite v ->
  let q := convert_angles_d L galactic_to_ra_dec_d (u, v) in let p := tenmillionth (galactic_matrix (direction (dval u) (dval v))) in let r := sqrt (rx p * rx p + ry p * ry p) in
  dfinite (fst q) /\ dfinite (snd q) /\ Rabs (r * cos (dval (fst q)) - rx p) <= bpow radix2 (-47) /\ Rabs (r * sin (dval (fst q)) - ry p) <= bpow radix2 (-47) /\
  Rabs (sin (dval (snd q)) - rz p) <= bpow radix2 (-48) /\ Rabs (dval (snd q) - asin (rz p)) <= bpow radix2 (-22).
Proof. intros G. exact (galactic_angles L G u v). Qed.
Print Assumptions C108_galactic.

Theorem C108_to_galactic L u v : good_libm L -> dfinite u -> dfinite v ->
  let q := convert_angles_d L ra_dec_to_galactic_d (u, v) in let p := tenmillionth (to_galactic_matrix (direction (dval u) (dval v))) in let r := sqrt (rx p * rx p + ry p * ry p) in
  dfinite (fst q) /\ dfinite (snd q) /\ Rabs (r * cos (dval (fst q)) - rx p) <= bpow radix2 (-47) /\ Rabs (r * sin (dval (fst q)) - ry p) <= bpow radix2 (-47) /\
  Rabs (sin (dval (snd q)) - rz p) <= bpow radix2 (-48) /\ Rabs (dval (snd q) - asin (rz p)) <= bpow radix2 (-22).
Proof. intros G. exact (to_galactic_angles L G u v). Qed.
Print Assumptions C108_to_galactic.

(** The galactic pole itself has a declination, that of the matrix. *)
Example C108_case : dfinite (d_of_Z 0) /\ dfinite half /\ rz (tenmillionth (galactic_matrix (direction 0 (PI / 2)))) = 4601998 / 10000000.
Proof.
  split; [apply zero_ok|]. split; [apply half_val|]. unfold tenmillionth, galactic_matrix, scale, direction. cbn [rx ry rz]. rewrite cos_PI2, sin_PI2, cos_0, sin_0. field.
Qed.

(** ** C109 *)

Lemma same_units a : in_x None None a = vval a. Proof. unfold in_x, vval. cbn [ratio]. rewrite !Rmult_1_r. reflexivity. Qed.

Theorem C109_cartesian L gy gz a b : good_libm L -> cast_ok gy -> cast_ok gz -> vrange a -> vrange b -> ~ rnull (in_x gy gz a) -> ~ rnull (in_x gy gz b) ->
  sep_result (separation_d L gy gz a b) (rcos (in_x gy gz a) (in_x gy gz b)).
Proof. intros G. exact (cartesian_separation L G gy gz a b). Qed.
Print Assumptions C109_cartesian.

Theorem C109_spherical L s p q : good_libm L -> sph_ok p -> sph_ok q ->
  sep_result (sky_separation_d L s p q) (rdot (sph_direction s (dval (s1 p)) (dval (s2 p))) (sph_direction s (dval (s1 q)) (dval (s2 q)))).
Proof. intros G. exact (sky_separation L G s p q). Qed.
Print Assumptions C109_spherical.

Theorem C109_symmetric L gy gz a b : cast_ok gy -> cast_ok gz -> vrange a -> vrange b -> separation_d L gy gz a b = separation_d L gy gz b a.
Proof. exact (cartesian_symmetric L gy gz a b). Qed.
Print Assumptions C109_symmetric.

Theorem C109_symmetric_spherical L s p q : good_libm L -> sph_ok p -> sph_ok q -> sky_separation_d L s p q = sky_separation_d L s q p.
Proof. intros G. exact (sky_symmetric L G s p q). Qed.
Print Assumptions C109_symmetric_spherical.

(** A point can be no distance at all from itself: (1, 1, 1). *)
Theorem C109_itself_refuted L : good_libm L -> exists a, vrange a /\ ~ rnull (in_x None None a) /\ ~ dfinite (separation_d L None None a a).
Proof.
  intros G. exists (vec 1 1 1). split; [apply vec_range; reflexivity|]. split; [|exact (ones_not L G)].
  rewrite same_units, vec_val by reflexivity. intros (H & _). cbn [rx] in H. lra.
Qed.
Print Assumptions C109_itself_refuted.

(** And two directions 2^-28 apart can come out as the same. *)
Theorem C109_small_refuted L : good_libm L -> exists a b, vfinite a /\ vfinite b /\
  bpow radix2 (-28) <= acos (rcos (vval a) (vval b)) /\ dfinite (separation_d L None None a b) /\ Rabs (dval (separation_d L None None a b)) <= bpow radix2 (-51).
Proof.
  intros G. exists one_x, beside_x. split; [repeat split; vm_compute; reflexivity|]. split; [repeat split; vm_compute; reflexivity|]. split; [exact close_true|]. exact (close_pair L G).
Qed.
Print Assumptions C109_small_refuted.

Example C109_case : let a := vec 3 (-4) 0 in let b := vec 4 3 0 in
  cast_ok None /\ vrange a /\ vrange b /\ ~ rnull (in_x None None a) /\ ~ rnull (in_x None None b) /\ rcos (in_x None None a) (in_x None None b) = 0 /\
  sph_ok (DS half half (d_of_Z 5)).
Proof.
  cbv zeta. rewrite !same_units.
  split; [exact I|]. split; [apply vec_range; reflexivity|]. split; [apply vec_range; reflexivity|]. rewrite !vec_val by reflexivity. split; [intros (H & _); cbn [rx] in H; lra|]. split; [intros (H & _); cbn [rx] in H; lra|].
  split; [unfold rcos, rdot; cbn [rx ry rz]; unfold Rdiv; ring|]. destruct half_val as [F _]. destruct (small_int_ok 5 eq_refl) as [F5 V5]. unfold sph_ok. cbn [s1 s2 s3]. split; [exact F|]. split; [exact F|]. split; [exact F5|].
  unfold dval. rewrite V5. split; [apply Rle_trans with (bpow radix2 0); [apply bpow_le; lia|cbn; lra]|apply Rle_trans with (bpow radix2 3); [cbn; lra|apply bpow_le; lia]].
Qed.

(** ** C110 *)

Theorem C110_positional_angle L p q : good_libm L ->
  dfinite (s1 p) -> dfinite (s2 p) -> dfinite (s1 q) -> dfinite (s2 q) -> Rabs (dval (s2 p)) <= 8 -> Rabs (dval (s2 q)) <= 8 ->
  let a := positional_angle_d L p q in let d := direction (dval (s2 q)) (dval (s1 q)) in
  let n := rdot d (north (dval (s1 p)) (dval (s2 p))) in let e := rdot d (east (dval (s2 p))) in let r := sqrt (n * n + e * e) in
  dfinite a /\ Rabs (r * cos (dval a) - n) <= bpow radix2 (-47) /\ Rabs (r * sin (dval a) - e) <= bpow radix2 (-47).
Proof. intros G. exact (positional_close L G p q). Qed.
Print Assumptions C110_positional_angle.

(** North and east are what they are called: unit vectors along the sphere, across each other, in the directions of growing latitude and longitude. *)
Theorem C110_north_east lat lon : let d := direction lon lat in
  runit (north lat lon) /\ runit (east lon) /\ rdot d (north lat lon) = 0 /\ rdot d (east lon) = 0 /\ rdot (north lat lon) (east lon) = 0 /\
  (forall h, rdot (direction lon (lat + h)) (north lat lon) = sin h) /\ (forall h, rdot (direction (lon + h) lat) (east lon) = cos lat * sin h).
Proof.
  cbv zeta. pose proof (sin2_cos2 lon) as A. pose proof (sin2_cos2 lat) as B. unfold Rsqr in *.
  split; [apply north_unit|]. split; [unfold runit, east; cbn [rx ry rz]; lra|]. unfold rdot, direction, north, east. cbn [rx ry rz].
  split; [replace (cos lon * cos lat * - (sin lat * cos lon) + sin lon * cos lat * - (sin lat * sin lon) + sin lat * cos lat) with (sin lat * cos lat * (1 - (sin lon * sin lon + cos lon * cos lon))) by ring; rewrite A; ring|].
  split; [ring|]. split; [ring|]. split; intros h.
  - rewrite sin_plus, cos_plus. replace (cos lon * (cos lat * cos h - sin lat * sin h) * - (sin lat * cos lon) + sin lon * (cos lat * cos h - sin lat * sin h) * - (sin lat * sin lon) + (sin lat * cos h + cos lat * sin h) * cos lat)
      with (- (sin lat * (cos lat * cos h - sin lat * sin h)) * (sin lon * sin lon + cos lon * cos lon) + (sin lat * cos h + cos lat * sin h) * cos lat) by ring. rewrite A.
    replace (- (sin lat * (cos lat * cos h - sin lat * sin h)) * 1 + (sin lat * cos h + cos lat * sin h) * cos lat) with (sin h * (sin lat * sin lat + cos lat * cos lat)) by ring. rewrite B. ring.
  - rewrite sin_plus, cos_plus. replace ((cos lon * cos h - sin lon * sin h) * cos lat * - sin lon + (sin lon * cos h + cos lon * sin h) * cos lat * cos lon + sin lat * 0) with (cos lat * sin h * (sin lon * sin lon + cos lon * cos lon)) by ring. rewrite A. ring.
Qed.
Print Assumptions C110_north_east.

Example C110_case : let p := DS half (d_of_Z 0) (d_of_Z 1) in let q := DS half half (d_of_Z 1) in
  dfinite (s1 p) /\ dfinite (s2 p) /\ dfinite (s1 q) /\ dfinite (s2 q) /\ Rabs (dval (s2 p)) <= 8 /\ Rabs (dval (s2 q)) <= 8 /\
  0 < rdot (direction (dval (s2 q)) (dval (s1 q))) (east (dval (s2 p))).
Proof.
  destruct half_val as [F V]. destruct zero_ok as [F0 V0']. assert (V0 : dval (d_of_Z 0) = 0) by exact V0'. cbv zeta. cbn [s1 s2]. repeat (split; [assumption|]). rewrite V, V0. split; [rewrite Rabs_R0; lra|]. split; [rewrite Rabs_pos_eq; lra|].
  unfold rdot, direction, east. cbn [rx ry rz]. rewrite sin_0, cos_0. destruct sin_half_bound. nra.
Qed.

(** ** C111 *)

Theorem C111_to_cartesian L s p : good_libm L -> sph_ok p ->
  vfinite (to_cartesian_d L s p) /\ within (bpow radix2 (-50) * dval (s3 p)) (vval (to_cartesian_d L s p)) (sph_vector s p).
Proof. intros G. exact (cartesian_of_spherical L G s p). Qed.
Print Assumptions C111_to_cartesian.

Theorem C111_from_cartesian L s old p : good_libm L -> vec_ok p ->
  let o := make_angular_d L s old p in let r := rlength (vval p) in let n := unit_of (vval p) in
  dfinite (s1 o) /\ dfinite (s2 o) /\ dfinite (s3 o) /\ Rabs (dval (s3 o) - r) <= bpow radix2 (-47) * r /\
  within (bpow radix2 (-20)) (sph_direction s (dval (s1 o)) (dval (s2 o))) n /\
  (Rabs (rz n) <= 8 / 9 -> within (bpow radix2 (-43)) (sph_direction s (dval (s1 o)) (dval (s2 o))) n).
Proof. intros G. exact (spherical_of_cartesian L G s old p). Qed.
Print Assumptions C111_from_cartesian.

Theorem C111_there_and_back L s old p : good_libm L -> sph_ok p ->
  let o := make_angular_d L s old (to_cartesian_d L s p) in let n := sph_direction s (dval (s1 p)) (dval (s2 p)) in
  dfinite (s1 o) /\ dfinite (s2 o) /\ dfinite (s3 o) /\ Rabs (dval (s3 o) - dval (s3 p)) <= bpow radix2 (-47) * dval (s3 p) /\
  within (bpow radix2 (-20)) (sph_direction s (dval (s1 o)) (dval (s2 o))) n /\
  (Rabs (rz n) <= 8 / 9 -> within (bpow radix2 (-43)) (sph_direction s (dval (s1 o)) (dval (s2 o))) n).
Proof. intros G. exact (spherical_round_trip L G s old p). Qed.
Print Assumptions C111_there_and_back.

Theorem C111_back_and_there L s old p : good_libm L -> vec_ok p ->
  within (bpow radix2 (-19) * rlength (vval p)) (vval (to_cartesian_d L s (make_angular_d L s old p))) (vval p).
Proof. intros G. exact (cartesian_round_trip L G s old p). Qed.
Print Assumptions C111_back_and_there.

(** The null vector: the second angle is whatever was there. *)
Theorem C111_null L s old p : good_libm L -> vfinite p -> rnull (vval p) ->
  let o := make_angular_d L s old p in dfinite (s1 o) /\ s2 o = old /\ dfinite (s3 o) /\ dval (s3 o) = 0.
Proof. intros G. exact (null_angle L G s old p). Qed.
Print Assumptions C111_null.

(** Near the pole, the deviation may be lost altogether, even with the best library. *)
Theorem C111_pole_refuted L old : rounded_libm L -> exists p, vfinite p /\ vval p = RV (bpow radix2 (-27)) 0 1 /\
  dval (s2 (make_angular_d L Polar old p)) = 0 /\ vval (to_cartesian_d L Polar (make_angular_d L Polar old p)) = RV 0 0 1.
Proof.
  intros G. destruct (near_pole_lost L G Polar old eq_refl) as (A & _ & B & C). exists near_pole. split; [repeat split; vm_compute; reflexivity|]. split; [exact C|]. split; [exact A|exact B].
Qed.
Print Assumptions C111_pole_refuted.

Example C111_case : vec_ok (vec 3 (-4) 12) /\ rlength (vval (vec 3 (-4) 12)) = 13 /\ sph_ok (DS half half (d_of_Z 5)) /\ vfinite (vec 0 0 0) /\ rnull (vval (vec 0 0 0)).
Proof.
  assert (E : rlength (vval (vec 3 (-4) 12)) = 13) by (rewrite vec_val by reflexivity; unfold rlength; cbn [rx ry rz]; replace (3 * 3 + -4 * -4 + 12 * 12) with (13 * 13) by ring; apply R_sqrt.sqrt_square; lra).
  split; [|split; [exact E|split; [apply C109_case|split; [apply vec_fin; reflexivity|rewrite vec_val by reflexivity; repeat split]]]]. split; [apply vec_fin; reflexivity|]. rewrite E. split; [apply Rle_trans with (bpow radix2 0); [apply bpow_le; lia|cbn; lra]|apply Rle_trans with (bpow radix2 4); [cbn; lra|apply bpow_le; lia]].
Qed.
