(** * Differentials in doubles. *)
From Coq Require Import ZArith Reals Lia Lra Psatz.
From Flocq Require Import Core IEEE754.BinarySingleNaN IEEE754.Binary IEEE754.Bits.
From Verif Require Import TextModel TextSpec TextRound TextScan TextFloat TextProofs TextLaws TextRead TextCard DoubleModel DoubleSpec DoubleProofs DoubleUnits VectorModel VectorSpec VectorProofs VectorProducts VectorLength VectorUnit VectorProps SkyModel SkySpec SkyAngles SkyProofs SkyConvert SkySeparation SkyTransform SkyLibrary SkyProps SkyArithModel SkyArithSpec SkyArithProofs SkyArithProps SkyDiffModel SkyDiffSpec SkyDiffProofs.
Local Open Scope R_scope.

(** ** C117 *)

(** The product of a Cartesian differential and a time: every component is the double nearest to the true product. *)
Theorem C117_times_axes v t : vfinite v -> dfinite t -> each_r (fun c => Rabs (c (vval v) * dval t) <= bpow radix2 1000) ->
  vfinite (vel_axes_times_d v t) /\ each_r (fun c => c (vval (vel_axes_times_d v t)) = nearest binary64 (c (vval v) * dval t)).
Proof. exact (times_axes_ok v t). Qed.
Print Assumptions C117_times_axes.

(** The product of a spherical differential and a time. *)
Theorem C117_times_angles L s old p t : good_libm L -> sph_ok p -> time_ok t ->
  let o := vel_angles_times_d L s old p t in let T := scale (dval t) (sph_vector s p) in let l := dval (s3 p) * Rabs (dval t) in
  dfinite (s1 o) /\ dfinite (s2 o) /\ dfinite (s3 o) /\ Rabs (dval (s3 o) - dval (s3 p) * dval t) <= bpow radix2 (-48) * l /\
  within (bpow radix2 (-20) * l) (sph_vector s o) T /\
  (Rabs (rz (sph_direction s (dval (s1 p)) (dval (s2 p)))) <= 9 / 10 -> within (bpow radix2 (-43) * l) (sph_vector s o) T).
Proof. intros G. exact (times_ok L G s old p t). Qed.
Print Assumptions C117_times_angles.

(** A coslat differential made Cartesian. *)
Theorem C117_coslat L p : good_libm L -> coslat_ok p ->
  vfinite (vel_cart_d L (VCoslat p)) /\ within (bpow radix2 (-50) * dval (s3 p) + coslat_cost p) (vval (vel_cart_d L (VCoslat p))) (coslat_vector p).
Proof. intros G. exact (coslat_cart_ok L G p). Qed.
Print Assumptions C117_coslat.

(** The sum of a Cartesian differential and one of any kind. *)
Theorem C117_axes_plus L fx fy fz v b : good_libm L -> vec_ok v -> velocity_ok fx fy fz b ->
  let B := in_units fx fy fz (true_velocity b) in let o := vel_axes_plus_d L fx fy fz v b in
  vfinite o /\ within (bpow radix2 (-49) * (rlength (vval v) + rlength B) + velocity_cost b * ratio fx) (vval o) (radd (vval v) B).
Proof. intros G. exact (axes_plus_ok L G fx fy fz v b). Qed.
Print Assumptions C117_axes_plus.

(** The sum of a plain spherical differential and one of any kind. *)
Theorem C117_angles_plus L s old fx fy fz p b : good_libm L -> sph_ok p -> velocity_ok fx fy fz b ->
  let B := in_units fx fy fz (true_velocity b) in let T := radd (sph_vector s p) B in let z := dval (s3 p) + rlength B in
  let e := velocity_cost b * ratio fx in
  well_clear T z e -> close_by s (vel_angles_plus_d L s old fx fy fz p b) T (2 * z) e.
Proof. intros G. exact (angles_plus_ok L G s old fx fy fz p b). Qed.
Print Assumptions C117_angles_plus.

(** A Cartesian differential made coslat. *)
Theorem C117_make_coslat L old v : good_libm L -> vec_ok v ->
  exists m, dfinite (s1 m) /\ dfinite (s2 m) /\ dfinite (s3 m) /\ Rabs (dval (s3 m) - rlength (vval v)) <= bpow radix2 (-47) * rlength (vval v) /\
    within (bpow radix2 (-20)) (sph_direction Polar (dval (s1 m)) (dval (s2 m))) (unit_of (vval v)) /\ coslat_of (make_coslat_d L old v) m.
Proof.
  intros G V. destruct (make_coslat_ok L G old v V) as ((F1 & F2 & F3 & D & W & _) & C). exists (make_angular_d L Polar old v).
  split; [exact F1|]. split; [exact F2|]. split; [exact F3|]. split; [exact D|]. split; [exact W|exact C].
Qed.
Print Assumptions C117_make_coslat.

(** The sum with a coslat left operand: its numbers are read as plain spherical coordinates. *)
Theorem C117_coslat_plus L old fx fy fz p b : good_libm L -> sph_ok p -> velocity_ok fx fy fz b ->
  let B := in_units fx fy fz (true_velocity b) in let T := radd (sph_vector Polar p) B in let z := dval (s3 p) + rlength B in
  let e := velocity_cost b * ratio fx in
  well_clear T z e -> exists m, close_by Polar m T (2 * z) e /\ coslat_of (vel_coslat_plus_d L old fx fy fz p b) m.
Proof. intros G. exact (coslat_plus_ok L G old fx fy fz p b). Qed.
Print Assumptions C117_coslat_plus.

(** Magnitude and unit vector, of the stored numbers. *)
Theorem C117_magnitude L b : good_libm L -> match b with VAxes v => vec_ok v | VAngles _ p | VCoslat p => sph_ok p end ->
  let r := rlength (stored_vector b) in
  dfinite (vel_magnitude_d L b) /\ Rabs (dval (vel_magnitude_d L b) - r) <= bpow radix2 (-48) * r /\
  vfinite (vel_unit_d L b) /\ within (bpow radix2 (-48)) (vval (vel_unit_d L b)) (unit_of (stored_vector b)).
Proof. intros G. exact (magnitude_unit_ok L G b). Qed.
Print Assumptions C117_magnitude.

(** Multiplying by 1 does not keep the differential: the small angle of a velocity near the pole is lost, however good the C library. *)
Definition tiny : double := d_div (d_of_Z 1) (d_of_Z (2 ^ 28)).

Lemma tiny_val : dfinite tiny /\ dval tiny = bpow radix2 (-28).
Proof.
  split; [vm_compute; reflexivity|]. rewrite (bits_val _ false 4503599627370496 (-80)) by (vm_compute; reflexivity). cbn [cond_Zopp].
  change (IZR (Z.pos 4503599627370496)) with (bpow radix2 52). rewrite <- bpow_plus. reflexivity.
Qed.

Lemma cos_tiny : 1 - bpow radix2 (-56) <= cos (bpow radix2 (-28)) <= 1.
Proof.
  split; [|apply COS_bound]. set (x := bpow radix2 (-28)). replace x with (2 * (x / 2)) at 1 by field. rewrite cos_2a_sin.
  pose proof (sin_lipschitz (x / 2) 0) as S. rewrite sin_0, !Rminus_0_r in S. assert (P : 0 < x) by apply bpow_gt_0. rewrite (Rabs_pos_eq (x / 2)) in S by lra.
  assert (Q : sin (x / 2) * sin (x / 2) <= x / 2 * (x / 2)).
  { rewrite <- (Rabs_pos_eq (sin (x / 2) * sin (x / 2))) by apply Rle_0_sqr. rewrite Rabs_mult. apply Rmult_le_compat; auto using Rabs_pos. }
  assert (E : x * x = bpow radix2 (-56)) by (unfold x; rewrite <- bpow_plus; reflexivity). nra.
Qed.

Lemma one_up x : 0 <= x <= bpow radix2 (-54) -> nearest binary64 (x + 1) = 1.
Proof.
  intros H. rewrite (SkyLibrary.rnd_eq 1 (2 ^ 52)); [|lia|change (bpow radix2 (1 - 1)) with 1; change (bpow radix2 1) with 2; change (bpow radix2 (-54)) with (/ 18014398509481984) in H; lra|].
  - change (IZR (2 ^ 52)) with (bpow radix2 52). rewrite <- bpow_plus. reflexivity.
  - change (bpow radix2 (53 - 1)) with 4503599627370496. change (bpow radix2 (-54)) with (/ 18014398509481984) in H. change (IZR (2 ^ 52)) with 4503599627370496. apply Rabs_lt. lra.
Qed.

Lemma one_down x : 1 - bpow radix2 (-56) <= x <= 1 -> nearest binary64 x = 1.
Proof.
  intros H. destruct (Req_dec x 1) as [->|N]; [apply rnd_id; apply (pow_fmt 0); lia|]. change (bpow radix2 (-56)) with (/ 72057594037927936) in H.
  rewrite (SkyLibrary.rnd_eq 0 (2 ^ 53)); [|lia|change (bpow radix2 (0 - 1)) with (/ 2); change (bpow radix2 0) with 1; lra|].
  - change (IZR (2 ^ 53)) with (bpow radix2 53). rewrite <- bpow_plus. reflexivity.
  - change (bpow radix2 (53 - 0)) with 9007199254740992. change (IZR (2 ^ 53)) with 9007199254740992. apply Rabs_lt. lra.
Qed.

Theorem C117_times_one_refuted L old : rounded_libm L -> let p := DS (d_of_Z 0) tiny (d_of_Z 1) in let o := vel_angles_times_d L Polar old p (d_of_Z 1) in
  sph_ok p /\ time_ok (d_of_Z 1) /\ dval (s2 p) = bpow radix2 (-28) /\ dfinite (s2 o) /\ dval (s2 o) = 0 /\ dval (s3 o) = 1.
Proof.
  intros G p o. destruct tiny_val as [Ft Vt]. destruct zero_ok as [F0 V0]. destruct (small_int_ok 1 eq_refl) as [F1 V1]. destruct cos_tiny as [C0 C1].
  assert (Big : bpow radix2 (-200) <= 1 <= bpow radix2 200) by (split; [apply Rle_trans with (bpow radix2 0); [apply bpow_le; lia|cbn; lra]|apply Rle_trans with (bpow radix2 0); [cbn; lra|apply bpow_le; lia]]).
  split; [split; [exact F0|split; [exact Ft|split; [exact F1|unfold dval; cbn [p s3]; rewrite V1; exact Big]]]|].
  split; [split; [exact F1|right; unfold dval; rewrite V1, Rabs_R1; exact Big]|]. split; [exact Vt|].
  destruct (sin_rounded L G tiny Ft) as [Fs Vs]. destruct (cos_rounded L G tiny Ft) as [Fc Vc]. rewrite Vt in Vs, Vc. rewrite (one_down _ (conj C0 C1)) in Vc.
  destruct (cos_0_d L G (d_of_Z 0) F0 V0) as [Fc0 Vc0]. destruct (sin_0_d L G (d_of_Z 0) F0 V0) as [Fs0 Vs0].
  assert (Bs : Rabs (dval (m_sin L tiny)) <= bpow radix2 (-28)).
  { rewrite Vs. apply (rnd_bound _ (-28)); [lia|]. pose proof (sin_lipschitz (bpow radix2 (-28)) 0) as S. rewrite sin_0, !Rminus_0_r in S. rewrite (Rabs_pos_eq (bpow radix2 (-28))) in S by apply bpow_ge_0. exact S. }
  assert (F28 : fmt (dval (m_sin L tiny))) by apply val_fmt. set (x := dval (m_sin L tiny)) in *.
  assert (B10 : Rabs x <= bpow radix2 10) by (eapply Rle_trans; [exact Bs|apply bpow_le; lia]).
  assert (V1' : dval (d_of_Z 1) = 1) by exact V1.
  destruct (mul_exact (d_of_Z 1) (m_sin L tiny) x F1 Fs) as [Fa Va]; [rewrite V1', Rmult_1_l, rnd_id by exact F28; exact B10|rewrite V1', Rmult_1_l; apply rnd_id, F28|].
  destruct (mul_exact (d_mul (d_of_Z 1) (m_sin L tiny)) (m_cos L (d_of_Z 0)) x Fa Fc0) as [Fx Vx]; [rewrite Va, Vc0, Rmult_1_r, rnd_id by exact F28; exact B10|rewrite Va, Vc0, Rmult_1_r; apply rnd_id, F28|].
  destruct (mul_exact (d_mul (d_of_Z 1) (m_sin L tiny)) (m_sin L (d_of_Z 0)) 0 Fa Fs0) as [Fy Vy]; [rewrite Vs0, Rmult_0_r, nearest_0, Rabs_R0; apply bpow_ge_0|rewrite Vs0, Rmult_0_r; apply nearest_0|].
  assert (One : nearest binary64 (1 * 1) = 1) by (rewrite Rmult_1_l; apply rnd_id; apply (pow_fmt 0); lia).
  destruct (mul_exact (d_of_Z 1) (m_cos L tiny) 1 F1 Fc) as [Fz Vz]; [rewrite V1', Vc, One; apply small_abs; lra|rewrite V1', Vc; exact One|].
  set (c := to_cartesian_d L Polar p). assert (Fv : vfinite c) by (split; [exact Fx|split; [exact Fy|exact Fz]]).
  change (dval (dx c) = x) in Vx. change (dval (dy c) = 0) in Vy. change (dval (dz c) = 1) in Vz. assert (Ec : to_cartesian_d L Polar p = c) by reflexivity. clearbody c.
  assert (Bd : forall a, dfinite a -> Rabs (dval a) <= 1 -> bd 0 a) by (intros a F E; split; [exact F|exact E]).
  destruct Fv as (Gx & Gy & Gz).
  destruct (length_val 0 c ltac:(lia)) as (Fl & _ & Vl); [apply Bd; [exact Gx|rewrite Vx; eapply Rle_trans; [exact Bs|apply (bpow_le radix2 _ 0); lia]]|apply Bd; [exact Gy|rewrite Vy, Rabs_R0; lra]|apply Bd; [exact Gz|rewrite Vz, Rabs_R1; lra]|].
  assert (S2 : 0 <= nearest binary64 (x * x) <= bpow radix2 (-56)).
  { assert (0 <= x * x) by apply Rle_0_sqr. split; [apply rnd_pos; assumption|]. apply Rle_trans with (Rabs (nearest binary64 (x * x))); [apply Rle_abs|]. apply rnd_bound; [lia|].
    rewrite Rabs_mult. change (-56)%Z with (-28 + -28)%Z. rewrite bpow_plus. apply Rmult_le_compat; auto using Rabs_pos. }
  assert (Ol : dval (length_d c) = 1).
  { unfold dval in *. rewrite Vl, Vx, Vy, Vz, Rmult_0_l, nearest_0, Rplus_0_r, One. rewrite (rnd_id (nearest binary64 (x * x))) by apply rnd_fmt.
    rewrite one_up by (split; [apply S2|eapply Rle_trans; [apply S2|apply bpow_le; lia]]). rewrite sqrt_1. apply rnd_id. apply (pow_fmt 0). lia. }
  destruct (pole_stage L G old c (conj Gx (conj Gy Gz)) Fl Ol Vz) as (_ & Q2 & Q3 & Z2 & Z3).
  unfold o, vel_angles_times_d. rewrite Ec. cbv zeta. cbn [s1 s2 s3].
  split; [exact Q2|]. split; [exact Z2|]. apply mul_exact; [exact Q3|exact F1|rewrite Z3, V1', One; apply small_abs; lra|rewrite Z3, V1'; exact One].
Qed.
Print Assumptions C117_times_one_refuted.

(** The hypotheses hold of the numbers 1/2, 1/2 and 5, added to themselves, for every kind. *)
Example C117_case : let p := DS half half (d_of_Z 5) in
  sph_ok p /\ time_ok half /\ coslat_ok p /\ velocity_ok None None None (VCoslat p) /\ velocity_ok None None None (VAxes (vec 3 (-4) 12)) /\ vec_ok (vec 3 (-4) 12) /\
  each_r (fun c => Rabs (c (vval (vec 3 (-4) 12)) * dval half) <= bpow radix2 1000) /\
  let B := in_units None None None (true_velocity (VCoslat p)) in
  well_clear (radd (sph_vector Polar p) B) (dval (s3 p) + rlength B) (velocity_cost (VCoslat p) * ratio None).
Proof.
  cbv zeta. set (p := DS half half (d_of_Z 5)). destruct C111_case as (Vb & Eb & Hp & _). change (sph_ok p) in Hp. destruct half_val as [Fh Vh]. destruct sin_half_bound as [S C].
  assert (E3 : dval (s3 p) = 5) by (unfold p, dval; cbn [s3]; apply (small_int_ok 5); lia). assert (E1 : dval (s1 p) = / 2) by exact Vh. assert (E2 : dval (s2 p) = / 2) by exact Vh.
  assert (Big : forall k l x, (k <= -1)%Z -> (10 <= l)%Z -> 1 / 2 <= x <= 1000 -> bpow radix2 k <= x <= bpow radix2 l).
  { intros k l x K M H. split; [apply Rle_trans with (bpow radix2 (-1)); [apply bpow_le; lia|cbn; lra]|apply Rle_trans with (bpow radix2 10); [cbn; lra|apply bpow_le; lia]]. }
  assert (Ok : coslat_ok p).
  { split; [exact Hp|]. rewrite E1, E2. split; [rewrite Rabs_pos_eq; lra|]. rewrite Rabs_pos_eq by lra. apply (Big (-40)%Z 10%Z); [lia|lia|lra]. }
  split; [exact Hp|]. split; [split; [exact Fh|right; rewrite Vh, Rabs_pos_eq by lra; apply Big; [lia|lia|lra]]|]. split; [exact Ok|].
  split; [split; [exact I|split; [exact I|split; [exact I|split; [exact Ok|split; reflexivity]]]]|]. split; [split; [exact I|split; [exact I|split; [exact I|exact Vb]]]|]. split; [exact Vb|].
  split.
  { rewrite (vec_val 3 (-4) 12) by reflexivity. rewrite Vh. assert (K : forall x, -1000 <= x <= 1000 -> Rabs x <= bpow radix2 1000) by (intros x H; apply Rle_trans with (bpow radix2 10); [change (bpow radix2 10) with 1024; apply Rabs_le; lra|apply bpow_le; lia]).
    split; [|split]; cbn [rx ry rz]; apply K; lra. }
  assert (EB : in_units None None None (true_velocity (VCoslat p)) = scale 5 (sph_direction Polar (/ 2) (/ 2 / cos (/ 2)))).
  { unfold in_units. cbn [true_velocity ratio]. unfold coslat_vector. rewrite E1, E2, E3. rewrite !Rmult_1_r. unfold scale. reflexivity. }
  assert (EA : sph_vector Polar p = scale 5 (sph_direction Polar (/ 2) (/ 2))) by (unfold sph_vector; rewrite E1, E2, E3; reflexivity).
  assert (LB : rlength (scale 5 (sph_direction Polar (/ 2) (/ 2 / cos (/ 2)))) = 5) by (apply length_scale; [lra|apply sph_unit]).
  assert (LA : rlength (scale 5 (sph_direction Polar (/ 2) (/ 2))) = 5) by (apply length_scale; [lra|apply sph_unit]).
  rewrite EB, EA, E3, LB. cbn [velocity_cost ratio]. unfold coslat_cost. rewrite E1, E2, E3, Rmult_1_r, (Rabs_pos_eq (/ 2)) by lra.
  pose proof (rlength_triangle (scale 5 (sph_direction Polar (/ 2) (/ 2))) (scale 5 (sph_direction Polar (/ 2) (/ 2 / cos (/ 2))))) as Up. rewrite LA, LB in Up.
  assert (Lo : 4 <= rlength (radd (scale 5 (sph_direction Polar (/ 2) (/ 2))) (scale 5 (sph_direction Polar (/ 2) (/ 2 / cos (/ 2)))))).
  { destruct (part_le_length (radd (scale 5 (sph_direction Polar (/ 2) (/ 2))) (scale 5 (sph_direction Polar (/ 2) (/ 2 / cos (/ 2)))))) as (_ & _ & P). eapply Rle_trans; [|exact P]. eapply Rle_trans; [|apply Rle_abs].
    unfold radd, scale. cbn [sph_direction rx ry rz]. assert (Q : 0 <= / 2 / cos (/ 2) <= 1).
    { split; [apply Rmult_le_pos; [lra|left; apply Rinv_0_lt_compat; lra]|]. apply (Rmult_le_reg_r (cos (/ 2))); [lra|]. unfold Rdiv. rewrite Rmult_assoc, Rinv_l by lra. lra. }
    assert (0 <= cos (/ 2 / cos (/ 2))) by (apply cos_ge_0; pose proof PI2_1; lra). lra. }
  assert (K : 0 <= / 2 / (cos (/ 2) * cos (/ 2)) <= 1).
  { assert (Q : / 2 <= cos (/ 2) * cos (/ 2)) by nra. split; [apply Rmult_le_pos; [lra|left; apply Rinv_0_lt_compat; lra]|]. apply (Rmult_le_reg_r (cos (/ 2) * cos (/ 2))); [lra|]. unfold Rdiv. rewrite Rmult_assoc, Rinv_l by lra. lra. }
  split; [change (bpow radix2 (-39)) with (/ 549755813888); lra|]. split; [change (bpow radix2 (-51)) with (/ 2251799813685248); lra|]. apply Big; [lia|lia|lra].
Qed.
