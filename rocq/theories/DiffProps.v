(** * Properties of the differentials. *)

From Coq Require Import Reals Lra.
From Verif Require Import CoordModel CoordSpec CoordProofs CoordArith DiffModel DiffSpec DiffProofs.
Local Open Scope R_scope.

(** ** C52 *)

Theorem C52_coslat_round_trip : forall old d, d_kind d = DCartesian -> dproper d ->
  let v := velocity d in
  let w := velocity (make_cartesian_diff (make_coslat_diff old d)) in
  (0 < c0 v -> w = v) /\
  (c0 v < 0 -> w = V (- c0 v) (- c1 v) (c2 v)) /\
  (c0 v = 0 -> c1 v <> 0 -> w = V 0 0 (vnorm v)) /\
  (c0 v = 0 -> c1 v = 0 -> w = v).
Proof.
  intros old d K P v w. destruct (coslat_round_trip old d K P) as (A & B & C).
  split; [exact A|]. split; [exact B|]. split; [exact C|]. exact (coslat_round_trip_axis old d K P).
Qed.
Print Assumptions C52_coslat_round_trip.

Theorem C52_round_trip_refuted : exists old d, d_kind d = DCartesian /\ dproper d /\
  velocity (make_cartesian_diff (make_coslat_diff old d)) <> velocity d.
Proof.
  exists 0, (dbuild (DType DCartesian 1 1 1) (-1) 0 0).
  assert (P : dproper (dbuild (DType DCartesian 1 1 1) (-1) 0 0)) by (repeat split; cbn; lra).
  split; [reflexivity|]. split; [exact P|].
  destruct (C52_coslat_round_trip 0 (dbuild (DType DCartesian 1 1 1) (-1) 0 0) eq_refl P) as (_ & B & _).
  rewrite B by (cbn; lra). unfold velocity; cbn. intros H. injection H. lra.
Qed.
Print Assumptions C52_round_trip_refuted.

Example C52_case : let d := dbuild (DType DCartesian 1 2 1) 3 (-1) 4 in dproper d /\ 0 < c0 (velocity d).
Proof. repeat split; cbn; lra. Qed.

(** ** C53 *)

Theorem C53_scaling : forall old d dt, d_kind d <> DCoslat -> dproper d ->
  velocity (dtimes old d dt) = vscale (physical dt) (velocity d).
Proof. exact dtimes_velocity. Qed.
Print Assumptions C53_scaling.

Theorem C53_scaling_coslat : forall old d dt, d_kind d = DCoslat -> dproper d ->
  regular Spherical (d_pt d) ->
  dget1 (dtimes old d dt) = dget1 d /\ dget2 (dtimes old d dt) = dget2 d /\
  dget3 (dtimes old d dt) = dget3 d * q_value dt /\
  velocity (dtimes old d dt) = vscale (physical dt) (velocity d).
Proof. exact dtimes_coslat_regular. Qed.
Print Assumptions C53_scaling_coslat.

Theorem C53_coslat_times_one_refuted : forall old, exists d, d_kind d = DCoslat /\ dproper d /\
  dget1 (dtimes old d (Q 1 1)) <> dget1 d /\ velocity (dtimes old d (Q 1 1)) <> velocity d.
Proof.
  intros old. exists (Diff DCoslat (V 0 (-1) 1) 1 1 1).
  split; [reflexivity|]. split; [repeat split; cbn; lra|].
  rewrite dtimes_coslat_negative by lra. pose proof PI_RGT_0 as PI0.
  split.
  - unfold dget1; cbn. unfold convert, conversion_factor. lra.
  - assert (E : velocity (Diff DCoslat (V PI 1 1) 1 1 1) = V (sin 1) 0 (cos 1)).
    { unfold velocity, polar; cbn. rewrite cos_PI, sin_PI. replace (1 / -1) with (- (1)) by field.
      rewrite sin_neg, cos_neg. f_equal; ring. }
    assert (F : velocity (Diff DCoslat (V 0 (-1) 1) 1 1 1) = V (- sin 1) 0 (cos 1)).
    { unfold velocity, polar; cbn. rewrite cos_0, sin_0. replace (-1 / 1) with (- (1)) by field.
      rewrite sin_neg, cos_neg. f_equal; ring. }
    rewrite E, F. intros H. injection H as H. pose proof PI2_3_2 as P. unfold PI2 in P.
    assert (0 < sin 1) by (apply sin_gt_0; lra). lra.
Qed.
Print Assumptions C53_coslat_times_one_refuted.

Example C53_case : dproper (dbuild (DType DSpherical 1 1 1000) (-9) 5 (-2)) /\
  regular Spherical (d_pt (dbuild (DType DCoslat 1 1 1000) 1 1 2)).
Proof.
  pose proof PI2_3_2 as P. unfold PI2 in P.
  split; [repeat split; cbn; lra|]. cbn. unfold convert, conversion_factor. repeat split; lra.
Qed.

(** ** C72 *)

Theorem C72_conversion_keeps_velocity : forall t old d, dt_kind t <> DCoslat -> dproper_type t -> dproper d ->
  velocity (dconstruct t old d) = velocity d /\ dtype_of (dconstruct t old d) = t.
Proof. intros t old d K T P. split; [apply dconstruct_velocity; assumption | apply dconstruct_type]. Qed.
Print Assumptions C72_conversion_keeps_velocity.

Theorem C72_addition : forall old a b, d_kind a <> DCoslat -> dproper a -> dproper b ->
  velocity (dplus old a b) = vadd (velocity a) (velocity b) /\ dtype_of (dplus old a b) = dtype_of a.
Proof. intros old a b K A B. split; [apply dplus_velocity; assumption | apply dplus_type]. Qed.
Print Assumptions C72_addition.

(** Adding nothing to a coslat differential multiplies its second component by the cosine of the first. *)
Theorem C72_coslat_plus_zero : forall old d u, 0 < u -> d_kind d = DCoslat -> dproper d ->
  regular Spherical (d_pt d) -> 0 < cos (c0 (d_pt d)) ->
  velocity (Diff DCartesian (V 0 0 0) u u u) = vzero /\
  dplus old d (Diff DCartesian (V 0 0 0) u u u) = dset2 d (dget2 d * cos (c0 (d_pt d))).
Proof.
  intros old d u U K P G C. split; [unfold velocity, vzero; cbn; f_equal; ring|].
  apply coslat_plus_zero; assumption.
Qed.
Print Assumptions C72_coslat_plus_zero.

Example C72_case : let d := Diff DCoslat (V (PI / 3) 1 2) 1 1 1 in
  regular Spherical (d_pt d) /\ 0 < cos (c0 (d_pt d)) /\
  dget2 (dset2 d (dget2 d * cos (c0 (d_pt d)))) = 1 / 2.
Proof.
  pose proof PI2_3_2 as P. unfold PI2 in P. cbn. unfold dget2; cbn. rewrite cos_PI3.
  unfold convert, conversion_factor. repeat split; lra.
Qed.

(** Numbers are only relabelled by to_differential(). *)
Theorem C72_to_differential : forall t old d,
  to_cartesian (dsystem (dt_kind t)) (d_pt (to_differential t old d)) = to_cartesian (dsystem (d_kind d)) (d_pt d) /\
  diff_eq (to_differential t old d) d = true /\ dtype_of (to_differential t old d) = t.
Proof.
  intros t old d.
  assert (E : to_cartesian (dsystem (dt_kind t)) (d_pt (to_differential t old d)) = to_cartesian (dsystem (d_kind d)) (d_pt d))
    by (unfold to_differential, dfrom_point, of_dtype; cbn; apply section_ok).
  split; [exact E|]. split; [apply diff_eq_iff; exact E|]. destruct t; reflexivity.
Qed.
Print Assumptions C72_to_differential.

Theorem C72_to_differential_refuted : exists t old d, dproper_type t /\ dproper d /\
  velocity (to_differential t old d) <> velocity d.
Proof.
  exists (DType DCartesian 1000 1000 1000), 0, (dbuild (DType DCartesian 1 1 1) 1 0 0).
  split; [repeat split; cbn; lra|]. split; [repeat split; cbn; lra|].
  unfold velocity; cbn. intros H. injection H. lra.
Qed.
Print Assumptions C72_to_differential_refuted.

(** ** C73 *)

Theorem C73_equality_compares_numbers : forall a b, diff_eq a b = true <->
  to_cartesian (dsystem (d_kind a)) (d_pt a) = to_cartesian (dsystem (d_kind b)) (d_pt b).
Proof. exact diff_eq_iff. Qed.
Print Assumptions C73_equality_compares_numbers.

Theorem C73_equal_velocities : forall a b u, 0 < u -> d_kind a <> DCoslat -> d_kind b <> DCoslat ->
  d_u1 a = u \/ d_kind a <> DCartesian -> d_u2 a = u \/ d_kind a <> DCartesian -> d_u3 a = u ->
  d_u1 b = u \/ d_kind b <> DCartesian -> d_u2 b = u \/ d_kind b <> DCartesian -> d_u3 b = u ->
  (diff_eq a b = true <-> velocity a = velocity b).
Proof.
  assert (E : forall a u, d_kind a <> DCoslat ->
    d_u1 a = u \/ d_kind a <> DCartesian -> d_u2 a = u \/ d_kind a <> DCartesian -> d_u3 a = u ->
    velocity a = vscale u (to_cartesian (dsystem (d_kind a)) (d_pt a))).
  { intros [k [x y z] u1 u2 u3] u K H1 H2 H3. cbn in K, H1, H2, H3. subst u3.
    destruct k; [| | |now destruct K]; unfold velocity, polar, vscale; cbn.
    - destruct H1 as [-> | H1]; [|now destruct H1]. destruct H2 as [-> | H2]; [|now destruct H2].
      f_equal; ring.
    - f_equal; ring.
    - f_equal; ring. }
  intros a b u U Ka Kb A1 A2 A3 B1 B2 B3. rewrite diff_eq_iff, (E a u), (E b u) by assumption.
  split; [intros ->; reflexivity|]. apply vscale_inj. lra.
Qed.
Print Assumptions C73_equal_velocities.

Theorem C73_coslat_equality_refuted : exists a b, dproper a /\ dproper b /\
  d_u1 a = 1 /\ d_u2 a = 1 /\ d_u3 a = 1 /\ d_u1 b = 1 /\ d_u2 b = 1 /\ d_u3 b = 1 /\
  diff_eq a b = true /\ velocity a <> velocity b.
Proof.
  exists (Diff DCoslat (V (PI / 3) (PI / 4) 1) 1 1 1), (Diff DSpherical (V (PI / 3) (PI / 4) 1) 1 1 1).
  repeat (split; [try (repeat split; cbn; lra); reflexivity|] || (split; [repeat split; cbn; lra|])).
  split; [apply diff_eq_iff; reflexivity|].
  unfold velocity, polar; cbn. rewrite cos_PI3. intros H. apply (f_equal c2) in H. cbn in H.
  replace (PI / 4 / (1 / 2)) with (PI / 2) in H by field. rewrite cos_PI2, cos_PI4 in H.
  assert (0 < 1 / sqrt 2) by (apply Rdiv_lt_0_compat; [lra | apply sqrt_lt_R0; lra]). lra.
Qed.
Print Assumptions C73_coslat_equality_refuted.

Theorem C73_magnitude : forall d,
  (d_kind d <> DCartesian -> dmagnitude d = Rabs (dget3 d)) /\
  (d_kind d = DCartesian ->
   dmagnitude d = sqrt (dget1 d * dget1 d + dget2 d * dget2 d + dget3 d * dget3 d)) /\
  (forall u, 0 < u -> d_kind d = DCartesian -> d_u1 d = u -> d_u2 d = u -> d_u3 d = u ->
   dmagnitude d * u = vnorm (velocity d)).
Proof.
  intros d. split; [apply dmagnitude_angular|]. split.
  - destruct d as [k p u1 u2 u3]. cbn. intros ->. reflexivity.
  - intros u U K E1 E2 E3. destruct d as [k [x y z] u1 u2 u3]. cbn in K, E1, E2, E3. subst.
    unfold dmagnitude, length_of, vnorm, vdot, velocity; cbn.
    replace (x * u * (x * u) + y * u * (y * u) + z * u * (z * u))
      with ((x * x + y * y + z * z) * (u * u)) by ring.
    rewrite sqrt_mult_alt by nra. rewrite sqrt_square by lra. reflexivity.
Qed.
Print Assumptions C73_magnitude.

Theorem C73_unit_vector : forall t old d, dt_kind t = DCartesian -> dmagnitude d <> 0 ->
  let w := to_cartesian (dsystem (d_kind d)) (d_pt d) in
  d_pt (dunit_vector t old d) = vscale (1 / dmagnitude d) w /\
  dmagnitude (dunit_vector t old d) = 1.
Proof.
  intros t old d K N w.
  assert (P : d_pt (dunit_vector t old d) = vscale (1 / dmagnitude d) w).
  { unfold dunit_vector, dfrom_point. rewrite K. cbn [dsystem from_cartesian to_cartesian of_dtype d_pt].
    fold w. unfold vscale. f_equal; field; exact N. }
  split; [exact P|]. unfold dmagnitude at 1. rewrite P. cbn [dunit_vector dfrom_point of_dtype d_kind]. rewrite K.
  cbn [dsystem to_cartesian]. change (length_of (vscale (1 / dmagnitude d) w)) with (vnorm (vscale (1 / dmagnitude d) w)).
  rewrite vnorm_scale. change (vnorm w) with (dmagnitude d).
  assert (Z : 0 < dmagnitude d).
  { destruct (length_nonneg w) as [L|L]; [exact L | exfalso; apply N; symmetry; exact L]. }
  rewrite Rabs_pos_eq; [field; lra | apply Rlt_le, Rdiv_lt_0_compat; lra].
Qed.
Print Assumptions C73_unit_vector.

Example C73_case : dmagnitude (dbuild (DType DSpherical 1 1 1) 1 2 (-3)) = 3.
Proof.
  rewrite dmagnitude_angular by discriminate. unfold dget3; cbn. unfold Rabs. destruct (Rcase_abs (-3)); lra.
Qed.
