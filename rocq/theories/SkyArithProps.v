(** * Arithmetic of spherical representations in doubles. *)
From Coq Require Import ZArith Reals Lia Lra.
From Flocq Require Import Core IEEE754.Binary IEEE754.Bits.
From Verif Require Import TextModel TextSpec DoubleModel DoubleSpec DoubleProofs DoubleUnits VectorModel VectorSpec VectorProofs VectorLength VectorUnit VectorProps SkyModel SkySpec SkyAngles SkyProofs SkyConvert SkySeparation SkyTransform SkyLibrary SkyProps SkyArithModel SkyArithSpec SkyArithProofs.
Local Open Scope R_scope.

(** ** C115 *)

(** [sum] and [operator+] with a spherical left operand and a right operand of any kind. *)
Theorem C115_sum L s old fx fy fz p b : good_libm L -> sph_ok p -> operand_ok fx fy fz b ->
  let T := radd (sph_vector s p) (operand_vector fx fy fz b) in let z := dval (s3 p) + rlength (operand_vector fx fy fz b) in
  clear_of T z -> close_to s (sph_sum_d L s old fx fy fz p b) T z /\ close_to s (sph_plus_d L s old fx fy fz p b) T z.
Proof. intros G. exact (sum_ok L G s old fx fy fz p b). Qed.
Print Assumptions C115_sum.

Theorem C115_mean L s old fx fy fz p b : good_libm L -> sph_ok p -> operand_ok fx fy fz b ->
  let T := scale (/ 2) (radd (sph_vector s p) (operand_vector fx fy fz b)) in let z := (dval (s3 p) + rlength (operand_vector fx fy fz b)) / 2 in
  clear_of T z -> close_to s (sph_mean_d L s old fx fy fz p b) T z.
Proof. intros G. exact (mean_near_ok L G s old fx fy fz p b). Qed.
Print Assumptions C115_mean.

Theorem C115_cross L s old g2 g3 p b : good_libm L -> sph_ok p -> operand_ok (Some (d_of_Z 1)) (Some g2) (Some g3) b ->
  let B := operand_vector (Some (d_of_Z 1)) (Some g2) (Some g3) b in
  let T := rcross (sph_vector s p) B in let z := dval (s3 p) * rlength B in
  clear_of T z -> close_to s (sph_cross_d L s old g2 g3 p b) T z.
Proof. intros G. exact (cross_ok L G s old g2 g3 p b). Qed.
Print Assumptions C115_cross.

(** [dot] of operands of any kinds. *)
Theorem C115_dot L gy gz hy hz a b : good_libm L -> operand_ok None gy gz a -> operand_ok None hy hz b ->
  let A := operand_vector None gy gz a in let B := operand_vector None hy hz b in
  bpow radix2 (-900) <= rlength A * rlength B <= bpow radix2 900 ->
  dfinite (operand_dot_d L gy gz hy hz a b) /\
  Rabs (dval (operand_dot_d L gy gz hy hz a b) - rdot A B) <= bpow radix2 (-47) * (rlength A * rlength B).
Proof. intros G. exact (dot_ok L G gy gz hy hz a b). Qed.
Print Assumptions C115_dot.

(** [sum] with a Cartesian left operand stays Cartesian, and no pole does harm. *)
Theorem C115_axes L fx fy fz v b : good_libm L -> vec_ok v -> operand_ok fx fy fz b ->
  let B := operand_vector fx fy fz b in
  vfinite (axes_sum_d L fx fy fz v b) /\
  within (bpow radix2 (-50) * (rlength (vval v) + rlength B)) (vval (axes_sum_d L fx fy fz v b)) (radd (vval v) B).
Proof. intros G. exact (axes_sum_ok L G fx fy fz v b). Qed.
Print Assumptions C115_axes.

(** So does [cross]. *)
Theorem C115_axes_cross L v b : good_libm L -> vec_ok v -> operand_ok None None None b ->
  let B := plain_vector b in
  vfinite (axes_cross_d L v b) /\
  within (bpow radix2 (-48) * (rlength (vval v) * rlength B)) (vval (axes_cross_d L v b)) (rcross (vval v) B).
Proof. intros G. exact (axes_cross_ok L G v b). Qed.
Print Assumptions C115_axes_cross.

(** The unit vector is exact: the angles are kept and the magnitude is 1. *)
Theorem C115_unit s p :
  s1 (sph_unit_d p) = s1 p /\ s2 (sph_unit_d p) = s2 p /\ dfinite (sph_magnitude_d (sph_unit_d p)) /\ dval (sph_magnitude_d (sph_unit_d p)) = 1 /\
  sph_vector s (sph_unit_d p) = sph_direction s (dval (s1 p)) (dval (s2 p)).
Proof. exact (unit_ok s p). Qed.
Print Assumptions C115_unit.

(** A vector and its opposite: the distance is 0 and the second angle whatever was in the memory. *)
Theorem C115_opposite_refuted L s old p : good_libm L -> sph_ok p ->
  let q := Angles s (DS (s1 p) (s2 p) (d_opp (s3 p))) in
  let o := sph_sum_d L s old None None None p q in let o' := sph_plus_d L s old None None None p q in
  s2 o = old /\ dfinite (s3 o) /\ dval (s3 o) = 0 /\ s2 o' = old /\ dfinite (s3 o') /\ dval (s3 o') = 0.
Proof. intros G. exact (sum_opposite_angle L G s old p). Qed.
Print Assumptions C115_opposite_refuted.

Lemma one_ok : cast_ok (Some (d_of_Z 1)).
Proof. destruct (small_int_ok 1 ltac:(lia)) as [F V]. split; [exact F|]. unfold dval. rewrite V. split; [apply Rle_trans with (bpow radix2 0); [apply bpow_le; lia|cbn; lra]|apply Rle_trans with (bpow radix2 0); [cbn; lra|apply bpow_le; lia]]. Qed.

(** The hypotheses hold of the vector of length 5 at the angles 1/2 and 1/2, with a spherical and with Cartesian operands. *)
Example C115_case : let p := DS half half (d_of_Z 5) in let b := Axes (vec 3 (-4) 12) in let c := Axes (vec 0 0 2) in
  sph_ok p /\ vec_ok (vec 3 (-4) 12) /\ operand_ok None None None b /\ operand_ok None None None (Angles Polar p) /\
  clear_of (radd (sph_vector Polar p) (operand_vector None None None b)) (dval (s3 p) + rlength (operand_vector None None None b)) /\
  clear_of (scale (/ 2) (radd (sph_vector Polar p) (operand_vector None None None b))) ((dval (s3 p) + rlength (operand_vector None None None b)) / 2) /\
  operand_ok (Some (d_of_Z 1)) (Some (d_of_Z 1)) (Some (d_of_Z 1)) c /\
  clear_of (rcross (sph_vector Polar p) (operand_vector (Some (d_of_Z 1)) (Some (d_of_Z 1)) (Some (d_of_Z 1)) c))
    (dval (s3 p) * rlength (operand_vector (Some (d_of_Z 1)) (Some (d_of_Z 1)) (Some (d_of_Z 1)) c)) /\
  bpow radix2 (-900) <= rlength (operand_vector None None None (Angles Polar p)) * rlength (operand_vector None None None b) <= bpow radix2 900.
Proof.
  cbv zeta. set (p := DS half half (d_of_Z 5)). destruct C111_case as (Vb & Eb & Hp & _). change (sph_ok p) in Hp.
  assert (Sm : forall v, operand_vector None None None (Axes v) = vval v) by (intros v; unfold operand_vector; cbn [plain_vector ratio]; rewrite !Rmult_1_r; reflexivity).
  assert (Sp : operand_vector None None None (Angles Polar p) = sph_vector Polar p).
  { unfold operand_vector. cbn [plain_vector ratio]. rewrite !Rmult_1_r. destruct (sph_vector Polar p); reflexivity. }
  assert (E3 : dval (s3 p) = 5) by (unfold p, dval; cbn [s3]; apply (small_int_ok 5); lia).
  destruct (first_app best_libm (rounded_good _ best_rounded) Polar p Hp) as (Len & _ & _). rewrite E3 in Len.
  assert (Big : forall x, 1 / 2 <= x <= 1000 -> bpow radix2 (-380) <= x <= bpow radix2 380).
  { intros x H. split; [apply Rle_trans with (bpow radix2 (-1)); [apply bpow_le; lia|cbn; lra]|apply Rle_trans with (bpow radix2 10); [cbn; lra|apply bpow_le; lia]]. }
  rewrite !Sm, Sp, Len, Eb, E3. set (A := sph_vector Polar p) in *. set (B := vval (vec 3 (-4) 12)) in *.
  pose proof (rlength_triangle A B) as T1. pose proof (rlength_triangle (radd A B) (scale (-1) A)) as T2.
  assert (EB : radd (radd A B) (scale (-1) A) = B) by (unfold radd, scale; cbn [rx ry rz]; unfold B; destruct (vval (vec 3 (-4) 12)) as [x y z]; cbn [rx ry rz]; f_equal; ring).
  assert (EA : rlength (scale (-1) A) = 5) by (rewrite <- Len; unfold rlength, scale; cbn [rx ry rz]; f_equal; ring). rewrite EB, EA, Eb in T2. rewrite Len, Eb in T1.
  assert (EH : rlength (scale (/ 2) (radd A B)) = / 2 * rlength (radd A B)).
  { set (D := radd A B). unfold rlength, scale. cbn [rx ry rz]. replace (/ 2 * rx D * (/ 2 * rx D) + / 2 * ry D * (/ 2 * ry D) + / 2 * rz D * (/ 2 * rz D)) with ((/ 2 * / 2) * (rx D * rx D + ry D * ry D + rz D * rz D)) by ring.
    rewrite sqrt_mult_alt by lra. rewrite R_sqrt.sqrt_square by lra. reflexivity. }
  assert (V2 : vval (vec 0 0 2) = RV 0 0 2) by (apply vec_val; reflexivity).
  assert (L2 : rlength (RV 0 0 2) = 2) by (unfold rlength; cbn [rx ry rz]; replace (0 * 0 + 0 * 0 + 2 * 2) with (2 * 2) by ring; apply R_sqrt.sqrt_square; lra).
  assert (V1 : ratio (Some (d_of_Z 1)) = 1) by (cbn [ratio]; unfold dval; apply (small_int_ok 1); lia).
  assert (Sc : operand_vector (Some (d_of_Z 1)) (Some (d_of_Z 1)) (Some (d_of_Z 1)) (Axes (vec 0 0 2)) = RV 0 0 2).
  { unfold operand_vector. cbn [plain_vector]. rewrite V1, V2. cbn [rx ry rz]. f_equal; ring. }
  split; [exact Hp|]. split; [exact Vb|]. split; [split; [exact I|split; [exact I|split; [exact I|exact Vb]]]|].
  split; [split; [exact I|split; [exact I|split; [exact I|split; [exact Hp|split; reflexivity]]]]|].
  assert (P40 : bpow radix2 (-40) = / 1099511627776) by reflexivity.
  split; [split; [rewrite P40; lra|apply Big; lra]|]. split; [split; [rewrite P40, EH; lra|apply Big; rewrite EH; lra]|].
  split. { split; [apply one_ok|]. split; [apply one_ok|]. split; [apply one_ok|]. split; [apply vec_fin; reflexivity|]. rewrite V2, L2. split; [apply Rle_trans with (bpow radix2 0); [apply bpow_le; lia|cbn; lra]|apply Rle_trans with (bpow radix2 1); [cbn; lra|apply bpow_le; lia]]. }
  rewrite Sc, L2. split.
  - pose proof (cross_length A (RV 0 0 2)) as Up. rewrite Len, L2 in Up.
    assert (Lo : 1 / 2 <= rlength (rcross A (RV 0 0 2))).
    { destruct (part_le_length (rcross A (RV 0 0 2))) as (_ & Py & _). unfold rcross in Py at 1. cbn [rx ry rz] in Py. eapply Rle_trans; [|exact Py].
      replace (rz A * 0 - rx A * 2) with (- (2 * rx A)) by ring. rewrite Rabs_Ropp.
      assert (Ex : rx A = 5 * (sin (/ 2) * cos (/ 2))) by (unfold A, sph_vector, scale; cbn [rx ry rz sph_direction]; rewrite E3; unfold p; cbn [s1 s2]; rewrite (proj2 half_val); reflexivity).
      destruct sin_half_bound as [S C]. assert (S2 : / 2 / 3 <= sin (/ 2)) by (apply sin_third; pose proof PI2_1; lra).
      rewrite Ex. rewrite Rabs_pos_eq; nra. }
    split; [rewrite P40; lra|apply Big; lra].
  - split; [apply Rle_trans with (bpow radix2 0); [apply bpow_le; lia|cbn; lra]|apply Rle_trans with (bpow radix2 10); [cbn; lra|apply bpow_le; lia]].
Qed.
