(** * Differentials in doubles. *)
From Coq Require Import ZArith Reals Lia Lra Psatz.
From Flocq Require Import Core Relative IEEE754.BinarySingleNaN IEEE754.Binary IEEE754.Bits.
From Verif Require Import TextModel TextSpec TextRound TextScan TextFloat TextProofs TextLaws TextRead TextCard DoubleModel DoubleSpec DoubleProofs DoubleUnits VectorModel VectorSpec VectorProofs VectorArith VectorProducts VectorLength VectorUnit SkyModel SkySpec SkyAngles SkyProofs SkyConvert SkySeparation SkyTransform SkyArithModel SkyArithSpec SkyArithProofs SkyDiffModel SkyDiffSpec.
Local Open Scope R_scope.

#[local] Instance prec53 : Prec_gt_0 53 := eq_refl.
#[local] Existing Instance near.

(** ** Vectors *)

Lemma scaled_coord d d' a b D n : 0 <= b -> Rabs (d' - d) <= a * Rabs d -> Rabs D <= 1 -> Rabs (D - n) <= b -> Rabs (d' * D - d * n) <= (a + b) * Rabs d.
Proof.
  intros B A L C. replace (d' * D - d * n) with (D * (d' - d) + d * (D - n)) by ring. eapply Rle_trans; [apply Rabs_triang|].
  pose proof (abs_le_mul _ _ _ L A). assert (Rabs (d * (D - n)) <= b * Rabs d) by (rewrite Rabs_mult, Rmult_comm; apply Rmult_le_compat_r; [apply Rabs_pos|exact C]). lra.
Qed.

Lemma scaled_vector s o d a b x y n : 0 <= b -> Rabs (o - d) <= a * Rabs d -> within b (sph_direction s x y) n ->
  within ((a + b) * Rabs d) (scale o (sph_direction s x y)) (scale d n).
Proof.
  intros B A (X & Y & Z). destruct (direction_le s x y) as (D1 & D2 & D3). split; [|split]; unfold scale; cbn [rx ry rz]; apply scaled_coord; assumption.
Qed.

Lemma scale_scale k r p : scale k (scale r p) = scale (r * k) p. Proof. unfold scale. cbn [rx ry rz]. f_equal; ring. Qed.

Lemma polar_lipschitz a b c : within (Rabs (b - c)) (sph_direction Polar a b) (sph_direction Polar a c).
Proof.
  pose proof (sin_lipschitz b c) as S. split; [|split]; cbn [sph_direction rx ry rz].
  - replace (sin b * cos a - sin c * cos a) with (cos a * (sin b - sin c)) by ring. apply abs_le_mul; [apply cos_abs_1|exact S].
  - replace (sin b * sin a - sin c * sin a) with (sin a * (sin b - sin c)) by ring. apply abs_le_mul; [apply sin_abs_1|exact S].
  - apply cos_lipschitz.
Qed.

(** ** The product with a time *)

Lemma product_ok a t : fin a = true -> bpow radix2 (-210) <= Rabs (val a) <= bpow radix2 210 -> time_ok t ->
  fin (d_mul a t) = true /\ Rabs (val (d_mul a t) - val a * dval t) <= u53 * Rabs (val a * dval t).
Proof.
  intros F B (Ft & H). unfold dfinite, dval in *. pose proof (bpow_gt_0 radix2 (-210)) as P1. pose proof (bpow_gt_0 radix2 (-200)) as P2. pose proof (bpow_gt_0 radix2 200) as P3.
  assert (Hi : Rabs (val a * val t) <= bpow radix2 410).
  { rewrite Rabs_mult. replace 410%Z with (210 + 200)%Z by reflexivity. rewrite bpow_plus. apply Rmult_le_compat; auto using Rabs_pos; try lra.
    destruct H as [->|H]; [rewrite Rabs_R0|]; lra. }
  destruct (mul_ok a t F Ft (fits 410 _ ltac:(lia) (rnd_bound _ 410 ltac:(lia) Hi))) as [Fm V]. split; [exact Fm|]. rewrite V. destruct H as [E|H].
  - rewrite E, Rmult_0_r, nearest_0, Rminus_0_r, Rabs_R0. lra.
  - apply rnd_rel. rewrite Rabs_mult. apply Rle_trans with (bpow radix2 (-210 + -200)); [apply bpow_le; lia|]. rewrite bpow_plus. apply Rmult_le_compat; lra.
Qed.

Lemma times_axes_ok v t : vfinite v -> dfinite t -> each_r (fun c => Rabs (c (vval v) * dval t) <= bpow radix2 1000) ->
  vfinite (vel_axes_times_d v t) /\ each_r (fun c => c (vval (vel_axes_times_d v t)) = rnd (c (vval v) * dval t)).
Proof.
  intros (F1 & F2 & F3) Ft (X & Y & Z).
  assert (One : forall a, dfinite a -> Rabs (dval a * dval t) <= bpow radix2 1000 -> dfinite (d_mul a t) /\ dval (d_mul a t) = rnd (dval a * dval t)) by (intros a F B; exact (mul_ok a t F Ft (fits 1000 _ ltac:(lia) (rnd_bound _ 1000 ltac:(lia) B)))).
  destruct (One _ F1 X) as [A1 B1]. destruct (One _ F2 Y) as [A2 B2]. destruct (One _ F3 Z) as [A3 B3].
  split; [split; [exact A1|split; [exact A2|exact A3]]|split; [exact B1|split; [exact B2|exact B3]]].
Qed.

Section Library.
Context (L : libm) (G : good_libm L).

Lemma times_ok s old p t : sph_ok p -> time_ok t ->
  let o := vel_angles_times_d L s old p t in let T := scale (dval t) (sph_vector s p) in let l := dval (s3 p) * Rabs (dval t) in
  dfinite (s1 o) /\ dfinite (s2 o) /\ dfinite (s3 o) /\ Rabs (dval (s3 o) - dval (s3 p) * dval t) <= bpow radix2 (-48) * l /\
  within (bpow radix2 (-20) * l) (sph_vector s o) T /\
  (Rabs (rz (sph_direction s (dval (s1 p)) (dval (s2 p)))) <= 9 / 10 -> within (bpow radix2 (-43) * l) (sph_vector s o) T).
Proof.
  intros Hp Ht o T l. destruct (ok_wide p Hp) as (F1 & F2 & F3 & B). destruct Hp as (_ & _ & _ & B'). pose proof (bpow_gt_0 radix2 (-200)) as P0. pose proof u53_pos as U0. pose proof u53_eq as Ue.
  assert (B4 : bpow radix2 (-400) <= dval (s3 p) <= bpow radix2 400) by (split; [eapply Rle_trans; [|apply B']|eapply Rle_trans; [apply B'|]]; apply bpow_le; lia).
  destruct (from_close L G s old _ (42 / 10) _ _ B4 ltac:(lra) (sph_unit s _ _) (to_cartesian_sent L G s p F1 F2 F3 B)) as (Q1 & Q2 & Q3 & D & W & W').
  unfold o, vel_angles_times_d. set (q := from_cartesian_d L s old (to_cartesian_d L s p)) in *. cbn [s1 s2 s3]. set (r := dval (s3 p)) in *.
  destruct (rel_abs 21 _ _ ltac:(lra) D) as [Lo Hi]. rewrite (Rabs_pos_eq r) in Lo, Hi by lra.
  assert (Bq : bpow radix2 (-210) <= Rabs (dval (s3 q)) <= bpow radix2 210).
  { split.
    - apply Rle_trans with (bpow radix2 (-201)); [apply bpow_le; lia|]. assert (bpow radix2 (-200) = 2 * bpow radix2 (-201)) by (change (-200)%Z with (-201 + 1)%Z; apply bpow_double). lra.
    - apply Rle_trans with (bpow radix2 201); [|apply bpow_le; lia]. change 201%Z with (200 + 1)%Z. rewrite bpow_double. lra. }
  destruct (product_ok (s3 q) t Q3 Bq Ht) as [Fm M]. 
  assert (El : l = Rabs (r * dval t)) by (unfold l; rewrite Rabs_mult, (Rabs_pos_eq r) by lra; reflexivity).
  assert (Dist : Rabs (dval (d_mul (s3 q) t) - r * dval t) <= 23 * u53 * Rabs (r * dval t)).
  { unfold dval in *. unfold rel in D. set (x := val (s3 q)) in *. set (y := val t) in *.
    replace (val (d_mul (s3 q) t) - r * y) with ((val (d_mul (s3 q) t) - x * y) + (x - r) * y) by ring.
    assert (A2 : Rabs ((x - r) * y) <= 21 * u53 * Rabs (r * y)) by (rewrite !Rabs_mult, <- Rmult_assoc; apply Rmult_le_compat_r; [apply Rabs_pos|exact D]).
    assert (A3 : Rabs (x * y) <= 2 * Rabs (r * y)) by (rewrite !Rabs_mult, <- Rmult_assoc, (Rabs_pos_eq r) by lra; apply Rmult_le_compat_r; [apply Rabs_pos|lra]).
    pose proof (abs_sum _ _ _ _ M A2) as S. assert (u53 * Rabs (x * y) <= u53 * (2 * Rabs (r * y))) by (apply Rmult_le_compat_l; lra). lra. }
  rewrite El. split; [exact Q1|]. split; [exact Q2|]. split; [exact Fm|].
  assert (ET : T = scale (r * dval t) (sph_direction s (dval (s1 p)) (dval (s2 p)))) by (unfold T, sph_vector; rewrite scale_scale; reflexivity).
  split; [|split].
  - eapply Rle_trans; [exact Dist|]. rewrite p48. pose proof (Rabs_pos (r * dval t)). nra.
  - rewrite ET. unfold sph_vector. cbn [s1 s2 s3]. eapply within_weaken; [|apply (scaled_vector s _ _ (23 * u53) (bpow radix2 (-21))); [apply bpow_ge_0|exact Dist|exact W]].
    apply Rmult_le_compat_r; [apply Rabs_pos|]. rewrite Ue. cbn. lra.
  - intros Z. specialize (W' Z). rewrite ET. unfold sph_vector. cbn [s1 s2 s3]. eapply within_weaken; [|apply (scaled_vector s _ _ (23 * u53) (bpow radix2 (-44))); [apply bpow_ge_0|exact Dist|exact W']].
    apply Rmult_le_compat_r; [apply Rabs_pos|]. rewrite p43, p44. lra.
Qed.

(** ** The division by the cosine *)

Lemma coslat_angle p : coslat_ok p -> dfinite (d_div (s2 p) (m_cos L (s1 p))) /\
  Rabs (dval (d_div (s2 p) (m_cos L (s1 p))) - dval (s2 p) / cos (dval (s1 p))) <= bpow radix2 (-51) * (Rabs (dval (s2 p)) / (cos (dval (s1 p)) * cos (dval (s1 p)))) + t1075.
Proof.
  intros ((F1 & F2 & _) & B & C). pose proof (ent_cos L G _ F1) as (Fc & Ec & Bc). unfold in_unit, dfinite, dval in *. destruct Fc as [Fc Uc].
  set (c := val (m_cos L (s1 p))) in *. set (C0 := cos (val (s1 p))) in *. set (x := val (s2 p)) in *. pose proof u53_pos as U0. pose proof u53_eq as Ue. rewrite Rmult_1_l in Ec.
  assert (C1 : 8192 * u53 <= Rabs C0) by (eapply Rle_trans; [|exact C]; rewrite Ue; cbn; lra).
  assert (Lc : 8191 / 8192 * Rabs C0 <= Rabs c).
  { pose proof (Rabs_triang (C0 - c) c) as T. replace (C0 - c + c) with C0 in T by ring. rewrite (Rabs_minus_sym C0 c) in T. lra. }
  assert (P : 0 < Rabs C0) by lra. assert (Pc : 0 < Rabs c) by lra. assert (N : C0 <> 0) by (intros E; rewrite E, Rabs_R0 in P; lra). assert (Nc : c <> 0) by (intros E; rewrite E, Rabs_R0 in Pc; lra).
  assert (E2 : C0 * C0 = Rabs C0 * Rabs C0) by (rewrite <- Rabs_mult; symmetry; apply Rabs_pos_eq; nra).
  set (K := Rabs x / (C0 * C0)).
  assert (PK : 0 <= K) by (unfold K; rewrite E2; apply Rmult_le_pos; [apply Rabs_pos|left; apply Rinv_0_lt_compat; nra]).
  assert (Q1 : Rabs (x / c - x / C0) <= 1001 / 1000 * u53 * K).
  { replace (x / c - x / C0) with (x * (C0 - c) * / (c * C0)) by (field; split; assumption). rewrite !Rabs_mult, Rabs_inv, Rabs_mult, (Rabs_minus_sym C0 c).
    unfold K. rewrite E2. replace (1001 / 1000 * u53 * (Rabs x / (Rabs C0 * Rabs C0))) with (Rabs x * u53 * (1001 / 1000 * / (Rabs C0 * Rabs C0))) by (field; lra).
    apply Rmult_le_compat; [apply Rmult_le_pos; apply Rabs_pos|left; apply Rinv_0_lt_compat; nra|apply Rmult_le_compat_l; [apply Rabs_pos|exact Ec]|].
    replace (1001 / 1000 * / (Rabs C0 * Rabs C0)) with (/ (1000 / 1001 * Rabs C0 * Rabs C0)) by (field; lra). apply Rinv_le; [nra|]. apply Rmult_le_compat_r; lra. }
  assert (Q2 : Rabs (x / c) <= 1001 / 1000 * K).
  { unfold Rdiv at 1. rewrite Rabs_mult, Rabs_inv. unfold K. rewrite E2. replace (1001 / 1000 * (Rabs x / (Rabs C0 * Rabs C0))) with (Rabs x * / (1000 / 1001 * (Rabs C0 * Rabs C0))) by (field; lra).
    apply Rmult_le_compat_l; [apply Rabs_pos|]. apply Rinv_le; [nra|]. apply Rle_trans with (1000 / 1001 * (1 * Rabs C0)); [|lra]. apply Rmult_le_compat_l; [lra|]. apply Rmult_le_compat_r; lra. }
  assert (BK : Rabs (x / c) <= bpow radix2 60).
  { unfold Rdiv. rewrite Rabs_mult, Rabs_inv. apply Rle_trans with (8 * / (4096 * u53)); [apply Rmult_le_compat; [apply Rabs_pos|left; apply Rinv_0_lt_compat; exact Pc|exact B|apply Rinv_le; lra]|].
    rewrite Ue. replace (/ (4096 * / 9007199254740992)) with 2199023255552 by lra. cbn. lra. }
  destruct (div_ok (s2 p) (m_cos L (s1 p)) F2 Nc (fits 60 _ ltac:(lia) (rnd_bound _ 60 ltac:(lia) BK))) as [F V]. split; [exact F|].
  rewrite V. fold x c. pose proof (rnd_err (x / c)) as R. replace (rnd (x / c) - x / C0) with ((rnd (x / c) - x / c) + (x / c - x / C0)) by ring.
  pose proof (abs_sum _ _ _ _ R Q1) as S. eapply Rle_trans; [exact S|]. assert (u53 * Rabs (x / c) <= u53 * (1001 / 1000 * K)) by (apply Rmult_le_compat_l; lra). rewrite p51. assert (0 <= u53 * K) by (apply Rmult_le_pos; lra). lra.
Qed.

Lemma uncoslat_ok p : coslat_ok p -> sph_ok (uncoslat_d L p).
Proof. intros H. destruct (coslat_angle p H) as [F _]. destruct H as ((F1 & F2 & F3 & B) & _). split; [exact F1|]. split; [exact F|]. split; [exact F3|exact B]. Qed.

(** The exact vector of the divided point. *)
Lemma uncoslat_vector p : coslat_ok p -> within (coslat_cost p + u53 * (/ 1000) * dval (s3 p)) (sph_vector Polar (uncoslat_d L p)) (coslat_vector p).
Proof.
  intros H. destruct (coslat_angle p H) as [_ E]. destruct H as ((_ & _ & _ & B) & _). pose proof (bpow_gt_0 radix2 (-200)) as P0.
  set (K := Rabs (dval (s2 p)) / (cos (dval (s1 p)) * cos (dval (s1 p)))) in *. set (r := dval (s3 p)) in *.
  assert (T : t1075 <= u53 * / 1000). { pose proof (tiny_le 1 0 ltac:(lia)) as T. change (bpow radix2 0) with 1 in T. specialize (T ltac:(lra)). lra. }
  destruct (polar_lipschitz (dval (s1 p)) (dval (d_div (s2 p) (m_cos L (s1 p)))) (dval (s2 p) / cos (dval (s1 p)))) as (X & Y & Z).
  unfold sph_vector, uncoslat_d, coslat_vector, coslat_cost. cbn [s1 s2 s3]. fold r K.
  assert (One : forall a b, Rabs (a - b) <= Rabs (dval (d_div (s2 p) (m_cos L (s1 p))) - dval (s2 p) / cos (dval (s1 p))) -> Rabs (r * a - r * b) <= bpow radix2 (-51) * K * r + u53 * / 1000 * r).
  { intros a b A. replace (r * a - r * b) with (r * (a - b)) by ring. rewrite Rabs_mult, (Rabs_pos_eq r) by lra. replace (bpow radix2 (-51) * K * r + u53 * / 1000 * r) with (r * (bpow radix2 (-51) * K + u53 * / 1000)) by ring. apply Rmult_le_compat_l; lra. }
  split; [|split]; unfold scale; cbn [rx ry rz]; apply One; assumption.
Qed.

Lemma coslat_cost_pos p : coslat_ok p -> 0 <= coslat_cost p.
Proof.
  intros ((_ & _ & _ & B) & _ & C). pose proof (bpow_gt_0 radix2 (-200)) as P0. pose proof (bpow_gt_0 radix2 (-40)) as P4. unfold coslat_cost. apply Rmult_le_pos; [|lra]. apply Rmult_le_pos; [apply bpow_ge_0|].
  apply Rmult_le_pos; [apply Rabs_pos|]. left. apply Rinv_0_lt_compat. apply Rsqr_pos_lt. intros E. rewrite E, Rabs_R0 in C. lra.
Qed.

Theorem coslat_cart_ok p : coslat_ok p ->
  vfinite (vel_cart_d L (VCoslat p)) /\ within (bpow radix2 (-50) * dval (s3 p) + coslat_cost p) (vval (vel_cart_d L (VCoslat p))) (coslat_vector p).
Proof.
  intros H. pose proof (uncoslat_ok p H) as Ok. pose proof (uncoslat_vector p H) as V. destruct (first_app L G Polar _ Ok) as (_ & B & (F1 & _ & E1 & _) & (F2 & _ & E2 & _) & (F3 & _ & E3 & _)).
  cbn [uncoslat_d s3] in B, E1, E2, E3. pose proof (bpow_gt_0 radix2 (-200)) as P0. pose proof u53_pos as U0. unfold vel_cart_d. cbn [vel_operand cart_d].
  split; [split; [exact F1|split; [exact F2|exact F3]]|].
  assert (W : within (42 / 10 * u53 * dval (s3 p)) (vval (to_cartesian_d L Polar (uncoslat_d L p))) (sph_vector Polar (uncoslat_d L p))) by (split; [exact E1|split; [exact E2|exact E3]]).
  eapply within_weaken; [|eapply within_trans; [exact W|exact V]]. rewrite p50. assert (0 <= u53 * dval (s3 p)) by (apply Rmult_le_pos; lra). lra.
Qed.

(** ** Sums *)

Lemma vel_operand_ok fx fy fz b : velocity_ok fx fy fz b -> operand_ok fx fy fz (vel_operand L b).
Proof.
  intros (Cx & Cy & Cz & H). split; [exact Cx|]. split; [exact Cy|]. split; [exact Cz|]. destruct b as [v|s p|p]; cbn [vel_operand]; [exact H|exact H|].
  destruct H as (H & E). split; [apply uncoslat_ok, H|exact E].
Qed.

(** The operand the sum is computed with has the right length and almost the right direction. *)
Lemma vel_operand_vector fx fy fz b : velocity_ok fx fy fz b ->
  let B := in_units fx fy fz (true_velocity b) in let B' := operand_vector fx fy fz (vel_operand L b) in
  rlength B' = rlength B /\ 0 <= velocity_cost b * ratio fx /\ within (velocity_cost b * ratio fx + u53 * / 1000 * rlength B) B' B.
Proof.
  intros (Cx & _ & _ & H) B B'. pose proof u53_pos as U0. pose proof (rlength_pos B) as Pl.
  assert (Same : B' = B -> velocity_cost b = 0 -> rlength B' = rlength B /\ 0 <= velocity_cost b * ratio fx /\ within (velocity_cost b * ratio fx + u53 * / 1000 * rlength B) B' B).
  { intros E ->. split; [rewrite E; reflexivity|]. split; [lra|]. rewrite E. assert (0 <= u53 * / 1000 * rlength B) by (apply Rmult_le_pos; lra). split; [|split]; rewrite Rminus_diag_eq, Rabs_R0 by reflexivity; lra. }
  destruct b as [v|s p|p]; [apply Same; reflexivity|apply Same; reflexivity|]. clear Same. destruct H as (Ok & -> & ->). pose proof (uncoslat_vector p Ok) as (X & Y & Z).
  destruct (ratio_bounds _ Cx) as [Lo _]. pose proof (bpow_gt_0 radix2 (-250)) as P1. pose proof (coslat_cost_pos p Ok) as Pc. destruct Ok as ((_ & _ & _ & Br) & _). pose proof (bpow_gt_0 radix2 (-200)) as P0. cbn [velocity_cost].
  set (k := ratio fx) in *. set (r := dval (s3 p)) in *.
  assert (Len : forall n, runit n -> rlength (RV (r * rx n * k) (r * ry n * k) (r * rz n * k)) = r * k).
  { intros n U. replace (RV (r * rx n * k) (r * ry n * k) (r * rz n * k)) with (scale (r * k) n) by (unfold scale; f_equal; ring). apply length_scale; [apply Rmult_le_pos; lra|exact U]. }
  assert (L1 : rlength B = r * k) by (apply (Len (sph_direction Polar (dval (s1 p)) (dval (s2 p) / cos (dval (s1 p))))), sph_unit).
  assert (L2 : rlength B' = r * k) by (apply (Len (sph_direction Polar (dval (s1 p)) (dval (d_div (s2 p) (m_cos L (s1 p)))))), sph_unit).
  split; [rewrite L1; exact L2|]. split; [apply Rmult_le_pos; lra|]. rewrite L1.
  assert (One : forall a c, Rabs (a - c) <= coslat_cost p + u53 * / 1000 * r -> Rabs (a * k - c * k) <= coslat_cost p * k + u53 * / 1000 * (r * k)).
  { intros a c A. replace (a * k - c * k) with ((a - c) * k) by ring. rewrite Rabs_mult, (Rabs_pos_eq k) by lra. replace (coslat_cost p * k + u53 * / 1000 * (r * k)) with ((coslat_cost p + u53 * / 1000 * r) * k) by ring. apply Rmult_le_compat_r; lra. }
  split; [|split]; apply One; assumption.
Qed.

Lemma radd_within e a b b' : within e b' b -> within e (radd a b') (radd a b).
Proof.
  intros (X & Y & Z). split; [|split]; unfold radd; cbn [rx ry rz].
  - replace (rx a + rx b' - (rx a + rx b)) with (rx b' - rx b) by ring. exact X.
  - replace (ry a + ry b' - (ry a + ry b)) with (ry b' - ry b) by ring. exact Y.
  - replace (rz a + rz b' - (rz a + rz b)) with (rz b' - rz b) by ring. exact Z.
Qed.

Theorem axes_plus_ok fx fy fz v b : vec_ok v -> velocity_ok fx fy fz b ->
  let B := in_units fx fy fz (true_velocity b) in let o := vel_axes_plus_d L fx fy fz v b in
  vfinite o /\ within (bpow radix2 (-49) * (rlength (vval v) + rlength B) + velocity_cost b * ratio fx) (vval o) (radd (vval v) B).
Proof.
  intros Hv Hb B o. destruct (vel_operand_vector fx fy fz b Hb) as (Len & Pc & W). fold B in Len, W.
  destruct (axes_sum_ok L G fx fy fz v _ Hv (vel_operand_ok fx fy fz b Hb)) as [F S]. rewrite Len in S. split; [exact F|].
  eapply within_weaken; [|eapply within_trans; [exact S|apply radd_within; exact W]]. rewrite p49, p50. pose proof u53_pos as U0. pose proof (rlength_pos (vval v)) as P1. pose proof (rlength_pos B) as P2.
  assert (0 <= u53 * rlength (vval v)) by (apply Rmult_le_pos; lra). assert (0 <= u53 * rlength B) by (apply Rmult_le_pos; lra). lra.
Qed.

Theorem angles_plus_ok s old fx fy fz p b : sph_ok p -> velocity_ok fx fy fz b ->
  let B := in_units fx fy fz (true_velocity b) in let T := radd (sph_vector s p) B in let z := dval (s3 p) + rlength B in let e := velocity_cost b * ratio fx in
  well_clear T z e -> close_by s (vel_angles_plus_d L s old fx fy fz p b) T (2 * z) e.
Proof.
  intros Hp Hb B T z e (C1 & C2 & C3 & C4). destruct (vel_operand_vector fx fy fz b Hb) as (Len & Pc & W). fold B e in Len, W, Pc.
  pose proof u53_pos as U0. pose proof u53_eq as Ue. pose proof (rlength_pos B) as PB. destruct (ok_wide p Hp) as (_ & _ & _ & Bp). pose proof (bpow_gt_0 radix2 (-500)) as P5.
  set (B' := operand_vector fx fy fz (vel_operand L b)) in *. set (T' := radd (sph_vector s p) B').
  assert (We : within (e + u53 * / 1000 * z) T' T).
  { eapply within_weaken; [|apply radd_within; exact W]. apply Rplus_le_compat_l. apply Rmult_le_compat_l; [lra|]. unfold z. lra. }
  assert (Pz : 0 < z) by (unfold z; lra). assert (Puz : 0 < u53 * z) by (apply Rmult_lt_0_compat; lra).
  pose proof (length_diff (e + u53 * / 1000 * z) T' T ltac:(lra) We) as LD. apply Rabs_le_inv in LD. change (bpow radix2 (-39)) with (/ 549755813888) in C1.
  assert (Uz : u53 * z <= rlength T / 10000) by (rewrite Ue; lra).
  assert (Cl : clear_of T' (dval (s3 p) + rlength B')).
  { rewrite Len. fold z. split; [change (bpow radix2 (-40)) with (/ 1099511627776); lra|]. change (-379)%Z with (-380 + 1)%Z in C3. rewrite bpow_double in C3. pose proof (bpow_gt_0 radix2 (-380)).
    split; [lra|]. change 380%Z with (379 + 1)%Z. rewrite bpow_double. lra. }
  destruct (proj2 (sum_ok L G s old fx fy fz p _ Hp (vel_operand_ok fx fy fz b Hb) Cl)) as (F1 & F2 & F3 & D & S & _).
  change (vel_angles_plus_d L s old fx fy fz p b) with (sph_plus_d L s old fx fy fz p (vel_operand L b)). fold B' in D, S. rewrite Len in D, S. fold z T' in D, S.
  split; [exact F1|]. split; [exact F2|]. split; [exact F3|]. split.
  - replace (dval (s3 (sph_plus_d L s old fx fy fz p (vel_operand L b))) - rlength T) with ((dval (s3 (sph_plus_d L s old fx fy fz p (vel_operand L b))) - rlength T') + (rlength T' - rlength T)) by ring.
    eapply Rle_trans; [apply Rabs_triang|]. assert (A : Rabs (rlength T' - rlength T) <= 2 * (e + u53 * / 1000 * z)) by (apply Rabs_le; lra). rewrite p45 in *. lra.
  - eapply within_weaken; [|eapply within_trans; [exact S|exact We]]. rewrite p47. change (bpow radix2 (-19)) with (/ 524288). lra.
Qed.

(** ** Into the coslat kind *)

Lemma polar_angle old v : let o := from_cartesian_d L Polar old v in dfinite (s2 o) -> dfinite (s3 o) -> 0 < dval (s3 o) -> Rabs (dval (s2 o)) <= 5.
Proof.
  intros o F2 F3 P. unfold o, from_cartesian_d in *. cbn [s2 s3] in *. unfold dfinite, dval in *. rewrite (positive_ok _ F3 P) in *.
  assert (U : in_unit (d_div (dz v) (length_d v))).
  { unfold in_unit. destruct (is_finite 53 1024 (d_div (dz v) (length_d v))) eqn:E; unfold dfinite, dval; rewrite E.
    - split; [reflexivity|]. destruct (Rle_dec (-1) (val (d_div (dz v) (length_d v)))) as [A|A]; [destruct (Rle_dec (val (d_div (dz v) (length_d v))) 1) as [A'|A']|]; [split; assumption|exfalso|exfalso];
        (apply (acos_domain L G (d_div (dz v) (length_d v))); [intros [_ H]; unfold dval in H; lra|exact F2]).
    - exfalso. apply (acos_domain L G (d_div (dz v) (length_d v))); [intros [H _]; unfold dfinite in H; congruence|exact F2]. }
  destruct (acos_good L G _ U) as [_ E]. unfold dval in E. pose proof (acos_bound (val (d_div (dz v) (length_d v)))) as [A0 A1]. pose proof PI_4 as P4.
  apply Rabs_le_inv in E. change (bpow radix2 (-51)) with (/ 2251799813685248) in E.
  apply Rabs_le. lra.
Qed.

(** A second angle multiplied by the cosine of the first, and the point normalised. *)
Lemma coslat_stage old o : dfinite (s1 o) -> dfinite (s2 o) -> dfinite (s3 o) -> bpow radix2 (-395) <= dval (s3 o) <= bpow radix2 395 -> Rabs (dval (s2 o)) <= 5 ->
  let w := from_cartesian_d L Polar old (to_cartesian_d L Polar (DS (s1 o) (d_mul (s2 o) (m_cos L (s1 o))) (s3 o))) in
  let D := sph_direction Polar (dval (s1 o)) (dval (s2 o) * cos (dval (s1 o))) in
  dfinite (s1 w) /\ dfinite (s2 w) /\ dfinite (s3 w) /\ Rabs (dval (s3 w) - dval (s3 o)) <= bpow radix2 (-48) * dval (s3 o) /\
  within (bpow radix2 (-20) * dval (s3 o)) (sph_vector Polar w) (scale (dval (s3 o)) D) /\
  (Rabs (rz D) <= 8 / 9 -> within (bpow radix2 (-43) * dval (s3 o)) (sph_vector Polar w) (scale (dval (s3 o)) D)).
Proof.
  intros F1 F2 F3 B A w D. pose proof u53_pos as U0. pose proof u53_eq as Ue. pose proof (bpow_gt_0 radix2 (-395)) as P0. destruct (ent_cos L G _ F1) as ((Fc & Uc) & Ec & Bc).
  assert (M : Rabs (val (s2 o) * val (m_cos L (s1 o))) <= 5).
  { unfold dval in *. rewrite Rmult_comm. apply abs_le_mul; [apply Rabs_le; lra|exact A]. }
  assert (M' : Rabs (val (s2 o) * val (m_cos L (s1 o))) <= bpow radix2 3) by (cbn; lra).
  destruct (mul_ok (s2 o) (m_cos L (s1 o)) F2 Fc (fits 3 _ ltac:(lia) (rnd_bound _ 3 ltac:(lia) M'))) as [Fm V].
  set (b := d_mul (s2 o) (m_cos L (s1 o))) in *. pose proof (rnd_err (val (s2 o) * val (m_cos L (s1 o)))) as R. rewrite <- V in R.
  assert (T : t1075 <= u53 * / 1000). { pose proof (tiny_le 1 0 ltac:(lia)) as T. change (bpow radix2 0) with 1 in T. specialize (T ltac:(lra)). lra. }
  assert (E : Rabs (dval b - dval (s2 o) * cos (dval (s1 o))) <= 11 * u53).
  { unfold dval in *. replace (val b - val (s2 o) * cos (val (s1 o))) with ((val b - val (s2 o) * val (m_cos L (s1 o))) + val (s2 o) * (val (m_cos L (s1 o)) - cos (val (s1 o)))) by ring.
    assert (X : Rabs (val (s2 o) * (val (m_cos L (s1 o)) - cos (val (s1 o)))) <= 5 * (1 * u53)) by (rewrite Rabs_mult; apply Rmult_le_compat; auto using Rabs_pos).
    pose proof (abs_sum _ _ _ _ R X) as S. assert (u53 * Rabs (val (s2 o) * val (m_cos L (s1 o))) <= u53 * 5) by (apply Rmult_le_compat_l; lra). lra. }
  pose proof (within_weaken _ _ _ _ E (polar_lipschitz (dval (s1 o)) (dval b) (dval (s2 o) * cos (dval (s1 o))))) as W0. fold D in W0.
  assert (B5 : bpow radix2 (-500) <= dval (s3 o) <= bpow radix2 500) by (split; [eapply Rle_trans; [|apply B]|eapply Rle_trans; [apply B|]]; apply bpow_le; lia).
  assert (B4 : bpow radix2 (-400) <= dval (s3 o) <= bpow radix2 400) by (split; [eapply Rle_trans; [|apply B]|eapply Rle_trans; [apply B|]]; apply bpow_le; lia).
  destruct (from_close L G Polar old _ (42 / 10) _ _ B4 ltac:(lra) (sph_unit Polar _ _) (to_cartesian_sent L G Polar (DS (s1 o) b (s3 o)) F1 Fm F3 B5)) as (Q1 & Q2 & Q3 & Di & W & W').
  fold w in Q1, Q2, Q3, Di, W, W'. cbn [s1 s2 s3] in W, W'. set (r := dval (s3 o)) in *. unfold rel in Di.
  assert (Er : Rabs r = r) by (apply Rabs_pos_eq; lra).
  split; [exact Q1|]. split; [exact Q2|]. split; [exact Q3|]. split; [rewrite Er in Di; eapply Rle_trans; [exact Di|]; rewrite p48; nra|]. split.
  - pose proof (scaled_vector Polar _ r (21 * u53) (bpow radix2 (-21) + 11 * u53) _ _ _ ltac:(pose proof (bpow_ge_0 radix2 (-21)); lra) Di (within_trans _ _ _ _ _ W W0)) as S. rewrite Er in S. fold (sph_vector Polar w) in S.
    eapply within_weaken; [|exact S]. apply Rmult_le_compat_r; [lra|]. rewrite Ue. cbn. lra.
  - intros Z. assert (Z' : Rabs (rz (sph_direction Polar (dval (s1 o)) (dval b))) <= 9 / 10).
    { destruct W0 as (_ & _ & W2). pose proof (Rabs_triang (rz (sph_direction Polar (dval (s1 o)) (dval b)) - rz D) (rz D)) as S. replace (rz (sph_direction Polar (dval (s1 o)) (dval b)) - rz D + rz D) with (rz (sph_direction Polar (dval (s1 o)) (dval b))) in S by ring. rewrite Ue in W2. lra. }
    pose proof (scaled_vector Polar _ r (21 * u53) (bpow radix2 (-44) + 11 * u53) _ _ _ ltac:(pose proof (bpow_ge_0 radix2 (-44)); lra) Di (within_trans _ _ _ _ _ (W' Z') W0)) as S. rewrite Er in S. fold (sph_vector Polar w) in S.
    eapply within_weaken; [|exact S]. apply Rmult_le_compat_r; [lra|]. rewrite p43, p44. lra.
Qed.

(** What [make_coslat_d] gives: [m] is the vector in plain spherical form. *)
Lemma made_coslat old v m : m = make_angular_d L Polar old v -> dfinite (s1 m) -> dfinite (s2 m) -> dfinite (s3 m) -> bpow radix2 (-395) <= dval (s3 m) <= bpow radix2 395 ->
  coslat_of (make_coslat_d L old v) m.
Proof.
  intros E F1 F2 F3 B. unfold make_coslat_d. rewrite <- E. cbv zeta. pose proof (bpow_gt_0 radix2 (-395)) as P0.
  refine (coslat_stage old m F1 F2 F3 B _). rewrite E in F2, F3, B |- *. unfold make_angular_d in *. apply polar_angle; [exact F2|exact F3|lra].
Qed.

Theorem make_coslat_ok old v : vec_ok v ->
  let m := make_angular_d L Polar old v in made Polar m (vval v) /\ coslat_of (make_coslat_d L old v) m.
Proof.
  intros (F & B) m. pose proof (bpow_gt_0 radix2 (-200)) as P0.
  assert (B' : bpow radix2 (-390) <= rlength (vval v) <= bpow radix2 390) by (split; [eapply Rle_trans; [|apply B]|eapply Rle_trans; [apply B|]]; apply bpow_le; lia).
  pose proof (make_made L G Polar old v F B') as M. fold m in M. split; [exact M|]. destruct M as (F1 & F2 & F3 & D & _). apply Rabs_le_inv in D. change (bpow radix2 (-47)) with (/ 140737488355328) in D.
  apply made_coslat; [reflexivity|exact F1|exact F2|exact F3|]. split.
  - apply Rle_trans with (bpow radix2 (-201)); [apply bpow_le; lia|]. assert (bpow radix2 (-200) = 2 * bpow radix2 (-201)) by (change (-200)%Z with (-201 + 1)%Z; apply bpow_double). lra.
  - apply Rle_trans with (bpow radix2 201); [|apply bpow_le; lia]. change 201%Z with (200 + 1)%Z. rewrite bpow_double. lra.
Qed.

Theorem coslat_plus_ok old fx fy fz p b : sph_ok p -> velocity_ok fx fy fz b ->
  let B := in_units fx fy fz (true_velocity b) in let T := radd (sph_vector Polar p) B in let z := dval (s3 p) + rlength B in let e := velocity_cost b * ratio fx in
  well_clear T z e -> exists m, close_by Polar m T (2 * z) e /\ coslat_of (vel_coslat_plus_d L old fx fy fz p b) m.
Proof.
  intros Hp Hb B T z e C. exists (vel_angles_plus_d L Polar old fx fy fz p b). pose proof (angles_plus_ok Polar old fx fy fz p b Hp Hb C) as K. split; [exact K|].
  destruct K as (F1 & F2 & F3 & D & _). fold B in D. fold z T e in D. destruct C as (C1 & C2 & C3 & C4). fold B in C1, C2, C3, C4. fold z T in C1, C2, C3, C4. fold e in C2.
  apply made_coslat; [reflexivity|exact F1|exact F2|exact F3|]. apply Rabs_le_inv in D. change (bpow radix2 (-39)) with (/ 549755813888) in C1. change (bpow radix2 (-45)) with (/ 35184372088832) in D.
  pose proof (bpow_gt_0 radix2 (-379)) as P3. assert (bpow radix2 (-379) = 2 * bpow radix2 (-380)) by (change (-379)%Z with (-380 + 1)%Z; apply bpow_double).
  split; [apply Rle_trans with (bpow radix2 (-380)); [apply bpow_le; lia|]|apply Rle_trans with (bpow radix2 380); [change 380%Z with (379 + 1)%Z; rewrite bpow_double|apply bpow_le; lia]]; lra.
Qed.

(** ** Magnitude and unit vector *)

Lemma mag_val k p : (0 <= k <= 505)%Z -> bd k (dx p) -> bd k (dy p) -> bd k (dz p) ->
  let m := d_sqrt (d_add (d_add (d_add (d_of_Z 0) (d_mul (dx p) (dx p))) (d_mul (dy p) (dy p))) (d_mul (dz p) (dz p))) in
  fin m = true /\ val m = val (length_d p).
Proof.
  intros K B1 B2 B3 m. destruct (length_val k p K B1 B2 B3) as (_ & _ & VL). rewrite VL. clear VL. destruct p as [x y z]. unfold m. cbn [dx dy dz] in *. clear m.
  destruct (mul_bd k _ _ ltac:(lia) B1 B1) as [M1 V1]. destruct (mul_bd k _ _ ltac:(lia) B2 B2) as [M2 V2]. destruct (mul_bd k _ _ ltac:(lia) B3 B3) as [M3 V3]. destruct zero_ok as [F0 V0].
  assert (M0 : bd (k + k) (d_add (d_of_Z 0) (d_mul x x)) /\ val (d_add (d_of_Z 0) (d_mul x x)) = val (d_mul x x)).
  { destruct (add_ok (d_of_Z 0) (d_mul x x) F0 (proj1 M1)) as [F6 V6]; [rewrite V0, Rplus_0_l, rnd_id by apply val_fmt; apply val_below, M1|].
    rewrite V0, Rplus_0_l, rnd_id in V6 by apply val_fmt. split; [split; [exact F6|rewrite V6; apply M1]|exact V6]. }
  destruct M0 as [M0 V0']. destruct (add_bd (k + k) _ _ ltac:(lia) M0 M2) as [M4 V4]. apply (bd_weaken (k + k) (k + k + 1) _ ltac:(lia)) in M3.
  destruct (add_bd (k + k + 1) _ _ ltac:(lia) M4 M3) as [M5 V5]. rewrite V4, V0', V1, V2, V3 in V5.
  assert (P : 0 <= val (d_add (d_add (d_add (d_of_Z 0) (d_mul x x)) (d_mul y y)) (d_mul z z))).
  { rewrite V5. apply rnd_pos, Rplus_le_le_0_compat; [apply rnd_pos, Rplus_le_le_0_compat|]; apply rnd_pos, Rle_0_sqr. }
  destruct (sqrt_ok _ (proj1 M5) P) as [F V]. split; [exact F|]. rewrite V, V5. reflexivity.
Qed.

Lemma quotient_unit r c a A m : bpow radix2 (-400) <= r <= bpow radix2 400 -> 0 <= c <= 5 -> sent r c a A -> fin m = true -> rel 21 (val m) r ->
  fin (d_div a m) = true /\ Rabs (val (d_div a m) - A) <= bpow radix2 (-48).
Proof.
  intros Hr C (Fa & Ba & Ea & BA) Fm Rm. pose proof (bpow_gt_0 radix2 (-400)) as P0. pose proof u53_pos as U0. assert (Pr : 0 < r) by lra.
  assert (Hd : Rabs (r * A) <= r) by (rewrite Rabs_mult, (Rabs_pos_eq r) by lra; pose proof (Rabs_pos A); nra).
  destruct (quotient_abs (val a) (val m) (r * A) r c 21 Pr ltac:(lra) ltac:(lra) Hd Ea Rm) as (Pm & E & B2).
  replace (r * A / r) with A in E by (field; lra). assert (Y : Rabs (val a / val m) <= bpow radix2 1) by (cbn; lra).
  destruct (div_ok a m Fa ltac:(lra) (fits 1 _ ltac:(lia) (rnd_bound _ 1 ltac:(lia) Y))) as [F V]. split; [exact F|]. rewrite V.
  pose proof (rnd_abs 1 _ ltac:(lia) Y) as R. change (bpow radix2 (1 - 54)) with u53 in R. replace (rnd (val a / val m) - A) with ((rnd (val a / val m) - val a / val m) + (val a / val m - A)) by ring.
  pose proof (abs_sum _ _ _ _ R E) as S. rewrite p48. nra.
Qed.

Lemma plain_sent b : match b with VAxes v => vec_ok v | VAngles _ p | VCoslat p => sph_ok p end ->
  let r := rlength (stored_vector b) in bpow radix2 (-400) <= r <= bpow radix2 400 /\ exists n, runit n /\ stored_vector b = scale r n /\ sent3 r (42 / 10) (vel_plain_d L b) n.
Proof.
  assert (Sph : forall s p, sph_ok p -> let r := rlength (sph_vector s p) in bpow radix2 (-400) <= r <= bpow radix2 400 /\ exists n, runit n /\ sph_vector s p = scale r n /\ sent3 r (42 / 10) (to_cartesian_d L s p) n).
  { intros s p Hp r. destruct (first_app L G s p Hp) as (Len & B & _). destruct (ok_wide p Hp) as (F1 & F2 & F3 & B5). unfold r. rewrite Len.
    split; [split; [eapply Rle_trans; [|apply B]|eapply Rle_trans; [apply B|]]; apply bpow_le; lia|]. exists (sph_direction s (dval (s1 p)) (dval (s2 p))).
    split; [apply sph_unit|]. split; [reflexivity|]. apply (to_cartesian_sent L G s p F1 F2 F3 B5). }
  destruct b as [v|s p|p]; cbn [stored_vector vel_plain_d]; [|apply Sph|apply Sph]. intros (F & B). set (r := rlength (vval v)). pose proof (bpow_gt_0 radix2 (-200)) as P0. assert (P : 0 < r) by (unfold r; lra).
  split; [split; [eapply Rle_trans; [|apply B]|eapply Rle_trans; [apply B|]]; apply bpow_le; lia|]. exists (unit_of (vval v)). split; [apply unit_of_unit, P|]. split.
  - unfold unit_of. fold r. rewrite scale_scale. unfold scale. rewrite Rinv_l by lra. rewrite !Rmult_1_l. destruct (vval v); reflexivity.
  - destruct (exact_sent v F P) as (X & Y & Z). pose proof u53_pos. split; [|split]; (eapply sent_weaken; [| |eassumption]; lra).
Qed.

Theorem magnitude_unit_ok b : match b with VAxes v => vec_ok v | VAngles _ p | VCoslat p => sph_ok p end ->
  let r := rlength (stored_vector b) in
  dfinite (vel_magnitude_d L b) /\ Rabs (dval (vel_magnitude_d L b) - r) <= bpow radix2 (-48) * r /\
  vfinite (vel_unit_d L b) /\ within (bpow radix2 (-48)) (vval (vel_unit_d L b)) (unit_of (stored_vector b)).
Proof.
  intros Hb r. destruct (plain_sent b Hb) as (B & n & U & E & S). fold r in B, E, S. pose proof (bpow_gt_0 radix2 (-400)) as P0. pose proof u53_pos as U0.
  assert (BD : forall a A, sent r (42 / 10) a A -> bd 400 a) by (intros a A (F & X & _); split; [exact F|lra]).
  destruct (length_close r (42 / 10) _ n B ltac:(lra) U S) as (_ & Rl & _). destruct S as (S1 & S2 & S3).
  destruct (mag_val 400 (vel_plain_d L b) ltac:(lia) (BD _ _ S1) (BD _ _ S2) (BD _ _ S3)) as [Fm Vm]. rewrite <- Vm in Rl.
  assert (En : unit_of (stored_vector b) = n).
  { unfold unit_of. fold r. rewrite E, scale_scale. unfold scale. rewrite Rinv_r by lra. rewrite !Rmult_1_l. destruct n; reflexivity. }
  rewrite En. split; [exact Fm|]. split.
  { unfold rel in Rl. rewrite (Rabs_pos_eq r) in Rl by lra. eapply Rle_trans; [exact Rl|]. rewrite p48. nra. }
  destruct (quotient_unit r (42 / 10) _ _ _ B ltac:(lra) S1 Fm Rl) as [F1 E1]. destruct (quotient_unit r (42 / 10) _ _ _ B ltac:(lra) S2 Fm Rl) as [F2 E2]. destruct (quotient_unit r (42 / 10) _ _ _ B ltac:(lra) S3 Fm Rl) as [F3 E3].
  split; [split; [exact F1|split; [exact F2|exact F3]]|]. split; [exact E1|split; [exact E2|exact E3]].
Qed.

End Library.
