(** * Libraries that meet the demands, and what even the best of them cannot prevent. *)
From Coq Require Import ZArith Reals Lia Lra Psatz.
From Flocq Require Import Core Relative IEEE754.BinarySingleNaN IEEE754.Binary IEEE754.Bits.
From Verif Require Import TextModel TextSpec TextRound TextScan TextFloat TextProofs TextLaws TextRead TextCard DoubleModel DoubleSpec DoubleProofs DoubleUnits VectorModel VectorSpec VectorProofs VectorArith VectorProducts VectorLength VectorUnit SkyModel SkySpec SkyAngles SkyProofs SkyConvert SkySeparation SkyTransform CoordModel CoordProofs.
Local Open Scope R_scope.

#[local] Instance prec53 : Prec_gt_0 53 := eq_refl.
#[local] Existing Instance near.

(** ** A correctly rounded library *)

Notation fexp64 := (FLT_exp (-1074) 53).

Definition of_R (r : R) : double :=
  binary_normalize 53 1024 eq_refl eq_refl mode_NE (ZnearestE (scaled_mantissa radix2 fexp64 r)) (cexp radix2 fexp64 r) false.

Lemma of_R_ok r : Rabs r <= bpow radix2 10 -> fin (of_R r) = true /\ val (of_R r) = rnd r.
Proof.
  intros B. unfold of_R. set (m := ZnearestE (scaled_mantissa radix2 fexp64 r)). set (e := cexp radix2 fexp64 r).
  pose proof (binary_normalize_correct 53 1024 eq_refl eq_refl mode_NE m e false) as C.
  assert (E : F2R (Float radix2 m e) = rnd r) by reflexivity. clearbody m e. rewrite E in C.
  change (round radix2 (SpecFloat.fexp 53 1024) (round_mode mode_NE) (rnd r)) with (rnd (rnd r)) in C. rewrite (rnd_id (rnd r) (rnd_fmt r)) in C.
  rewrite Rlt_bool_true in C by (apply (fits 10); [lia|apply rnd_bound; [lia|exact B]]). destruct C as (C1 & C2 & _). auto.
Qed.

Definition nan64 : double := proj1_sig default_nan_pl64.
Definition unit_dec (x : double) : {in_unit x} + {~ in_unit x}.
Proof.
  unfold in_unit, dfinite. destruct (Bool.bool_dec (is_finite 53 1024 x) true) as [F|F]; [|right; intros [H _]; contradiction].
  destruct (Rle_dec (-1) (dval x)) as [A|A]; [|right; intros [_ [H _]]; contradiction]. destruct (Rle_dec (dval x) 1) as [B|B]; [left; auto|right; intros [_ [_ H]]; contradiction].
Defined.

Definition best_libm : libm :=
  LM (fun x => of_R (sin (dval x))) (fun x => of_R (cos (dval x)))
     (fun x => if unit_dec x then of_R (asin (dval x)) else nan64) (fun x => if unit_dec x then of_R (acos (dval x)) else nan64)
     (fun y x => of_R (atan2 (dval y) (dval x))).

Lemma small_abs r : -4 <= r <= 4 -> Rabs r <= bpow radix2 10.
Proof. intros H. change (bpow radix2 10) with 1024. apply Rabs_le. lra. Qed.

Lemma nan_not : ~ dfinite nan64. Proof. unfold dfinite, nan64. vm_compute. discriminate. Qed.

Theorem best_rounded : rounded_libm best_libm.
Proof.
  pose proof PI_4 as P4. pose proof PI_RGT_0 as P0. constructor; cbn [m_sin m_cos m_asin m_acos m_atan2 best_libm].
  - intros x _. pose proof (SIN_bound (dval x)). apply of_R_ok, small_abs. lra.
  - intros x _. pose proof (COS_bound (dval x)). apply of_R_ok, small_abs. lra.
  - intros x U. destruct (unit_dec x) as [_|N]; [|contradiction]. pose proof (asin_bound (dval x)). apply of_R_ok, small_abs. lra.
  - intros x U. destruct (unit_dec x) as [N|_]; [contradiction|]. apply nan_not.
  - intros x U. destruct (unit_dec x) as [_|N]; [|contradiction]. pose proof (acos_bound (dval x)). apply of_R_ok, small_abs. lra.
  - intros x U. destruct (unit_dec x) as [N|_]; [contradiction|]. apply nan_not.
  - intros y x _ _. pose proof (atan2_range (dval y) (dval x)) as A. destruct (of_R_ok (atan2 (dval y) (dval x))) as [F V]; [apply small_abs; lra|]. split; [exact F|].
    exists (atan2 (dval y) (dval x)). split; [|exact V]. split; [lra|]. destruct (polar_parts (dval x) (dval y)) as [X Y]. split; symmetry; assumption.
Qed.

Theorem rounded_good L : rounded_libm L -> good_libm L.
Proof.
  intros [S C A Ao B Bo T]. pose proof PI_4 as P4. pose proof PI_RGT_0 as P0. pose proof u53_pos as U0.
  assert (One : forall a r, dfinite a -> dval a = rnd r -> -1 <= r <= 1 -> in_unit a /\ Rabs (dval a - r) <= bpow radix2 (-53)).
  { intros a r F V B1. assert (Br : Rabs r <= bpow radix2 0) by (cbn [bpow]; apply Rabs_le; lra).
    split; [apply unit_abs; split; [exact F|]; unfold dval in V; rewrite V; apply (rnd_bound r 0); [lia|exact Br]|]. rewrite V. eapply Rle_trans; [apply (rnd_abs 0 r); [lia|exact Br]|]. apply bpow_le. lia. }
  assert (Two : forall a r k, dval a = rnd r -> (-1000 <= k)%Z -> Rabs r <= bpow radix2 k -> Rabs (dval a - r) <= bpow radix2 (k - 54)) by (intros a r k V K H; rewrite V; apply rnd_abs; assumption).
  constructor.
  - intros x F. destruct (S x F) as [F1 V]. apply One; [exact F1|exact V|apply SIN_bound].
  - intros x F. destruct (C x F) as [F1 V]. apply One; [exact F1|exact V|apply COS_bound].
  - intros x U. destruct (A x U) as [F V]. split; [exact F|]. pose proof (asin_bound (dval x)). eapply Rle_trans; [apply (Two _ _ 1%Z V); [lia|rewrite bpow_1; apply Rabs_le; lra]|]. apply bpow_le. lia.
  - exact Ao.
  - intros x U. destruct (B x U) as [F V]. split; [exact F|]. pose proof (acos_bound (dval x)). eapply Rle_trans; [apply (Two _ _ 2%Z V); [lia|change (bpow radix2 2) with 4; apply Rabs_le; lra]|]. apply bpow_le. lia.
  - exact Bo.
  - intros y x Fy Fx. destruct (T y x Fy Fx) as (F & t & At & V). split; [exact F|]. exists t. split; [exact At|]. pose proof (proj1 At). eapply Rle_trans; [apply (Two _ _ 2%Z V); [lia|change (bpow radix2 2) with 4; apply Rabs_le; lra]|]. apply bpow_le. lia.
Qed.

(** ** Particular roundings *)

Lemma rnd_eq k m y : (-1000 <= k)%Z -> bpow radix2 (k - 1) <= y < bpow radix2 k -> Rabs (y * bpow radix2 (53 - k) - IZR m) < / 2 -> rnd y = IZR m * bpow radix2 (k - 53).
Proof.
  intros K B H. pose proof (bpow_gt_0 radix2 (k - 1)) as P. unfold nearest. change (f_emin TextModel.binary64) with (-1074)%Z. change (f_man TextModel.binary64 + 1)%Z with 53%Z.
  unfold round. assert (C : cexp radix2 fexp64 y = (k - 53)%Z).
  { unfold cexp. rewrite (mag_unique radix2 y k) by (rewrite Rabs_pos_eq; lra). unfold FLT_exp. lia. }
  unfold scaled_mantissa. rewrite C. replace (- (k - 53))%Z with (53 - k)%Z by lia. rewrite (Znearest_imp _ _ m H). reflexivity.
Qed.

(** The terms of the two series, without factorials. *)
Lemma sin_step a i : sin_term a (S i) = - sin_term a i * (a * a) / ((2 * INR i + 2) * (2 * INR i + 3)).
Proof.
  unfold sin_term. replace (2 * S i + 1)%nat with (S (S (2 * i + 1))) by lia. rewrite !fact_simpl, !mult_INR. rewrite <- !tech_pow_Rmult.
  assert (E1 : INR (S (2 * i + 1)) = 2 * INR i + 2) by (rewrite S_INR, plus_INR, mult_INR; cbn; ring).
  assert (E2 : INR (S (S (2 * i + 1))) = 2 * INR i + 3) by (rewrite S_INR, E1; ring). rewrite E1, E2.
  pose proof (pos_INR i). pose proof (INR_fact_neq_0 (2 * i + 1)). field. repeat split; try assumption; lra.
Qed.

Lemma cos_step a i : cos_term a (S i) = - cos_term a i * (a * a) / ((2 * INR i + 1) * (2 * INR i + 2)).
Proof.
  unfold cos_term. replace (2 * S i)%nat with (S (S (2 * i))) by lia. rewrite !fact_simpl, !mult_INR. rewrite <- !tech_pow_Rmult.
  assert (E1 : INR (S (2 * i)) = 2 * INR i + 1) by (rewrite S_INR, mult_INR; cbn; ring).
  assert (E2 : INR (S (S (2 * i))) = 2 * INR i + 2) by (rewrite S_INR, E1; ring). rewrite E1, E2.
  pose proof (pos_INR i). pose proof (INR_fact_neq_0 (2 * i)). field. repeat split; try assumption; lra.
Qed.

Lemma sin_term_0 a : sin_term a 0 = a. Proof. unfold sin_term. cbn. field. Qed.
Lemma cos_term_0 a : cos_term a 0 = 1. Proof. unfold cos_term. cbn. field. Qed.

Definition zenith_angle : R := 35 / 512.

Lemma zenith_sin : rnd (sin zenith_angle) = 4921976598651421 / 72057594037927936.
Proof.
  assert (B : Rabs (sin zenith_angle * 72057594037927936 - 4921976598651421) < / 2 /\ / 16 <= sin zenith_angle < / 8).
  { pose proof PI_RGT_0. pose proof PI2_1 as P1. assert (Ra : 0 <= zenith_angle <= PI) by (unfold zenith_angle; lra).
    destruct (sin_bound zenith_angle 2 (proj1 Ra) (proj2 Ra)) as [Lo Hi]. unfold sin_approx in Lo, Hi. change (2 * 2 + 1)%nat with 5%nat in Lo. change (2 * (2 + 1))%nat with 6%nat in Hi. cbn [sum_f_R0] in Lo, Hi.
    pose proof (sin_step zenith_angle 0) as T1. pose proof (sin_step zenith_angle 1) as T2. pose proof (sin_step zenith_angle 2) as T3. pose proof (sin_step zenith_angle 3) as T4. pose proof (sin_step zenith_angle 4) as T5. pose proof (sin_step zenith_angle 5) as T6.
    rewrite sin_term_0 in *. cbn [INR] in T1, T2, T3, T4, T5, T6. unfold zenith_angle in *.
    set (t1 := sin_term _ 1) in *. set (t2 := sin_term _ 2) in *. set (t3 := sin_term _ 3) in *. set (t4 := sin_term _ 4) in *. set (t5 := sin_term _ 5) in *. set (t6 := sin_term _ 6) in *. clearbody t1 t2 t3 t4 t5 t6.
    set (v := sin (35 / 512)) in *. clearbody v. split; [apply Rabs_lt|]; lra. }
  destruct B as [B1 B2]. rewrite (rnd_eq (-3) 4921976598651421); [cbn; lra|lia| |].
  - cbn. lra.
  - change (bpow radix2 (53 - -3)) with 72057594037927936. exact B1.
Qed.

Lemma zenith_cos : rnd (cos zenith_angle) = 8986162109127459 / 9007199254740992.
Proof.
  assert (B : Rabs (cos zenith_angle * 9007199254740992 - 8986162109127459) < / 2 /\ / 2 <= cos zenith_angle < 1).
  { pose proof PI_RGT_0. pose proof PI2_1 as P1. assert (Ra : - PI / 2 <= zenith_angle <= PI / 2) by (unfold zenith_angle; lra).
    destruct (cos_bound zenith_angle 2 (proj1 Ra) (proj2 Ra)) as [Lo Hi]. unfold cos_approx in Lo, Hi. change (2 * 2 + 1)%nat with 5%nat in Lo. change (2 * (2 + 1))%nat with 6%nat in Hi. cbn [sum_f_R0] in Lo, Hi.
    pose proof (cos_step zenith_angle 0) as T1. pose proof (cos_step zenith_angle 1) as T2. pose proof (cos_step zenith_angle 2) as T3. pose proof (cos_step zenith_angle 3) as T4. pose proof (cos_step zenith_angle 4) as T5. pose proof (cos_step zenith_angle 5) as T6.
    rewrite cos_term_0 in *. cbn [INR] in T1, T2, T3, T4, T5, T6. unfold zenith_angle in *.
    set (t1 := cos_term _ 1) in *. set (t2 := cos_term _ 2) in *. set (t3 := cos_term _ 3) in *. set (t4 := cos_term _ 4) in *. set (t5 := cos_term _ 5) in *. set (t6 := cos_term _ 6) in *. clearbody t1 t2 t3 t4 t5 t6.
    set (v := cos (35 / 512)) in *. clearbody v. split; [apply Rabs_lt|]; lra. }
  destruct B as [B1 B2]. rewrite (rnd_eq 0 8986162109127459); [cbn; lra|lia| |].
  - cbn. lra.
  - change (bpow radix2 (53 - 0)) with 9007199254740992. exact B1.
Qed.

(** ** A star in the zenith: the altitude is not a number *)

Definition zenith_d : double := d_div (d_of_Z 35) (d_of_Z 512).
Lemma zenith_val : dfinite zenith_d /\ dval zenith_d = zenith_angle.
Proof.
  split; [vm_compute; reflexivity|]. unfold dval. rewrite <- d_bits_val. unfold fval. replace (float_of TextModel.binary64 (d_bits zenith_d)) with (F754_finite false 4925812092436480 (-56)) by (vm_compute; reflexivity).
  unfold FF2R, F2R, zenith_angle. cbn [cond_Zopp Fnum Fexp]. change (bpow radix2 (-56)) with (/ 72057594037927936). lra.
Qed.

Section Best.
Context (L : libm) (G : rounded_libm L).

Lemma cos_0_d x : dfinite x -> dval x = 0 -> dfinite (m_cos L x) /\ dval (m_cos L x) = 1.
Proof. intros F V. destruct (cos_rounded L G x F) as [F1 V1]. split; [exact F1|]. rewrite V1, V, cos_0. apply rnd_id. apply (pow_fmt 0). lia. Qed.
Lemma sin_0_d x : dfinite x -> dval x = 0 -> dfinite (m_sin L x) /\ dval (m_sin L x) = 0.
Proof. intros F V. destruct (sin_rounded L G x F) as [F1 V1]. split; [exact F1|]. rewrite V1, V, sin_0. apply nearest_0. Qed.

Lemma mul_exact a b y : dfinite a -> dfinite b -> Rabs (rnd (dval a * dval b)) <= bpow radix2 10 -> rnd (dval a * dval b) = y -> dfinite (d_mul a b) /\ dval (d_mul a b) = y.
Proof. intros A B H E. destruct (mul_ok a b A B (fits 10 _ ltac:(lia) H)) as [F V]. split; [exact F|]. unfold dval in *. rewrite V. exact E. Qed.
Lemma add_exact a b y : dfinite a -> dfinite b -> Rabs (rnd (dval a + dval b)) <= bpow radix2 10 -> rnd (dval a + dval b) = y -> dfinite (d_add a b) /\ dval (d_add a b) = y.
Proof. intros A B H E. destruct (add_ok a b A B (fits 10 _ ltac:(lia) H)) as [F V]. split; [exact F|]. unfold dval in *. rewrite V. exact E. Qed.

Lemma zenith_not : ~ dfinite (snd (convert_angles_d L (ha_dec_horizon_d L zenith_d) (d_of_Z 0, zenith_d))).
Proof.
  destruct zenith_val as [Fz Vz]. destruct zero_ok as [F0 V0].
  destruct (sin_rounded L G _ Fz) as [Fs Vs]. destruct (cos_rounded L G _ Fz) as [Fc Vc]. rewrite Vz, zenith_sin in Vs. rewrite Vz, zenith_cos in Vc.
  destruct (cos_0_d (d_of_Z 0) F0 V0) as [F1 V1].
  unfold convert_angles_d, extract_coordinates_d. cbn [fst snd]. apply (asin_outside L G). intros [_ [_ H]]. revert H. apply Rlt_not_le.
  unfold product_d, ha_dec_horizon_d, column_vector_d, row_product_d. cbn [dx dy dz drow0 drow1 drow2].
  set (s := m_sin L zenith_d) in *. set (c := m_cos L zenith_d) in *. set (o := m_cos L (d_of_Z 0)) in *. 
  assert (Fmt : fmt (dval c)) by apply val_fmt.
  destruct (mul_exact o c (dval c)) as [Fx Vx]; [exact F1|exact Fc| | |].
  { rewrite V1, Rmult_1_l, rnd_id by exact Fmt. apply small_abs. rewrite Vc. lra. }
  { rewrite V1, Rmult_1_l. apply rnd_id, Fmt. }
  assert (C2 : rnd (dval c * dval c) = 8965174097710145 / 9007199254740992).
  { rewrite Vc, (rnd_eq 0 8965174097710145); [cbn; lra|lia|cbn; lra|]. change (bpow radix2 (53 - 0)) with 9007199254740992. apply Rabs_lt. lra. }
  assert (S2 : rnd (dval s * dval s) = 5379220099948559 / 1152921504606846976).
  { rewrite Vs, (rnd_eq (-7) 5379220099948559); [cbn; lra|lia|cbn; lra|]. change (bpow radix2 (53 - -7)) with 1152921504606846976. apply Rabs_lt. lra. }
  destruct (mul_exact c (d_mul o c) (8965174097710145 / 9007199254740992)) as [Fp Vp]; [exact Fc|exact Fx|rewrite Vx, C2; apply small_abs; lra|rewrite Vx; exact C2|].
  destruct (mul_exact s s (5379220099948559 / 1152921504606846976)) as [Fq Vq]; [exact Fs|exact Fs|rewrite S2; apply small_abs; lra|exact S2|].
  assert (Fy : dfinite (d_mul (m_sin L (d_of_Z 0)) c) /\ dval (d_mul (m_sin L (d_of_Z 0)) c) = 0).
  { destruct (sin_0_d (d_of_Z 0) F0 V0) as [Fi Vi]. apply mul_exact; [exact Fi|exact Fc| |]; rewrite Vi, Rmult_0_l, nearest_0; [rewrite Rabs_R0; apply bpow_ge_0|reflexivity]. }
  destruct Fy as [Fy Vy].
  destruct (mul_exact (d_of_Z 0) (d_mul (m_sin L (d_of_Z 0)) c) 0) as [Fm Vm]; [exact F0|exact Fy| | |].
  { rewrite Vy, Rmult_0_r, nearest_0, Rabs_R0. apply bpow_ge_0. }
  { rewrite Vy, Rmult_0_r. apply nearest_0. }
  assert (Fmp : fmt (dval (d_mul c (d_mul o c)))) by apply val_fmt. assert (V0' : dval (d_of_Z 0) = 0) by exact V0.
  destruct (add_exact (d_of_Z 0) (d_mul c (d_mul o c)) (8965174097710145 / 9007199254740992)) as [Fa Va]; [exact F0|exact Fp| | |].
  { rewrite V0', Rplus_0_l, rnd_id by exact Fmp. rewrite Vp. apply small_abs. lra. }
  { rewrite V0', Rplus_0_l, rnd_id by exact Fmp. exact Vp. }
  set (a := d_add (d_of_Z 0) (d_mul c (d_mul o c))) in *. assert (Fma : fmt (dval a)) by apply val_fmt.
  destruct (add_exact a (d_mul (d_of_Z 0) (d_mul (m_sin L (d_of_Z 0)) c)) (8965174097710145 / 9007199254740992)) as [Fb Vb]; [exact Fa|exact Fm| | |].
  { rewrite Vm, Rplus_0_r, rnd_id by exact Fma. rewrite Va. apply small_abs. lra. }
  { rewrite Vm, Rplus_0_r, rnd_id by exact Fma. exact Va. }
  set (b := d_add a (d_mul (d_of_Z 0) (d_mul (m_sin L (d_of_Z 0)) c))) in *.
  assert (Y : rnd (dval b + dval (d_mul s s)) = 4503599627370497 / 4503599627370496).
  { rewrite Vb, Vq, (rnd_eq 1 4503599627370497); [cbn; lra|lia|cbn; lra|]. change (bpow radix2 (53 - 1)) with 4503599627370496. apply Rabs_lt. lra. }
  destruct (add_exact b (d_mul s s) (4503599627370497 / 4503599627370496)) as [_ ->]; [exact Fb|exact Fq|rewrite Y; apply small_abs; lra|exact Y|]. lra.
Qed.

(** ** A point near the pole: the deviation is lost *)

Definition near_pole : dvec := DV (d_div (d_of_Z 1) (d_of_Z (2 ^ 27))) (d_of_Z 0) (d_of_Z 1).

Lemma bits_val x s m e : float_of TextModel.binary64 (d_bits x) = F754_finite s m e -> dval x = IZR (cond_Zopp s (Zpos m)) * bpow radix2 e.
Proof. intros H. unfold dval. rewrite <- d_bits_val. unfold fval. rewrite H. reflexivity. Qed.

Lemma pole_stage old p : vfinite p -> dfinite (length_d p) -> dval (length_d p) = 1 -> dval (dz p) = 1 ->
  let o := from_cartesian_d L Polar old p in dfinite (s1 o) /\ dfinite (s2 o) /\ dfinite (s3 o) /\ dval (s2 o) = 0 /\ dval (s3 o) = 1.
Proof.
  intros (Fx & Fy & Fz) Fl Vl Vz o. unfold o, from_cartesian_d. cbn [s1 s2 s3]. unfold dval, dfinite in *. rewrite (positive_ok _ Fl) by (rewrite Vl; lra).
  destruct (part_unit (dz p) (length_d p) Fz Fl ltac:(lra) ltac:(rewrite Vz, Vl, Rabs_R1; lra)) as (Fq & Vq & _).
  assert (Vq' : val (d_div (dz p) (length_d p)) = 1). { rewrite Vq, Vz, Vl. replace (1 / 1) with 1 by lra. apply rnd_id. apply (pow_fmt 0). lia. }
  destruct (acos_rounded L G (d_div (dz p) (length_d p))) as [Fa Va]; [split; [exact Fq|unfold dval; rewrite Vq'; lra]|].
  destruct (atan2_rounded L G (dy p) (dx p) Fy Fx) as (Ft & _). split; [exact Ft|]. split; [exact Fa|]. split; [exact Fl|]. split; [|exact Vl].
  unfold dval in Va. rewrite Va, Vq', acos_1. apply nearest_0.
Qed.

Lemma near_pole_lost s old : s = Polar ->
  let o := make_angular_d L s old near_pole in
  dval (s2 o) = 0 /\ dval (s3 o) = 1 /\ vval (to_cartesian_d L s o) = RV 0 0 1 /\ vval near_pole = RV (bpow radix2 (-27)) 0 1.
Proof.
  intros -> o. assert (Vn : vval near_pole = RV (bpow radix2 (-27)) 0 1).
  { destruct zero_ok as [_ Z]. destruct (small_int_ok 1 eq_refl) as [_ O]. unfold vval, near_pole, dval. cbn [dx dy dz]. rewrite Z, O. f_equal.
    change (dval (d_div (d_of_Z 1) (d_of_Z (2 ^ 27))) = bpow radix2 (-27)).
    rewrite (bits_val _ false 4503599627370496 (-79)) by (vm_compute; reflexivity). cbn [cond_Zopp]. change (IZR (Z.pos 4503599627370496)) with (bpow radix2 52). rewrite <- bpow_plus. reflexivity. }
  assert (Fl : dfinite (length_d near_pole)) by (vm_compute; reflexivity).
  assert (Vl : dval (length_d near_pole) = 1). { rewrite (bits_val _ false 4503599627370496 (-52)) by (vm_compute; reflexivity). cbn [cond_Zopp]. change (bpow radix2 (-52)) with (/ 4503599627370496). lra. }
  assert (Fn : vfinite near_pole) by (repeat split; vm_compute; reflexivity).
  destruct (pole_stage (d_of_Z 0) near_pole Fn Fl Vl) as (I1 & I2 & I3 & I4 & I5); [apply (small_int_ok 1 eq_refl)|].
  set (i := from_cartesian_d L Polar (d_of_Z 0) near_pole) in *.
  assert (To : forall o, dfinite (s1 o) -> dfinite (s2 o) -> dfinite (s3 o) -> dval (s2 o) = 0 -> dval (s3 o) = 1 -> vfinite (to_cartesian_d L Polar o) /\ vval (to_cartesian_d L Polar o) = RV 0 0 1).
  { clear - G. intros o F1 F2 F3 V2 V3. destruct (sin_0_d _ F2 V2) as [Fs Vs]. destruct (cos_0_d _ F2 V2) as [Fc Vc].
    assert (Z : forall a b, dfinite a -> dfinite b -> dval a * dval b = 0 -> dfinite (d_mul a b) /\ dval (d_mul a b) = 0).
    { intros a b A B E. apply mul_exact; [exact A|exact B| |]; rewrite E, nearest_0; [rewrite Rabs_R0; apply bpow_ge_0|reflexivity]. }
    destruct (Z (s3 o) (m_sin L (s2 o)) F3 Fs) as [Fm Vm]; [rewrite Vs; ring|].
    destruct (Z _ (m_cos L (s1 o)) Fm (proj1 (cos_rounded L G _ F1))) as [Fx Vx]; [rewrite Vm; ring|].
    destruct (Z _ (m_sin L (s1 o)) Fm (proj1 (sin_rounded L G _ F1))) as [Fy Vy]; [rewrite Vm; ring|].
    assert (One : rnd (1 * 1) = 1) by (rewrite Rmult_1_l; apply rnd_id; apply (pow_fmt 0); lia).
    destruct (mul_exact (s3 o) (m_cos L (s2 o)) 1) as [Fz Vz]; [exact F3|exact Fc|rewrite V3, Vc, One; apply small_abs; lra|rewrite V3, Vc; exact One|].
    unfold to_cartesian_d, vfinite, vval. cbn [dx dy dz]. split; [split; [|split]; assumption|]. rewrite Vx, Vy, Vz. reflexivity. }
  destruct (To i I1 I2 I3 I4 I5) as [Fw Vw]. unfold make_angular_d in o. fold i in o. set (w := to_cartesian_d L Polar i) in *. clearbody w.
  assert (Vx : dval (dx w) = 0) by exact (f_equal rx Vw). assert (Vy : dval (dy w) = 0) by exact (f_equal ry Vw). assert (Vz : dval (dz w) = 1) by exact (f_equal rz Vw).
  destruct Fw as (Fx & Fy & Fz). unfold dval, dfinite in *.
  assert (Bd : forall a, fin a = true -> val a = 0 \/ val a = 1 -> bd 0 a) by (intros a F [E|E]; split; try exact F; rewrite E, ?Rabs_R0, ?Rabs_R1; cbn; lra).
  destruct (length_val 0 w ltac:(lia) (Bd _ Fx ltac:(left; exact Vx)) (Bd _ Fy ltac:(left; exact Vy)) (Bd _ Fz ltac:(right; exact Vz))) as (Fwl & _ & Vwl).
  assert (One : rnd 1 = 1) by (apply rnd_id; apply (pow_fmt 0); lia).
  rewrite Vx, Vy, Vz, !Rmult_0_l, !nearest_0, Rmult_1_l, Rplus_0_l, nearest_0, One, Rplus_0_l, One, sqrt_1, One in Vwl.
  destruct (pole_stage old w (conj Fx (conj Fy Fz)) Fwl Vwl Vz) as (O1 & O2 & O3 & O4 & O5). fold o in O1, O2, O3, O4, O5.
  split; [exact O4|]. split; [exact O5|]. split; [|exact Vn]. apply (To o); assumption.
Qed.

End Best.

(** ** Separations, whatever the library *)

Lemma ones_not L : good_libm L -> ~ dfinite (separation_d L None None (DV (d_of_Z 1) (d_of_Z 1) (d_of_Z 1)) (DV (d_of_Z 1) (d_of_Z 1) (d_of_Z 1))).
Proof.
  intros G. unfold separation_d. apply (acos_domain L G). intros [_ [_ H]]. revert H. apply Rlt_not_le.
  rewrite (bits_val _ false 4503599627370497 (-52)) by (vm_compute; reflexivity). cbn [cond_Zopp]. change (bpow radix2 (-52)) with (/ 4503599627370496). lra.
Qed.

Definition one_x : dvec := DV (d_of_Z 1) (d_of_Z 0) (d_of_Z 0).
Definition beside_x : dvec := DV (d_of_Z 1) (d_div (d_of_Z 1) (d_of_Z (2 ^ 27))) (d_of_Z 0).

Lemma close_pair L : good_libm L -> dfinite (separation_d L None None one_x beside_x) /\ Rabs (dval (separation_d L None None one_x beside_x)) <= bpow radix2 (-51).
Proof.
  intros G. assert (U : in_unit (d_div (dot_d None None None None one_x beside_x) (d_mul (magnitude_d None None one_x) (magnitude_d None None beside_x))) /\
                        dval (d_div (dot_d None None None None one_x beside_x) (d_mul (magnitude_d None None one_x) (magnitude_d None None beside_x))) = 1).
  { assert (V : dval (d_div (dot_d None None None None one_x beside_x) (d_mul (magnitude_d None None one_x) (magnitude_d None None beside_x))) = 1).
    { rewrite (bits_val _ false 4503599627370496 (-52)) by (vm_compute; reflexivity). cbn [cond_Zopp]. change (bpow radix2 (-52)) with (/ 4503599627370496). lra. }
    split; [|exact V]. split; [vm_compute; reflexivity|]. rewrite V. lra. }
  destruct U as [U V]. destruct (acos_good L G _ U) as [F E]. split; [exact F|]. rewrite V, acos_1, Rminus_0_r in E. exact E.
Qed.

Lemma beside_val : vval beside_x = RV 1 (bpow radix2 (-27)) 0 /\ vval one_x = RV 1 0 0.
Proof.
  destruct zero_ok as [_ Z]. destruct (small_int_ok 1 eq_refl) as [_ O]. unfold vval, beside_x, one_x, dval. cbn [dx dy dz]. rewrite Z, O. split; [|reflexivity]. f_equal.
  change (dval (d_div (d_of_Z 1) (d_of_Z (2 ^ 27))) = bpow radix2 (-27)).
  rewrite (bits_val _ false 4503599627370496 (-79)) by (vm_compute; reflexivity). cbn [cond_Zopp]. change (IZR (Z.pos 4503599627370496)) with (bpow radix2 52). rewrite <- bpow_plus. reflexivity.
Qed.

Lemma close_true : bpow radix2 (-28) <= acos (rcos (vval one_x) (vval beside_x)).
Proof.
  destruct beside_val as [-> ->]. unfold rcos, rdot, rlength. cbn [rx ry rz]. change (bpow radix2 (-27)) with (/ 134217728). change (bpow radix2 (-28)) with (/ 268435456).
  set (x := / 268435456). assert (Hx : 0 <= x <= PI) by (pose proof PI2_1; unfold x; lra).
  rewrite <- (acos_cos x Hx). apply Rnot_lt_le. intros A.
  set (c := (1 * 1 + 0 * / 134217728 + 0 * 0) / (sqrt (1 * 1 + 0 * 0 + 0 * 0) * sqrt (1 * 1 + / 134217728 * / 134217728 + 0 * 0))) in *.
  assert (Hc : 0 <= c < cos x).
  { assert (Lo : 1 - x * x / 2 <= cos x).
    { assert (P : - PI / 2 <= x <= PI / 2) by (pose proof PI2_1; unfold x; lra). destruct (cos_bound x 0 (proj1 P) (proj2 P)) as [H _]. unfold cos_approx in H. change (2 * 0 + 1)%nat with 1%nat in H. cbn [sum_f_R0] in H.
      pose proof (cos_step x 0) as T. rewrite cos_term_0 in *. cbn [INR] in T. lra. }
    unfold c. replace (1 * 1 + 0 * 0 + 0 * 0) with 1 by ring. rewrite sqrt_1. replace (1 * 1 + 0 * / 134217728 + 0 * 0) with 1 by ring. rewrite Rmult_1_l.
    set (h := sqrt _). assert (Q : h * h = 1 + / 134217728 * / 134217728) by (unfold h; rewrite sqrt_sqrt by lra; lra). assert (P : 0 < h) by (apply sqrt_lt_R0; lra).
    split; [apply Rlt_le, Rdiv_lt_0_compat; lra|]. apply Rlt_le_trans with (1 - x * x / 2); [|exact Lo]. apply (Rmult_lt_reg_r h); [exact P|]. unfold Rdiv. rewrite Rmult_1_l, Rinv_l by lra.
    assert (1 + / 40000000000000000 < h) by (apply Rsqr_incrst_0; unfold Rsqr; [rewrite Q; lra|lra|lra]). unfold x. nra. }
  pose proof (COS_bound x) as Bx. assert (Cb : -1 <= c <= 1) by lra. pose proof (acos_bound c) as Ab.
  assert (M : cos (acos (cos x)) <= cos (acos c)) by (apply cos_decr_1; pose proof (acos_bound (cos x)); try lra).
  rewrite !cos_acos in M by lra. lra.
Qed.

(** ** The round trip, with the true position *)

Lemma round_trip_clear L (G : good_libm L) a m n t u v : conversion L a m t -> undone_by L a m n -> dfinite a -> dfinite u -> dfinite v ->
  Rabs (rz (t (direction (dval u) (dval v)))) <= 7 / 8 -> Rabs (sin (dval v)) <= 7 / 8 ->
  let b := convert_angles_d L n (convert_angles_d L m (u, v)) in
  dfinite (fst b) /\ dfinite (snd b) /\ within (bpow radix2 (-43)) (direction (dval (fst b)) (dval (snd b))) (direction (dval u) (dval v)).
Proof.
  intros C I A U V Z1 Z2. destruct (round_trip_angles L G a m n u v I A U V) as [_ H]. apply H; [|lra].
  destruct (conversion_close L G a m t u v C A U V) as [_ (_ & _ & W)]. change (Rabs (dval (dz (product_d m (column_vector_d L u v))) - rz (t (direction (dval u) (dval v)))) <= bpow radix2 (-49)) in W. rewrite p49, u53_eq in W. apply Rabs_le_inv in W, Z1. apply Rabs_le. lra.
Qed.
