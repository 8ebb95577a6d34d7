(** * Sines, cosines, products with matrices: absolute errors of doubles between -1 and 1. *)
From Coq Require Import ZArith Reals Lia Lra Psatz.
From Flocq Require Import Core Relative IEEE754.BinarySingleNaN IEEE754.Binary IEEE754.Bits.
From Verif Require Import TextModel TextSpec TextRound TextScan TextFloat TextProofs TextLaws TextRead TextCard DoubleModel DoubleSpec DoubleProofs DoubleUnits VectorModel VectorSpec VectorProofs VectorArith VectorProducts VectorLength VectorUnit SkyModel SkySpec SkyAngles.
Local Open Scope R_scope.

#[local] Instance prec53 : Prec_gt_0 53 := eq_refl.
#[local] Existing Instance near.

Lemma rnd_abs k y : (-1000 <= k)%Z -> Rabs y <= bpow radix2 k -> Rabs (rnd y - y) <= bpow radix2 (k - 54).
Proof.
  intros K H. destruct (Req_dec (Rabs y) (bpow radix2 k)) as [E|E].
  - rewrite rnd_id; [rewrite Rminus_diag_eq, Rabs_R0 by reflexivity; apply bpow_ge_0|].
    assert (F : fmt (bpow radix2 k)) by (apply pow_fmt; lia). rewrite <- E in F. apply generic_format_abs_inv. exact F.
  - destruct (Req_dec y 0) as [->|N]; [rewrite nearest_0, Rminus_0_r, Rabs_R0; apply bpow_ge_0|].
    eapply Rle_trans; [apply error_le_half_ulp; typeclasses eauto|]. rewrite ulp_neq_0 by exact N.
    assert (M : (mag radix2 y <= k)%Z) by (apply mag_le_bpow; [exact N|lra]).
    replace (bpow radix2 (k - 54)) with (/ 2 * bpow radix2 (k - 53)).
    + apply Rmult_le_compat_l; [lra|]. apply bpow_le. unfold cexp. change (FLT_exp (f_emin TextModel.binary64) (f_man TextModel.binary64 + 1)) with (FLT_exp (-1074) 53). unfold FLT_exp. lia.
    + replace (k - 53)%Z with (k - 54 + 1)%Z by ring. rewrite bpow_double. field.
Qed.

Lemma opp_ok x : fin (d_opp x) = fin x /\ val (d_opp x) = - val x.
Proof.
  unfold d_opp, b64_opp. split; [apply is_finite_Bopp|apply B2R_Bopp].
Qed.

Lemma unit_abs x : in_unit x <-> fin x = true /\ Rabs (val x) <= 1.
Proof. unfold in_unit, dfinite, dval. split; intros [F B]; (split; [exact F|]); [apply Rabs_le; exact B|apply Rabs_le_inv; exact B]. Qed.

(** A double between -1 and 1 that is off by at most [c] times 2^-53 from [A]. *)
Definition ent (c : R) (a : double) (A : R) : Prop := in_unit a /\ Rabs (val a - A) <= c * u53 /\ Rabs A <= 1.

Lemma ent_weaken c d a A : c <= d -> ent c a A -> ent d a A.
Proof. intros L (U & E & B). split; [exact U|]. split; [|exact B]. eapply Rle_trans; [exact E|]. apply Rmult_le_compat_r; [left; apply u53_pos|exact L]. Qed.

Lemma ent_int z : (-1 <= z <= 1)%Z -> ent 0 (d_of_Z z) (IZR z).
Proof.
  intros Z. destruct (small_int_ok z ltac:(lia)) as [F V]. assert (B : Rabs (IZR z) <= 1) by (rewrite <- abs_IZR; apply IZR_le; lia).
  split; [|split; [rewrite V, Rminus_diag_eq, Rabs_R0 by reflexivity; lra|exact B]]. apply unit_abs. rewrite V. auto.
Qed.

Lemma ent_opp c a A : ent c a A -> ent c (d_opp a) (- A).
Proof.
  intros (U & E & B). apply unit_abs in U. destruct U as [F U]. destruct (opp_ok a) as [Fo Vo]. split; [|split].
  - apply unit_abs. rewrite Fo, Vo, Rabs_Ropp. auto.
  - rewrite Vo. replace (- val a - - A) with (- (val a - A)) by ring. rewrite Rabs_Ropp. exact E.
  - rewrite Rabs_Ropp. exact B.
Qed.

Lemma u53_half : bpow radix2 (-54) = u53 / 2.
Proof. unfold u53. change (-53)%Z with (-54 + 1)%Z. rewrite bpow_double. field. Qed.

Lemma unit_mul a b : in_unit a -> in_unit b -> in_unit (d_mul a b) /\ val (d_mul a b) = rnd (val a * val b) /\ Rabs (val (d_mul a b) - val a * val b) <= u53 / 2.
Proof.
  intros Ua Ub. apply unit_abs in Ua, Ub. destruct Ua as [Fa Ua], Ub as [Fb Ub].
  assert (P : Rabs (val a * val b) <= bpow radix2 0) by (apply product_le_1; assumption).
  pose proof (rnd_bound _ 0 ltac:(lia) P) as R. destruct (mul_ok a b Fa Fb (fits 0 _ ltac:(lia) R)) as [F V].
  split; [apply unit_abs; rewrite V; split; [exact F|exact R]|]. split; [exact V|]. rewrite V, <- u53_half. apply (rnd_abs 0 _ ltac:(lia) P).
Qed.

Lemma ent_mul c d a A b B : ent c a A -> ent d b B -> ent (c + d + / 2) (d_mul a b) (A * B).
Proof.
  intros (Ua & Ea & Ba) (Ub & Eb & Bb). destruct (unit_mul a b Ua Ub) as (U & V & E). split; [exact U|]. split; [|apply product_le_1; assumption].
  apply unit_abs in Ub. destruct Ub as [_ Ub].
  replace (val (d_mul a b) - A * B) with ((val (d_mul a b) - val a * val b) + (val b * (val a - A) + A * (val b - B))) by ring.
  eapply Rle_trans; [apply Rabs_triang|]. pose proof (Rabs_triang (val b * (val a - A)) (A * (val b - B))).
  pose proof (abs_le_mul _ _ _ Ub Ea). pose proof (abs_le_mul _ _ _ Ba Eb). lra.
Qed.

Lemma bpow_1 : bpow radix2 1 = 2. Proof. reflexivity. Qed.
Lemma bpow_2 : bpow radix2 2 = 4. Proof. reflexivity. Qed.

(** An entry of a product of a matrix and a column. *)
Lemma row_close c d r v p q : ent c (dx r) (rx p) -> ent c (dy r) (ry p) -> ent c (dz r) (rz p) ->
  ent d (dx v) (rx q) -> ent d (dy v) (ry q) -> ent d (dz v) (rz q) ->
  fin (row_product_d r v) = true /\ Rabs (val (row_product_d r v) - rdot p q) <= (3 * (c + d) + 9 / 2) * u53.
Proof.
  intros R0 R1 R2 V0 V1 V2. unfold row_product_d.
  pose proof (ent_mul _ _ _ _ _ _ R0 V0) as P0. pose proof (ent_mul _ _ _ _ _ _ R1 V1) as P1. pose proof (ent_mul _ _ _ _ _ _ R2 V2) as P2.
  set (p0 := d_mul (dx r) (dx v)) in *. set (p1 := d_mul (dy r) (dy v)) in *. set (p2 := d_mul (dz r) (dz v)) in *. clearbody p0 p1 p2.
  destruct P0 as (U0 & E0 & _), P1 as (U1 & E1 & _), P2 as (U2 & E2 & _). apply unit_abs in U0, U1, U2. destruct U0 as [F0 U0], U1 as [F1 U1], U2 as [F2 U2].
  destruct zero_ok as [Fz Vz].
  assert (Z : fin (d_add (d_of_Z 0) p0) = true /\ val (d_add (d_of_Z 0) p0) = val p0).
  { assert (I : rnd (val (d_of_Z 0) + val p0) = val p0) by (rewrite Vz, Rplus_0_l; apply rnd_id, val_fmt).
    destruct (add_ok (d_of_Z 0) p0 Fz F0) as [F V]; [rewrite I; apply (fits 0); [lia|exact U0]|]. rewrite V. auto. }
  destruct Z as [Fa Va]. set (a := d_add (d_of_Z 0) p0) in *. clearbody a. rewrite <- Va in *. clear p0 Va F0.
  assert (S1 : Rabs (val a + val p1) <= bpow radix2 1) by (rewrite bpow_1; eapply Rle_trans; [apply Rabs_triang|lra]).
  pose proof (rnd_bound _ 1 ltac:(lia) S1) as B1. destruct (add_ok a p1 Fa F1 (fits 1 _ ltac:(lia) B1)) as [Fb Vb].
  pose proof (rnd_abs 1 _ ltac:(lia) S1) as X1. rewrite <- Vb in B1, X1. set (b := d_add a p1) in *. clearbody b.
  assert (S2 : Rabs (val b + val p2) <= bpow radix2 2) by (rewrite bpow_2; eapply Rle_trans; [apply Rabs_triang|rewrite bpow_1 in B1; lra]).
  pose proof (rnd_bound _ 2 ltac:(lia) S2) as B2. destruct (add_ok b p2 Fb F2 (fits 2 _ ltac:(lia) B2)) as [Fc Vc].
  pose proof (rnd_abs 2 _ ltac:(lia) S2) as X2. rewrite <- Vc in X2. split; [exact Fc|].
  change (bpow radix2 (1 - 54)) with u53 in X1. change (bpow radix2 (2 - 54)) with (bpow radix2 (-53 + 1)) in X2. rewrite bpow_double in X2. fold u53 in X2.
  unfold rdot. set (w := d_add b p2) in *. clearbody w.
  replace (val w - (rx p * rx q + ry p * ry q + rz p * rz q)) with
    ((val w - (val b + val p2)) + ((val b - (val a + val p1)) + ((val a - rx p * rx q) + ((val p1 - ry p * ry q) + (val p2 - rz p * rz q))))) by ring.
  eapply Rle_trans; [apply Rabs_triang|]. pose proof (Rabs_triang (val b - (val a + val p1)) ((val a - rx p * rx q) + ((val p1 - ry p * ry q) + (val p2 - rz p * rz q)))) as T1.
  pose proof (Rabs_triang (val a - rx p * rx q) ((val p1 - ry p * ry q) + (val p2 - rz p * rz q))) as T2. pose proof (Rabs_triang (val p1 - ry p * ry q) (val p2 - rz p * rz q)) as T3. lra.
Qed.

(** ** The C library *)

Section Library.
Context (L : libm) (G : good_libm L).

Lemma ent_sin x : dfinite x -> ent 1 (m_sin L x) (sin (val x)).
Proof. intros F. destruct (sin_good L G x F) as [U E]. split; [exact U|]. split; [rewrite Rmult_1_l; exact E|apply sin_abs_1]. Qed.
Lemma ent_cos x : dfinite x -> ent 1 (m_cos L x) (cos (val x)).
Proof. intros F. destruct (cos_good L G x F) as [U E]. split; [exact U|]. split; [rewrite Rmult_1_l; exact E|apply cos_abs_1]. Qed.

(** ** Column vectors and matrices *)

Definition ent3 (c : R) (a : dvec) (p : rvec) : Prop := ent c (dx a) (rx p) /\ ent c (dy a) (ry p) /\ ent c (dz a) (rz p).

Lemma column_ent u v : dfinite u -> dfinite v -> ent3 (5 / 2) (column_vector_d L u v) (direction (val u) (val v)).
Proof.
  intros U V. unfold column_vector_d, direction, ent3. cbn [dx dy dz rx ry rz].
  split; [|split].
  - eapply ent_weaken; [|apply ent_mul; apply ent_cos; assumption]. lra.
  - eapply ent_weaken; [|apply ent_mul; [apply ent_sin; exact U|apply ent_cos; exact V]]. lra.
  - eapply ent_weaken; [|apply ent_sin; exact V]. lra.
Qed.

Lemma product_close c m v p0 p1 p2 q : 0 <= c <= 1 -> ent3 c (drow0 m) p0 -> ent3 c (drow1 m) p1 -> ent3 c (drow2 m) p2 -> ent3 (5 / 2) v q ->
  vfinite (product_d m v) /\ within (bpow radix2 (-49)) (vval (product_d m v)) (RV (rdot p0 q) (rdot p1 q) (rdot p2 q)).
Proof.
  intros C (A0 & A1 & A2) (B0 & B1 & B2) (C0 & C1 & C2) (V0 & V1 & V2).
  destruct (row_close c (5 / 2) _ v _ q A0 A1 A2 V0 V1 V2) as [F0 E0]. destruct (row_close c (5 / 2) _ v _ q B0 B1 B2 V0 V1 V2) as [F1 E1].
  destruct (row_close c (5 / 2) _ v _ q C0 C1 C2 V0 V1 V2) as [F2 E2].
  assert (K : (3 * (c + 5 / 2) + 9 / 2) * u53 <= bpow radix2 (-49)).
  { replace (bpow radix2 (-49)) with (16 * u53) by (change (-49)%Z with (4 + -53)%Z; rewrite bpow_plus; reflexivity). apply Rmult_le_compat_r; [left; apply u53_pos|lra]. }
  unfold product_d, vfinite, each, within, each_r, vval, dval, dfinite. cbn [dx dy dz rx ry rz]. split; [auto|].
  split; [|split]; (eapply Rle_trans; [|exact K]; assumption).
Qed.

Ltac entry := first [ apply (ent_weaken 0 1); [lra|]; first [apply (ent_int 0); lia | apply (ent_int 1); lia | apply (ent_int (-1)); lia]
                    | apply ent_opp, ent_sin; assumption | apply ent_opp, ent_cos; assumption | apply ent_sin; assumption | apply ent_cos; assumption ].

Lemma conversion_close a m t u v : conversion L a m t -> dfinite a -> dfinite u -> dfinite v ->
  let w := product_d m (column_vector_d L u v) in
  vfinite w /\ within (bpow radix2 (-49)) (vval w) (t (direction (val u) (val v))).
Proof.
  intros H A U V. pose proof (column_ent u v U V) as C. set (q := direction (val u) (val v)) in *.
  destruct H; cbv zeta.
  - destruct (product_close 1 (ha_dec_horizon_d L a) (column_vector_d L u v) (RV (- sin (val a)) 0 (cos (val a))) (RV 0 (-1) 0) (RV (cos (val a)) 0 (sin (val a))) q ltac:(lra)) as [F W];
      [split; [|split]; entry|split; [|split]; entry|split; [|split]; entry|exact C|]. split; [exact F|].
    replace (true_horizon (dval a) q) with (RV (rdot (RV (- sin (val a)) 0 (cos (val a))) q) (rdot (RV 0 (-1) 0) q) (rdot (RV (cos (val a)) 0 (sin (val a))) q)); [exact W|].
    unfold rdot, true_horizon, dval. cbn [rx ry rz]. f_equal; ring.
  - destruct (product_close 1 (ha_dec_ra_dec_d L a) (column_vector_d L u v) (RV (cos (val a)) (sin (val a)) 0) (RV (sin (val a)) (- cos (val a)) 0) (RV 0 0 1) q ltac:(lra)) as [F W];
      [split; [|split]; entry|split; [|split]; entry|split; [|split]; entry|exact C|]. split; [exact F|].
    replace (true_ra_dec (dval a) q) with (RV (rdot (RV (cos (val a)) (sin (val a)) 0) q) (rdot (RV (sin (val a)) (- cos (val a)) 0) q) (rdot (RV 0 0 1) q)); [exact W|].
    unfold rdot, true_ra_dec, dval. cbn [rx ry rz]. f_equal; ring.
  - destruct (product_close 1 (ecliptic_to_ra_dec_d L a) (column_vector_d L u v) (RV 1 0 0) (RV 0 (cos (val a)) (- sin (val a))) (RV 0 (sin (val a)) (cos (val a))) q ltac:(lra)) as [F W];
      [split; [|split]; entry|split; [|split]; entry|split; [|split]; entry|exact C|]. split; [exact F|].
    replace (true_from_ecliptic (dval a) q) with (RV (rdot (RV 1 0 0) q) (rdot (RV 0 (cos (val a)) (- sin (val a))) q) (rdot (RV 0 (sin (val a)) (cos (val a))) q)); [exact W|].
    unfold rdot, true_from_ecliptic, dval. cbn [rx ry rz]. f_equal; ring.
  - destruct (product_close 1 (ra_dec_to_ecliptic_d L a) (column_vector_d L u v) (RV 1 0 0) (RV 0 (cos (val a)) (sin (val a))) (RV 0 (- sin (val a)) (cos (val a))) q ltac:(lra)) as [F W];
      [split; [|split]; entry|split; [|split]; entry|split; [|split]; entry|exact C|]. split; [exact F|].
    replace (true_to_ecliptic (dval a) q) with (RV (rdot (RV 1 0 0) q) (rdot (RV 0 (cos (val a)) (sin (val a))) q) (rdot (RV 0 (- sin (val a)) (cos (val a))) q)); [exact W|].
    unfold rdot, true_to_ecliptic, dval. cbn [rx ry rz]. f_equal; ring.
Qed.

(** ** The galactic matrices *)

Lemma literal_ent n : (0 <= n < 10 ^ 7)%Z -> ent (/ 2) (literal7 n) (IZR n / 10000000).
Proof.
  intros N. unfold literal7. destruct (small_int_ok n ltac:(lia)) as [Fn Vn]. destruct (small_int_ok (10 ^ 7) ltac:(lia)) as [Fd Vd].
  assert (B : 0 <= IZR n / 10000000 <= 1).
  { assert (N1 : 0 <= IZR n <= 10000000) by (split; apply IZR_le; lia). lra. }
  assert (P : Rabs (val (d_of_Z n) / val (d_of_Z (10 ^ 7))) <= bpow radix2 0).
  { rewrite Vn, Vd. change (10 ^ 7)%Z with 10000000%Z. rewrite Rabs_pos_eq by lra. apply B. }
  pose proof (rnd_bound _ 0 ltac:(lia) P) as R.
  destruct (div_ok (d_of_Z n) (d_of_Z (10 ^ 7)) Fn) as [F V]; [rewrite Vd; apply IZR_neq; lia|apply (fits 0); [lia|exact R]|].
  split; [apply unit_abs; rewrite V; split; [exact F|exact R]|]. split; [|rewrite Rabs_pos_eq; lra].
  rewrite V. replace (IZR n / 10000000) with (val (d_of_Z n) / val (d_of_Z (10 ^ 7))) by (rewrite Vn, Vd; reflexivity).
  replace (/ 2 * u53) with (bpow radix2 (-54)) by (rewrite u53_half; field). apply (rnd_abs 0 _ ltac:(lia) P).
Qed.

#[local] Opaque literal7 d_opp.
Ltac lit_entry := cbn [galactic_to_ra_dec_d ra_dec_to_galactic_d drow0 drow1 drow2 dx dy dz rx ry rz];
  match goal with |- ent _ (d_opp (literal7 ?n)) _ => refine (ent_opp _ _ _ (literal_ent n _)); lia | |- ent _ (literal7 ?n) _ => refine (literal_ent n _); lia end.

Lemma galactic_close u v : dfinite u -> dfinite v ->
  let w := product_d galactic_to_ra_dec_d (column_vector_d L u v) in
  vfinite w /\ within (bpow radix2 (-49)) (vval w) (tenmillionth (galactic_matrix (direction (val u) (val v)))).
Proof.
  intros U V. pose proof (column_ent u v U V) as C. set (q := direction (val u) (val v)) in *. cbv zeta.
  destruct (product_close (/ 2) galactic_to_ra_dec_d (column_vector_d L u v) (RV (- (669887 / 10000000)) (8727558 / 10000000) (- (4835389 / 10000000)))
    (RV (- (4927285 / 10000000)) (- (4503470 / 10000000)) (- (7445846 / 10000000))) (RV (- (8676008 / 10000000)) (1883746 / 10000000) (4601998 / 10000000)) q ltac:(lra)) as [F W];
    [split; [|split]; lit_entry|split; [|split]; lit_entry|split; [|split]; lit_entry|exact C|]. split; [exact F|].
  match type of W with within _ _ ?x => replace (tenmillionth (galactic_matrix q)) with x; [exact W|] end.
  unfold rdot, tenmillionth, galactic_matrix. cbn [rx ry rz]. f_equal; field.
Qed.

Lemma to_galactic_close u v : dfinite u -> dfinite v ->
  let w := product_d ra_dec_to_galactic_d (column_vector_d L u v) in
  vfinite w /\ within (bpow radix2 (-49)) (vval w) (tenmillionth (to_galactic_matrix (direction (val u) (val v)))).
Proof.
  intros U V. pose proof (column_ent u v U V) as C. set (q := direction (val u) (val v)) in *. cbv zeta.
  destruct (product_close (/ 2) ra_dec_to_galactic_d (column_vector_d L u v) (RV (- (669887 / 10000000)) (- (8727558 / 10000000)) (- (4835389 / 10000000)))
    (RV (4927285 / 10000000) (- (4503470 / 10000000)) (7445846 / 10000000)) (RV (- (8676008 / 10000000)) (- (1883746 / 10000000)) (4601998 / 10000000)) q ltac:(lra)) as [F W];
    [split; [|split]; lit_entry|split; [|split]; lit_entry|split; [|split]; lit_entry|exact C|]. split; [exact F|].
  match type of W with within _ _ ?x => replace (tenmillionth (to_galactic_matrix q)) with x; [exact W|] end.
  unfold rdot, tenmillionth, to_galactic_matrix. cbn [rx ry rz]. f_equal; field.
Qed.

End Library.
