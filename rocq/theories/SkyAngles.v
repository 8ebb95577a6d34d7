(** * Angles and their errors, over the real numbers. *)
From Coq Require Import Reals Lra Psatz.
From Flocq Require Import Core.
From Verif Require Import VectorSpec SkySpec.
Local Open Scope R_scope.

Lemma half_pi_2 : PI / 2 <= 2. Proof. pose proof PI_4. lra. Qed.

Lemma sin_third y : 0 <= y <= PI / 2 -> y / 3 <= sin y.
Proof.
  intros [P Q]. pose proof half_pi_2. pose proof PI_RGT_0. destruct (sin_bound y 0 P ltac:(lra)) as [B _].
  unfold sin_approx in B. cbn [Nat.add Nat.mul sum_f_R0] in B. unfold sin_term in B. cbn [Nat.add Nat.mul fact INR pow] in B. nra.
Qed.

Lemma sin_abs x : Rabs (sin x) <= Rabs x.
Proof.
  assert (G : forall y, 0 <= y -> Rabs (sin y) <= y).
  { intros y [P| <-]; [|rewrite sin_0, Rabs_R0; apply Rle_refl]. pose proof (sin_lt_x y P). destruct (Rle_dec y 1) as [U|U].
    - pose proof PI2_1. rewrite Rabs_pos_eq; [lra|]. apply sin_ge_0; lra.
    - pose proof (SIN_bound y) as [B1 B2]. apply Rabs_le. lra. }
  destruct (Rle_dec 0 x) as [P|P]; [rewrite (Rabs_pos_eq x P); apply G, P|].
  rewrite <- (Rabs_Ropp x), <- (Rabs_Ropp (sin x)), <- sin_neg. rewrite (Rabs_pos_eq (- x)) by lra. apply G. lra.
Qed.

Lemma product_le_1 a b : Rabs a <= 1 -> Rabs b <= 1 -> Rabs (a * b) <= 1.
Proof. intros A B. rewrite Rabs_mult. pose proof (Rabs_pos a). pose proof (Rabs_pos b). nra. Qed.

Lemma sin_abs_1 x : Rabs (sin x) <= 1. Proof. apply Rabs_le. apply SIN_bound. Qed.
Lemma cos_abs_1 x : Rabs (cos x) <= 1. Proof. apply Rabs_le. apply COS_bound. Qed.

Lemma sin_lipschitz a b : Rabs (sin a - sin b) <= Rabs (a - b).
Proof.
  rewrite form4, !Rabs_mult. rewrite (Rabs_pos_eq 2) by lra. pose proof (cos_abs_1 ((a + b) / 2)). pose proof (sin_abs ((a - b) / 2)) as S.
  unfold Rdiv in S at 2. rewrite Rabs_mult, (Rabs_pos_eq (/ 2)) in S by lra. pose proof (Rabs_pos (sin ((a - b) / 2))). pose proof (Rabs_pos (cos ((a + b) / 2))). nra.
Qed.

Lemma cos_lipschitz a b : Rabs (cos a - cos b) <= Rabs (a - b).
Proof.
  rewrite !cos_sin. replace (a - b) with ((PI / 2 + a) - (PI / 2 + b)) by ring. apply sin_lipschitz.
Qed.

(** ** How far the angle can be off if the sine is *)

Lemma sine_gap a b : - (PI / 2) <= b -> b <= a -> a <= PI / 2 -> (a - b) * (a - b) <= 18 * (sin a - sin b).
Proof.
  intros B A U. rewrite form4. set (h := (a - b) / 2). set (s := (a + b) / 2).
  assert (H : 0 <= h <= PI / 2) by (unfold h; lra). pose proof (sin_third h H) as T.
  assert (C : sin h <= cos s).
  { replace (sin h) with (cos (PI / 2 - h)) by (rewrite cos_shift; reflexivity). unfold h, s. pose proof PI_RGT_0. destruct (Rle_dec 0 (a + b)) as [P|P].
    - apply cos_decr_1; lra.
    - replace (cos ((a + b) / 2)) with (cos (- ((a + b) / 2))) by apply cos_neg. apply cos_decr_1; lra. }
  replace (a - b) with (2 * h) by (unfold h; field). nra.
Qed.

Lemma asin_close x y d : -1 <= x <= 1 -> -1 <= y <= 1 -> Rabs (x - y) <= d -> (asin x - asin y) * (asin x - asin y) <= 18 * d.
Proof.
  assert (G : forall u v, -1 <= u <= 1 -> -1 <= v <= 1 -> v <= u -> (asin u - asin v) * (asin u - asin v) <= 18 * (u - v)).
  { intros u v U V L. pose proof (asin_bound u) as Bu. pose proof (asin_bound v) as Bv.
    assert (O : asin v <= asin u).
    { destruct (Req_dec u v) as [->|N]; [apply Rle_refl|]. left. destruct (Rlt_le_dec (asin v) (asin u)) as [T|T]; [exact T|].
      exfalso. assert (S : sin (asin u) <= sin (asin v)) by (apply sin_incr_1; lra). rewrite !sin_asin in S by lra. lra. }
    pose proof (sine_gap (asin u) (asin v) ltac:(lra) O ltac:(lra)) as S. rewrite !sin_asin in S by lra. exact S. }
  intros X Y D. apply Rabs_le_inv in D. destruct (Rle_dec y x) as [L|L].
  - specialize (G x y X Y L). lra.
  - specialize (G y x Y X ltac:(lra)). replace ((asin x - asin y) * (asin x - asin y)) with ((asin y - asin x) * (asin y - asin x)) by ring. lra.
Qed.

Lemma asin_mono u v : -1 <= u <= 1 -> -1 <= v <= 1 -> v <= u -> asin v <= asin u.
Proof.
  intros U V L. destruct (Req_dec u v) as [->|N]; [apply Rle_refl|]. left. destruct (Rlt_le_dec (asin v) (asin u)) as [T|T]; [exact T|].
  pose proof (asin_bound u) as Bu. pose proof (asin_bound v) as Bv.
  exfalso. assert (S : sin (asin u) <= sin (asin v)) by (apply sin_incr_1; lra). rewrite !sin_asin in S by lra. lra.
Qed.

(** Away from the poles. *)
Lemma asin_close_mid x y d : Rabs x <= 12 / 13 -> Rabs y <= 12 / 13 -> Rabs (x - y) <= d -> Rabs (asin x - asin y) <= 8 * d.
Proof.
  assert (G : forall u v, Rabs u <= 12 / 13 -> Rabs v <= 12 / 13 -> v <= u -> 0 <= asin u - asin v <= 8 * (u - v)).
  { intros u v U V L. apply Rabs_le_inv in U, V. pose proof (asin_mono u v ltac:(lra) ltac:(lra) L) as O. split; [lra|].
    set (k := asin (12 / 13)). assert (Ck : cos k = 5 / 13).
    { unfold k. rewrite cos_asin by lra. replace (1 - Rsqr (12 / 13)) with ((5 / 13) * (5 / 13)) by (unfold Rsqr; field). apply sqrt_square. lra. }
    pose proof (asin_mono (12 / 13) u ltac:(lra) ltac:(lra) ltac:(lra)) as K1. pose proof (asin_mono v (- (12 / 13)) ltac:(lra) ltac:(lra) ltac:(lra)) as K2.
    rewrite asin_opp in K2. fold k in K1, K2. pose proof (asin_bound (12 / 13)) as Bk. fold k in Bk.
    pose proof (form4 (asin u) (asin v)) as F. rewrite !sin_asin in F by lra. set (a := asin u) in *. set (b := asin v) in *. clearbody a b.
    assert (H : 0 <= (a - b) / 2 <= PI / 2) by lra. pose proof (sin_third _ H) as T.
    assert (C : 5 / 13 <= cos ((a + b) / 2)).
    { rewrite <- Ck. pose proof PI_RGT_0. destruct (Rle_dec 0 (a + b)) as [P|P].
      - apply cos_decr_1; lra.
      - replace (cos ((a + b) / 2)) with (cos (- ((a + b) / 2))) by apply cos_neg. apply cos_decr_1; lra. }
    rewrite F. nra. }
  intros X Y D. apply Rabs_le_inv in D. destruct (Rle_dec y x) as [L|L].
  - specialize (G x y X Y L). apply Rabs_le. lra.
  - specialize (G y x Y X ltac:(lra)). apply Rabs_le. lra.
Qed.

(** ** How far the angle of a point of the plane can be off *)

Definition hyp (x y : R) : R := sqrt (x * x + y * y).

Lemma sum_squares_pos x y : 0 <= x * x + y * y. Proof. nra. Qed.
Lemma hyp_pos x y : 0 <= hyp x y. Proof. apply sqrt_pos. Qed.
Lemma hyp_sq x y : hyp x y * hyp x y = x * x + y * y. Proof. apply sqrt_sqrt, sum_squares_pos. Qed.
Lemma hyp_ge_x x y : Rabs x <= hyp x y.
Proof. rewrite <- sqrt_Rsqr_abs. apply sqrt_le_1_alt. unfold Rsqr. nra. Qed.
Lemma hyp_ge_y x y : Rabs y <= hyp x y.
Proof. rewrite <- sqrt_Rsqr_abs. apply sqrt_le_1_alt. unfold Rsqr. nra. Qed.

Lemma hyp_triangle a b c d : hyp (a + b) (c + d) <= hyp a c + Rabs b + Rabs d.
Proof.
  pose proof (hyp_pos a c) as P. pose proof (Rabs_pos b) as Pb. pose proof (Rabs_pos d) as Pd. unfold hyp at 1.
  rewrite <- (sqrt_square (hyp a c + Rabs b + Rabs d)) by lra. apply sqrt_le_1_alt.
  pose proof (hyp_sq a c) as S. pose proof (hyp_ge_x a c) as Ga. pose proof (hyp_ge_y a c) as Gc.
  assert (M1 : a * b <= hyp a c * Rabs b).
  { eapply Rle_trans; [apply Rle_abs|]. rewrite Rabs_mult. apply Rmult_le_compat_r; assumption. }
  assert (M2 : c * d <= hyp a c * Rabs d).
  { eapply Rle_trans; [apply Rle_abs|]. rewrite Rabs_mult. apply Rmult_le_compat_r; assumption. }
  assert (Q1 : b * b = Rabs b * Rabs b) by (rewrite <- Rabs_mult; symmetry; apply Rabs_pos_eq, Rle_0_sqr).
  assert (Q2 : d * d = Rabs d * Rabs d) by (rewrite <- Rabs_mult; symmetry; apply Rabs_pos_eq, Rle_0_sqr).
  nra.
Qed.

Lemma hyp_close x y x' y' e : Rabs (x' - x) <= e -> Rabs (y' - y) <= e -> Rabs (hyp x' y' - hyp x y) <= 2 * e.
Proof.
  intros X Y. pose proof (hyp_triangle x (x' - x) y (y' - y)) as T1. pose proof (hyp_triangle x' (x - x') y' (y - y')) as T2.
  replace (x + (x' - x)) with x' in T1 by ring. replace (y + (y' - y)) with y' in T1 by ring.
  replace (x' + (x - x')) with x in T2 by ring. replace (y' + (y - y')) with y in T2 by ring.
  rewrite (Rabs_minus_sym x x'), (Rabs_minus_sym y y') in T2. apply Rabs_le. lra.
Qed.

Lemma abs_le_mul a b e : Rabs a <= 1 -> Rabs b <= e -> Rabs (a * b) <= e.
Proof. intros A B. rewrite Rabs_mult. pose proof (Rabs_pos a). pose proof (Rabs_pos b). nra. Qed.

(** The point at the true distance and the computed angle. *)
Lemma angle_position x y x' y' t e : angle_of y' x' t -> Rabs (x' - x) <= e -> Rabs (y' - y) <= e ->
  Rabs (hyp x y * cos t - x) <= 3 * e /\ Rabs (hyp x y * sin t - y) <= 3 * e.
Proof.
  intros (_ & C & S) X Y. change (sqrt (x' * x' + y' * y')) with (hyp x' y') in C, S. pose proof (hyp_close x y x' y' e X Y) as H.
  set (h' := hyp x' y') in *. clearbody h'. split.
  - replace (hyp x y * cos t - x) with (cos t * - (h' - hyp x y) + (x' - x)) by (rewrite C; ring).
    eapply Rle_trans; [apply Rabs_triang|]. assert (A : Rabs (cos t * - (h' - hyp x y)) <= 2 * e) by (apply abs_le_mul; [apply cos_abs_1|rewrite Rabs_Ropp; exact H]). lra.
  - replace (hyp x y * sin t - y) with (sin t * - (h' - hyp x y) + (y' - y)) by (rewrite S; ring).
    eapply Rle_trans; [apply Rabs_triang|]. assert (A : Rabs (sin t * - (h' - hyp x y)) <= 2 * e) by (apply abs_le_mul; [apply sin_abs_1|rewrite Rabs_Ropp; exact H]). lra.
Qed.

(** ** The direction with computed angles *)

Definition runit (p : rvec) : Prop := rx p * rx p + ry p * ry p + rz p * rz p = 1.

Lemma runit_z p : runit p -> -1 <= rz p <= 1.
Proof. unfold runit. intros U. nra. Qed.
Lemma runit_hyp p : runit p -> hyp (rx p) (ry p) = cos (asin (rz p)).
Proof. intros U. rewrite cos_asin by (apply runit_z; exact U). unfold hyp. f_equal. unfold runit, Rsqr in *. lra. Qed.

Lemma direction_close p x' y' z' t lon lat e d g : runit p -> angle_of y' x' t -> -1 <= z' <= 1 ->
  Rabs (x' - rx p) <= d -> Rabs (y' - ry p) <= d -> Rabs (z' - rz p) <= d ->
  Rabs (lon - t) <= e -> Rabs (lat - asin z') <= e -> Rabs (asin z' - asin (rz p)) <= g ->
  Rabs (sin lat - rz p) <= d + e /\ Rabs (lat - asin (rz p)) <= g + e /\
  within (g + 2 * e + 3 * d) (direction lon lat) p.
Proof.
  intros U A Z X Y W E F G. destruct (angle_position _ _ _ _ t d A X Y) as [P Q].
  assert (D : 0 <= d) by (eapply Rle_trans; [apply Rabs_pos|exact X]). assert (E0 : 0 <= e) by (eapply Rle_trans; [apply Rabs_pos|exact E]).
  assert (G0 : 0 <= g) by (eapply Rle_trans; [apply Rabs_pos|exact G]).
  assert (S : Rabs (sin lat - rz p) <= d + e).
  { replace (sin lat - rz p) with ((sin lat - sin (asin z')) + (z' - rz p)) by (rewrite sin_asin by exact Z; ring).
    eapply Rle_trans; [apply Rabs_triang|]. pose proof (sin_lipschitz lat (asin z')). lra. }
  assert (T : Rabs (lat - asin (rz p)) <= g + e).
  { replace (lat - asin (rz p)) with ((lat - asin z') + (asin z' - asin (rz p))) by ring. eapply Rle_trans; [apply Rabs_triang|]. lra. }
  split; [exact S|]. split; [exact T|].
  assert (C : Rabs (cos lat - hyp (rx p) (ry p)) <= g + e) by (rewrite (runit_hyp p U); eapply Rle_trans; [apply cos_lipschitz|exact T]).
  assert (H1 : Rabs (hyp (rx p) (ry p)) <= 1) by (rewrite (runit_hyp p U); apply cos_abs_1).
  unfold within, each_r, direction. cbn [rx ry rz]. split; [|split].
  - replace (cos lon * cos lat - rx p) with (cos lon * (cos lat - hyp (rx p) (ry p)) + (hyp (rx p) (ry p) * (cos lon - cos t) + (hyp (rx p) (ry p) * cos t - rx p))) by ring.
    eapply Rle_trans; [apply Rabs_triang|]. pose proof (Rabs_triang (hyp (rx p) (ry p) * (cos lon - cos t)) (hyp (rx p) (ry p) * cos t - rx p)).
    pose proof (abs_le_mul (cos lon) _ _ (cos_abs_1 lon) C). pose proof (abs_le_mul _ (cos lon - cos t) e H1 (Rle_trans _ _ _ (cos_lipschitz lon t) E)). lra.
  - replace (sin lon * cos lat - ry p) with (sin lon * (cos lat - hyp (rx p) (ry p)) + (hyp (rx p) (ry p) * (sin lon - sin t) + (hyp (rx p) (ry p) * sin t - ry p))) by ring.
    eapply Rle_trans; [apply Rabs_triang|]. pose proof (Rabs_triang (hyp (rx p) (ry p) * (sin lon - sin t)) (hyp (rx p) (ry p) * sin t - ry p)).
    pose proof (abs_le_mul (sin lon) _ _ (sin_abs_1 lon) C). pose proof (abs_le_mul _ (sin lon - sin t) e H1 (Rle_trans _ _ _ (sin_lipschitz lon t) E)). lra.
  - lra.
Qed.

Lemma direction_unit lon lat : runit (direction lon lat).
Proof.
  unfold runit, direction. cbn [rx ry rz]. pose proof (sin2_cos2 lon) as A. pose proof (sin2_cos2 lat) as B. unfold Rsqr in *.
  replace (cos lon * cos lat * (cos lon * cos lat) + sin lon * cos lat * (sin lon * cos lat) + sin lat * sin lat)
    with ((sin lon * sin lon + cos lon * cos lon) * (cos lat * cos lat) + sin lat * sin lat) by ring. rewrite A. lra.
Qed.
