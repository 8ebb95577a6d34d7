(** * Where a star stands. *)
From Coq Require Import ZArith Reals Lia Lra Psatz.
From Flocq Require Import Core.
From Verif Require Import CppModel TimeModel TimeSpec TimeProofs TimeProps CoordModel CoordSpec CoordProofs UtilModel UtilSpec UtilProofs StarModel StarSpec.
Local Open Scope R_scope.

Lemma whole_turns (x : R) (k : Z) : cos (x + 2 * PI * IZR k) = cos x /\ sin (x + 2 * PI * IZR k) = sin x.
Proof.
  assert (P : forall n : nat, cos (2 * PI * INR n) = 1 /\ sin (2 * PI * INR n) = 0).
  { intros n. replace (2 * PI * INR n) with (0 + 2 * INR n * PI) by ring. rewrite cos_period, sin_period, cos_0, sin_0. split; reflexivity. }
  assert (K : cos (2 * PI * IZR k) = 1 /\ sin (2 * PI * IZR k) = 0).
  { destruct (Z_le_gt_dec 0 k) as [N|N].
    - rewrite <- (Z2Nat.id k N), <- INR_IZR_INZ. apply P.
    - replace (2 * PI * IZR k) with (- (2 * PI * IZR (- k))) by (rewrite opp_IZR; ring).
      rewrite <- (Z2Nat.id (- k)) by lia. rewrite <- INR_IZR_INZ, cos_neg, sin_neg. destruct (P (Z.to_nat (- k))) as [-> ->]. split; ring. }
  destruct K as [K1 K2]. rewrite cos_plus, sin_plus, K1, K2. split; ring.
Qed.

Lemma column_of_convert m a : orthogonal m ->
  column_vector (fst (convert_angles m a)) (snd (convert_angles m a)) = mat_vec m (column_vector (fst a) (snd a)).
Proof. intros O. apply column_extract. rewrite orthogonal_norm by exact O. apply column_unit. Qed.

(** The two conversions for a sidereal angle. *)
Lemma two_steps phi st ra dec :
  stands_at phi (st - ra) dec (convert_angles (ha_dec_horizon phi) (convert_angles (ha_dec_ra_dec st) (ra, dec))).
Proof.
  set (b := convert_angles (ha_dec_ra_dec st) (ra, dec)).
  pose proof (column_of_convert (ha_dec_horizon phi) b (horizon_orthogonal phi)) as E.
  unfold b at 3 4 in E. rewrite (column_of_convert (ha_dec_ra_dec st) (ra, dec) (radec_orthogonal st)) in E. clearbody b.
  set (a := convert_angles (ha_dec_horizon phi) b) in *. clearbody a. unfold stands_at.
  unfold column_vector, mat_vec, dot_product in E. cbn in E. injection E as E0 E1 E2.
  rewrite cos_minus, sin_minus. split; [rewrite E2; ring|]. split; [rewrite Rmult_comm, E0; ring|rewrite Rmult_comm, E1; ring].
Qed.

Lemma stands_turns phi h h' dec a : cos h = cos h' -> sin h = sin h' -> stands_at phi h dec a -> stands_at phi h' dec a.
Proof. unfold stands_at. intros -> ->. auto. Qed.

Lemma place l dir t phi ra dec : exists a, star_on_horizon l dir t phi (ra, dec) = Ret a /\
  (- PI < fst a <= PI /\ - (PI / 2) <= snd a <= PI / 2) /\ stands_at phi (turned l dir t - ra) dec a.
Proof.
  destruct (C36_local l dir t) as (x & Lx & _ & k & Ek).
  unfold star_on_horizon. rewrite Lx. cbn [bind]. eexists. split; [reflexivity|]. split; [apply extract_ranges|].
  assert (T : sidereal_angle x - ra = (turned l dir t - ra) + 2 * PI * IZR k).
  { unfold sidereal_angle, turned. rewrite Ek. unfold TimeProps.eastward, eastward. destruct dir; field. }
  destruct (whole_turns (turned l dir t - ra) k) as [C S].
  eapply stands_turns; [| |apply two_steps]; rewrite T; assumption.
Qed.

Lemma place_is l dir t phi ra dec a : star_on_horizon l dir t phi (ra, dec) = Ret a ->
  (- PI < fst a <= PI /\ - (PI / 2) <= snd a <= PI / 2) /\ stands_at phi (turned l dir t - ra) dec a.
Proof. intros E. destruct (place l dir t phi ra dec) as (b & Eb & H). assert (b = a) as <- by congruence. exact H. Qed.

Lemma quarter_cos x : quarter x -> 0 <= cos x.
Proof. unfold quarter. intros H. apply cos_ge_0; lra. Qed.

(** The altitude lies between those of the two transits. *)
Lemma between phi h dec a : quarter phi -> quarter dec -> stands_at phi h dec a -> - cos (phi + dec) <= sin (snd a) <= cos (phi - dec).
Proof.
  intros P D (S & _). rewrite S, cos_plus, cos_minus. pose proof (quarter_cos _ P) as A. pose proof (quarter_cos _ D) as B.
  pose proof (COS_bound h). assert (0 <= cos phi * cos dec) by (apply Rmult_le_pos; assumption). nra.
Qed.

Lemma half_sine x y : quarter x -> quarter y -> sin x <= sin y -> x <= y.
Proof. unfold quarter. intros X Y S. destruct (Rle_or_lt x y) as [L|L]; [exact L|]. pose proof (sin_increasing_1 y x). lra. Qed.

Lemma top_sine phi dec : sin (PI / 2 - Rabs (phi - dec)) = cos (phi - dec).
Proof. rewrite sin_shift. unfold Rabs. destruct (Rcase_abs (phi - dec)); [apply cos_neg|reflexivity]. Qed.
Lemma bottom_sine phi dec : sin (Rabs (phi + dec) - PI / 2) = - cos (phi + dec).
Proof.
  replace (Rabs (phi + dec) - PI / 2) with (- (PI / 2 - Rabs (phi + dec))) by ring. rewrite sin_neg, sin_shift. f_equal.
  unfold Rabs. destruct (Rcase_abs (phi + dec)); [apply cos_neg|reflexivity].
Qed.

Lemma altitudes phi h dec a : quarter phi -> quarter dec -> quarter (snd a) -> stands_at phi h dec a ->
  Rabs (phi + dec) - PI / 2 <= snd a <= PI / 2 - Rabs (phi - dec).
Proof.
  intros P D A S. pose proof (between _ _ _ _ P D S) as [B1 B2]. rewrite <- top_sine in B2. rewrite <- bottom_sine in B1.
  assert (quarter (Rabs (phi + dec) - PI / 2)) by (unfold quarter in *; pose proof (Rabs_pos (phi + dec)); assert (Rabs (phi + dec) <= PI) by (apply Rabs_le; lra); lra).
  assert (quarter (PI / 2 - Rabs (phi - dec))) by (unfold quarter in *; pose proof (Rabs_pos (phi - dec)); assert (Rabs (phi - dec) <= PI) by (apply Rabs_le; lra); lra).
  split; apply half_sine; assumption.
Qed.

Lemma half_sine_eq x y : quarter x -> quarter y -> sin x = sin y -> x = y.
Proof. intros X Y S. apply Rle_antisym; apply half_sine; try assumption; lra. Qed.

Lemma upper phi h dec a : quarter phi -> quarter dec -> quarter (snd a) -> stands_at phi h dec a -> cos h = 1 -> snd a = PI / 2 - Rabs (phi - dec).
Proof.
  intros P D A (S & _) C. apply half_sine_eq; [exact A| |].
  - unfold quarter in *; pose proof (Rabs_pos (phi - dec)); assert (Rabs (phi - dec) <= PI) by (apply Rabs_le; lra); lra.
  - rewrite top_sine, cos_minus, S, C. ring.
Qed.
Lemma lower phi h dec a : quarter phi -> quarter dec -> quarter (snd a) -> stands_at phi h dec a -> cos h = -1 -> snd a = Rabs (phi + dec) - PI / 2.
Proof.
  intros P D A (S & _) C. apply half_sine_eq; [exact A| |].
  - unfold quarter in *; pose proof (Rabs_pos (phi + dec)); assert (Rabs (phi + dec) <= PI) by (apply Rabs_le; lra); lra.
  - rewrite bottom_sine, cos_plus, S, C. ring.
Qed.

(** There and back. *)
Lemma back l dir t phi star a : sky_angles star -> star_on_horizon l dir t phi star = Ret a -> star_from_horizon l dir t phi a = Ret star.
Proof.
  intros A. unfold star_on_horizon, star_from_horizon. destruct (LST l dir t) as [x| | |]; cbn [bind]; try discriminate. intros E. injection E as <-.
  f_equal. set (st := sidereal_angle x). unfold convert_angles at 1.
  rewrite (column_of_convert (ha_dec_horizon phi) _ (horizon_orthogonal phi)), (column_of_convert (ha_dec_horizon phi) _ (horizon_orthogonal phi)).
  rewrite (mat_vec_mul (ha_dec_horizon phi)), horizon_involution, mat_vec_identity.
  rewrite (column_of_convert (ha_dec_ra_dec st) star (radec_orthogonal st)), mat_vec_mul, radec_involution, mat_vec_identity.
  apply extract_column, A.
Qed.

(** A star at the pole of the sky stands at the height of the latitude, due north. *)
Lemma pole_star l dir t phi ra a : quarter phi -> star_on_horizon l dir t phi (ra, PI / 2) = Ret a -> snd a = phi.
Proof.
  intros P E. destruct (place_is _ _ _ _ _ _ _ E) as [[_ A] (S & _)]. apply half_sine_eq; [exact A|exact P|].
  rewrite S, sin_PI2, cos_PI2. ring.
Qed.
