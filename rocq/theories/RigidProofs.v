(** * Conversions move the sky as a whole. *)
From Coq Require Import ZArith Reals Lia Lra Psatz.
From Flocq Require Import Core IEEE754.Binary IEEE754.Bits.
From Verif Require Import CoordModel CoordSpec CoordProofs UtilModel UtilSpec UtilProofs RigidSpec.
Local Open Scope R_scope.

Lemma ways_orthogonal x m : same_way x m \/ other_way x m -> orthogonal m.
Proof. intros [[]|[]]; try apply ecliptic_orthogonal; [apply horizon_orthogonal|apply radec_orthogonal]. Qed.

Lemma converted m a : orthogonal m -> on_sphere (convert_angles m a) = mat_vec m (on_sphere a).
Proof. intros O. apply (column_extract (mat_vec m (column_vector (fst a) (snd a)))). rewrite orthogonal_norm by exact O. apply column_unit. Qed.

Lemma polar_dot v w : vdot v w = (vdot (vadd v w) (vadd v w) - vdot v v - vdot w w) / 2.
Proof. destruct v as [a b c], w as [d e f]. unfold vdot, vadd. cbn. field. Qed.
Lemma mat_vec_add m v w : mat_vec m (vadd v w) = vadd (mat_vec m v) (mat_vec m w).
Proof. destruct m as [[] [] []], v as [a b c], w as [d e f]. unfold mat_vec, dot_product, vadd. cbn. f_equal; ring. Qed.

Lemma orthogonal_dot m v w : orthogonal m -> vdot (mat_vec m v) (mat_vec m w) = vdot v w.
Proof. intros O. rewrite polar_dot, <- mat_vec_add, !orthogonal_norm by exact O. symmetry. apply polar_dot. Qed.

Lemma apart_kept x m a b : same_way x m \/ other_way x m -> apart (convert_angles m a) (convert_angles m b) = apart a b.
Proof. intros W. pose proof (ways_orthogonal _ _ W) as O. unfold apart. rewrite !converted by exact O. rewrite orthogonal_dot by exact O. reflexivity. Qed.

Lemma same_volume x m u v w : same_way x m -> volume (mat_vec m u) (mat_vec m v) (mat_vec m w) = volume u v w.
Proof.
  intros H. pose proof (sincos1 x) as S. destruct u as [u0 u1 u2], v as [v0 v1 v2], w as [w0 w1 w2].
  transitivity ((sin x * sin x + cos x * cos x) * volume (V u0 u1 u2) (V v0 v1 v2) (V w0 w1 w2)).
  - destruct H; unfold volume, mat_vec, dot_product, ha_dec_horizon, ecliptic_to_ra_dec, ra_dec_to_ecliptic; cbn; ring.
  - rewrite (Rplus_comm (sin x * sin x)). rewrite S || rewrite Rplus_comm, S. ring.
Qed.
Lemma other_volume x m u v w : other_way x m -> volume (mat_vec m u) (mat_vec m v) (mat_vec m w) = - volume u v w.
Proof.
  intros H. pose proof (sincos1 x) as S. destruct u as [u0 u1 u2], v as [v0 v1 v2], w as [w0 w1 w2].
  transitivity (- ((sin x * sin x + cos x * cos x) * volume (V u0 u1 u2) (V v0 v1 v2) (V w0 w1 w2))).
  - destruct H; unfold volume, mat_vec, dot_product, ha_dec_ra_dec; cbn; ring.
  - rewrite (Rplus_comm (sin x * sin x)). rewrite S || rewrite Rplus_comm, S. ring.
Qed.

Lemma span_same x m a b c : same_way x m -> span (convert_angles m a) (convert_angles m b) (convert_angles m c) = span a b c.
Proof. intros W. unfold span. rewrite !converted by exact (ways_orthogonal _ _ (or_introl W)). exact (same_volume _ _ _ _ _ W). Qed.
Lemma span_other x m a b c : other_way x m -> span (convert_angles m a) (convert_angles m b) (convert_angles m c) = - span a b c.
Proof. intros W. unfold span. rewrite !converted by exact (ways_orthogonal _ _ (or_intror W)). exact (other_volume _ _ _ _ _ W). Qed.

(** The matrices of the galaxy, with seven digits. *)
Lemma gal_form (a b c d e f x y z x' y' z' : R) k :
  Rabs a <= k -> Rabs b <= k -> Rabs c <= k -> Rabs d <= k -> Rabs e <= k -> Rabs f <= k ->
  x * x + y * y + z * z = 1 -> x' * x' + y' * y' + z' * z' = 1 ->
  Rabs (a * (x * x') + b * (y * y') + c * (z * z') + d * (x * y' + y * x') + e * (x * z' + z * x') + f * (y * z' + z * y')) <= 3 * k.
Proof.
  intros A B C D E F U U'. pose proof (Rle_trans _ _ _ (Rabs_pos a) A) as K.
  assert (M : forall p q s t, Rabs p <= k -> 0 <= t -> - t <= q <= t -> s = t -> - (k * s) <= p * q <= k * s).
  { intros p q s t P T Q ->. apply Rabs_le_inv. rewrite Rabs_mult. apply Rmult_le_compat; try apply Rabs_pos; [exact P|apply Rabs_le; exact Q]. }
  assert (P1 : forall p q, - ((p * p + q * q) / 2) <= p * q <= (p * p + q * q) / 2).
  { intros p q. pose proof (Rle_0_sqr (p + q)) as Y. pose proof (Rle_0_sqr (p - q)) as Z. unfold Rsqr in *. split; lra. }
  assert (P0 : forall p q, 0 <= (p * p + q * q) / 2) by (intros p q; pose proof (Rle_0_sqr p) as Y; pose proof (Rle_0_sqr q) as Z; unfold Rsqr in *; lra).
  pose proof (M a _ _ _ A (P0 x x') (P1 x x') eq_refl). pose proof (M b _ _ _ B (P0 y y') (P1 y y') eq_refl). pose proof (M c _ _ _ C (P0 z z') (P1 z z') eq_refl).
  pose proof (M d _ _ _ D (P0 x y') (P1 x y') eq_refl). pose proof (M d _ _ _ D (P0 y x') (P1 y x') eq_refl).
  pose proof (M e _ _ _ E (P0 x z') (P1 x z') eq_refl). pose proof (M e _ _ _ E (P0 z x') (P1 z x') eq_refl).
  pose proof (M f _ _ _ F (P0 y z') (P1 y z') eq_refl). pose proof (M f _ _ _ F (P0 z y') (P1 z y') eq_refl).
  assert (T : k * ((x * x + x' * x') / 2) + k * ((y * y + y' * y') / 2) + k * ((z * z + z' * z') / 2) + k * ((x * x + y' * y') / 2) + k * ((y * y + x' * x') / 2)
    + k * ((x * x + z' * z') / 2) + k * ((z * z + x' * x') / 2) + k * ((y * y + z' * z') / 2) + k * ((z * z + y' * y') / 2) = 3 * k * (x * x + y * y + z * z + (x' * x' + y' * y' + z' * z')) / 2) by field.
  rewrite U, U' in T. apply Rabs_le. lra.
Qed.

Lemma galactic_dot m v w : m = galactic_to_ra_dec \/ m = ra_dec_to_galactic -> vdot v v = 1 -> vdot w w = 1 ->
  Rabs (vdot (mat_vec m v) (mat_vec m w) - vdot v w) <= / 3000000.
Proof.
  destruct v as [x y z], w as [x' y' z']. unfold vdot. cbn. intros H U U'.
  destruct H as [-> | ->]; unfold mat_vec, dot_product, galactic_to_ra_dec, ra_dec_to_galactic; cbn.
  - match goal with |- Rabs ?t <= _ => replace t with
      (0.00000000880058 * (x * x') + 0.0000000967678 * (y * y') + (- 0.00000004970959) * (z * z') + 0.00000007167036 * (x * y' + y * x')
       + (- 0.00000001924831) * (x * z' + z * x') + 0.00000001460066 * (y * z' + z * y')) by lra end.
    eapply Rle_trans; [apply (gal_form _ _ _ _ _ _ _ _ _ _ _ _ 0.0000001); try assumption; apply Rabs_le; lra|lra].
  - match goal with |- Rabs ?t <= _ => replace t with
      (0.00000000880058 * (x * x') + 0.0000000967678 * (y * y') + (- 0.00000004970959) * (z * z') + (- 0.00000007167036) * (x * y' + y * x')
       + (- 0.00000001924831) * (x * z' + z * x') + (- 0.00000001460066) * (y * z' + z * y')) by lra end.
    eapply Rle_trans; [apply (gal_form _ _ _ _ _ _ _ _ _ _ _ _ 0.0000001); try assumption; apply Rabs_le; lra|lra].
Qed.
