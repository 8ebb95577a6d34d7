(** * Conversions move the sky as a whole. *)
From Coq Require Import ZArith Reals Lia Lra.
From Flocq Require Import Core IEEE754.Binary IEEE754.Bits.
From Verif Require Import CoordModel CoordSpec UtilModel UtilSpec UtilProofs RigidSpec RigidProofs.
From Verif Require Import DoubleModel DoubleSpec VectorModel VectorSpec SkyModel SkySpec SkyProofs SkyLibrary SkyProps RigidDouble.
Local Open Scope R_scope.

(** ** C128 *)

(** Any two positions are as far apart after a conversion as before; *)
Theorem C128_apart : forall x m a b, same_way x m \/ other_way x m -> apart (convert_angles m a) (convert_angles m b) = apart a b.
Proof. exact apart_kept. Qed.
Print Assumptions C128_apart.

(** any three follow one another in the same sense, or in the opposite one between hour angle and right ascension. *)
Theorem C128_sense : forall x m a b c, same_way x m -> span (convert_angles m a) (convert_angles m b) (convert_angles m c) = span a b c.
Proof. exact span_same. Qed.
Print Assumptions C128_sense.

Theorem C128_mirror : forall x m a b c, other_way x m -> span (convert_angles m a) (convert_angles m b) (convert_angles m c) = - span a b c.
Proof. exact span_other. Qed.
Print Assumptions C128_mirror.

(** So there is no way from hour angle to right ascension that keeps the sense: the matrix is not a rotation. *)
Theorem C128_rotation_refuted : exists x m a b c, other_way x m /\ span (convert_angles m a) (convert_angles m b) (convert_angles m c) <> span a b c.
Proof.
  exists 0, (ha_dec_ra_dec 0), (0, 0), (PI / 2, 0), (0, PI / 2). split; [constructor|].
  rewrite (span_other 0) by constructor. unfold span, volume, on_sphere. cbn. rewrite cos_0, sin_0, cos_PI2, sin_PI2. lra.
Qed.
Print Assumptions C128_rotation_refuted.

(** The galactic matrices keep the cosine of the angle between two directions to six digits. *)
Theorem C128_galactic : forall m v w, m = galactic_to_ra_dec \/ m = ra_dec_to_galactic -> vdot v v = 1 -> vdot w w = 1 ->
  Rabs (vdot (mat_vec m v) (mat_vec m w) - vdot v w) <= / 3000000.
Proof. exact galactic_dot. Qed.
Print Assumptions C128_galactic.

(** In doubles, the cosine of the angle between the two positions. *)
Theorem C128_double : forall L a m t u v u' v', good_libm L -> conversion L a m t ->
  dfinite a -> dfinite u -> dfinite v -> dfinite u' -> dfinite v' ->
  let q := convert_angles_d L m (u, v) in let q' := convert_angles_d L m (u', v') in
  let p := direction (dval u) (dval v) in let p' := direction (dval u') (dval v') in
  let after := rdot (direction (dval (fst q)) (dval (snd q))) (direction (dval (fst q')) (dval (snd q'))) in
  (dfinite (snd q) -> dfinite (snd q') -> Rabs (after - rdot p p') <= bpow radix2 (-19)) /\
  (Rabs (rz (t p)) <= 9 / 10 -> Rabs (rz (t p')) <= 9 / 10 -> Rabs (after - rdot p p') <= bpow radix2 (-42)).
Proof. exact rigid_double. Qed.
Print Assumptions C128_double.

(** Two stars a quarter of the sky apart; three that span a cube; finite angles far from the poles of the horizon. *)
Example C128_case : apart (0, 0) (PI / 2, 0) = PI / 2 /\ span (0, 0) (PI / 2, 0) (0, PI / 2) = 1 /\ same_way (PI / 3) (ha_dec_horizon (PI / 3)) /\
  vdot (column_vector 1 2) (column_vector 1 2) = 1.
Proof.
  split; [|split; [|split; [constructor|apply column_unit]]].
  - unfold apart, on_sphere, vdot. cbn. rewrite cos_0, sin_0, cos_PI2, sin_PI2. replace (_ + _) with 0 by ring. apply acos_0.
  - unfold span, volume, on_sphere. cbn. rewrite cos_0, sin_0, cos_PI2, sin_PI2. ring.
Qed.
Example C128_double_case L : dfinite half /\ dfinite (d_of_Z 0) /\
  conversion L half (ecliptic_to_ra_dec_d L half) (true_from_ecliptic (dval half)) /\
  Rabs (rz (true_from_ecliptic (dval half) (direction (dval (d_of_Z 0)) (dval half)))) <= 9 / 10.
Proof. destruct (C106_case L) as (A & B & C & D & _). auto. Qed.
