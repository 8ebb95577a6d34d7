(** * Conversions move the sky as a whole, in doubles. *)
From Coq Require Import ZArith Reals Lia Lra Psatz.
From Flocq Require Import Core IEEE754.Binary IEEE754.Bits.
From Verif Require Import DoubleModel DoubleSpec VectorModel VectorSpec SkyModel SkySpec SkyAngles SkyProofs SkyConvert.
Local Open Scope R_scope.

Lemma true_dot L a m t p q : conversion L a m t -> rdot (t p) (t q) = rdot p q.
Proof.
  intros H. pose proof (sin2_cos2 (dval a)) as S. unfold Rsqr in S. destruct p as [x y z], q as [x' y' z'].
  destruct H; unfold rdot, true_horizon, true_ra_dec, true_from_ecliptic, true_to_ecliptic; cbn [rx ry rz];
    set (s := sin (dval a)) in *; set (c := cos (dval a)) in *; clearbody s c.
  - transitivity ((s * s + c * c) * (x * x' + z * z') + y * y'); [ring|rewrite S; ring].
  - transitivity ((s * s + c * c) * (x * x' + y * y') + z * z'); [ring|rewrite S; ring].
  - transitivity ((s * s + c * c) * (y * y' + z * z') + x * x'); [ring|rewrite S; ring].
  - transitivity ((s * s + c * c) * (y * y' + z * z') + x * x'); [ring|rewrite S; ring].
Qed.

Lemma unit_abs p : runit p -> Rabs (rx p) <= 1 /\ Rabs (ry p) <= 1 /\ Rabs (rz p) <= 1.
Proof. unfold runit. intros U. split; [|split]; apply Rabs_le; nra. Qed.

Lemma dot_close e p p' q q' : runit p' -> runit q -> within e p' p -> within e q' q -> Rabs (rdot p' q' - rdot p q) <= 6 * e.
Proof.
  intros U V (P1 & P2 & P3) (Q1 & Q2 & Q3). destruct (unit_abs _ U) as (A1 & A2 & A3). destruct (unit_abs _ V) as (B1 & B2 & B3).
  pose proof (abs_le_mul _ _ _ A1 Q1) as C1. pose proof (abs_le_mul _ _ _ A2 Q2) as C2. pose proof (abs_le_mul _ _ _ A3 Q3) as C3.
  pose proof (abs_le_mul _ _ _ B1 P1) as D1. pose proof (abs_le_mul _ _ _ B2 P2) as D2. pose proof (abs_le_mul _ _ _ B3 P3) as D3.
  apply Rabs_le_inv in C1, C2, C3, D1, D2, D3. unfold rdot. apply Rabs_le. lra.
Qed.

Lemma rigid_double L a m t u v u' v' : good_libm L -> conversion L a m t -> dfinite a -> dfinite u -> dfinite v -> dfinite u' -> dfinite v' ->
  let q := convert_angles_d L m (u, v) in let q' := convert_angles_d L m (u', v') in
  let p := direction (dval u) (dval v) in let p' := direction (dval u') (dval v') in
  let after := rdot (direction (dval (fst q)) (dval (snd q))) (direction (dval (fst q')) (dval (snd q'))) in
  (dfinite (snd q) -> dfinite (snd q') -> Rabs (after - rdot p p') <= bpow radix2 (-19)) /\
  (Rabs (rz (t p)) <= 9 / 10 -> Rabs (rz (t p')) <= 9 / 10 -> Rabs (after - rdot p p') <= bpow radix2 (-42)).
Proof.
  intros G C Fa Fu Fv Fu' Fv' q q' p p' after.
  destruct (conversion_angles L G a m t u v C Fa Fu Fv) as (_ & _ & _ & N1 & _ & N2).
  destruct (conversion_angles L G a m t u' v' C Fa Fu' Fv') as (_ & _ & _ & M1 & _ & M2).
  rewrite <- (true_dot L a m t p p' C). unfold after.
  assert (Up : runit (t p')) by (apply (true_unit L a m t _ C), direction_unit).
  split.
  - intros F F'. destruct (N1 F) as (_ & _ & W). destruct (M1 F') as (_ & _ & W').
    eapply Rle_trans; [exact (dot_close _ _ _ _ _ (direction_unit _ _) Up W W')|].
    change (bpow radix2 (-22)) with (/ 4194304). change (bpow radix2 (-19)) with (/ 524288). lra.
  - intros Z Z'. destruct (N2 Z) as (_ & W). destruct (M2 Z') as (_ & W').
    eapply Rle_trans; [exact (dot_close _ _ _ _ _ (direction_unit _ _) Up W W')|].
    change (bpow radix2 (-45)) with (/ 35184372088832). change (bpow radix2 (-42)) with (/ 4398046511104). lra.
Qed.
