(** * Where a star stands, in doubles. *)
From Coq Require Import ZArith Reals Lia Lra Psatz.
From Flocq Require Import Core IEEE754.Binary IEEE754.Bits.
From Verif Require Import DoubleModel DoubleSpec VectorModel VectorSpec SkyModel SkySpec SkyAngles SkyProofs SkyConvert StarModel StarSpec StarProofs.
From Verif Require TimeModel TimeSpec TimeFloat TimeProps.
Local Open Scope R_scope.

Lemma within_trans e d p q r : within e p q -> within d q r -> within (e + d) p r.
Proof.
  intros (A1 & A2 & A3) (B1 & B2 & B3). apply Rabs_le_inv in A1, A2, A3, B1, B2, B3.
  split; [|split]; apply Rabs_le; lra.
Qed.
Lemma within_le e d p q : e <= d -> within e p q -> within d p q.
Proof. intros L (A1 & A2 & A3). split; [|split]; eapply Rle_trans; eassumption. Qed.

(** Two sidereal angles that are close give close positions. *)
Lemma turn_close st st' g p : Rabs (st' - st) <= g -> Rabs (rx p) <= 1 -> Rabs (ry p) <= 1 -> within (2 * g) (true_ra_dec st' p) (true_ra_dec st p).
Proof.
  intros G X Y. pose proof (Rle_trans _ _ _ (sin_lipschitz st' st) G) as S. pose proof (Rle_trans _ _ _ (cos_lipschitz st' st) G) as C.
  pose proof (abs_le_mul (rx p) _ _ X S) as SX. pose proof (abs_le_mul (rx p) _ _ X C) as CX. pose proof (abs_le_mul (ry p) _ _ Y S) as SY. pose proof (abs_le_mul (ry p) _ _ Y C) as CY.
  pose proof (Rle_trans _ _ _ (Rabs_pos _) G) as G0.
  apply Rabs_le_inv in SX, CX, SY, CY. unfold true_ra_dec. split; [|split]; cbn [rx ry rz]; apply Rabs_le; lra.
Qed.

(** The horizon matrix at most doubles an error. *)
Lemma horizon_close phi e p q : within e p q -> within (2 * e) (true_horizon phi p) (true_horizon phi q).
Proof.
  intros (X & Y & Z). pose proof (Rle_trans _ _ _ (Rabs_pos _) X) as E0.
  pose proof (abs_le_mul _ _ _ (sin_abs_1 phi) X) as A. pose proof (abs_le_mul _ _ _ (cos_abs_1 phi) X) as B.
  pose proof (abs_le_mul _ _ _ (sin_abs_1 phi) Z) as C. pose proof (abs_le_mul _ _ _ (cos_abs_1 phi) Z) as D.
  apply Rabs_le_inv in A, B, C, D, Y. unfold true_horizon. split; [|split]; cbn [rx ry rz]; apply Rabs_le; lra.
Qed.

Lemma direction_small lon lat : Rabs (rx (direction lon lat)) <= 1 /\ Rabs (ry (direction lon lat)) <= 1.
Proof.
  unfold direction. cbn [rx ry]. split; apply abs_le_mul; try apply cos_abs_1; apply sin_abs_1.
Qed.

Lemma near_true L st phi ra dec s g : good_libm L -> dfinite st -> dfinite phi -> dfinite ra -> dfinite dec ->
  Rabs (dval st - s) <= g -> g <= bpow radix2 (-33) -> Rabs (sin (dval dec)) <= 1 - bpow radix2 (-49) ->
  let q := star_on_horizon_d L st phi (ra, dec) in let p := true_horizon (dval phi) (true_ra_dec s (direction (dval ra) (dval dec))) in
  dfinite (fst q) /\
  (dfinite (snd q) -> within (bpow radix2 (-20)) (direction (dval (fst q)) (dval (snd q))) p) /\
  (Rabs (rz p) <= 1 - bpow radix2 (-20) -> dfinite (snd q)) /\
  (Rabs (rz p) <= 8 / 9 -> Rabs (sin (dval dec)) <= 9 / 10 -> within (4 * g + bpow radix2 (-43)) (direction (dval (fst q)) (dval (snd q))) p).
Proof.
  intros GL Fs Fp Fr Fd G Gs Sd q p. set (v := direction (dval ra) (dval dec)) in *.
  destruct (conversion_angles L GL st _ _ ra dec (RaDec L st) Fs Fr Fd) as (F1 & _ & _ & N1 & N2 & N3). fold v in N1, N2, N3.
  set (b := convert_angles_d L (ha_dec_ra_dec_d L st) (ra, dec)) in *.
  assert (Zv : rz (true_ra_dec (dval st) v) = sin (dval dec)) by reflexivity. rewrite Zv in N2, N3.
  specialize (N2 Sd). destruct (N1 N2) as (_ & _ & W1).
  destruct (direction_small (dval ra) (dval dec)) as [X Y]. pose proof (turn_close s (dval st) g v G X Y) as W2.
  assert (Eb : b = (fst b, snd b)) by (destruct b; reflexivity).
  destruct (conversion_angles L GL phi _ _ (fst b) (snd b) (Horizon L phi) Fp F1 N2) as (F2 & _ & _ & M1 & M2 & M3).
  rewrite <- Eb in F2, M1, M2, M3. change (convert_angles_d L (ha_dec_horizon_d L phi) b) with q in F2, M1, M2, M3.
  pose proof (horizon_close (dval phi) _ _ _ (within_trans _ _ _ _ _ W1 W2)) as W3. fold p in W3.
  assert (V3 : Rabs (sin (dval dec)) <= 9 / 10 -> within (2 * (bpow radix2 (-45) + 2 * g)) (true_horizon (dval phi) (direction (dval (fst b)) (dval (snd b)))) p).
  { intros D. destruct (N3 D) as (_ & V1). exact (horizon_close (dval phi) _ _ _ (within_trans _ _ _ _ _ V1 W2)). }
  set (p1 := true_horizon (dval phi) (direction (dval (fst b)) (dval (snd b)))) in *.
  clearbody p1 p q.
  change (bpow radix2 (-22)) with (/ 4194304) in *. change (bpow radix2 (-33)) with (/ 8589934592) in *. change (bpow radix2 (-20)) with (/ 1048576) in *.
  change (bpow radix2 (-49)) with (/ 562949953421312) in *. change (bpow radix2 (-45)) with (/ 35184372088832) in *. change (bpow radix2 (-43)) with (/ 8796093022208) in *.
  split; [exact F2|]. split; [|split].
  - intros F. destruct (M1 F) as (_ & _ & W4). eapply within_le; [|exact (within_trans _ _ _ _ _ W4 W3)]. lra.
  - intros Z. apply M2. destruct W3 as (_ & _ & K). apply Rabs_le_inv in K, Z. apply Rabs_le. lra.
  - intros Z D. specialize (V3 D).
    assert (Z' : Rabs (rz p1) <= 9 / 10) by (destruct W3 as (_ & _ & K); apply Rabs_le_inv in K, Z; apply Rabs_le; lra).
    destruct (M3 Z') as (_ & V4). pose proof (Rle_trans _ _ _ (Rabs_pos _) G) as G0.
    eapply within_le; [|exact (within_trans _ _ _ _ _ V4 V3)]. lra.
Qed.

Lemma turns_ra_dec s (k : Z) p : true_ra_dec (s + 2 * PI * IZR k) p = true_ra_dec s p.
Proof. unfold true_ra_dec. destruct (whole_turns s k) as [-> ->]. reflexivity. Qed.

Lemma star_direction_is phi s ra dec : true_horizon phi (true_ra_dec s (direction ra dec)) = star_direction phi (s - ra) dec.
Proof. unfold true_horizon, true_ra_dec, direction, star_direction. cbn [rx ry rz]. rewrite cos_minus, sin_minus. f_equal; ring. Qed.

(** With the sidereal time the library computes, brought to radians. *)
Lemma star_double L l dir t st phi ra dec : good_libm L -> TimeSpec.valid_time t -> TimeFloat.double l -> (l = 0 \/ bpow radix2 (-900) <= Rabs l <= 360) ->
  dfinite st -> Rabs (dval st - TimeFloat.lst_hours_fp l dir t * (PI / 12)) <= bpow radix2 (-45) ->
  dfinite phi -> dfinite ra -> dfinite dec -> Rabs (sin (dval dec)) <= 1 - bpow radix2 (-49) ->
  let q := star_on_horizon_d L st phi (ra, dec) in
  let p := star_direction (dval phi) (turned l dir t - dval ra) (dval dec) in
  dfinite (fst q) /\
  (dfinite (snd q) -> within (bpow radix2 (-20)) (direction (dval (fst q)) (dval (snd q))) p) /\
  (Rabs (rz p) <= 1 - bpow radix2 (-20) -> dfinite (snd q)) /\
  (Rabs (rz p) <= 8 / 9 -> Rabs (sin (dval dec)) <= 9 / 10 -> within (bpow radix2 (-30)) (direction (dval (fst q)) (dval (snd q))) p).
Proof.
  intros GL T Dl Bl Fs Es Fp Fr Fd Sd q p.
  destruct (TimeProps.C36_local_double l dir t T Dl Bl) as (_ & e & Be & k & Ek).
  assert (G : Rabs (dval st - (turned l dir t + 2 * PI * IZR k)) <= bpow radix2 (-33)).
  { assert (Ee : TimeFloat.lst_hours_fp l dir t * (PI / 12) = turned l dir t + 2 * PI * IZR k + e * (PI / 12)).
    { rewrite Ek. unfold turned. replace (TimeProps.eastward dir l) with (eastward dir l) by (destruct dir; reflexivity). field. }
    rewrite Ee in Es. set (s := turned l dir t + 2 * PI * IZR k) in *. clearbody s. pose proof PI_4 as P4. pose proof PI_RGT_0 as P0.
    assert (Bp : Rabs (e * (PI / 12)) <= / 9000000000) by (rewrite Rabs_mult, (Rabs_pos_eq (PI / 12)) by lra; pose proof (Rabs_pos e); nra).
    change (bpow radix2 (-45)) with (/ 35184372088832) in Es. change (bpow radix2 (-33)) with (/ 8589934592).
    apply Rabs_le_inv in Es, Bp. apply Rabs_le. lra. }
  pose proof (near_true L st phi ra dec _ _ GL Fs Fp Fr Fd G (Rle_refl _) Sd) as N. cbn zeta in N. rewrite turns_ra_dec, star_direction_is in N.
  destruct N as (N1 & N2 & N3 & N4). split; [exact N1|]. split; [exact N2|]. split; [exact N3|].
  intros Z D. eapply within_le; [|exact (N4 Z D)].
  change (bpow radix2 (-33)) with (/ 8589934592). change (bpow radix2 (-43)) with (/ 8796093022208). change (bpow radix2 (-30)) with (/ 1073741824). lra.
Qed.
