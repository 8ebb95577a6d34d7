(** * Magnitude and unit vector in doubles. *)
From Coq Require Import ZArith Reals Lia Lra Psatz.
From Flocq Require Import Core Relative IEEE754.BinarySingleNaN IEEE754.Binary IEEE754.Bits.
From Verif Require Import TextModel TextSpec TextRound TextScan TextFloat TextProofs TextLaws TextRead TextCard DoubleModel DoubleSpec DoubleProofs DoubleUnits VectorModel VectorSpec VectorProofs VectorArith VectorProducts.
Local Open Scope R_scope.

#[local] Instance prec53 : Prec_gt_0 53 := eq_refl.
#[local] Existing Instance near.

(** ** The square root of a rounded square *)

Lemma sqrt_square_pos x : fmt x -> bpow radix2 (-500) <= x <= bpow radix2 500 -> rnd (sqrt (rnd (x * x))) = x.
Proof.
  intros F [L U]. pose proof (bpow_gt_0 radix2 (-500)) as P0. assert (P : 0 < x) by lra.
  set (e := mag radix2 x : Z). assert (H : bpow radix2 (e - 1) <= x < bpow radix2 e).
  { pose proof (bpow_mag_gt radix2 x) as G1. pose proof (bpow_mag_le radix2 x ltac:(lra)) as G2. rewrite Rabs_pos_eq in G1, G2 by lra. split; assumption. }
  assert (E1 : (-499 <= e)%Z).
  { assert (G : (-500 < e)%Z); [|lia]. apply (lt_bpow radix2). lra. }
  assert (E2 : (e <= 501)%Z).
  { assert (G : (e - 1 <= 500)%Z); [|lia]. apply (le_bpow radix2). lra. }
  (* x is below the next power of two by a unit in the last place *)
  assert (X : x <= bpow radix2 e - bpow radix2 (e - 53)).
  { pose proof (pred_ge_gt radix2 (FLT_exp (-1074) 53) x (bpow radix2 e) F (pow_fmt e ltac:(lia)) (proj2 H)) as Q.
    rewrite pred_bpow in Q. unfold FLT_exp in Q. rewrite Z.max_l in Q by lia. exact Q. }
  replace (bpow radix2 (e - 53)) with (u53 * bpow radix2 e) in X by (unfold u53; rewrite <- bpow_plus; f_equal; lia).
  set (q := rnd (x * x)). set (s := sqrt q).
  assert (X2 : bpow radix2 (2 * e - 2) <= x * x).
  { replace (2 * e - 2)%Z with ((e - 1) + (e - 1))%Z by lia. rewrite bpow_plus. apply Rmult_le_compat; try apply bpow_ge_0; apply H. }
  assert (Q1 : bpow radix2 (2 * e - 2) <= q).
  { unfold q. apply round_ge_generic; [typeclasses eauto|typeclasses eauto|apply pow_fmt; lia|exact X2]. }
  assert (Qe : Rabs (q - x * x) <= u53 * (x * x)).
  { replace (u53 * (x * x)) with (u53 * Rabs (x * x)) by (rewrite (Rabs_pos_eq (x * x)) by nra; reflexivity). apply rnd_rel.
    rewrite Rabs_pos_eq by nra. eapply Rle_trans; [|exact X2]. apply bpow_le. lia. }
  assert (S1 : bpow radix2 (e - 1) <= s).
  { unfold s. rewrite <- (sqrt_Rsqr (bpow radix2 (e - 1))) by apply bpow_ge_0. apply sqrt_le_1_alt. unfold Rsqr. rewrite <- bpow_plus.
    replace (e - 1 + (e - 1))%Z with (2 * e - 2)%Z by lia. exact Q1. }
  assert (Qp : 0 <= q) by (pose proof (bpow_ge_0 radix2 (2 * e - 2)); lra).
  assert (S2 : s * s = q) by (apply sqrt_sqrt, Qp).
  assert (B : bpow radix2 e = 2 * bpow radix2 (e - 1)) by (replace e with (e - 1 + 1)%Z at 1 by lia; apply bpow_double).
  set (b := bpow radix2 (e - 1)) in *. assert (Pb : 0 < b) by apply bpow_gt_0.
  assert (D : Rabs (s - x) < u53 * b).
  { assert (T : Rabs (s - x) * (s + x) <= u53 * (x * x)).
    { replace (Rabs (s - x) * (s + x)) with (Rabs (q - x * x)); [exact Qe|].
      rewrite <- S2. replace (s * s - x * x) with ((s - x) * (s + x)) by ring. rewrite Rabs_mult, (Rabs_pos_eq (s + x)) by lra. reflexivity. }
    assert (T1 : Rabs (s - x) <= u53 * x).
    { apply (Rmult_le_reg_r (s + x)); [lra|]. eapply Rle_trans; [exact T|]. pose proof u53_pos as Pu.
      assert (0 <= u53 * x * s) by (apply Rmult_le_pos; [apply Rmult_le_pos; lra|lra]).
      replace (u53 * x * (s + x)) with (u53 * (x * x) + u53 * x * s) by ring. lra. }
    assert (T2 : x * x < b * (s + x)).
    { apply Rabs_le_inv in T1. rewrite B in X. pose proof u53_pos as Pu.
      assert (G1 : x < b * (2 - u53)) by (assert (0 < u53 * b) by (apply Rmult_lt_0_compat; lra); lra).
      apply Rlt_le_trans with (b * (2 - u53) * x); [apply Rmult_lt_compat_r; lra|].
      replace (b * (2 - u53) * x) with (b * (x + (x - u53 * x))) by ring. apply Rmult_le_compat_l; lra. }
    apply (Rmult_lt_reg_r (s + x)); [lra|]. eapply Rle_lt_trans; [exact T|]. pose proof u53_pos as Pu.
    rewrite Rmult_assoc. apply Rmult_lt_compat_l; lra. }
  assert (S3 : s < bpow radix2 e).
  { apply Rabs_lt_inv in D. rewrite B in X |- *. assert (0 < u53 * b) by (apply Rmult_lt_0_compat; [apply u53_pos|lra]). lra. }
  assert (C : cexp radix2 (FLT_exp (-1074) 53) s = (e - 53)%Z).
  { unfold cexp. rewrite (mag_unique_pos radix2 s e) by (split; assumption). unfold FLT_exp. lia. }
  assert (Cx : cexp radix2 (FLT_exp (-1074) 53) x = (e - 53)%Z) by (unfold cexp, FLT_exp; fold e; lia).
  fold s. change (rnd s) with (round radix2 (FLT_exp (-1074) 53) ZnearestE s). unfold round, scaled_mantissa. rewrite C.
  pose proof (scaled_mantissa_generic radix2 (FLT_exp (-1074) 53) x F) as G. unfold scaled_mantissa in G. rewrite Cx in G.
  set (M := Ztrunc (x * bpow radix2 (- (e - 53)))) in *.
  replace (ZnearestE (s * bpow radix2 (- (e - 53)))) with M.
  - unfold F2R. cbn [Fnum Fexp]. rewrite <- G. rewrite Rmult_assoc, <- bpow_plus. replace (- (e - 53) + (e - 53))%Z with 0%Z by lia. cbn. ring.
  - symmetry. apply Znearest_imp. rewrite <- G. rewrite <- Rmult_minus_distr_r, Rabs_mult, (Rabs_pos_eq (bpow _ _)) by apply bpow_ge_0.
    apply (Rmult_lt_reg_r (bpow radix2 (e - 53))); [apply bpow_gt_0|]. rewrite Rmult_assoc, <- bpow_plus. replace (- (e - 53) + (e - 53))%Z with 0%Z by lia.
    cbn [bpow]. rewrite Rmult_1_r. eapply Rlt_le_trans; [exact D|]. unfold b, u53. rewrite <- bpow_plus. replace (-53 + (e - 1))%Z with (e - 53 - 1)%Z by lia.
    replace (bpow radix2 (e - 53)) with (2 * bpow radix2 (e - 53 - 1)); [lra|]. rewrite <- bpow_double. f_equal. lia.
Qed.

Lemma sqrt_square x : fmt x -> (x = 0 \/ bpow radix2 (-500) <= Rabs x <= bpow radix2 500) -> rnd (sqrt (rnd (x * x))) = Rabs x.
Proof.
  intros F [->|H]; [rewrite Rmult_0_l, nearest_0, sqrt_0, nearest_0, Rabs_R0; reflexivity|].
  replace (x * x) with (Rabs x * Rabs x) by (rewrite <- Rabs_mult; apply Rabs_pos_eq, Rle_0_sqr).
  apply sqrt_square_pos; [apply generic_format_abs, F|exact H].
Qed.

(** ** Magnitude *)

Lemma zero_ok : fin (d_of_Z 0) = true /\ val (d_of_Z 0) = 0. Proof. apply (small_int_ok 0 eq_refl). Qed.

(** Squares, their sum and the root, for numbers of which the squares do not overflow. *)
Lemma magnitude_val k p : (0 <= k <= 505)%Z -> bd k (dx p) -> bd k (dy p) -> bd k (dz p) ->
  let m := magnitude_d None None p in
  fin m = true /\ 0 <= val m <= bpow radix2 (k + 1) /\ val m = rnd (sqrt (rnd (rnd (rnd (val (dx p) * val (dx p)) + rnd (val (dy p) * val (dy p))) + rnd (val (dz p) * val (dz p))))).
Proof.
  intros K B1 B2 B3 m. destruct p as [x y z]. unfold m, magnitude_d, in_x_d. cbn [dx dy dz cast] in *. clear m.
  destruct (mul_bd k _ _ ltac:(lia) B1 B1) as [M1 V1]. destruct (mul_bd k _ _ ltac:(lia) B2 B2) as [M2 V2]. destruct (mul_bd k _ _ ltac:(lia) B3 B3) as [M3 V3].
  destruct (add_bd (k + k) _ _ ltac:(lia) M1 M2) as [M4 V4]. apply (bd_weaken (k + k) (k + k + 1) _ ltac:(lia)) in M3.
  destruct (add_bd (k + k + 1) _ _ ltac:(lia) M4 M3) as [M5 V5]. destruct zero_ok as [F0 V0].
  set (t := d_add (d_add (d_mul x x) (d_mul y y)) (d_mul z z)) in *.
  destruct (add_ok (d_of_Z 0) t F0 (proj1 M5)) as [F6 V6].
  { rewrite V0, Rplus_0_l, rnd_id by apply val_fmt. apply val_below, M5. }
  rewrite V0, Rplus_0_l, rnd_id in V6 by apply val_fmt.
  assert (N : forall r, 0 <= r -> 0 <= rnd r) by exact rnd_pos.
  assert (Q : forall r, 0 <= r * r) by exact Rle_0_sqr.
  assert (Pt : 0 <= val t).
  { rewrite V5. apply N. rewrite V4, V3. apply Rplus_le_le_0_compat; [|apply N, Q]. apply N. rewrite V1, V2. apply Rplus_le_le_0_compat; apply N, Q. }
  destruct (sqrt_ok (d_add (d_of_Z 0) t) F6) as [F7 V7]; [rewrite V6; exact Pt|]. split; [exact F7|].
  split; [|rewrite V7, V6, V5, V4, V1, V2, V3; reflexivity]. rewrite V7, V6. split; [apply rnd_pos, sqrt_pos|].
  apply round_le_generic; [typeclasses eauto|typeclasses eauto|apply pow_fmt; lia|].
  rewrite <- (sqrt_Rsqr (bpow radix2 (k + 1))) by apply bpow_ge_0. apply sqrt_le_1_alt. unfold Rsqr. rewrite <- bpow_plus.
  destruct M5 as [_ M5]. rewrite Rabs_pos_eq in M5 by exact Pt. replace (k + 1 + (k + 1))%Z with (k + k + 1 + 1)%Z by lia. exact M5.
Qed.

Lemma magnitude_cast gy gz a : magnitude_d gy gz a = magnitude_d None None (in_x_d gy gz a).
Proof. destruct a. reflexivity. Qed.

(** No component is longer than the whole. *)
Lemma magnitude_ge_parts p : sized 500 (dx p) -> sized 500 (dy p) -> sized 500 (dz p) ->
  let m := magnitude_d None None p in
  fin m = true /\ Rabs (val (dx p)) <= val m /\ Rabs (val (dy p)) <= val m /\ Rabs (val (dz p)) <= val m.
Proof.
  intros S1 S2 S3 m. pose proof (sized_bd 500 _ ltac:(lia) S1) as B1. pose proof (sized_bd 500 _ ltac:(lia) S2) as B2. pose proof (sized_bd 500 _ ltac:(lia) S3) as B3.
  destruct (magnitude_val 500 p ltac:(lia) B1 B2 B3) as (F & _ & V). fold m in F, V. split; [exact F|]. rewrite V.
  set (x := val (dx p)) in *. set (y := val (dy p)) in *. set (z := val (dz p)) in *.
  assert (N : forall r, 0 <= rnd (r * r)) by (intros r; apply rnd_pos, Rle_0_sqr).
  pose proof (N x) as Nx. pose proof (N y) as Ny. pose proof (N z) as Nz.
  assert (I : forall r, rnd (rnd r) = rnd r) by (intros r; apply rnd_id, rnd_fmt).
  assert (Mo : forall r t, r <= t -> rnd r <= rnd t) by (intros r t; apply nearest_le, std64).
  set (s := rnd (rnd (x * x) + rnd (y * y))) in *.
  assert (Sx : rnd (x * x) <= s) by (rewrite <- (I (x * x)); apply Mo; lra).
  assert (Sy : rnd (y * y) <= s) by (rewrite <- (I (y * y)); apply Mo; lra).
  assert (Ps : 0 <= s) by lra.
  assert (Is : rnd s = s) by apply I.
  set (t := rnd (s + rnd (z * z))) in *.
  assert (Ts : s <= t) by (rewrite <- Is; apply Mo; lra).
  assert (Tz : rnd (z * z) <= t) by (rewrite <- (I (z * z)); apply Mo; lra).
  assert (R : forall w, sized 500 w -> rnd (val w * val w) <= t -> Rabs (val w) <= rnd (sqrt t)).
  { intros w [_ Sw] Hw. rewrite <- (sqrt_square (val w)) by (first [apply val_fmt|exact Sw]). apply Mo, sqrt_le_1_alt, Hw. }
  split; [|split]; (apply R; [assumption|]); fold x y z; lra.
Qed.

Lemma rel_trans c s a x : 0 <= c <= 100 -> rel c a x -> rel 1 s a -> rel (c + 1 + / 1000000) s x.
Proof.
  intros C A R. destruct (rel_form _ _ _ (proj1 C) A) as (e & E1 & E). destruct (rel_form 1 _ _ Rle_0_1 R) as (g & -> & G). subst a.
  apply (form_rel _ _ _ (e + g + e * g)); [ring|]. eapply Rle_trans; [apply Rabs_triang|]. rewrite Rabs_mult.
  pose proof (Rabs_triang e g). pose proof (Rabs_pos e). pose proof (Rabs_pos g). rewrite u53_eq in *.
  assert (Rabs e * Rabs g <= (100 * / 9007199254740992) * (1 * / 9007199254740992)) by (apply Rmult_le_compat; lra). lra.
Qed.

Lemma add_rel' x y : fmt x -> fmt y -> rel 1 (rnd (x + y)) (x + y).
Proof.
  intros X Y. unfold rel. rewrite Rmult_1_l. destruct (Rle_dec (Rabs (x + y)) (bpow radix2 (-1022))) as [L|L].
  - rewrite rnd_id; [rewrite Rminus_diag_eq, Rabs_R0 by reflexivity; apply Rmult_le_pos; [left; apply u53_pos|apply Rabs_pos]|].
    apply (Plus_error.FLT_format_plus_small radix2 (-1074) 53); [exact X|exact Y|]. eapply Rle_trans; [exact L|]. apply bpow_le. lia.
  - apply rnd_rel. lra.
Qed.

Lemma magnitude_rel k p p0 : (0 <= k <= 505)%Z -> sized k (dx p) -> sized k (dy p) -> sized k (dz p) ->
  rel 1 (val (dx p)) (rx p0) -> rel 1 (val (dy p)) (ry p0) -> rel 1 (val (dz p)) (rz p0) ->
  let m := magnitude_d None None p in fin m = true /\ rel (3 + 9 / 10) (val m) (rlength p0).
Proof.
  intros K S1 S2 S3 R1 R2 R3 m. pose proof (sized_bd k _ ltac:(lia) S1) as B1. pose proof (sized_bd k _ ltac:(lia) S2) as B2. pose proof (sized_bd k _ ltac:(lia) S3) as B3.
  destruct (magnitude_val k p K B1 B2 B3) as (F & _ & V). fold m in F, V. split; [exact F|]. rewrite V.
  destruct (mul_rel k k _ _ _ _ 1 1 ltac:(lia) ltac:(lia) ltac:(lia) S1 S1 ltac:(lra) ltac:(lra) R1 R1) as [T1 Q1].
  destruct (mul_rel k k _ _ _ _ 1 1 ltac:(lia) ltac:(lia) ltac:(lia) S2 S2 ltac:(lra) ltac:(lra) R2 R2) as [T2 Q2].
  destruct (mul_rel k k _ _ _ _ 1 1 ltac:(lia) ltac:(lia) ltac:(lia) S3 S3 ltac:(lra) ltac:(lra) R3 R3) as [T3 Q3].
  destruct (mul_bd k _ _ ltac:(lia) B1 B1) as [_ V1]. destruct (mul_bd k _ _ ltac:(lia) B2 B2) as [_ V2]. destruct (mul_bd k _ _ ltac:(lia) B3 B3) as [_ V3].
  rewrite V1 in Q1. rewrite V2 in Q2. rewrite V3 in Q3.
  destruct p0 as [x0 y0 z0]. unfold rlength. cbn [rx ry rz] in *.
  set (X := rnd (val (dx p) * val (dx p))) in *. set (Y := rnd (val (dy p) * val (dy p))) in *. set (Z := rnd (val (dz p) * val (dz p))) in *.
  assert (Qx : 0 <= x0 * x0) by apply Rle_0_sqr. assert (Qy : 0 <= y0 * y0) by apply Rle_0_sqr. assert (Qz : 0 <= z0 * z0) by apply Rle_0_sqr.
  pose proof (rel_trans (1 + 1 + 1 + / 1000) _ _ _ ltac:(lra) (rel_add _ _ _ _ _ Qx Qy Q1 Q2) (add_rel' X Y (rnd_fmt _) (rnd_fmt _))) as A1.
  apply (rel_weaken _ (4 + 2 / 1000)) in A1; [|lra]. apply (rel_weaken _ (4 + 2 / 1000)) in Q3; [|lra].
  pose proof (rel_trans (4 + 2 / 1000) _ _ _ ltac:(lra) (rel_add _ _ _ _ _ (Rplus_le_le_0_compat _ _ Qx Qy) Qz A1 Q3) (add_rel' (rnd (X + Y)) Z (rnd_fmt _) (rnd_fmt _))) as A2.
  apply (rel_weaken _ (5 + 3 / 1000)) in A2; [|lra]. set (t := rnd (rnd (X + Y) + Z)) in *.
  destruct (rel_sqrt (5 + 3 / 1000) t (x0 * x0 + y0 * y0 + z0 * z0) ltac:(lra) ltac:(lra) A2) as [Pt A3].
  apply (rel_weaken ((5 + 3 / 1000) / 2 + / 1000000 + 1 + / 1000000)); [lra|]. apply rel_round; [lra|exact A3|].
  (* the root is zero or not small *)
  assert (Sq : forall w, sized k w -> rnd (val w * val w) = 0 \/ bpow radix2 (-1010) <= rnd (val w * val w)).
  { intros w [_ [W|W]]; [left; rewrite W, Rmult_0_l; apply nearest_0|right]. apply round_ge_generic; [typeclasses eauto|typeclasses eauto|apply pow_fmt; lia|].
    replace (val w * val w) with (Rabs (val w) * Rabs (val w)) by (rewrite <- Rabs_mult; apply Rabs_pos_eq, Rle_0_sqr).
    apply Rle_trans with (bpow radix2 (- k) * bpow radix2 (- k)); [rewrite <- bpow_plus; apply bpow_le; lia|]. apply Rmult_le_compat; try apply bpow_ge_0; apply W. }
  assert (N : forall r, 0 <= rnd (r * r)) by (intros r; apply rnd_pos, Rle_0_sqr).
  pose proof (N (val (dx p))) as Nx. pose proof (N (val (dy p))) as Ny. pose proof (N (val (dz p))) as Nz. fold X in Nx. fold Y in Ny. fold Z in Nz.
  assert (K0 : t = 0 \/ bpow radix2 (-1010) <= t).
  { pose proof (bpow_gt_0 radix2 (-1010)) as Pp.
    assert (J : forall r, bpow radix2 (-1010) <= r -> bpow radix2 (-1010) <= rnd r) by (intros r Hr; apply round_ge_generic; [typeclasses eauto|typeclasses eauto|apply pow_fmt; lia|exact Hr]).
    destruct (Sq _ S3) as [Hz|Hz]; fold Z in Hz; [|right; apply J; pose proof (rnd_pos (X + Y) ltac:(lra)); lra].
    destruct (Sq _ S2) as [Hy|Hy]; fold Y in Hy; [|right; apply J; assert (bpow radix2 (-1010) <= rnd (X + Y)) by (apply J; lra); lra].
    destruct (Sq _ S1) as [Hx|Hx]; fold X in Hx; [|right; apply J; assert (bpow radix2 (-1010) <= rnd (X + Y)) by (apply J; lra); lra].
    left. unfold t. rewrite Hx, Hy, Hz, !Rplus_0_r, !nearest_0. reflexivity. }
  destruct K0 as [K0|K0]; [left; rewrite K0; apply sqrt_0|right]. rewrite Rabs_pos_eq by apply sqrt_pos.
  apply Rle_trans with (bpow radix2 (-505)); [apply bpow_le; lia|].
  rewrite <- (sqrt_Rsqr (bpow radix2 (-505))) by apply bpow_ge_0. apply sqrt_le_1_alt. unfold Rsqr. rewrite <- bpow_plus. exact K0.
Qed.
