(** * Double arithmetic: decimal hours and units. *)
From Coq Require Import ZArith Reals Lia Lra Psatz ZifyBool ZifyN.
From Flocq Require Import Core Relative IEEE754.BinarySingleNaN IEEE754.Binary IEEE754.Bits.
From Verif Require Import CppProofs CardSpec CardProofs TextModel TextSpec TextRound TextScan TextFloat TextProofs TextLaws TextRead TextCard DoubleModel DoubleSpec.
Local Open Scope R_scope.

Notation b64 := TextModel.binary64.
Notation val := (B2R 53 1024).
Notation fin := (is_finite 53 1024).
Notation rnd := (nearest TextModel.binary64).

#[local] Existing Instance near.
#[local] Instance prec53 : Prec_gt_0 53 := eq_refl.
#[local] Instance pemax : Prec_lt_emax 53 1024 := eq_refl.

(** ** Patterns *)

Lemma bits_range x : (0 <= bits_of_b64 x < 2 ^ 64)%Z.
Proof. apply (bits_of_binary_float_range 52 11 eq_refl eq_refl). Qed.

Lemma d_bits_pattern x : (d_bits x < 2 ^ 64)%N.
Proof. pose proof (bits_range x). unfold d_bits. change (2 ^ 64)%N with (Z.to_N (2 ^ 64)). lia. Qed.

Lemma d_bits_float x : float_of b64 (d_bits x) = B2FF 53 1024 x.
Proof.
  pose proof (bits_range x) as B. unfold float_of, d_bits. rewrite Z2N.id by lia.
  pose proof (binary_float_of_bits_of_binary_float 52 11 eq_refl eq_refl eq_refl x) as E.
  apply (f_equal (B2FF 53 1024)) in E. unfold binary_float_of_bits in E. rewrite B2FF_FF2B in E. exact E.
Qed.

Lemma d_bits_finite x : finite b64 (d_bits x) <-> fin x = true.
Proof. unfold finite. rewrite d_bits_float. destruct x; cbn; split; auto. Qed.
Lemma d_bits_val x : fval b64 (d_bits x) = val x.
Proof. unfold fval. rewrite d_bits_float. apply FF2R_B2FF. Qed.
Lemma d_bits_sign x : negative b64 (d_bits x) = Bsign 53 1024 x.
Proof. unfold negative. rewrite d_bits_float. apply sign_FF_B2FF || (destruct x; reflexivity). Qed.

(** ** Operations *)

Lemma rnd_eq x : rnd x = round radix2 (FLT_exp (-1074) 53) ZnearestE x. Proof. reflexivity. Qed.
Lemma emin_eq : (SpecFloat.emin 53 1024 = -1074)%Z. Proof. reflexivity. Qed.

Lemma mul_ok x y : fin x = true -> fin y = true -> Rabs (rnd (val x * val y)) < bpow radix2 1024 ->
  fin (d_mul x y) = true /\ val (d_mul x y) = rnd (val x * val y).
Proof.
  intros X Y H. unfold d_mul, b64_mult.
  match goal with |- context [Bmult _ _ ?a ?b ?n ?m x y] => pose proof (Bmult_correct 53 1024 a b n m x y) as C end.
  cbv zeta in C. change (round radix2 (SpecFloat.fexp 53 1024) (round_mode mode_NE) (val x * val y)) with (rnd (val x * val y)) in C.
  rewrite Rlt_bool_true in C by exact H. destruct C as (C1 & C2 & _). rewrite X, Y in C2. split; [exact C2|exact C1].
Qed.

Lemma sub_ok x y : fin x = true -> fin y = true -> Rabs (rnd (val x - val y)) < bpow radix2 1024 ->
  fin (d_sub x y) = true /\ val (d_sub x y) = rnd (val x - val y).
Proof.
  intros X Y H. unfold d_sub, b64_minus.
  match goal with |- context [Bminus _ _ ?a ?b ?n ?m x y] => pose proof (Bminus_correct 53 1024 a b n m x y X Y) as C end.
  change (round radix2 (SpecFloat.fexp 53 1024) (round_mode mode_NE) (val x - val y)) with (rnd (val x - val y)) in C.
  rewrite Rlt_bool_true in C by exact H. destruct C as (C1 & C2 & _). auto.
Qed.

Lemma div_ok x y : fin x = true -> val y <> 0 -> Rabs (rnd (val x / val y)) < bpow radix2 1024 ->
  fin (d_div x y) = true /\ val (d_div x y) = rnd (val x / val y).
Proof.
  intros X Y H. unfold d_div, b64_div.
  match goal with |- context [Bdiv _ _ ?a ?b ?n ?m x y] => pose proof (Bdiv_correct 53 1024 a b n m x y Y) as C end.
  change (round radix2 (SpecFloat.fexp 53 1024) (round_mode mode_NE) (val x / val y)) with (rnd (val x / val y)) in C.
  rewrite Rlt_bool_true in C by exact H. destruct C as (C1 & C2 & _). rewrite X in C2. auto.
Qed.

Lemma of_Z_ok z : rnd (IZR z) = IZR z -> (Z.abs z < 2 ^ 1000)%Z -> fin (d_of_Z z) = true /\ val (d_of_Z z) = IZR z.
Proof.
  intros G B. unfold d_of_Z. pose proof (binary_normalize_correct 53 1024 eq_refl eq_refl mode_NE z 0 false) as C.
  assert (E : F2R (Float radix2 z 0) = IZR z) by (unfold F2R; cbn; ring). rewrite E in C.
  change (round radix2 (SpecFloat.fexp 53 1024) (round_mode mode_NE) (IZR z)) with (rnd (IZR z)) in C. rewrite G in C.
  rewrite Rlt_bool_true in C.
  - destruct C as (C1 & C2 & _). auto.
  - rewrite <- abs_IZR. apply Rlt_le_trans with (bpow radix2 1000); [|apply bpow_le; lia].
    rewrite <- IZR_Zpower by lia. apply IZR_lt. exact B.
Qed.

Lemma trunc_val x : IZR (Btrunc 53 1024 x) = IZR (Ztrunc (val x)).
Proof.
  rewrite Btrunc_correct by exact eq_refl. rewrite round_FIX_IZR. reflexivity.
Qed.
Lemma trunc_eq x : Btrunc 53 1024 x = Ztrunc (val x).
Proof. apply eq_IZR, trunc_val. Qed.

(** ** Integer and fractional parts are exact *)

Notation fmt := (generic_format radix2 (FLT_exp (-1074) 53)).
Lemma rnd_id x : fmt x -> rnd x = x. Proof. intros F. apply round_generic; [typeclasses eauto|exact F]. Qed.
Lemma val_fmt x : fmt (val x). Proof. apply (generic_format_B2R 53 1024 x). Qed.
Lemma rnd_fmt x : fmt (rnd x). Proof. apply generic_format_round; typeclasses eauto. Qed.

Lemma fmt_intro m e : (Z.abs m < 2 ^ 53)%Z -> (-1074 <= e)%Z -> fmt (IZR m * bpow radix2 e).
Proof. intros M E. apply generic_format_FLT. exists (Float radix2 m e); [reflexivity|exact M|exact E]. Qed.

Lemma fmt_elim x : fmt x -> exists m e, x = IZR m * bpow radix2 e /\ (Z.abs m < 2 ^ 53)%Z /\ (-1074 <= e)%Z.
Proof. intros F. apply FLT_format_generic in F; [|exact eq_refl]. destruct F as [[m e] E M Q]. exists m, e. auto. Qed.

Lemma trunc_split m e : (e < 0)%Z -> Ztrunc (IZR m * bpow radix2 e) = Z.quot m (2 ^ (- e)).
Proof.
  intros E. assert (P : (0 < 2 ^ (- e))%Z) by (apply Z.pow_pos_nonneg; lia).
  replace (IZR m * bpow radix2 e) with (IZR m / IZR (2 ^ (- e))).
  - apply Ztrunc_div. lia.
  - change 2%Z with (radix_val radix2). rewrite IZR_Zpower by lia. rewrite bpow_opp. unfold Rdiv. rewrite Rinv_inv. reflexivity.
Qed.

Lemma trunc_exact x : fmt x -> fmt (IZR (Ztrunc x)) /\ fmt (x - IZR (Ztrunc x)).
Proof.
  intros F. destruct (fmt_elim x F) as (m & e & -> & M & E). destruct (Z.lt_ge_cases e 0) as [N|N].
  - rewrite trunc_split by exact N. set (p := (2 ^ (- e))%Z). assert (P : (0 < p)%Z) by (apply Z.pow_pos_nonneg; lia).
    assert (Ip : IZR p = bpow radix2 (- e)) by (unfold p; change 2%Z with (radix_val radix2); apply IZR_Zpower; lia).
    pose proof (Z.quot_rem' m p) as Q.
    assert (A1 : (Z.abs (Z.quot m p) <= Z.abs m)%Z).
    { rewrite <- Z.quot_abs by lia. rewrite (Z.abs_eq p) by lia. rewrite Z.quot_div_nonneg by lia.
      apply Z.div_le_upper_bound; [lia|]. nia. }
    assert (A2 : (Z.abs (Z.rem m p) <= Z.abs m)%Z).
    { rewrite <- Z.rem_abs by lia. rewrite (Z.abs_eq p) by lia. rewrite Z.rem_mod_nonneg by lia. apply Z.mod_le; lia. }
    split.
    + replace (IZR (Z.quot m p)) with (IZR (Z.quot m p) * bpow radix2 0) by (cbn; ring). apply fmt_intro; lia.
    + replace (IZR m * bpow radix2 e - IZR (Z.quot m p)) with (IZR (Z.rem m p) * bpow radix2 e); [apply fmt_intro; lia|].
      rewrite Q at 2. rewrite plus_IZR, mult_IZR, Ip. rewrite Rmult_plus_distr_r.
      replace (bpow radix2 (- e) * IZR (Z.quot m p) * bpow radix2 e) with (IZR (Z.quot m p) * (bpow radix2 (- e) * bpow radix2 e)) by ring.
      rewrite <- bpow_plus, Z.add_opp_diag_l. cbn [bpow]. ring.
  - assert (T : IZR (Ztrunc (IZR m * bpow radix2 e)) = IZR m * bpow radix2 e).
    { rewrite <- IZR_Zpower by exact N. rewrite <- mult_IZR. rewrite Ztrunc_IZR. reflexivity. }
    rewrite T. split; [exact F|]. rewrite Rminus_diag_eq by reflexivity. apply generic_format_0.
Qed.

(** ** One rounding below 64 *)

Lemma err64 y : Rabs y < 64 -> Rabs (rnd y - y) <= bpow radix2 (-48).
Proof.
  intros H. destruct (Req_dec y 0) as [->|N].
  - rewrite nearest_0. rewrite Rminus_0_r, Rabs_R0. apply bpow_ge_0.
  - eapply Rle_trans; [apply error_le_half_ulp; typeclasses eauto|].
    rewrite ulp_neq_0 by exact N. unfold cexp, FLT_exp.
    assert (M : (mag radix2 y <= 6)%Z) by (apply mag_le_bpow; [exact N|exact H]).
    replace (bpow radix2 (-48)) with (/ 2 * bpow radix2 (-47)) by (change (-47)%Z with (1 + -48)%Z; rewrite bpow_plus; cbn [bpow Z.pow_pos Pos.iter radix_val radix2]; cbn; lra).
    apply Rmult_le_compat_l; [lra|]. apply bpow_le. cbn [f_emin f_man TextModel.binary64]. unfold f_emin; cbn. lia.
Qed.

Lemma below_one g : fmt g -> g < 1 -> g <= 1 - bpow radix2 (-53).
Proof.
  intros F L. assert (F1 : fmt 1) by (change 1 with (IZR 1 * bpow radix2 0) at 1 || idtac; replace 1 with (IZR 1 * bpow radix2 0) by (cbn; ring); apply fmt_intro; lia).
  pose proof (pred_ge_gt radix2 (FLT_exp (-1074) 53) g 1 F F1 L) as P.
  replace (pred radix2 (FLT_exp (-1074) 53) 1) with (1 - bpow radix2 (-53)) in P; [exact P|].
  change 1 with (bpow radix2 0) at 2. rewrite pred_bpow. reflexivity.
Qed.

Lemma sixty_part g : fmt g -> 0 <= g < 1 -> 0 <= rnd (g * 60) < 60 /\ Rabs (rnd (g * 60) - g * 60) <= bpow radix2 (-48).
Proof.
  intros F [L U]. pose proof (below_one g F U) as B.
  assert (E : Rabs (rnd (g * 60) - g * 60) <= bpow radix2 (-48)) by (apply err64; rewrite Rabs_pos_eq by lra; lra).
  split; [|exact E]. split.
  - rewrite <- (nearest_0 b64). apply nearest_le; [exact std64|lra].
  - apply Rabs_le_inv in E. assert (Q : bpow radix2 (-48) = 32 * bpow radix2 (-53)) by (change (-48)%Z with (5 + -53)%Z; rewrite bpow_plus; reflexivity).
    pose proof (bpow_gt_0 radix2 (-53)). lra.
Qed.

Lemma sixty_signed g : fmt g -> Rabs g < 1 ->
  let y := rnd (g * 60) in (0 <= g -> 0 <= y < 60) /\ (g <= 0 -> -60 < y <= 0) /\ Rabs (y - g * 60) <= bpow radix2 (-48).
Proof.
  intros F A y. apply Rabs_lt_inv in A. destruct (Rle_dec 0 g) as [L|L].
  - destruct (sixty_part g F ltac:(lra)) as [P Q]. fold y in P, Q. split; [auto|]. split; [|exact Q].
    intros G. assert (g = 0) by lra. assert (Y : y = 0) by (unfold y; rewrite H, Rmult_0_l; apply nearest_0). lra.
  - destruct (sixty_part (- g) (generic_format_opp _ _ _ F) ltac:(lra)) as [P Q].
    assert (Y : rnd (- g * 60) = - y) by (unfold y; rewrite <- nearest_opp; f_equal; ring). rewrite Y in P, Q.
    split; [lra|]. split; [lra|]. replace (y - g * 60) with (- (- y - - g * 60)) by ring. rewrite Rabs_Ropp. exact Q.
Qed.

Lemma frac_bound x : Rabs (x - IZR (Ztrunc x)) < 1 /\ (0 <= x -> 0 <= x - IZR (Ztrunc x)) /\ (x <= 0 -> x - IZR (Ztrunc x) <= 0).
Proof.
  destruct (Rle_dec 0 x) as [P|P].
  - rewrite Ztrunc_floor by exact P. pose proof (Zfloor_lb x). pose proof (Zfloor_ub x). split; [rewrite Rabs_pos_eq; lra|].
    split; [lra|]. intros Q. assert (E : x = 0) by lra. rewrite E. rewrite (Zfloor_IZR 0). lra.
  - rewrite Ztrunc_ceil by lra. pose proof (Zceil_ub x). pose proof (Zceil_lb x). split; [apply Rabs_lt; lra|]. split; lra.
Qed.

(** ** decimal_hour *)

Notation in_long := fits_long.
Lemma in_long_dec x : in_long x \/ ~ in_long x.
Proof.
  unfold fits_long, dfinite, dval. destruct (fin x); [|right; intros [E _]; discriminate].
  destruct (Rlt_dec (- 2 ^ 63 - 1) (val x)); [|right; tauto]. destruct (Rlt_dec (val x) (2 ^ 63)); [left; tauto|right; tauto].
Qed.

Lemma trunc_range x n : (0 < n)%Z -> ((- n <= Ztrunc x < n)%Z <-> - IZR n - 1 < x < IZR n).
Proof.
  intros N. destruct (Rle_dec 0 x) as [P|P].
  - rewrite Ztrunc_floor by exact P. pose proof (Zfloor_lb x) as A. pose proof (Zfloor_ub x) as B.
    pose proof (Zfloor_le 0 x P) as C. rewrite (Zfloor_IZR 0) in C. apply IZR_lt in N. split.
    + intros [_ H]. assert (G : (Zfloor x + 1 <= n)%Z) by lia. apply IZR_le in G. rewrite plus_IZR in G. lra.
    + intros [_ H]. split; [apply lt_IZR in N; lia|]. apply lt_IZR. lra.
  - rewrite Ztrunc_ceil by lra. pose proof (Zceil_ub x) as A. pose proof (Zceil_lb x) as B.
    apply IZR_lt in N. split.
    + intros [H _]. apply IZR_le in H. rewrite opp_IZR in H. lra.
    + intros [H _]. assert (G : (- n - 1 < Zceil x)%Z).
      { apply lt_IZR. rewrite minus_IZR, opp_IZR. lra. }
      assert (G2 : (Zceil x <= 0)%Z).
      { apply Zceil_glb. lra. }
      apply lt_IZR in N. lia.
Qed.

Lemma pow63 : IZR (2 ^ 63) = 2 ^ 63.
Proof. rewrite (pow_IZR 2 63). reflexivity. Qed.

Lemma to_long_ok x : in_long x -> d_to_long x = Ret (Ztrunc (val x)).
Proof.
  intros [F B]. unfold dfinite, dval in *. unfold d_to_long. rewrite F, !trunc_eq. rewrite <- !pow63 in B. rewrite <- (trunc_range (val x) (2 ^ 63) ltac:(lia)) in B.
  destruct (Z.leb_spec (- 2 ^ 63) (Ztrunc (val x))); [|lia]. destruct (Z.ltb_spec (Ztrunc (val x)) (2 ^ 63)); [reflexivity|lia].
Qed.

Lemma to_long_undef x : ~ in_long x -> d_to_long x = Undef.
Proof.
  intros N. unfold d_to_long. destruct (fin x) eqn:F; [|reflexivity]. rewrite !trunc_eq. cbn [andb].
  destruct (Z.leb_spec (- 2 ^ 63) (Ztrunc (val x))); [|reflexivity]. destruct (Z.ltb_spec (Ztrunc (val x)) (2 ^ 63)); [|reflexivity].
  exfalso. apply N. split; [exact F|]. rewrite <- !pow63. apply (trunc_range (val x) (2 ^ 63)); lia.
Qed.

Lemma small_below x : Rabs x <= 64 -> Rabs x < bpow radix2 1024.
Proof. intros H. apply Rle_lt_trans with (1 := H). change 64 with (bpow radix2 6). apply bpow_lt. lia. Qed.

Lemma sixty_ok : fin (d_of_Z 60) = true /\ val (d_of_Z 60) = 60.
Proof.
  apply of_Z_ok; [|vm_compute; reflexivity]. apply rnd_id. replace 60 with (IZR 60 * bpow radix2 0) by (cbn; ring). apply fmt_intro; lia.
Qed.

(** One step of the decomposition: what is left after taking the whole part, times sixty. *)
Lemma step_ok x : in_long x ->
  let k := Ztrunc (val x) in let y := d_mul (d_sub x (d_of_Z k)) (d_of_Z 60) in
  fin y = true /\ val y = rnd ((val x - IZR k) * 60).
Proof.
  intros [F B] k y. unfold dfinite, dval in *. destruct (trunc_exact (val x) (val_fmt x)) as [T1 T2]. fold k in T1, T2.
  destruct (frac_bound (val x)) as [A _]. fold k in A.
  assert (K : (Z.abs k < 2 ^ 1000)%Z).
  { assert (R : (- 2 ^ 63 <= k < 2 ^ 63)%Z) by (apply trunc_range; [lia|]; rewrite !pow63; exact B).
    apply Z.le_lt_trans with (2 ^ 63)%Z; [lia|]. apply Z.pow_lt_mono_r; lia. }
  destruct (of_Z_ok k (rnd_id _ T1) K) as [K1 K2].
  destruct (sub_ok x (d_of_Z k) F K1) as [S1 S2].
  { rewrite K2, rnd_id by exact T2. apply small_below. lra. }
  rewrite K2, rnd_id in S2 by exact T2. destruct sixty_ok as [Q1 Q2].
  destruct (mul_ok (d_sub x (d_of_Z k)) (d_of_Z 60) S1 Q1) as [M1 M2].
  { rewrite S2, Q2. destruct (sixty_signed _ T2 A) as (P1 & P2 & _). apply small_below.
    destruct (Rle_dec 0 (val x - IZR k)) as [L|L]; [specialize (P1 L)|specialize (P2 ltac:(lra))]; apply Rabs_le; lra. }
  rewrite S2, Q2 in M2. auto.
Qed.

Lemma hms_ok d : in_long d -> exists t, hms_of_double d = Ret t /\ hms_dh t = d /\ hms_hours t = Ztrunc (val d) /\ fin (hms_seconds t) = true /\
  (0 <= val d -> (0 <= hms_hours t)%Z /\ (0 <= hms_minutes t < 60)%Z /\ 0 <= val (hms_seconds t) < 60) /\
  (val d <= 0 -> (hms_hours t <= 0)%Z /\ (-60 < hms_minutes t <= 0)%Z /\ -60 < val (hms_seconds t) <= 0) /\
  Rabs (IZR (hms_hours t) + IZR (hms_minutes t) / 60 + val (hms_seconds t) / 3600 - val d) <= bpow radix2 (-53).
Proof.
  intros D. unfold hms_of_double. rewrite to_long_ok by exact D. cbn [bind].
  set (h := Ztrunc (val d)). destruct (step_ok d D) as [Y1 Y2]. cbv zeta in Y1, Y2. fold h in Y1, Y2.
  set (mr := d_mul (d_sub d (d_of_Z h)) (d_of_Z 60)) in *.
  destruct (trunc_exact (val d) (val_fmt d)) as [_ Td]. fold h in Td. destruct (frac_bound (val d)) as (Ad & Pd & Nd). fold h in Ad, Pd, Nd.
  destruct (sixty_signed _ Td Ad) as (Pm & Nm & Em). rewrite <- Y2 in Pm, Nm, Em.
  assert (Mr : in_long mr).
  { split; [exact Y1|]. unfold dval. rewrite <- pow63. assert (64 <= IZR (2 ^ 63)) by (apply IZR_le; vm_compute; discriminate).
    destruct (Rle_dec 0 (val d - IZR h)) as [L|L]; [specialize (Pm L)|specialize (Nm ltac:(lra))]; lra. }
  rewrite to_long_ok by exact Mr. cbn [bind]. set (m := Ztrunc (val mr)).
  destruct (step_ok mr Mr) as [Z1 Z2]. cbv zeta in Z1, Z2. fold m in Z1, Z2. set (s := d_mul (d_sub mr (d_of_Z m)) (d_of_Z 60)) in *.
  destruct (trunc_exact (val mr) (val_fmt mr)) as [_ Tm]. fold m in Tm. destruct (frac_bound (val mr)) as (Am & Pm2 & Nm2). fold m in Am, Pm2, Nm2.
  destruct (sixty_signed _ Tm Am) as (Ps & Ns & Es). rewrite <- Z2 in Ps, Ns, Es.
  eexists. split; [reflexivity|]. cbn [hms_dh hms_hours hms_minutes hms_seconds]. split; [reflexivity|]. split; [reflexivity|]. split; [exact Z1|].
  split; [|split].
  - intros L. assert (Hh : (0 <= h)%Z).
    { unfold h. rewrite Ztrunc_floor by exact L. rewrite <- (Zfloor_IZR 0). apply Zfloor_le, L. }
    specialize (Pd L). specialize (Pm Pd). split; [exact Hh|].
    assert (Hm : (0 <= m < 60)%Z).
    { unfold m. rewrite Ztrunc_floor by lra. split; [rewrite <- (Zfloor_IZR 0); apply Zfloor_le; lra|].
      apply lt_IZR. pose proof (Zfloor_lb (val mr)). lra. }
    split; [exact Hm|]. apply Ps, Pm2. lra.
  - intros L. assert (Hh : (h <= 0)%Z).
    { unfold h. rewrite Ztrunc_ceil by exact L. apply Zceil_glb. exact L. }
    specialize (Nd L). specialize (Nm Nd). split; [exact Hh|].
    assert (Hm : (-60 < m <= 0)%Z).
    { unfold m. rewrite Ztrunc_ceil by lra. split; [|apply Zceil_glb; lra].
      apply lt_IZR. pose proof (Zceil_ub (val mr)). lra. }
    split; [exact Hm|]. apply Ns, Nm2. lra.
  - apply Rabs_le_inv in Em, Es.
    assert (Q : bpow radix2 (-48) = 32 * bpow radix2 (-53)) by (change (-48)%Z with (5 + -53)%Z; rewrite bpow_plus; reflexivity).
    apply Rabs_le. rewrite Q in Em, Es. pose proof (bpow_gt_0 radix2 (-53)). lra.
Qed.

Lemma hms_undefined d : ~ in_long d -> hms_of_double d = Undef.
Proof. intros N. unfold hms_of_double. rewrite to_long_undef by exact N. reflexivity. Qed.
