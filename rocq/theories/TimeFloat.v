(** * Time in double precision: what is left of the theorems when every operation is rounded. *)
From Coq Require Import ZArith Reals Lia Lra Psatz ZifyBool.
From Flocq Require Import Core.
From Verif Require Import TimeProofs.
Local Open Scope R_scope.

(** IEEE 754 binary64, round to nearest, ties to even. Overflow and NaN do not occur for the values here (below
    2^60); signed zeros are not distinguished. *)
Definition fexp : Z -> Z := FLT_exp (-1074) 53.
Definition rnd (x : R) : R := round radix2 fexp ZnearestE x.
Definition double (x : R) : Prop := generic_format radix2 fexp x.

(** time_conversions.hpp:33-90 in double precision; a literal is rounded, floor() is exact. *)
Definition julian_date_fp (t : ptime) : R :=
  let dt := p_date t in
  let y := IZR (d_year dt) in
  let m := IZR (d_month dt) in
  let d := IZR (d_day dt) in
  let jan_feb := ((d_month dt =? 1) || (d_month dt =? 2))%Z%bool in
  let yprime := if jan_feb then rnd (y - 1) else y in
  let mprime := if jan_feb then rnd (m + 12) else m in
  let B := if later dt (mk_date 1582 10 1) then
             let A := IZR (floorR (rnd (yprime / 100))) in
             rnd (rnd (2 - A) + IZR (floorR (rnd (A / 4))))
           else 0 in
  let C := if Rlt_dec yprime 0 then IZR (floorR (rnd (rnd (rnd (36525 / 100) * yprime) - rnd (75 / 100))))
           else IZR (floorR (rnd (rnd (36525 / 100) * yprime))) in
  let D := IZR (floorR (rnd (rnd (306001 / 10000) * rnd (mprime + 1)))) in
  rnd (rnd (rnd (rnd (B + C) + D) + d) + rnd (17209945 / 10)).

(** time_conversions.hpp:104, 115, 150. *)
Definition reduce24_fp (x : R) : R := rnd (x - rnd (24 * IZR (floorR (rnd (x / 24))))).

#[local] Instance prec_pos : Prec_gt_0 53 := eq_refl.
#[local] Instance valid : Valid_exp fexp := FLT_exp_valid (-1074) 53.

Lemma rnd_dyadic n k : (Z.abs n < 2 ^ 53)%Z -> (-1074 <= k)%Z -> double (IZR n * bpow radix2 k).
Proof.
  intros H K. apply generic_format_FLT. exists (Float radix2 n k); [unfold F2R; cbn; reflexivity|exact H|exact K].
Qed.

Lemma rnd_id x : double x -> rnd x = x.
Proof. intros H. apply round_generic; [apply valid_rnd_N|exact H]. Qed.

Lemma double_int n : (Z.abs n < 2 ^ 53)%Z -> double (IZR n).
Proof. intros H. replace (IZR n) with (IZR n * bpow radix2 0) by (cbn; ring). apply rnd_dyadic; [exact H|lia]. Qed.
Lemma rnd_int n : (Z.abs n < 2 ^ 53)%Z -> rnd (IZR n) = IZR n.
Proof. intros H. apply rnd_id, double_int, H. Qed.

Lemma rnd_le x y : x <= y -> rnd x <= rnd y.
Proof. apply round_le. exact valid. apply valid_rnd_N. Qed.

(** Rounding does not leave an interval with representable ends. *)
Lemma rnd_between a b x : double a -> double b -> a <= x <= b -> a <= rnd x <= b.
Proof. intros A B [H1 H2]. apply rnd_le in H1, H2. rewrite (rnd_id a A) in H1. rewrite (rnd_id b B) in H2. split; assumption. Qed.

Lemma bpow_m7 : bpow radix2 (-7) = / 128. Proof. cbn. lra. Qed.
Lemma bpow_m1 : bpow radix2 (-1) = / 2. Proof. cbn. lra. Qed.
Lemma bpow_m2 : bpow radix2 (-2) = / 4. Proof. cbn. lra. Qed.

(** A quotient of small integers: the floor is not affected. *)
Lemma floor_quotient n q : (0 <= n < 2 ^ 40)%Z -> (0 < q < 128)%Z -> floorR (rnd (IZR n / IZR q)) = (n / q)%Z.
Proof.
  intros Hn Hq. apply floor_unique.
  set (k := (n / q)%Z).
  assert (K : (k * q <= n < (k + 1) * q)%Z) by (unfold k; split; [rewrite Z.mul_comm; apply Z.mul_div_le; lia|
    pose proof (Z.mul_succ_div_gt n q); lia]).
  assert (Kr : (0 <= k < 2 ^ 40)%Z) by (unfold k; split; [apply Z.div_pos; lia|]; apply Z.div_lt_upper_bound; nia).
  assert (Q0 : 0 < IZR q) by (apply IZR_lt; lia).
  assert (E : IZR k <= IZR n / IZR q <= IZR k + 1 - / 128).
  { split.
    - apply Rmult_le_reg_r with (IZR q); [exact Q0|]. unfold Rdiv. rewrite Rmult_assoc, Rinv_l, Rmult_1_r by lra.
      rewrite <- mult_IZR. apply IZR_le. lia.
    - apply Rmult_le_reg_r with (IZR q); [exact Q0|]. unfold Rdiv. rewrite Rmult_assoc, Rinv_l, Rmult_1_r by lra.
      assert (IZR n <= IZR ((k + 1) * q - 1)) by (apply IZR_le; lia). rewrite minus_IZR, mult_IZR, plus_IZR in H.
      assert (IZR q < 128) by (apply (IZR_lt q 128); lia). nra. }
  destruct (rnd_between (IZR k) (IZR k + 1 - / 128) (IZR n / IZR q)) as [A B].
  - apply double_int. lia.
  - replace (IZR k + 1 - / 128) with (IZR (128 * k + 127) * bpow radix2 (-7)) by (rewrite bpow_m7, plus_IZR, mult_IZR; lra).
    apply rnd_dyadic; lia.
  - exact E.
  - split; lra.
Qed.

(** 30.6001 (m + 1). *)
Lemma floor_months m : (4 <= m <= 15)%Z -> floorR (rnd (rnd (306001 / 10000) * IZR m)) = (306001 * m / 10000)%Z.
Proof.
  intros Hm.
  assert (C : IZR 32086530 * bpow radix2 (-20) <= rnd (306001 / 10000) <= IZR 32086533 * bpow radix2 (-20)).
  { apply rnd_between; [apply rnd_dyadic; lia|apply rnd_dyadic; lia|]. cbn -[IZR]. change (Z.pow_pos 2 20) with 1048576%Z. lra. }
  assert (P : bpow radix2 (-20) = / 1048576) by (cbn; lra). rewrite P in C.
  apply floor_unique. set (k := (306001 * m / 10000)%Z). set (c := rnd (306001 / 10000)) in *.
  assert (E : IZR k <= c * IZR m <= IZR k + 1 - / 128).
  { assert (m = 4 \/ m = 5 \/ m = 6 \/ m = 7 \/ m = 8 \/ m = 9 \/ m = 10 \/ m = 11 \/ m = 12 \/ m = 13 \/ m = 14 \/ m = 15)%Z as M by lia.
    destruct M as [->|[->|[->|[->|[->|[->|[->|[->|[->|[->|[->| ->]]]]]]]]]]];
      match type of k with _ => let v := eval compute in k in change k with v end; lra. }
  assert (Kr : (0 <= k < 2 ^ 40)%Z) by (unfold k; split; [apply Z.div_pos; lia|]; apply Z.div_lt_upper_bound; lia).
  destruct (rnd_between (IZR k) (IZR k + 1 - / 128) (c * IZR m)) as [A B].
  - apply double_int. lia.
  - replace (IZR k + 1 - / 128) with (IZR (128 * k + 127) * bpow radix2 (-7)) by (rewrite bpow_m7, plus_IZR, mult_IZR; lra).
    apply rnd_dyadic; lia.
  - exact E.
  - split; lra.
Qed.

Lemma floor_quarter y : (0 <= y < 2 ^ 28)%Z -> floorR (rnd (rnd (36525 / 100) * IZR y)) = (1461 * y / 4)%Z.
Proof.
  intros Hy.
  assert (E : rnd (36525 / 100) = 1461 / 4).
  { replace (36525 / 100) with (IZR 1461 * bpow radix2 (-2)) by (rewrite bpow_m2; lra). rewrite rnd_id by (apply rnd_dyadic; lia). rewrite bpow_m2. lra. }
  rewrite E. replace (1461 / 4 * IZR y) with (IZR (1461 * y) / IZR 4) by (rewrite mult_IZR; field).
  apply floor_quotient; lia.
Qed.

Theorem julian_fp t : valid_date (p_date t) -> julian_date_fp t = julian_date t.
Proof.
  intros [Hy [Hm Hd]]. unfold julian_date, julian_day, julian_date_fp, jd_B, jd_C, jd_D, shifted.
  destruct (p_date t) as [y m d]. cbn [d_year d_month d_day] in *. cbv zeta.
  assert (Hd' : (1 <= d <= 31)%Z).
  { unfold month_days in Hd. repeat match type of Hd with context [if ?b then _ else _] => destruct b end; lia. }
  set (jf := ((m =? 1) || (m =? 2))%Z%bool).
  set (y' := if jf then (y - 1)%Z else y). set (m' := if jf then (m + 12)%Z else m).
  assert (Ey : (if jf then rnd (IZR y - 1) else IZR y) = IZR y').
  { unfold y'. destruct jf; [|reflexivity]. rewrite <- minus_IZR. apply rnd_int. lia. }
  assert (Em : (if jf then rnd (IZR m + 12) else IZR m) = IZR m').
  { unfold m'. destruct jf; [|reflexivity]. rewrite <- (plus_IZR m 12). apply rnd_int. lia. }
  rewrite Ey, Em.
  assert (Ry : (1399 <= y' <= 9999)%Z) by (unfold y'; destruct jf; lia).
  assert (Rm : (3 <= m' <= 14)%Z) by (unfold m', jf; destruct (Z.eqb_spec m 1), (Z.eqb_spec m 2); cbn [orb]; lia).
  replace (if jf then ((y - 1)%Z, (m + 12)%Z) else (y, m)) with (y', m') by (unfold y', m'; destruct jf; reflexivity).
  destruct (Rlt_dec (IZR y') 0) as [N|_]; [apply lt_IZR in N; lia|]. destruct (Z.ltb_spec y' 0); [lia|].
  rewrite floor_quarter by lia. rewrite <- (plus_IZR m' 1), (rnd_int (m' + 1)) by lia. rewrite floor_months by lia.
  rewrite (floor_quotient y' 100) by lia.
  assert (RC : (0 <= 1461 * y' / 4 < 10 ^ 7)%Z) by lia.
  assert (RD : (0 <= 306001 * (m' + 1) / 10000 < 1000)%Z) by lia.
  set (A := (y' / 100)%Z). assert (RA : (0 <= A < 100)%Z) by (unfold A; lia).
  rewrite (floor_quotient A 4) by lia.
  set (B := if later (mk_date y m d) (mk_date 1582 10 1) then (2 - A + A / 4)%Z else 0%Z).
  assert (RB : (-200 <= B <= 200)%Z) by (unfold B; destruct (later _ _); lia).
  replace (if later (mk_date y m d) (mk_date 1582 10 1) then rnd (rnd (2 - IZR A) + IZR (A / 4)) else 0) with (IZR B).
  2: { unfold B. destruct (later _ _); [|reflexivity]. rewrite <- (minus_IZR 2 A), (rnd_int (2 - A)), <- plus_IZR, rnd_int by lia. reflexivity. }
  rewrite <- plus_IZR, rnd_int by lia. rewrite <- plus_IZR, rnd_int by lia. rewrite <- plus_IZR, rnd_int by lia.
  replace (17209945 / 10) with (IZR 3441989 * bpow radix2 (-1)) by (rewrite bpow_m1; lra).
  rewrite (rnd_id (IZR 3441989 * _)) by (apply rnd_dyadic; lia).
  set (n := (B + 1461 * y' / 4 + 306001 * (m' + 1) / 10000 + d)%Z).
  replace (IZR n + IZR 3441989 * bpow radix2 (-1)) with (IZR (2 * n + 3441989) * bpow radix2 (-1)) by (rewrite bpow_m1, plus_IZR, mult_IZR; lra).
  rewrite rnd_id by (apply rnd_dyadic; unfold n; lia).
  rewrite bpow_m1, !plus_IZR, mult_IZR. lra.
Qed.

(** ** Reduction to 24 hours *)

(** Multiples of 2^k. *)
Definition grid (k : Z) (x : R) : Prop := exists n : Z, x = IZR n * bpow radix2 k.

Lemma grid_finer k j x : (j <= k)%Z -> grid k x -> grid j x.
Proof.
  intros H (n & E). exists (n * 2 ^ (k - j))%Z. rewrite E, mult_IZR, (IZR_Zpower radix2) by lia.
  rewrite Rmult_assoc, <- bpow_plus. do 2 f_equal. lia.
Qed.

Lemma grid_plus k x y : grid k x -> grid k y -> grid k (x + y).
Proof. intros (n & ->) (m & ->). exists (n + m)%Z. rewrite plus_IZR. ring. Qed.
Lemma grid_minus k x y : grid k x -> grid k y -> grid k (x - y).
Proof. intros (n & ->) (m & ->). exists (n - m)%Z. rewrite minus_IZR. ring. Qed.

Lemma grid_int k n : (k <= 0)%Z -> grid k (IZR n).
Proof. intros H. apply (grid_finer 0); [exact H|]. exists n. cbn. ring. Qed.

(** A double of a certain size lies on a grid. *)
Lemma double_grid k x : double x -> bpow radix2 (k + 52) <= Rabs x -> grid k x.
Proof.
  intros D H. apply (grid_finer (cexp radix2 fexp x)).
  - unfold cexp, fexp, FLT_exp. assert (k + 53 <= mag radix2 x)%Z; [|lia].
    assert (k + 52 < mag radix2 x)%Z; [|lia]. apply (lt_bpow radix2). eapply Rle_lt_trans; [exact H|]. apply bpow_mag_gt.
  - exists (Ztrunc (scaled_mantissa radix2 fexp x)). exact D.
Qed.

Lemma grid_double k x : (-1074 <= k)%Z -> grid k x -> Rabs x < bpow radix2 (k + 53) -> double x.
Proof.
  intros K (n & ->) H. apply rnd_dyadic; [|exact K].
  rewrite Rabs_mult, (Rabs_pos_eq (bpow _ _)) in H by apply bpow_ge_0.
  rewrite Z.add_comm, bpow_plus in H. apply Rmult_lt_reg_r in H; [|apply bpow_gt_0].
  rewrite <- abs_IZR in H. change (bpow radix2 53) with (IZR (2 ^ 53)) in H. apply lt_IZR in H. exact H.
Qed.

Lemma rnd_double x : double (rnd x).
Proof. apply generic_format_round; [exact valid|apply valid_rnd_N]. Qed.

Lemma rnd_grid k x : (-1074 <= k)%Z -> grid k x -> grid k (rnd x).
Proof.
  intros K G. destruct (Rlt_or_le (Rabs x) (bpow radix2 (k + 53))) as [L|L].
  - rewrite rnd_id; [exact G|]. apply (grid_double k); assumption.
  - apply double_grid; [apply rnd_double|].
    assert (B : double (bpow radix2 (k + 53))) by (replace (bpow radix2 (k + 53)) with (IZR 1 * bpow radix2 (k + 53)) by ring; apply rnd_dyadic; lia).
    apply Rle_trans with (bpow radix2 (k + 53)); [apply bpow_le; lia|].
    apply abs_round_ge_generic; [exact valid|apply valid_rnd_N|exact B|exact L].
Qed.

Lemma grid_nonzero k x : grid k x -> x <> 0 -> bpow radix2 k <= Rabs x.
Proof.
  intros (n & ->) H. rewrite Rabs_mult, (Rabs_pos_eq (bpow _ _)) by apply bpow_ge_0.
  rewrite <- (Rmult_1_l (bpow radix2 k)) at 1. apply Rmult_le_compat_r; [apply bpow_ge_0|]. rewrite <- abs_IZR. apply (IZR_le 1).
  assert (n <> 0%Z) by (intros ->; apply H; ring). lia.
Qed.

(** Distinct points of a grid are a step apart. *)
Lemma grid_gap k x y : grid k x -> grid k y -> x < y -> x + bpow radix2 k <= y.
Proof.
  intros (n & ->) (m & ->) H. apply Rmult_lt_reg_r in H; [|apply bpow_gt_0]. apply lt_IZR in H.
  replace (IZR n * bpow radix2 k + bpow radix2 k) with (IZR (n + 1) * bpow radix2 k) by (rewrite plus_IZR; ring).
  apply Rmult_le_compat_r; [apply bpow_ge_0|]. apply IZR_le. lia.
Qed.

(** The quotient by 24 is not rounded up to an integer. *)
Lemma quotient_below x n : double x -> (Z.abs n < 2 ^ 47)%Z -> n <> 0%Z -> x < 24 * IZR n -> rnd (x / 24) < IZR n.
Proof.
  intros D Hn N0 H. set (p := Z.abs n). assert (P0 : (0 < p)%Z) by (unfold p; lia). set (e := Z.log2 p).
  destruct (Z.log2_spec p P0) as [L1 L2]. fold e in L1, L2. assert (E0 : (0 <= e)%Z) by apply Z.log2_nonneg.
  assert (E47 : (e < 47)%Z) by (apply Z.log2_lt_pow2; lia).
  assert (B1 : bpow radix2 e <= IZR p) by (rewrite <- (IZR_Zpower radix2) by exact E0; apply IZR_le; exact L1).
  assert (Sm : bpow radix2 (e - 48) = 16 * bpow radix2 (e - 52)).
  { replace (e - 48)%Z with (4 + (e - 52))%Z by lia. rewrite bpow_plus. reflexivity. }
  assert (S0 : bpow radix2 e = 16 * bpow radix2 (e - 4)).
  { replace e with (4 + (e - 4))%Z at 1 by lia. rewrite bpow_plus. reflexivity. }
  assert (S4 : bpow radix2 (e + 4) = 16 * bpow radix2 e) by (rewrite Z.add_comm, bpow_plus; reflexivity).
  assert (S52 : 1024 * bpow radix2 (e - 52) < bpow radix2 e).
  { change 1024 with (bpow radix2 10). rewrite <- bpow_plus. apply bpow_lt. lia. }
  pose proof (bpow_gt_0 radix2 (e - 52)) as Pe.
  assert (M : x / 24 < IZR n - bpow radix2 (e - 52) / 2).
  { destruct (Rlt_or_le (Rabs x) (bpow radix2 (e + 4))) as [Sx|Sx].
    - destruct (Z_lt_le_dec n 0) as [Hneg|Hpos].
      + assert (IZR n = - IZR p) by (rewrite <- opp_IZR; f_equal; lia). rewrite H0 in H. exfalso.
        apply Rabs_def2 in Sx. lra.
      + assert (IZR n = IZR p) by (f_equal; lia). rewrite H0. apply Rabs_def2 in Sx. lra.
    - assert (G : grid (e - 48) x) by (apply double_grid; [exact D|]; replace (e - 48 + 52)%Z with (e + 4)%Z by lia; exact Sx).
      assert (Gn : grid (e - 48) (24 * IZR n)) by (rewrite <- (mult_IZR 24 n); apply grid_int; lia).
      pose proof (grid_gap _ _ _ G Gn H) as Gap. rewrite Sm in Gap. lra. }
  assert (Dn : double (IZR n)) by (apply double_int; lia).
  assert (Dp : double (IZR n - bpow radix2 (e - 52))).
  { apply (grid_double (e - 52)); [lia| |].
    - apply grid_minus; [apply grid_int; lia|exists 1%Z; ring].
    - replace (e - 52 + 53)%Z with (e + 1)%Z by lia.
      assert (IZR p <= bpow radix2 (e + 1) - 1).
      { rewrite <- (IZR_Zpower radix2) by lia. rewrite <- (minus_IZR _ 1). apply IZR_le. cbn [radix_val radix2]. lia. }
      assert (bpow radix2 (e - 52) < 1) by (change 1 with (bpow radix2 0); apply bpow_lt; lia).
      apply Rabs_def1.
      + assert (IZR n <= IZR p) by (apply IZR_le; unfold p; lia). lra.
      + assert (- IZR p <= IZR n) by (rewrite <- opp_IZR; apply IZR_le; unfold p; lia). lra. }
  assert (Q : rnd (x / 24) <= pred radix2 fexp (IZR n)).
  { apply round_N_le_midp; [exact valid|apply generic_format_pred; [exact valid|exact Dn]|].
    rewrite succ_pred by (exact valid || exact Dn).
    assert (IZR n - bpow radix2 (e - 52) <= pred radix2 fexp (IZR n)) by (apply pred_ge_gt; [exact valid|exact Dp|exact Dn|lra]). lra. }
  eapply Rle_lt_trans; [exact Q|]. apply pred_lt_id. apply IZR_neq. exact N0.
Qed.

(** Doubles the reduction can handle: of moderate size, and not negative and denormal. *)
Definition moderate (x : R) : Prop := double x /\ Rabs x < bpow radix2 50 /\ (0 <= x \/ x <= - (24 * bpow radix2 (-1074))).

Lemma floor_24 x : moderate x -> floorR (rnd (x / 24)) = floorR (x / 24).
Proof.
  intros (D & L & Z0). set (k := floorR (x / 24)). destruct (floor_bounds (x / 24)) as [A B]. fold k in A, B.
  assert (K : (Z.abs k < 2 ^ 46)%Z).
  { apply Rabs_def2 in L. change (bpow radix2 50) with (IZR (2 ^ 50)) in L.
    assert (IZR k < IZR (2 ^ 46)) by (change (IZR (2 ^ 50)) with 1125899906842624 in L; change (IZR (2 ^ 46)) with 70368744177664; lra).
    assert (IZR (- (2 ^ 46)) < IZR k) by (change (IZR (2 ^ 50)) with 1125899906842624 in L; change (IZR (- (2 ^ 46))) with (-70368744177664); lra).
    apply lt_IZR in H, H0. lia. }
  apply floor_unique. split.
  - apply rnd_le in A. rewrite rnd_int in A by lia. exact A.
  - rewrite <- (plus_IZR k 1). destruct (Z.eq_dec (k + 1) 0) as [E|N].
    + rewrite E. assert (k = -1)%Z by lia. rewrite H in B. destruct Z0 as [P|P]; [lra|].
      assert (Q : rnd (x / 24) <= - bpow radix2 (-1074)).
      { assert (Dm : double (- bpow radix2 (-1074))) by (replace (- bpow radix2 (-1074)) with (IZR (-1) * bpow radix2 (-1074)) by ring; apply rnd_dyadic; lia).
        rewrite <- (rnd_id _ Dm). apply rnd_le. lra. }
      pose proof (bpow_gt_0 radix2 (-1074)). lra.
    + apply quotient_below; [exact D|lia|exact N|]. rewrite plus_IZR. lra.
Qed.

Theorem reduce_fp x : moderate x -> reduce24_fp x = rnd (reduce24 x) /\ (0 <= x -> reduce24_fp x = reduce24 x).
Proof.
  intros M. pose proof M as (D & L & Z0). unfold reduce24_fp, reduce24. rewrite (floor_24 x M).
  set (k := floorR (x / 24)). destruct (floor_bounds (x / 24)) as [A B]. fold k in A, B.
  assert (K : (Z.abs k < 2 ^ 46)%Z).
  { apply Rabs_def2 in L. change (bpow radix2 50) with 1125899906842624 in L.
    assert (IZR k < IZR (2 ^ 46)) by (change (IZR (2 ^ 46)) with 70368744177664; lra).
    assert (IZR (- (2 ^ 46)) < IZR k) by (change (IZR (- (2 ^ 46))) with (-70368744177664); lra).
    apply lt_IZR in H, H0. lia. }
  rewrite <- (mult_IZR 24 k), rnd_int by lia. split; [reflexivity|]. intros P. apply rnd_id.
  destruct (Req_dec x 0) as [Ex|Nx].
  { subst x. assert (k = 0)%Z. { unfold k. apply floor_unique. cbn. lra. } rewrite H. cbn. replace (0 - 0) with (IZR 0) by (cbn; ring). apply double_int. lia. }
  set (c := cexp radix2 fexp x).
  assert (Gx : grid c x) by (exists (Ztrunc (scaled_mantissa radix2 fexp x)); exact D).
  assert (C0 : (-1074 <= c <= 0)%Z).
  { unfold c, cexp, fexp, FLT_exp. assert (mag radix2 x <= 50)%Z; [|lia]. apply mag_le_bpow; [exact Nx|exact L]. }
  apply (grid_double c); [lia|apply grid_minus; [exact Gx|apply grid_int; lia]|].
  assert (K0 : (0 <= k)%Z). { assert (IZR (-1) < IZR k) by (change (IZR (-1)) with (-1); lra). apply lt_IZR in H. lia. }
  assert (0 <= IZR (24 * k)) by (apply IZR_le; lia). rewrite mult_IZR in *.
  rewrite Rabs_pos_eq by lra. apply Rle_lt_trans with (Rabs x); [rewrite Rabs_pos_eq by exact P; lra|].
  apply Rlt_le_trans with (bpow radix2 (mag radix2 x)); [apply bpow_mag_gt|]. apply bpow_le. unfold c, cexp, fexp, FLT_exp. lia.
Qed.

Corollary reduce_fp_range x : moderate x -> 0 <= reduce24_fp x <= 24 /\ (0 <= x -> reduce24_fp x < 24).
Proof.
  intros M. destruct (reduce_fp x M) as [E1 E2]. destruct (reduce_range x) as [A B]. split.
  - rewrite E1. apply rnd_between; [exact (double_int 0 eq_refl)|exact (double_int 24 eq_refl)|lra].
  - intros P. rewrite (E2 P). exact B.
Qed.

(** 24 is reached. *)
Lemma reduce_fp_24 : reduce24_fp (- bpow radix2 (-60)) = 24 /\ moderate (- bpow radix2 (-60)).
Proof.
  assert (Dm : double (- bpow radix2 (-60))) by (replace (- bpow radix2 (-60)) with (IZR (-1) * bpow radix2 (-60)) by ring; apply rnd_dyadic; lia).
  assert (P : 0 < bpow radix2 (-60) < 1) by (split; [apply bpow_gt_0|change 1 with (bpow radix2 0); apply bpow_lt; lia]).
  assert (M : moderate (- bpow radix2 (-60))).
  { split; [exact Dm|]. split.
    - rewrite Rabs_Ropp, Rabs_pos_eq by lra. apply bpow_lt. lia.
    - right. apply Ropp_le_contravar. apply Rle_trans with (bpow radix2 5 * bpow radix2 (-1074)).
      + pose proof (bpow_gt_0 radix2 (-1074)). change (bpow radix2 5) with 32. lra.
      + rewrite <- bpow_plus. apply bpow_le. lia. }
  split; [|exact M]. destruct (reduce_fp _ M) as [E _]. rewrite E. unfold reduce24.
  replace (floorR (- bpow radix2 (-60) / 24)) with (-1)%Z by (symmetry; apply floor_unique; lra).
  replace (- bpow radix2 (-60) - 24 * -1) with (24 - bpow radix2 (-60)) by ring.
  apply Rle_antisym.
  - apply Rle_trans with (rnd 24); [apply rnd_le; lra|rewrite (rnd_int 24 eq_refl); lra].
  - assert (Q : 24 <= rnd (24 - bpow radix2 (-60))); [|exact Q].
    apply round_N_ge_midp; [exact valid|exact (double_int 24 eq_refl)|].
    assert (pred radix2 fexp 24 <= 24 - bpow radix2 (-48)).
    { assert (G : grid (-48) (pred radix2 fexp 24)).
      { apply double_grid; [apply generic_format_pred; [exact valid|exact (double_int 24 eq_refl)]|].
        assert (16 <= pred radix2 fexp 24) by (apply pred_ge_gt; [exact valid|exact (double_int 16 eq_refl)|exact (double_int 24 eq_refl)|lra]).
        rewrite Rabs_pos_eq by lra. exact H. }
      pose proof (grid_gap _ _ _ G (grid_int (-48) 24 ltac:(lia)) (pred_lt_id radix2 fexp 24 ltac:(lra))). lra. }
    assert (bpow radix2 (-60) < bpow radix2 (-49)) by (apply bpow_lt; lia).
    assert (bpow radix2 (-48) = 2 * bpow radix2 (-49)) by (change (-48)%Z with (1 + -49)%Z; rewrite bpow_plus; reflexivity). lra.
Qed.

(** ** Greenwich sidereal time *)

(** time_conversions.hpp:92-119 in double precision. *)
Definition gst0_fp (jd : R) : R :=
  let S := rnd (jd - 2451545) in
  let T := rnd (S / 36525) in
  rnd (rnd (rnd (6697374558 / 1000000000) + rnd (rnd (2400051336 / 1000000) * T)) +
       rnd (rnd (rnd (25862 / 1000000000) * T) * T)).
Definition ut_hours_fp (t : ptime) : R :=
  rnd (rnd (rnd (rnd (IZR (p_seconds t) / 60) + IZR (p_minutes t)) / 60) + IZR (p_hours t)).
Definition gst_hours_fp (t : ptime) : R :=
  reduce24_fp (rnd (reduce24_fp (gst0_fp (julian_date_fp t)) + rnd (ut_hours_fp t * rnd (1002737909 / 1000000000)))).

(** time_conversions.hpp:124-153 in double precision. *)
Definition lst_hours_fp (longitude : R) (dir : direction) (t : ptime) : R :=
  if Req_EM_T longitude 0 then gst_hours_fp t
  else let l := rnd (longitude / 15) in reduce24_fp (rnd (signed dir l + gst_hours_fp t)).

Lemma rnd_err k x : (-1000 <= k)%Z -> Rabs x <= bpow radix2 k -> Rabs (rnd x - x) <= bpow radix2 (k - 54).
Proof.
  intros K H. destruct (Req_dec (Rabs x) (bpow radix2 k)) as [E|N].
  - rewrite rnd_id.
    + rewrite Rminus_diag_eq, Rabs_R0 by reflexivity. apply bpow_ge_0.
    + apply (grid_double k); [lia|unfold Rabs in E; destruct (Rcase_abs x); [exists (-1)%Z|exists 1%Z]; lra|rewrite E; apply bpow_lt; lia].
  - destruct (Req_dec x 0) as [->|Nx].
    { unfold rnd. rewrite round_0 by typeclasses eauto. rewrite Rminus_0_r, Rabs_R0. apply bpow_ge_0. }
    eapply Rle_trans; [apply error_le_half_ulp; exact valid|].
    replace (bpow radix2 (k - 54)) with (/ 2 * bpow radix2 (k - 53)) by (replace (k - 53)%Z with (1 + (k - 54))%Z by lia; rewrite bpow_plus; cbn; lra).
    apply Rmult_le_compat_l; [lra|].
    rewrite ulp_neq_0 by exact Nx. apply bpow_le. unfold cexp, fexp, FLT_exp.
    assert (mag radix2 x <= k)%Z by (apply mag_le_bpow; [exact Nx|lra]). lia.
Qed.

Lemma prod_err a a0 b b0 da db A B : Rabs (a - a0) <= da -> Rabs (b - b0) <= db -> Rabs b <= B -> Rabs a0 <= A ->
  Rabs (a * b - a0 * b0) <= da * B + A * db.
Proof.
  intros H1 H2 H3 H4. replace (a * b - a0 * b0) with ((a - a0) * b + a0 * (b - b0)) by ring.
  eapply Rle_trans; [apply Rabs_triang|]. rewrite !Rabs_mult.
  apply Rplus_le_compat; apply Rmult_le_compat; try apply Rabs_pos; assumption.
Qed.

Ltac abs := apply Rabs_le; lra.
Ltac unabs := repeat match goal with H : Rabs _ <= _ |- _ => apply Rabs_le_inv in H end.
Ltac pow k v := let H := fresh "Pw" in assert (H : bpow radix2 k = v) by (cbn; lra); rewrite ?H in *; clear H.

(** A rounded quantity with bound 2^k. *)
Lemma rnd_close k x : (-1000 <= k)%Z -> - bpow radix2 k <= x <= bpow radix2 k -> - bpow radix2 (k - 54) <= rnd x - x <= bpow radix2 (k - 54).
Proof. intros K H. apply Rabs_le_inv. apply rnd_err; [exact K|]. apply Rabs_le. exact H. Qed.

Theorem gst0_close jd : grid (-1) jd -> -3000000 <= jd - 2451545 <= 3000000 ->
  Rabs (gst0_fp jd - gst0 jd) <= / 4294967296.
Proof.
  intros G H. unfold gst0_fp, gst0. set (S := jd - 2451545) in *.
  assert (ES : rnd S = S).
  { apply rnd_id, (grid_double (-1)); [lia|apply grid_minus; [exact G|apply (grid_int (-1) 2451545); lia]|].
    apply Rle_lt_trans with 3000000; [abs|]. apply Rlt_le_trans with (bpow radix2 30); [change (bpow radix2 30) with 1073741824; lra|apply bpow_le; lia]. }
  rewrite ES. set (T0 := S / 36525). assert (BT0 : -83 <= T0 <= 83) by (unfold T0; lra).
  set (T := rnd T0). assert (ET : - / 140737488355328 <= T - T0 <= / 140737488355328).
  { pose proof (rnd_close 7 T0) as C. pow 7%Z 128. change (7 - 54)%Z with (-47)%Z in C. pow (-47)%Z (/ 140737488355328). apply C; [lia|lra]. }
  assert (BT : -84 <= T <= 84) by lra.
  set (a := rnd (2400051336 / 1000000)). assert (Ea : - / 4398046511104 <= a - 2400051336 / 1000000 <= / 4398046511104).
  { pose proof (rnd_close 12 (2400051336 / 1000000)) as C. pow 12%Z 4096. change (12 - 54)%Z with (-42)%Z in C. pow (-42)%Z (/ 4398046511104). apply C; [lia|lra]. }
  set (c := rnd (25862 / 1000000000)). assert (Ec : - / 9223372036854775808 <= c - 25862 / 1000000000 <= / 9223372036854775808).
  { pose proof (rnd_close (-9) (25862 / 1000000000)) as C. pow (-9)%Z (/ 512). change (-9 - 54)%Z with (-63)%Z in C. pow (-63)%Z (/ 9223372036854775808). apply C; [lia|lra]. }
  set (b := rnd (6697374558 / 1000000000)). assert (Eb : - / 2251799813685248 <= b - 6697374558 / 1000000000 <= / 2251799813685248).
  { pose proof (rnd_close 3 (6697374558 / 1000000000)) as C. pow 3%Z 8. change (3 - 54)%Z with (-51)%Z in C. pow (-51)%Z (/ 2251799813685248). apply C; [lia|lra]. }
  (* a T *)
  assert (E1 : Rabs (a * T - 2400051336 / 1000000 * T0) <= / 4398046511104 * 84 + 2401 * / 140737488355328).
  { apply prod_err; abs. }
  apply Rabs_le_inv in E1.
  assert (B1 : -250000 <= a * T <= 250000) by lra.
  set (aT := a * T) in *. set (raT := rnd aT).
  assert (E1' : - / 68719476736 <= raT - aT <= / 68719476736).
  { pose proof (rnd_close 18 aT) as C. pow 18%Z 262144. change (18 - 54)%Z with (-36)%Z in C. pow (-36)%Z (/ 68719476736). apply C; [lia|lra]. }
  set (s1 := b + raT). set (rs1 := rnd s1).
  assert (E2 : - / 68719476736 <= rs1 - s1 <= / 68719476736).
  { pose proof (rnd_close 18 s1) as C. pow 18%Z 262144. change (18 - 54)%Z with (-36)%Z in C. pow (-36)%Z (/ 68719476736). apply C; [lia|unfold s1; lra]. }
  (* c T T *)
  assert (E3 : Rabs (c * T - 25862 / 1000000000 * T0) <= / 9223372036854775808 * 84 + 1 * / 140737488355328).
  { apply prod_err; abs. }
  apply Rabs_le_inv in E3. set (cT := c * T) in *. set (rcT := rnd cT).
  assert (E4 : - / 9007199254740992 <= rcT - cT <= / 9007199254740992).
  { pose proof (rnd_close 1 cT) as C. pow 1%Z 2. change (1 - 54)%Z with (-53)%Z in C. pow (-53)%Z (/ 9007199254740992). apply C; [lia|lra]. }
  assert (E5 : Rabs (rcT * T - (25862 / 1000000000 * T0) * T0) <= / 100000000000000 * 84 + 1 * / 140737488355328).
  { apply prod_err; abs. }
  apply Rabs_le_inv in E5. set (q := rcT * T) in *. set (rq := rnd q).
  assert (Bq : -1 <= q <= 1).
  { assert (-1/2 <= 25862 / 1000000000 * T0 * T0 <= 1/2) by (split; nra). lra. }
  assert (E6 : - / 9007199254740992 <= rq - q <= / 9007199254740992).
  { pose proof (rnd_close 1 q) as C. pow 1%Z 2. change (1 - 54)%Z with (-53)%Z in C. pow (-53)%Z (/ 9007199254740992). apply C; [lia|lra]. }
  set (s2 := rs1 + rq). set (rs2 := rnd s2).
  assert (E7 : - / 68719476736 <= rs2 - s2 <= / 68719476736).
  { pose proof (rnd_close 18 s2) as C. pow 18%Z 262144. change (18 - 54)%Z with (-36)%Z in C. pow (-36)%Z (/ 68719476736). apply C; [lia|unfold s2, s1 in *; lra]. }
  apply Rabs_le. unfold s2, s1 in *. lra.
Qed.

Lemma grid_mult j k x y : grid j x -> grid k y -> grid (j + k) (x * y).
Proof. intros [n ->] [m ->]. exists (n * m)%Z. rewrite mult_IZR, bpow_plus. ring. Qed.

(** A half-integer day count is not zero days from noon. *)
Lemma gst0_grid jd : (exists n, jd = IZR n + 1 / 2) -> -3000000 <= jd - 2451545 <= 3000000 -> grid (-206) (gst0_fp jd).
Proof.
  intros [n E] H. unfold gst0_fp.
  assert (G : grid (-1) jd) by (exists (2 * n + 1)%Z; rewrite E, plus_IZR, mult_IZR, bpow_m1; lra).
  set (S := jd - 2451545) in *.
  assert (ES : rnd S = S).
  { apply rnd_id, (grid_double (-1)); [lia|apply grid_minus; [exact G|apply (grid_int (-1) 2451545); lia]|].
    apply Rle_lt_trans with 3000000; [abs|]. apply Rlt_le_trans with (bpow radix2 30); [change (bpow radix2 30) with 1073741824; lra|apply bpow_le; lia]. }
  rewrite ES. set (T := rnd (S / 36525)).
  assert (P17 : bpow radix2 (-17) = / 131072) by (cbn; lra).
  assert (D17 : double (/ 131072)) by (rewrite <- P17; replace (bpow radix2 (-17)) with (IZR 1 * bpow radix2 (-17)) by ring; apply rnd_dyadic; lia).
  assert (D17' : double (- / 131072)) by (rewrite <- P17; replace (- bpow radix2 (-17)) with (IZR (-1) * bpow radix2 (-17)) by ring; apply rnd_dyadic; lia).
  assert (BT : bpow radix2 (-17) <= Rabs T).
  { rewrite P17. assert (C : S <= -1/2 \/ 1/2 <= S).
    { unfold S. rewrite E. destruct (Z_le_gt_dec 2451545 n) as [L|L].
      - right. apply IZR_le in L. lra.
      - left. assert (n <= 2451544)%Z by lia. apply IZR_le in H0. lra. }
    destruct C as [C|C].
    - assert (T <= - / 131072) by (rewrite <- (rnd_id _ D17'); apply rnd_le; lra). rewrite Rabs_left by lra. lra.
    - assert (/ 131072 <= T) by (rewrite <- (rnd_id _ D17) at 1; apply rnd_le; lra). rewrite Rabs_pos_eq by lra. lra. }
  assert (GT : grid (-69) T) by (apply double_grid; [apply rnd_double|exact BT]).
  assert (Ga : grid (-41) (rnd (2400051336 / 1000000))).
  { apply double_grid; [apply rnd_double|]. change (bpow radix2 (-41 + 52)) with (IZR 2048).
    assert (IZR 2048 <= rnd (2400051336 / 1000000)) by (rewrite <- (rnd_int 2048 eq_refl) at 1; apply rnd_le; lra).
    rewrite Rabs_pos_eq by lra. exact H0. }
  assert (Gb : grid (-50) (rnd (6697374558 / 1000000000))).
  { apply double_grid; [apply rnd_double|]. change (bpow radix2 (-50 + 52)) with (IZR 4).
    assert (IZR 4 <= rnd (6697374558 / 1000000000)) by (rewrite <- (rnd_int 4 eq_refl) at 1; apply rnd_le; lra).
    rewrite Rabs_pos_eq by lra. exact H0. }
  assert (Gc : grid (-68) (rnd (25862 / 1000000000))).
  { apply double_grid; [apply rnd_double|]. change (-68 + 52)%Z with (-16)%Z.
    assert (P16 : bpow radix2 (-16) = / 65536) by (cbn; lra).
    assert (D16 : double (/ 65536)) by (rewrite <- P16; replace (bpow radix2 (-16)) with (IZR 1 * bpow radix2 (-16)) by ring; apply rnd_dyadic; lia).
    assert (/ 65536 <= rnd (25862 / 1000000000)) by (rewrite <- (rnd_id _ D16) at 1; apply rnd_le; lra).
    rewrite P16, Rabs_pos_eq by lra. lra. }
  apply rnd_grid; [lia|]. apply grid_plus.
  - apply rnd_grid; [lia|]. apply grid_plus; [apply (grid_finer (-50)); [lia|exact Gb]|].
    apply rnd_grid; [lia|]. apply (grid_finer (-41 + -69)); [lia|apply grid_mult; assumption].
  - apply rnd_grid; [lia|]. apply (grid_finer (-68 + -69 + -69)); [lia|]. apply grid_mult; [|exact GT].
    apply rnd_grid; [lia|]. apply grid_mult; assumption.
Qed.

Lemma ut_close t : valid_time t -> 0 <= ut_hours_fp t <= 24 /\ Rabs (ut_hours_fp t - ut_hours t) <= / 100000000000000 /\ 0 <= ut_hours t <= 24.
Proof.
  intros (_ & [H0 H1] & [M0 M1] & [S0 S1]). unfold ut_hours_fp, ut_hours.
  assert (BH : 0 <= IZR (p_hours t) <= 23) by (split; apply IZR_le; lia).
  assert (BM : 0 <= IZR (p_minutes t) <= 59) by (split; apply IZR_le; lia).
  assert (BS : 0 <= IZR (p_seconds t) <= 59) by (split; apply IZR_le; lia).
  set (h := IZR (p_hours t)) in *. set (m := IZR (p_minutes t)) in *. set (s := IZR (p_seconds t)) in *.
  assert (D0 : double 0) by exact (double_int 0 eq_refl). assert (D1 : double 1) by exact (double_int 1 eq_refl).
  assert (D60 : double 60) by exact (double_int 60 eq_refl). assert (D24 : double 24) by exact (double_int 24 eq_refl).
  assert (E1 : - / 9007199254740992 <= rnd (s / 60) - s / 60 <= / 9007199254740992).
  { pose proof (rnd_close 1 (s / 60)) as C. pow 1%Z 2. change (1 - 54)%Z with (-53)%Z in C. pow (-53)%Z (/ 9007199254740992). apply C; [lia|lra]. }
  pose proof (rnd_between 0 1 (s / 60) D0 D1 ltac:(lra)) as B1. set (a := rnd (s / 60)) in *.
  pose proof (rnd_between 0 60 (a + m) D0 D60 ltac:(lra)) as B2.
  assert (E2 : - / 281474976710656 <= rnd (a + m) - (a + m) <= / 281474976710656).
  { pose proof (rnd_close 6 (a + m)) as C. pow 6%Z 64. change (6 - 54)%Z with (-48)%Z in C. pow (-48)%Z (/ 281474976710656). apply C; [lia|lra]. }
  set (b := rnd (a + m)) in *.
  pose proof (rnd_between 0 1 (b / 60) D0 D1 ltac:(lra)) as B3.
  assert (E3 : - / 9007199254740992 <= rnd (b / 60) - b / 60 <= / 9007199254740992).
  { pose proof (rnd_close 1 (b / 60)) as C. pow 1%Z 2. change (1 - 54)%Z with (-53)%Z in C. pow (-53)%Z (/ 9007199254740992). apply C; [lia|lra]. }
  set (c := rnd (b / 60)) in *.
  pose proof (rnd_between 0 24 (c + h) D0 D24 ltac:(lra)) as B4.
  assert (E4 : - / 562949953421312 <= rnd (c + h) - (c + h) <= / 562949953421312).
  { pose proof (rnd_close 5 (c + h)) as C. pow 5%Z 32. change (5 - 54)%Z with (-49)%Z in C. pow (-49)%Z (/ 562949953421312). apply C; [lia|lra]. }
  split; [exact B4|]. split; [|lra]. apply Rabs_le. lra.
Qed.

Lemma unit_grid k j x : grid k x -> (-1074 <= j)%Z -> (j + 60 <= k)%Z -> grid j (rnd (x / 60)).
Proof.
  intros G J K. destruct (Req_dec x 0) as [->|N].
  - replace (0 / 60) with (IZR 0) by (cbn; field). rewrite (rnd_int 0 eq_refl). exists 0%Z. ring.
  - apply double_grid; [apply rnd_double|]. pose proof (grid_nonzero _ _ G N) as Q.
    assert (Q1 : bpow radix2 (j + 52) <= Rabs (x / 60)).
    { unfold Rdiv. rewrite Rabs_mult, (Rabs_pos_eq (/ 60)) by lra.
      assert (64 * bpow radix2 (j + 52) <= bpow radix2 k).
      { change 64 with (bpow radix2 6). rewrite <- bpow_plus. apply bpow_le. lia. }
      pose proof (bpow_gt_0 radix2 (j + 52)). lra. }
    apply abs_round_ge_generic; [exact valid|apply valid_rnd_N| |exact Q1].
    apply generic_format_bpow. unfold fexp, FLT_exp. lia.
Qed.
Lemma ut_grid t : grid (-130) (ut_hours_fp t).
Proof.
  unfold ut_hours_fp. apply rnd_grid; [lia|]. apply grid_plus; [|apply grid_int; lia].
  apply (unit_grid (-60)); [|lia|lia]. apply rnd_grid; [lia|]. apply grid_plus; [|apply grid_int; lia].
  apply (unit_grid 0); [|lia|lia]. apply grid_int. lia.
Qed.

Lemma julian_half t : valid_date (p_date t) -> (exists n, julian_date t = IZR n + 1 / 2) /\ -3000000 <= julian_date t - 2451545 <= 3000000.
Proof.
  intros V. pose proof (julian_any_range _ V) as J. unfold julian_date. split; [exists (julian_day t); lra|].
  destruct J as [J1 J2]. apply IZR_le in J1, J2. lra.
Qed.

(** Greenwich sidereal time as computed lies in [0, 24) and is the formula's value to a microsecond. *)
Theorem gst_fp t : valid_time t -> grid (-206) (gst_hours_fp t) /\ 0 <= gst_hours_fp t < 24 /\
  exists e, Rabs e <= / 3600000000 /\ same_hour (gst_hours_fp t) (sidereal t + e).
Proof.
  intros V. pose proof V as (Vd & _). destruct (julian_half t Vd) as [Hf Hr]. unfold gst_hours_fp. rewrite (julian_fp t Vd).
  assert (G : grid (-1) (julian_date t)) by (destruct Hf as [n ->]; exists (2 * n + 1)%Z; rewrite plus_IZR, mult_IZR, bpow_m1; lra).
  pose proof (gst0_close _ G Hr) as C0. pose proof (gst0_grid _ Hf Hr) as G0.
  destruct (ut_close t V) as (U1 & U2 & U3).
  set (x := gst0_fp (julian_date t)) in *.
  assert (B0 : -250000 <= gst0 (julian_date t) <= 250000).
  { unfold gst0. set (T := (julian_date t - 2451545) / 36525). assert (-83 <= T <= 83) by (unfold T; lra).
    assert (0 <= T * T <= 83 * 83) by (split; nra). lra. }
  apply Rabs_le_inv in C0.
  assert (M : moderate x).
  { split; [apply rnd_double|]. split.
    - apply Rle_lt_trans with 300000; [abs|]. change (bpow radix2 50) with 1125899906842624. lra.
    - destruct (Rle_or_lt 0 x) as [P|P]; [left; exact P|right].
      pose proof (grid_nonzero _ _ G0 ltac:(lra)) as Q. rewrite Rabs_left in Q by exact P.
      apply Rle_trans with (- bpow radix2 (-206)); [lra|]. apply Ropp_le_contravar.
      apply Rle_trans with (bpow radix2 5 * bpow radix2 (-1074)).
      + pose proof (bpow_gt_0 radix2 (-1074)). change (bpow radix2 5) with 32. lra.
      + rewrite <- bpow_plus. apply bpow_le. lia. }
  destruct (reduce_fp x M) as [Ex _]. destruct (reduce_fp_range x M) as [[X0 X1] _]. pose proof (reduce_range x) as Xr.
  assert (E1 : - / 562949953421312 <= reduce24_fp x - reduce24 x <= / 562949953421312).
  { rewrite Ex. pose proof (rnd_close 5 (reduce24 x)) as C. pow 5%Z 32. change (5 - 54)%Z with (-49)%Z in C. pow (-49)%Z (/ 562949953421312). apply C; [lia|lra]. }
  set (k := rnd (1002737909 / 1000000000)).
  assert (Ek : - / 9007199254740992 <= k - 1002737909 / 1000000000 <= / 9007199254740992).
  { pose proof (rnd_close 1 (1002737909 / 1000000000)) as C. pow 1%Z 2. change (1 - 54)%Z with (-53)%Z in C. pow (-53)%Z (/ 9007199254740992). apply C; [lia|lra]. }
  assert (E2 : Rabs (ut_hours_fp t * k - ut_hours t * (1002737909 / 1000000000)) <= / 100000000000000 * 2 + 24 * / 9007199254740992).
  { apply prod_err; [exact U2|abs|abs|abs]. }
  apply Rabs_le_inv in E2. set (u := ut_hours_fp t * k) in *.
  assert (U0 : 0 <= u <= 25) by (unfold u; split; nra).
  assert (E3 : - / 562949953421312 <= rnd u - u <= / 562949953421312).
  { pose proof (rnd_close 5 u) as C. pow 5%Z 32. change (5 - 54)%Z with (-49)%Z in C. pow (-49)%Z (/ 562949953421312). apply C; [lia|lra]. }
  pose proof (rnd_between 0 25 u (double_int 0 eq_refl) (double_int 25 eq_refl) U0) as U4.
  set (s := reduce24_fp x + rnd u) in *. assert (S0 : 0 <= s <= 49) by (unfold s; lra).
  pose proof (rnd_between 0 49 s (double_int 0 eq_refl) (double_int 49 eq_refl) S0) as S1.
  assert (E4 : - / 281474976710656 <= rnd s - s <= / 281474976710656).
  { pose proof (rnd_close 6 s) as C. pow 6%Z 64. change (6 - 54)%Z with (-48)%Z in C. pow (-48)%Z (/ 281474976710656). apply C; [lia|lra]. }
  assert (Ms : moderate (rnd s)).
  { split; [apply rnd_double|]. split; [|left; lra]. rewrite Rabs_pos_eq by lra. change (bpow radix2 50) with 1125899906842624. lra. }
  destruct (reduce_fp _ Ms) as [_ Es]. specialize (Es (proj1 S1)). rewrite Es.
  split; [|split; [apply reduce_range|]].
  { unfold reduce24. rewrite <- mult_IZR. apply grid_minus; [|apply grid_int; lia].
    apply rnd_grid; [lia|]. unfold s. apply grid_plus.
    - unfold reduce24_fp. rewrite <- mult_IZR. apply rnd_grid; [lia|]. apply grid_minus; [exact G0|]. apply rnd_grid; [lia|]. apply grid_int. lia.
    - apply rnd_grid; [lia|]. apply (grid_finer (-130 + -52)); [lia|]. unfold u. apply grid_mult; [apply ut_grid|].
      apply double_grid; [apply rnd_double|]. change (bpow radix2 (-52 + 52)) with (IZR 1).
      assert (IZR 1 <= k) by (rewrite <- (rnd_int 1 eq_refl) at 1; apply rnd_le; lra). rewrite Rabs_pos_eq by lra. exact H. }
  set (e := (rnd s - s) + (rnd u - u) + (reduce24_fp x - reduce24 x) + (u - ut_hours t * (1002737909 / 1000000000)) + (x - gst0 (julian_date t))).
  exists e. split.
  - apply Rabs_le. unfold e. lra.
  - eapply same_trans; [apply reduce_same|]. unfold sidereal.
    destruct (reduce_same x) as [j J]. exists j. unfold e, s. rewrite J. ring.
Qed.

(** The local time: in [0, 24], and the Greenwich time plus the longitude. *)
Theorem lst_fp l dir t : valid_time t -> double l -> (l = 0 \/ bpow radix2 (-900) <= Rabs l <= 360) ->
  0 <= lst_hours_fp l dir t <= 24 /\
  exists e, Rabs e <= / 3000000000 /\ same_hour (lst_hours_fp l dir t) (sidereal t + signed dir l / 15 + e).
Proof.
  intros V Dl Hl. destruct (gst_fp t V) as (Gr & (G0 & G1) & e & Be & Ge). unfold lst_hours_fp.
  destruct (Req_EM_T l 0) as [->|N].
  - split; [lra|]. exists e. split; [lra|]. replace (signed dir 0 / 15) with 0 by (destruct dir; cbn; field). rewrite Rplus_0_r. exact Ge.
  - destruct Hl as [?|[L0 L1]]; [contradiction|]. set (g := gst_hours_fp t) in *.
    set (h := rnd (l / 15)). apply Rabs_le_inv in L1.
    assert (Eh : - / 562949953421312 <= h - l / 15 <= / 562949953421312).
    { pose proof (rnd_close 5 (l / 15)) as C. pow 5%Z 32. change (5 - 54)%Z with (-49)%Z in C. pow (-49)%Z (/ 562949953421312). apply C; [lia|lra]. }
    assert (Gg : double g) by apply rnd_double.
    assert (Dh : double h) by apply rnd_double.
    set (sg := signed dir h). assert (Bs : -25 <= sg <= 25) by (unfold sg, signed; destruct dir; lra).
    set (s := sg + g).
    assert (Bsum : -64 <= s <= 64) by (unfold s; lra).
    assert (E2 : - / 281474976710656 <= rnd s - s <= / 281474976710656).
    { pose proof (rnd_close 6 s) as C. pow 6%Z 64. change (6 - 54)%Z with (-48)%Z in C. pow (-48)%Z (/ 281474976710656). apply C; [lia|lra]. }
    assert (Gh : grid (-957) h).
    { apply double_grid; [exact Dh|]. change (-957 + 52)%Z with (-905)%Z.
      apply abs_round_ge_generic; [exact valid|apply valid_rnd_N| |].
      - apply generic_format_bpow. unfold fexp, FLT_exp. lia.
      - unfold Rdiv. rewrite Rabs_mult, (Rabs_pos_eq (/ 15)) by lra.
        assert (32 * bpow radix2 (-905) = bpow radix2 (-900)) by (change 32 with (bpow radix2 5); rewrite <- bpow_plus; reflexivity).
        pose proof (bpow_gt_0 radix2 (-905)). lra. }
    assert (Gs : grid (-957) s).
    { unfold s. apply grid_plus; [|apply (grid_finer (-206)); [lia|exact Gr]]. unfold sg, signed. destruct dir; [|exact Gh].
      destruct Gh as [n ->]. exists (- n)%Z. rewrite opp_IZR. ring. }
    assert (M : moderate (rnd s)).
    { split; [apply rnd_double|]. split.
      - apply Rle_lt_trans with 100; [abs|]. change (bpow radix2 50) with 1125899906842624. lra.
      - destruct (Rle_or_lt 0 (rnd s)) as [P|P]; [left; exact P|right].
        pose proof (grid_nonzero _ _ (rnd_grid (-957) s ltac:(lia) Gs) ltac:(lra)) as Q. rewrite Rabs_left in Q by exact P.
        apply Rle_trans with (- bpow radix2 (-957)); [lra|]. apply Ropp_le_contravar.
        apply Rle_trans with (bpow radix2 5 * bpow radix2 (-1074)).
        + pose proof (bpow_gt_0 radix2 (-1074)). change (bpow radix2 5) with 32. lra.
        + rewrite <- bpow_plus. apply bpow_le. lia. }
    split; [apply reduce_fp_range; exact M|].
    destruct (reduce_fp _ M) as [Er _]. pose proof (reduce_range (rnd s)) as Rr.
    assert (E3 : - / 562949953421312 <= reduce24_fp (rnd s) - reduce24 (rnd s) <= / 562949953421312).
    { rewrite Er. pose proof (rnd_close 5 (reduce24 (rnd s))) as C. pow 5%Z 32. change (5 - 54)%Z with (-49)%Z in C. pow (-49)%Z (/ 562949953421312). apply C; [lia|lra]. }
    destruct Ge as [j J]. destruct (reduce_same (rnd s)) as [i Ii].
    exists ((reduce24_fp (rnd s) - reduce24 (rnd s)) + (rnd s - s) + (sg - signed dir l / 15) + e). split.
    + apply Rabs_le_inv in Be. apply Rabs_le. unfold sg, signed. destruct dir; lra.
    + exists (i + j)%Z. rewrite plus_IZR. replace (reduce24_fp (rnd s)) with ((reduce24_fp (rnd s) - reduce24 (rnd s)) + reduce24 (rnd s)) at 1 by ring.
      rewrite Ii at 2. unfold s at 3. rewrite J. unfold s. rewrite J. ring.
Qed.
