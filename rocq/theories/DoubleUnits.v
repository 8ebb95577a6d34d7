(** * Doubles: the three-argument constructor, and quantities set in one unit and read back. *)
From Coq Require Import ZArith Reals Lia Lra Psatz ZifyBool ZifyN ZifyNat.
From Flocq Require Import Core Relative IEEE754.BinarySingleNaN IEEE754.Binary IEEE754.Bits.
From Verif Require Import CppProofs CardSpec CardProofs TextModel TextSpec TextRound TextScan TextFloat TextProofs TextLaws TextRead TextCard DoubleModel DoubleSpec DoubleProofs DoubleText.
Local Open Scope R_scope.

#[local] Instance prec53 : Prec_gt_0 53 := eq_refl.
#[local] Existing Instance near.
#[local] Existing Instance prec6.

Definition u53 : R := bpow radix2 (-53).
Definition t1075 : R := bpow radix2 (-1075).
Lemma u53_eq : u53 = / 9007199254740992. Proof. reflexivity. Qed.
Lemma half_u53 : / 2 * bpow radix2 (- (53) + 1) = u53.
Proof. unfold u53. rewrite bpow_plus. change (bpow radix2 1) with 2. change (- (53))%Z with (-53)%Z. field. Qed.
Lemma t1075_pos : 0 < t1075. Proof. apply bpow_gt_0. Qed.

Lemma rnd_err y : Rabs (rnd y - y) <= u53 * Rabs y + t1075.
Proof.
  destruct (error_N_FLT radix2 (-1074) 53 ltac:(exact eq_refl) (fun t => negb (Z.even t)) y) as (e & n & E & N & _ & H).
  change (rnd y = y * (1 + e) + n) in H. rewrite H. replace (y * (1 + e) + n - y) with (e * y + n) by ring.
  eapply Rle_trans; [apply Rabs_triang|]. rewrite Rabs_mult. apply Rplus_le_compat.
  - apply Rmult_le_compat_r; [apply Rabs_pos|]. rewrite half_u53 in E. exact E.
  - eapply Rle_trans; [exact N|]. right. change (-1074)%Z with (1 + -1075)%Z. rewrite bpow_plus. unfold t1075. change (bpow radix2 1) with 2. field.
Qed.

Lemma rnd_rel y : bpow radix2 (-1022) <= Rabs y -> Rabs (rnd y - y) <= u53 * Rabs y.
Proof.
  intros H. pose proof (relative_error_N_FLT radix2 (-1074) 53 ltac:(exact eq_refl) (fun t => negb (Z.even t)) y H) as E.
  rewrite half_u53 in E. exact E.
Qed.

Lemma rnd_bound y k : (-1074 <= k)%Z -> Rabs y <= bpow radix2 k -> Rabs (rnd y) <= bpow radix2 k.
Proof.
  intros K H. apply abs_round_le_generic; [typeclasses eauto|typeclasses eauto| |exact H].
  replace (bpow radix2 k) with (IZR 1 * bpow radix2 k) by (cbn; ring). apply fmt_intro; lia.
Qed.

Lemma bpow_double k : bpow radix2 (k + 1) = 2 * bpow radix2 k.
Proof. rewrite bpow_plus. change (bpow radix2 1) with 2. ring. Qed.

Lemma add_ok x y : fin x = true -> fin y = true -> Rabs (rnd (val x + val y)) < bpow radix2 1024 ->
  fin (d_add x y) = true /\ val (d_add x y) = rnd (val x + val y).
Proof.
  intros X Y H. unfold d_add, b64_plus.
  match goal with |- context [Bplus _ _ ?a ?b ?n ?m x y] => pose proof (Bplus_correct 53 1024 a b n m x y X Y) as C end.
  change (round radix2 (SpecFloat.fexp 53 1024) (round_mode mode_NE) (val x + val y)) with (rnd (val x + val y)) in C.
  rewrite Rlt_bool_true in C by exact H. destruct C as (C1 & C2 & _). auto.
Qed.

Lemma small_int_ok z : (Z.abs z < 2 ^ 53)%Z -> fin (d_of_Z z) = true /\ val (d_of_Z z) = IZR z.
Proof.
  intros H. apply of_Z_ok.
  - apply rnd_id. replace (IZR z) with (IZR z * bpow radix2 0) by (cbn; ring). apply fmt_intro; lia.
  - eapply Z.lt_trans; [exact H|]. vm_compute. reflexivity.
Qed.

(** ** decimal_hour(h, m, s) *)

Lemma three_ok h m s : dfinite h -> dfinite m -> dfinite s ->
  Rabs (dval h) <= bpow radix2 1000 -> Rabs (dval m) <= bpow radix2 1000 -> Rabs (dval s) <= bpow radix2 1000 ->
  dfinite (hms_dh (hms_of_three h m s)) /\
  Rabs (dval (hms_dh (hms_of_three h m s)) - (dval h + dval m / 60 + dval s / 3600)) <=
    bpow radix2 (-51) * (Rabs (dval h) + Rabs (dval m) / 60 + Rabs (dval s) / 3600) + bpow radix2 (-1072).
Proof.
  unfold dfinite, dval. intros Fh Fm Fs Bh Bm Bs. cbn [hms_of_three hms_dh].
  destruct (small_int_ok 60 eq_refl) as [F60 V60]. destruct (small_int_ok 3600 eq_refl) as [F36 V36].
  assert (Q60 : forall x, Rabs (x / 60) = Rabs x / 60) by (intros x; unfold Rdiv; rewrite Rabs_mult; f_equal; apply Rabs_pos_eq; lra).
  assert (Q36 : forall x, Rabs (x / 3600) = Rabs x / 3600) by (intros x; unfold Rdiv; rewrite Rabs_mult; f_equal; apply Rabs_pos_eq; lra).
  assert (L : forall k, (k < 1024)%Z -> bpow radix2 k < bpow radix2 1024) by (intros k K; apply bpow_lt, K).
  pose proof (Rabs_pos (val m)) as Pm. pose proof (Rabs_pos (val s)) as Ps. pose proof (Rabs_pos (val h)) as Ph.
  assert (A1 : Rabs (rnd (val m / 60)) <= bpow radix2 1000) by (apply rnd_bound; [lia|]; rewrite Q60; lra).
  assert (A3 : Rabs (rnd (val s / 3600)) <= bpow radix2 1000) by (apply rnd_bound; [lia|]; rewrite Q36; lra).
  destruct (div_ok m (d_of_Z 60) Fm) as [F1 V1]; [rewrite V60; lra|rewrite V60; eapply Rle_lt_trans; [exact A1|apply L; lia]|]. rewrite V60 in V1.
  destruct (div_ok s (d_of_Z 3600) Fs) as [F3 V3]; [rewrite V36; lra|rewrite V36; eapply Rle_lt_trans; [exact A3|apply L; lia]|]. rewrite V36 in V3.
  set (a := d_div m (d_of_Z 60)) in *. set (b := d_div s (d_of_Z 3600)) in *.
  assert (A2 : Rabs (rnd (val h + val a)) <= bpow radix2 1001).
  { apply rnd_bound; [lia|]. eapply Rle_trans; [apply Rabs_triang|]. change 1001%Z with (1000 + 1)%Z. rewrite bpow_double, V1. lra. }
  destruct (add_ok h a Fh F1) as [F2 V2]; [eapply Rle_lt_trans; [exact A2|apply L; lia]|]. set (c := d_add h a) in *.
  assert (A4 : Rabs (rnd (val c + val b)) <= bpow radix2 1002).
  { apply rnd_bound; [lia|]. eapply Rle_trans; [apply Rabs_triang|]. change 1002%Z with (1001 + 1)%Z. rewrite bpow_double, V2, V3.
    change 1001%Z with (1000 + 1)%Z in *. rewrite bpow_double in *. pose proof (bpow_gt_0 radix2 1000). lra. }
  destruct (add_ok c b F2 F3) as [F4 V4]; [eapply Rle_lt_trans; [exact A4|apply L; lia]|].
  split; [exact F4|]. rewrite V4.
  pose proof (rnd_err (val m / 60)) as E1. rewrite <- V1, Q60 in E1.
  pose proof (rnd_err (val s / 3600)) as E3. rewrite <- V3, Q36 in E3.
  pose proof (rnd_err (val h + val a)) as E2. rewrite <- V2 in E2.
  pose proof (rnd_err (val c + val b)) as E4.
  pose proof (Rabs_triang (val h) (val a)) as T2. pose proof (Rabs_triang (val c) (val b)) as T4.
  assert (T1 : Rabs (val a) <= Rabs (val m) / 60 + Rabs (val a - val m / 60)).
  { rewrite <- Q60. replace (val a) with (val m / 60 + (val a - val m / 60)) at 1 by ring. apply Rabs_triang. }
  assert (T3 : Rabs (val b) <= Rabs (val s) / 3600 + Rabs (val b - val s / 3600)).
  { rewrite <- Q36. replace (val b) with (val s / 3600 + (val b - val s / 3600)) at 1 by ring. apply Rabs_triang. }
  assert (T5 : Rabs (val c) <= Rabs (val h + val a) + Rabs (val c - (val h + val a))).
  { replace (val c) with ((val h + val a) + (val c - (val h + val a))) at 1 by ring. apply Rabs_triang. }
  replace (rnd (val c + val b) - (val h + val m / 60 + val s / 3600)) with
    ((rnd (val c + val b) - (val c + val b)) + ((val c - (val h + val a)) + ((val a - val m / 60) + (val b - val s / 3600)))) by ring.
  eapply Rle_trans; [apply Rabs_triang|]. eapply Rle_trans; [apply Rplus_le_compat_l, Rabs_triang|].
  eapply Rle_trans; [apply Rplus_le_compat_l, Rplus_le_compat_l, Rabs_triang|].
  replace (bpow radix2 (-1072)) with (8 * t1075) by (unfold t1075; change (-1072)%Z with (-1075 + 1 + 1 + 1)%Z; rewrite !bpow_double; ring).
  replace (bpow radix2 (-51)) with (/ 2251799813685248) by reflexivity.
  rewrite u53_eq in *. pose proof t1075_pos. lra.
Qed.

Lemma three_fields h m s : hms_hours (hms_of_three h m s) = 0%Z /\ hms_minutes (hms_of_three h m s) = 0%Z /\
  dval (hms_seconds (hms_of_three h m s)) = 0 /\ print_hms (hms_of_three h m s) = lit "Hours: 0h 0m 0.000000s ".
Proof. split; [reflexivity|]. split; [reflexivity|]. split; [reflexivity|]. vm_compute. reflexivity. Qed.

(** ** A quantity given in one unit and read back in it *)

Lemma one_ok : fin (d_of_Z 1) = true /\ val (d_of_Z 1) = 1. Proof. apply (small_int_ok 1 eq_refl). Qed.

Lemma moderate_parts x : moderate x -> fin x = true /\ val x <> 0 /\ bpow radix2 (-500) <= Rabs (val x) <= bpow radix2 500.
Proof.
  intros [F B]. split; [exact F|]. unfold dval in B. split; [|exact B]. intros E. rewrite E, Rabs_R0 in B. pose proof (bpow_gt_0 radix2 (-500)). lra.
Qed.

(** The inverse of the factor as the program has it. *)
Lemma inverse_ok c : moderate c -> fin (d_div (d_of_Z 1) c) = true /\ val (d_div (d_of_Z 1) c) = rnd (/ val c) /\
  Rabs (rnd (/ val c) - / val c) <= u53 * Rabs (/ val c) /\ bpow radix2 (-501) <= Rabs (rnd (/ val c)) <= bpow radix2 501.
Proof.
  intros M. destruct (moderate_parts c M) as (F & Z & B). destruct one_ok as [F1 V1].
  pose proof (Rabs_pos_lt _ Z) as P.
  assert (U : Rabs (/ val c) <= bpow radix2 500).
  { rewrite Rabs_inv. rewrite <- (Rinv_inv (bpow radix2 500)). rewrite <- bpow_opp. apply Rinv_le_contravar; [apply bpow_gt_0|apply B]. }
  assert (L : bpow radix2 (-500) <= Rabs (/ val c)).
  { rewrite Rabs_inv. change (-500)%Z with (- (500))%Z. rewrite bpow_opp. apply Rinv_le_contravar; [exact P|apply B]. }
  assert (E : Rabs (rnd (/ val c) - / val c) <= u53 * Rabs (/ val c)).
  { apply rnd_rel. eapply Rle_trans; [|exact L]. apply bpow_le. lia. }
  assert (Ub : Rabs (rnd (/ val c)) <= bpow radix2 500) by (apply rnd_bound; [lia|exact U]).
  destruct (div_ok (d_of_Z 1) c F1 Z) as [Fi Vi].
  { rewrite V1. replace (1 / val c) with (/ val c) by (unfold Rdiv; ring). eapply Rle_lt_trans; [exact Ub|apply bpow_lt; lia]. }
  rewrite V1 in Vi. replace (1 / val c) with (/ val c) in Vi by (unfold Rdiv; ring).
  split; [exact Fi|]. split; [exact Vi|]. split; [exact E|]. split.
  - assert (T : Rabs (/ val c) <= Rabs (rnd (/ val c)) + Rabs (rnd (/ val c) - / val c)).
    { rewrite (Rabs_minus_sym (rnd _)). replace (/ val c) with (rnd (/ val c) + (/ val c - rnd (/ val c))) at 1 by ring. apply Rabs_triang. }
    rewrite u53_eq in E. change (-500)%Z with (-501 + 1)%Z in L. rewrite bpow_double in L. pose proof (bpow_gt_0 radix2 (-501)). lra.
  - eapply Rle_trans; [exact Ub|]. apply bpow_le. lia.
Qed.

Lemma stored_ok c x : moderate c -> moderate x ->
  fin (d_mul x c) = true /\ val (d_mul x c) = rnd (val x * val c) /\
  Rabs (rnd (val x * val c) - val x * val c) <= u53 * Rabs (val x * val c) /\
  bpow radix2 (-1001) <= Rabs (rnd (val x * val c)) /\ Rabs (val x * val c) <= bpow radix2 1000.
Proof.
  intros Mc Mx. destruct (moderate_parts c Mc) as (Fc & Zc & Bc). destruct (moderate_parts x Mx) as (Fx & Zx & Bx).
  assert (U : Rabs (val x * val c) <= bpow radix2 1000).
  { rewrite Rabs_mult. change 1000%Z with (500 + 500)%Z. rewrite bpow_plus. apply Rmult_le_compat; try apply Rabs_pos; tauto. }
  assert (L : bpow radix2 (-1000) <= Rabs (val x * val c)).
  { rewrite Rabs_mult. change (-1000)%Z with (-500 + -500)%Z. rewrite bpow_plus. apply Rmult_le_compat; try apply bpow_ge_0; tauto. }
  assert (E : Rabs (rnd (val x * val c) - val x * val c) <= u53 * Rabs (val x * val c)).
  { apply rnd_rel. eapply Rle_trans; [|exact L]. apply bpow_le. lia. }
  destruct (mul_ok x c Fx Fc) as [Fm Vm].
  { eapply Rle_lt_trans; [apply (rnd_bound _ 1000); [lia|exact U]|]. apply bpow_lt. lia. }
  split; [exact Fm|]. split; [exact Vm|]. split; [exact E|]. split; [|exact U].
  assert (T : Rabs (val x * val c) <= Rabs (rnd (val x * val c)) + Rabs (rnd (val x * val c) - val x * val c)).
  { rewrite (Rabs_minus_sym (rnd _)). replace (val x * val c) with (rnd (val x * val c) + (val x * val c - rnd (val x * val c))) at 1 by ring. apply Rabs_triang. }
  rewrite u53_eq in E. change (-1000)%Z with (-1001 + 1)%Z in L. rewrite bpow_double in L. pose proof (bpow_gt_0 radix2 (-1001)). lra.
Qed.

(** Three roundings in a row. *)
Lemma three_roundings x c y i z : c <> 0 -> Rabs (y - x * c) <= u53 * Rabs (x * c) -> Rabs (i - / c) <= u53 * Rabs (/ c) ->
  Rabs (z - y * i) <= u53 * Rabs (y * i) -> Rabs (z - x) <= bpow radix2 (-51) * Rabs x.
Proof.
  intros C Y I Z.
  assert (A : forall a b, Rabs (a - b) <= u53 * Rabs b -> b <> 0 -> exists e, a = b * (1 + e) /\ Rabs e <= u53).
  { clear. intros a b H B. exists ((a - b) / b). split; [field; exact B|]. unfold Rdiv. rewrite Rabs_mult, Rabs_inv.
    apply Rmult_le_reg_r with (Rabs b); [apply Rabs_pos_lt, B|]. rewrite Rmult_assoc, Rinv_l by (apply Rabs_no_R0, B). lra. }
  destruct (Req_dec x 0) as [->|X].
  - rewrite Rmult_0_l, Rabs_R0, Rmult_0_r, Rminus_0_r in Y. assert (Y0 : y = 0) by (apply Rabs_eq_R0, Rle_antisym; [exact Y|apply Rabs_pos]).
    rewrite Y0, Rmult_0_l, Rabs_R0, Rmult_0_r in Z. rewrite Rabs_R0, Rmult_0_r. exact Z.
  - destruct (A y (x * c) Y (Rmult_integral_contrapositive_currified _ _ X C)) as (e1 & -> & E1).
    destruct (A i (/ c) I (Rinv_neq_0_compat _ C)) as (e2 & -> & E2).
    assert (N : x * c * (1 + e1) * (/ c * (1 + e2)) <> 0).
    { rewrite u53_eq in E1, E2. apply Rabs_le_inv in E1, E2.
      repeat (apply Rmult_integral_contrapositive_currified); try assumption; try lra. apply Rinv_neq_0_compat, C. }
    destruct (A z _ Z N) as (e3 & -> & E3).
    replace (x * c * (1 + e1) * (/ c * (1 + e2)) * (1 + e3) - x) with (((1 + e1) * (1 + e2) * (1 + e3) - 1) * x) by (field; exact C).
    rewrite Rabs_mult. apply Rmult_le_compat_r; [apply Rabs_pos|].
    replace (bpow radix2 (-51)) with (4 * u53) by (unfold u53; change (-51)%Z with (-53 + 1 + 1)%Z; rewrite !bpow_double; ring).
    rewrite u53_eq in *. set (u := / 9007199254740992) in *. assert (U : 0 < u < / 1000) by (unfold u; lra).
    clearbody u. apply Rabs_le_inv in E1, E2, E3. apply Rabs_le.
    assert (P12 : Rabs (e1 * e2) <= / 1000 * u) by (rewrite Rabs_mult; apply Rmult_le_compat; try apply Rabs_pos; apply Rabs_le; lra).
    assert (P13 : Rabs (e1 * e3) <= / 1000 * u) by (rewrite Rabs_mult; apply Rmult_le_compat; try apply Rabs_pos; apply Rabs_le; lra).
    assert (P23 : Rabs (e2 * e3) <= / 1000 * u) by (rewrite Rabs_mult; apply Rmult_le_compat; try apply Rabs_pos; apply Rabs_le; lra).
    assert (P123 : Rabs (e1 * (e2 * e3)) <= / 1000 * u) by (rewrite Rabs_mult; apply Rmult_le_compat; try apply Rabs_pos; [apply Rabs_le; lra|]; eapply Rle_trans; [exact P23|]; lra).
    apply Rabs_le_inv in P12, P13, P23, P123.
    replace ((1 + e1) * (1 + e2) * (1 + e3) - 1) with (e1 + e2 + e3 + e1 * e2 + e1 * e3 + e2 * e3 + e1 * (e2 * e3)) by ring. lra.
Qed.

Lemma back_ok u x : usable u -> moderate x ->
  dfinite (from_stored u (to_stored u x)) /\ Rabs (dval (from_stored u (to_stored u x)) - dval x) <= bpow radix2 (-51) * Rabs (dval x).
Proof.
  unfold usable, from_stored, to_stored, dfinite, dval. destruct (u_factor u) as [c|]; intros Mc Mx.
  - destruct (stored_ok c x Mc Mx) as (Fy & Vy & Ey & Ly & Uy). destruct (inverse_ok c Mc) as (Fi & Vi & Ei & Bi).
    destruct (moderate_parts c Mc) as (Fc & Zc & Bc). destruct (moderate_parts x Mx) as (Fx & Zx & Bx).
    set (y := d_mul x c) in *. set (i := d_div (d_of_Z 1) c) in *. rewrite <- Vy in *. rewrite <- Vi in *.
    assert (Nz : Rabs (rnd (val y * val i)) <= bpow radix2 1020).
    { apply rnd_bound; [lia|]. eapply Rle_trans with (2 * Rabs (val x)).
      - assert (Ey2 : Rabs (val y) <= (1 + u53) * Rabs (val x * val c)).
        { replace (val y) with (val x * val c + (val y - val x * val c)) by ring. eapply Rle_trans; [apply Rabs_triang|]. lra. }
        assert (Ei2 : Rabs (val i) <= (1 + u53) * Rabs (/ val c)).
        { replace (val i) with (/ val c + (val i - / val c)) by ring. eapply Rle_trans; [apply Rabs_triang|]. lra. }
        rewrite Rabs_mult. eapply Rle_trans; [apply Rmult_le_compat; try apply Rabs_pos; eassumption|].
        replace ((1 + u53) * Rabs (val x * val c) * ((1 + u53) * Rabs (/ val c))) with ((1 + u53) * (1 + u53) * (Rabs (val x) * (Rabs (val c) * Rabs (/ val c))))
          by (rewrite (Rabs_mult (val x)); ring).
        rewrite <- Rabs_mult, Rinv_r, Rabs_R1, Rmult_1_r by exact Zc. apply Rmult_le_compat_r; [apply Rabs_pos|]. rewrite u53_eq. lra.
      - eapply Rle_trans with (bpow radix2 501); [change 501%Z with (500 + 1)%Z; rewrite bpow_double; lra|apply bpow_le; lia]. }
    destruct (mul_ok y i Fy Fi) as [Fz Vz]; [eapply Rle_lt_trans; [exact Nz|apply bpow_lt; lia]|].
    split; [exact Fz|]. apply three_roundings with (c := val c) (y := val y) (i := val i); [exact Zc|exact Ey|exact Ei|].
    rewrite Vz. apply rnd_rel. rewrite Rabs_mult.
    assert (Ly2 : Rabs (val x * val c) <= 2 * Rabs (val y)).
    { assert (T : Rabs (val x * val c) <= Rabs (val y) + Rabs (val y - val x * val c)).
      { rewrite (Rabs_minus_sym (val y)). replace (val x * val c) with (val y + (val x * val c - val y)) at 1 by ring. apply Rabs_triang. }
      rewrite u53_eq in Ey. pose proof (Rabs_pos (val x * val c)). lra. }
    assert (Li2 : Rabs (/ val c) <= 2 * Rabs (val i)).
    { assert (T : Rabs (/ val c) <= Rabs (val i) + Rabs (val i - / val c)).
      { rewrite (Rabs_minus_sym (val i)). replace (/ val c) with (val i + (/ val c - val i)) at 1 by ring. apply Rabs_triang. }
      rewrite u53_eq in Ei. pose proof (Rabs_pos (/ val c)). lra. }
    assert (P : Rabs (val x) <= 4 * (Rabs (val y) * Rabs (val i))).
    { replace (Rabs (val x)) with (Rabs (val x * val c) * Rabs (/ val c)).
      - eapply Rle_trans; [apply Rmult_le_compat; try apply Rabs_pos; eassumption|]. lra.
      - rewrite <- Rabs_mult. f_equal. field. exact Zc. }
    apply Rle_trans with (bpow radix2 (-502)); [apply bpow_le; lia|].
    change (-500)%Z with (-502 + 1 + 1)%Z in Bx. rewrite !bpow_double in Bx. lra.
  - destruct (moderate_parts x Mx) as (Fx & _). split; [exact Fx|]. rewrite Rminus_diag_eq, Rabs_R0 by reflexivity.
    apply Rmult_le_pos; [apply bpow_ge_0|apply Rabs_pos].
Qed.

(** Without a conversion nothing changes. *)
Lemma back_same u x : u_factor u = None -> from_stored u (to_stored u x) = x.
Proof. intros E. unfold from_stored, to_stored. rewrite E. reflexivity. Qed.
