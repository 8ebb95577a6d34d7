(** * The obliquity of the ecliptic in doubles. *)
From Coq Require Import ZArith Reals Lia Lra Psatz QArith Qreals.
From Flocq Require Import Core Relative IEEE754.BinarySingleNaN IEEE754.Binary IEEE754.Bits.
From Verif Require Import TextModel TextSpec TextRound TextScan TextFloat TextProofs TextLaws TextRead TextCard DoubleModel DoubleSpec DoubleProofs DoubleUnits VectorModel VectorSpec VectorProofs VectorArith VectorProducts VectorLength VectorUnit SkyModel SkySpec SkyAngles SkyProofs SkyConvert UtilModel UtilProofs EclipticModel EclipticSpec.
Local Open Scope R_scope.

#[local] Instance prec53 : Prec_gt_0 53 := eq_refl.
#[local] Existing Instance near.

(** ** The digits of pi *)

Definition odd_pos (n : nat) : positive := Pos.of_succ_nat (2 * n).
Definition tq (n : nat) : Q := (2 * (1 # (3 ^ odd_pos n * odd_pos n)) + (1 # (7 ^ odd_pos n * odd_pos n)))%Q.
Fixpoint sq (n : nat) : Q := match n with O => tq 0 | S m => Qred (sq m + (if Nat.even n then tq n else - tq n))%Q end.

Lemma pow_pos_R (b k : positive) : IZR (Zpos (b ^ k)) = IZR (Zpos b) ^ Pos.to_nat k.
Proof. rewrite Pos2Z.inj_pow, pow_IZR, (positive_nat_Z k). reflexivity. Qed.
Lemma odd_nat n : Pos.to_nat (odd_pos n) = (2 * n + 1)%nat.
Proof. unfold odd_pos. rewrite SuccNat2Pos.id_succ. lia. Qed.
Lemma term_R (b : positive) n : Q2R (1 # (b ^ odd_pos n * odd_pos n)) = Ratan_seq (/ IZR (Zpos b)) n.
Proof.
  unfold Q2R, Ratan_seq. cbn [Qnum Qden]. rewrite Pos2Z.inj_mul, mult_IZR, pow_pos_R, odd_nat.
  replace (IZR (Zpos (odd_pos n))) with (INR (2 * n + 1)) by (rewrite INR_IZR_INZ; f_equal; rewrite <- odd_nat; apply positive_nat_Z).
  rewrite pow_inv. field. split; [apply pow_nonzero, not_0_IZR; discriminate|apply not_0_INR; lia].
Qed.
Lemma tq_R n : Q2R (tq n) = PI_2_3_7_tg n.
Proof.
  unfold tq, PI_2_3_7_tg. rewrite Q2R_plus, Q2R_mult, !term_R. f_equal. f_equal. unfold Q2R. cbn. lra.
Qed.
Lemma sq_R n : Q2R (sq n) = sum_f_R0 (tg_alt PI_2_3_7_tg) n.
Proof.
  induction n as [|n IH].
  - cbn [sq sum_f_R0]. unfold tg_alt. rewrite tq_R, pow_O. ring.
  - cbn [sum_f_R0]. change (sq (S n)) with (Qred (sq n + (if Nat.even (S n) then tq (S n) else - tq (S n)))%Q).
    rewrite (Qeq_eqR _ _ (Qred_correct _)), Q2R_plus, IH. f_equal. unfold tg_alt.
    destruct (Nat.even (S n)) eqn:E.
    + apply Nat.even_spec in E. destruct E as [k ->]. rewrite pow_1_even, tq_R. ring.
    + assert (O : Nat.odd (S n) = true) by (unfold Nat.odd; rewrite E; reflexivity). apply Nat.odd_spec in O. destruct O as [k ->].
      rewrite Nat.add_1_r, pow_1_odd, Q2R_opp, tq_R. ring.
Qed.
Lemma pi_between : Q2R (4 * sq 37) <= PI <= Q2R (4 * sq 36).
Proof.
  pose proof (PI_2_3_7_ineq 18) as H. change (S (2 * 18)) with 37%nat in H. change (2 * 18)%nat with 36%nat in H.
  rewrite <- !sq_R in H. rewrite !Q2R_mult. replace (Q2R 4) with 4 by (unfold Q2R; cbn; lra). lra.
Qed.
Lemma pi_digits : 3.14159265358979323846264338327950288 <= PI <= 3.14159265358979323846264338327950289.
Proof.
  destruct pi_between as [L U].
  assert (A : Q2R (314159265358979323846264338327950288 # 100000000000000000000000000000000000) <= Q2R (4 * sq 37)) by (apply Qle_Rle; vm_compute; discriminate).
  assert (B : Q2R (4 * sq 36) <= Q2R (314159265358979323846264338327950289 # 100000000000000000000000000000000000)) by (apply Qle_Rle; vm_compute; discriminate).
  unfold Q2R in A at 1. unfold Q2R in B at 2. cbn [Qnum Qden] in A, B. lra.
Qed.

(** ** Absolute errors, in units of 2^-53 *)

Definition ap (e : R) (x : double) (r : R) : Prop := fin x = true /\ Rabs (val x - r) <= e * u53.

Lemma ap_weaken e f x r : e <= f -> ap e x r -> ap f x r.
Proof. intros H [F E]. split; [exact F|]. pose proof u53_pos. nra. Qed.

Lemma t_small : t1075 <= / 1000 * u53.
Proof.
  apply Rle_trans with (bpow radix2 (-63)); [apply bpow_le; lia|]. unfold u53. change (-63)%Z with (-10 + -53)%Z. rewrite bpow_plus.
  apply Rmult_le_compat_r; [apply bpow_ge_0|]. cbn. lra.
Qed.

(** One rounding of a number close to [r]. *)
Lemma ap_round e B y r : 0 <= e <= 1000000 -> Rabs r <= B -> B <= 1000000 -> Rabs (y - r) <= e * u53 ->
  Rabs (rnd y) < bpow radix2 1024 /\ Rabs (rnd y - r) <= (e + B + / 100) * u53.
Proof.
  intros He Hr HB H. pose proof u53_pos as U0. pose proof u53_eq as Ue.
  assert (Y : Rabs y <= B + / 1000).
  { replace y with ((y - r) + r) by ring. eapply Rle_trans; [apply Rabs_triang|]. assert (e * u53 <= 1000000 * u53) by (apply Rmult_le_compat_r; lra). lra. }
  pose proof (rnd_err y) as E. pose proof t_small as T.
  assert (E' : Rabs (rnd y - y) <= (B + / 500) * u53).
  { assert (u53 * Rabs y <= u53 * (B + / 1000)) by (apply Rmult_le_compat_l; lra). lra. }
  split.
  - apply (fits 30); [lia|]. apply rnd_bound; [lia|]. change (bpow radix2 30) with 1073741824. lra.
  - replace (rnd y - r) with ((rnd y - y) + (y - r)) by ring. eapply Rle_trans; [apply Rabs_triang|]. lra.
Qed.

Lemma ap_int z : (Z.abs z < 2 ^ 53)%Z -> ap 0 (d_of_Z z) (IZR z).
Proof. intros Z. destruct (small_int_ok z Z) as [F V]. split; [exact F|]. rewrite V, Rminus_diag_eq, Rabs_R0 by reflexivity. lra. Qed.

Lemma ap_add e f B x y r s : 0 <= e <= 400000 -> 0 <= f <= 400000 -> Rabs (r + s) <= B -> B <= 1000000 ->
  ap e x r -> ap f y s -> ap (e + f + B + / 100) (d_add x y) (r + s).
Proof.
  intros He Hf HB B1 [Fx Ex] [Fy Ey].
  assert (H : Rabs (val x + val y - (r + s)) <= (e + f) * u53).
  { replace (val x + val y - (r + s)) with ((val x - r) + (val y - s)) by ring. eapply Rle_trans; [apply Rabs_triang|]. lra. }
  destruct (ap_round (e + f) B _ _ ltac:(lra) HB B1 H) as [O E]. destruct (add_ok x y Fx Fy O) as [F V]. split; [exact F|]. rewrite V. exact E.
Qed.

Lemma ap_sub e f B x y r s : 0 <= e <= 400000 -> 0 <= f <= 400000 -> Rabs (r - s) <= B -> B <= 1000000 ->
  ap e x r -> ap f y s -> ap (e + f + B + / 100) (d_sub x y) (r - s).
Proof.
  intros He Hf HB B1 [Fx Ex] [Fy Ey].
  assert (H : Rabs (val x - val y - (r - s)) <= (e + f) * u53).
  { replace (val x - val y - (r - s)) with ((val x - r) + - (val y - s)) by ring. eapply Rle_trans; [apply Rabs_triang|]. rewrite Rabs_Ropp. lra. }
  destruct (ap_round (e + f) B _ _ ltac:(lra) HB B1 H) as [O E]. destruct (sub_ok x y Fx Fy O) as [F V]. split; [exact F|]. rewrite V. exact E.
Qed.

Lemma ap_mul e f A B x y r s : 0 <= e <= 900 -> 0 <= f <= 900 -> Rabs r <= A -> Rabs s <= B -> A <= 500 -> B <= 500 ->
  ap e x r -> ap f y s -> ap (e * B + f * A + A * B + / 50) (d_mul x y) (r * s).
Proof.
  intros He Hf HA HB A1 B1 [Fx Ex] [Fy Ey]. pose proof u53_pos as U0. pose proof u53_eq as Ue.
  pose proof (Rabs_pos r) as A0. pose proof (Rabs_pos s) as B0. pose proof (Rabs_pos (val x - r)) as X0. pose proof (Rabs_pos (val y - s)) as Y0.
  assert (H : Rabs (val x * val y - r * s) <= (e * B + f * A + / 100) * u53).
  { replace (val x * val y - r * s) with ((val x - r) * s + (r * (val y - s) + (val x - r) * (val y - s))) by ring.
    eapply Rle_trans; [apply Rabs_triang|]. eapply Rle_trans; [apply Rplus_le_compat_l, Rabs_triang|]. rewrite !Rabs_mult.
    assert (Rabs (val x - r) * Rabs s <= (e * u53) * B) by (apply Rmult_le_compat; lra).
    assert (Rabs r * Rabs (val y - s) <= A * (f * u53)) by (apply Rmult_le_compat; lra).
    assert (Rabs (val x - r) * Rabs (val y - s) <= (e * u53) * (f * u53)) by (apply Rmult_le_compat; lra).
    assert (e * f <= 1000000) by nra.
    assert (e * u53 * (f * u53) <= / 100 * u53).
    { replace (e * u53 * (f * u53)) with (e * f * u53 * u53) by ring. apply Rmult_le_compat_r; [lra|].
      assert (e * f * u53 <= 1000000 * u53) by (apply Rmult_le_compat_r; lra). lra. }
    lra. }
  assert (P1 : 0 <= e * B <= 450000) by nra. assert (P2 : 0 <= f * A <= 450000) by nra. assert (P3 : A * B <= 250000) by nra.
  assert (P4 : Rabs (r * s) <= A * B) by (rewrite Rabs_mult; apply Rmult_le_compat; lra).
  destruct (ap_round (e * B + f * A + / 100) (A * B) _ _ ltac:(lra) P4 ltac:(lra) H) as [O E]. destruct (mul_ok x y Fx Fy O) as [F V]. split; [exact F|].
  rewrite V. eapply Rle_trans; [exact E|]. apply Rmult_le_compat_r; lra.
Qed.

Lemma ap_div e B x r n : 0 <= e <= 1000000 -> Rabs r <= B -> (1 <= n < 10000000)%Z -> B / IZR n <= 1000000 ->
  ap e x r -> ap (e / IZR n + B / IZR n + / 50) (d_div x (d_of_Z n)) (r / IZR n).
Proof.
  intros He HB Hn B1 [Fx Ex]. destruct (small_int_ok n ltac:(lia)) as [Fn Vn]. pose proof u53_pos as U0.
  assert (N : 1 <= IZR n) by (apply IZR_le; lia). assert (I : 0 < / IZR n <= 1) by (split; [apply Rinv_0_lt_compat; lra|rewrite <- Rinv_1; apply Rinv_le_contravar; lra]).
  assert (H : Rabs (val x / IZR n - r / IZR n) <= e / IZR n * u53).
  { replace (val x / IZR n - r / IZR n) with ((val x - r) * / IZR n) by (field; lra). rewrite Rabs_mult, (Rabs_pos_eq (/ IZR n)) by lra.
    unfold Rdiv. replace (e * / IZR n * u53) with (e * u53 * / IZR n) by ring. apply Rmult_le_compat_r; lra. }
  assert (P : Rabs (r / IZR n) <= B / IZR n) by (unfold Rdiv; rewrite Rabs_mult, (Rabs_pos_eq (/ IZR n)) by lra; apply Rmult_le_compat_r; lra).
  assert (Q : 0 <= e / IZR n <= 1000000) by (unfold Rdiv; split; nra).
  destruct (ap_round (e / IZR n) (B / IZR n) _ _ Q P B1 H) as [O E].
  destruct (div_ok x (d_of_Z n) Fx) as [F V]; [rewrite Vn; lra|rewrite Vn; exact O|]. split; [exact F|]. rewrite V, Vn.
  eapply Rle_trans; [exact E|]. apply Rmult_le_compat_r; lra.
Qed.

(** ** The obliquity *)

Lemma ap_literal n k : (0 <= n < 2 ^ 53)%Z -> (0 <= k < 7)%Z -> IZR n / IZR (10 ^ k) <= 1000000 ->
  ap (IZR n / IZR (10 ^ k) + / 50) (literal n k) (IZR n / IZR (10 ^ k)).
Proof.
  intros N K B. unfold literal. assert (P : (1 <= 10 ^ k < 10000000)%Z).
  { split; [assert (0 < 10 ^ k)%Z by (apply Z.pow_pos_nonneg; lia); lia|]. change 10000000%Z with (10 ^ 7)%Z. apply Z.pow_lt_mono_r; lia. }
  assert (N0 : 0 <= IZR n) by (apply IZR_le; lia).
  pose proof (ap_div 0 (IZR n) (d_of_Z n) (IZR n) (10 ^ k) ltac:(lra) ltac:(rewrite Rabs_pos_eq; lra) P B (ap_int n ltac:(lia))) as H.
  eapply ap_weaken; [|exact H]. unfold Rdiv. rewrite Rmult_0_l. lra.
Qed.

Lemma day_bound d : TimeSpec.valid_date d -> (Z.abs (day_number d) < 2 ^ 53)%Z /\ (Z.abs (day_number d - 2451545) < 2 ^ 53)%Z.
Proof. intros H. apply day_number_range in H. lia. Qed.

Lemma days_exact d : TimeSpec.valid_date d -> ap 0 (d_sub (d_of_Z (day_number d)) (d_of_Z 2451545)) (IZR (day_number d) - 2451545).
Proof.
  intros H. destruct (day_bound d H) as [A B]. destruct (small_int_ok _ A) as [F V]. destruct (small_int_ok 2451545 ltac:(lia)) as [F' V'].
  assert (R : rnd (val (d_of_Z (day_number d)) - val (d_of_Z 2451545)) = IZR (day_number d) - 2451545).
  { rewrite V, V'. rewrite <- minus_IZR. apply rnd_id. replace (IZR (day_number d - 2451545)) with (IZR (day_number d - 2451545) * bpow radix2 0) by (cbn; ring).
    apply fmt_intro; lia. }
  destruct (sub_ok _ (d_of_Z 2451545) F F') as [F2 V2].
  - rewrite R, <- minus_IZR. apply (fits 53); [lia|]. rewrite <- abs_IZR. change (bpow radix2 53) with (IZR (2 ^ 53)). apply IZR_le. lia.
  - split; [exact F2|]. rewrite V2, R, Rminus_diag_eq, Rabs_R0 by reflexivity. lra.
Qed.

Lemma centuries_close d : TimeSpec.valid_date d -> ap 81 (centuries_d d) (centuries d).
Proof.
  intros H. pose proof (centuries_range d H) as C. pose proof (days_exact d H) as D. unfold centuries_d, centuries in *.
  assert (B : Rabs (IZR (day_number d) - 2451545) <= 80 * 36525) by (apply Rabs_le; unfold Rdiv in C; lra).
  pose proof (ap_div 0 (80 * 36525) _ _ 36525 ltac:(lra) B ltac:(lia) ltac:(lra) D) as X. eapply ap_weaken; [|exact X]. lra.
Qed.

Lemma degrees_close d : TimeSpec.valid_date d -> ap 60 (obliquity_degrees_d d) (obliquity_of_ecliptic d * 180 / PI).
Proof.
  intros H. pose proof (centuries_range d H) as C. pose proof (centuries_close d H) as T. pose proof PI_RGT_0 as P0.
  pose proof (obliquity_range d H) as O.
  assert (E : obliquity_of_ecliptic d * 180 / PI = IZR 23439292 / IZR (10 ^ 6) -
    (IZR 46815 / IZR (10 ^ 3) * centuries d + (IZR 6 / IZR (10 ^ 4) - IZR 181 / IZR (10 ^ 5) * centuries d) * centuries d * centuries d) / IZR 3600).
  { change (10 ^ 6)%Z with 1000000%Z. change (10 ^ 3)%Z with 1000%Z. change (10 ^ 4)%Z with 10000%Z. change (10 ^ 5)%Z with 100000%Z.
    unfold obliquity_of_ecliptic. cbv zeta. fold (centuries d). set (t := centuries d).
    match goal with |- ?x * PI / 180 * 180 / PI = _ => replace (x * PI / 180 * 180 / PI) with x by (field; lra) end. lra. }
  rewrite E in *. unfold obliquity_degrees_d. cbv zeta. set (t := centuries d) in *. set (td := centuries_d d) in *. clearbody t td. clear E.
  pose proof (ap_literal 46815 3 ltac:(lia) ltac:(lia) ltac:(change (10 ^ 3)%Z with 1000%Z; lra)) as L1.
  pose proof (ap_literal 181 5 ltac:(lia) ltac:(lia) ltac:(change (10 ^ 5)%Z with 100000%Z; lra)) as L2.
  pose proof (ap_literal 6 4 ltac:(lia) ltac:(lia) ltac:(change (10 ^ 4)%Z with 10000%Z; lra)) as L3.
  pose proof (ap_literal 23439292 6 ltac:(lia) ltac:(lia) ltac:(change (10 ^ 6)%Z with 1000000%Z; lra)) as L4.
  change (IZR (10 ^ 3)) with 1000 in *. change (IZR (10 ^ 5)) with 100000 in *. change (IZR (10 ^ 4)) with 10000 in *. change (IZR (10 ^ 6)) with 1000000 in *.
  apply (ap_weaken _ 46.84) in L1; [|lra]. apply (ap_weaken _ 0.03) in L2; [|lra]. apply (ap_weaken _ 0.03) in L3; [|lra]. apply (ap_weaken _ 23.5) in L4; [|lra].
  assert (Bt : Rabs t <= 80) by (apply Rabs_le; lra).
  (* 46.815 t *)
  pose proof (ap_mul 46.84 81 47 80 _ _ (46815 / 1000) t ltac:(lra) ltac:(lra) ltac:(apply Rabs_le; lra) Bt ltac:(lra) ltac:(lra) L1 T) as M1.
  apply (ap_weaken _ 11400) in M1; [|lra].
  (* 0.00181 t *)
  pose proof (ap_mul 0.03 81 0.00181 80 _ _ (181 / 100000) t ltac:(lra) ltac:(lra) ltac:(apply Rabs_le; lra) Bt ltac:(lra) ltac:(lra) L2 T) as M2.
  apply (ap_weaken _ 2.8) in M2; [|lra].
  assert (B2 : Rabs (6 / 10000 - 181 / 100000 * t) <= 0.15) by (apply Rabs_le; lra).
  pose proof (ap_sub 0.03 2.8 0.15 _ _ _ _ ltac:(lra) ltac:(lra) B2 ltac:(lra) L3 M2) as M3. apply (ap_weaken _ 3) in M3; [|lra].
  pose proof (ap_mul 3 81 0.15 80 _ _ _ _ ltac:(lra) ltac:(lra) B2 Bt ltac:(lra) ltac:(lra) M3 T) as M4. apply (ap_weaken _ 265) in M4; [|lra].
  assert (B4 : Rabs ((6 / 10000 - 181 / 100000 * t) * t) <= 12) by (rewrite Rabs_mult; pose proof (Rabs_pos t); pose proof (Rabs_pos (6 / 10000 - 181 / 100000 * t)); nra).
  pose proof (ap_mul 265 81 12 80 _ _ _ _ ltac:(lra) ltac:(lra) B4 Bt ltac:(lra) ltac:(lra) M4 T) as M5. apply (ap_weaken _ 23200) in M5; [|lra].
  assert (B6 : Rabs (46815 / 1000 * t + (6 / 10000 - 181 / 100000 * t) * t * t) <= 4800).
  { eapply Rle_trans; [apply Rabs_triang|]. rewrite (Rabs_mult (46815 / 1000)), (Rabs_mult (_ * t) t), (Rabs_pos_eq (46815 / 1000)) by lra.
    pose proof (Rabs_pos t). pose proof (Rabs_pos ((6 / 10000 - 181 / 100000 * t) * t)). nra. }
  pose proof (ap_add 11400 23200 4800 _ _ _ _ ltac:(lra) ltac:(lra) B6 ltac:(lra) M1 M5) as M6. apply (ap_weaken _ 39401) in M6; [|lra].
  pose proof (ap_div 39401 4800 _ _ 3600 ltac:(lra) B6 ltac:(lia) ltac:(lra) M6) as M7. apply (ap_weaken _ 12.4) in M7; [|lra].
  assert (B8 : Rabs (23439292 / 1000000 - (46815 / 1000 * t + (6 / 10000 - 181 / 100000 * t) * t * t) / 3600) <= 24) by (apply Rabs_le; lra).
  pose proof (ap_sub 23.5 12.4 24 _ _ _ _ ltac:(lra) ltac:(lra) B8 ltac:(lra) L4 M7) as M8. eapply ap_weaken; [|exact M8]. lra.
Qed.

(** In radians, after any good last step. *)
Lemma obliquity_close f d : good_radians f -> TimeSpec.valid_date d ->
  dfinite (obliquity_d f d) /\ Rabs (dval (obliquity_d f d) - obliquity_of_ecliptic d) <= bpow radix2 (-51).
Proof.
  intros G H. destruct (degrees_close d H) as [F E]. pose proof (obliquity_range d H) as O. pose proof pi_digits as P. pose proof u53_eq as Ue. pose proof u53_pos as U0.
  unfold obliquity_d. set (x := obliquity_degrees_d d) in *. set (y := obliquity_of_ecliptic d * 180 / PI) in *.
  assert (Y : obliquity_of_ecliptic d = y * PI / 180) by (unfold y; field; lra). rewrite Y. clearbody x y.
  apply Rabs_le_inv in E. change (val x) with (dval x) in E.
  destruct (G x F ltac:(lra)) as [Fx Ex]. split; [exact Fx|].
  assert (D : Rabs (dval x * PI / 180 - y * PI / 180) <= 60 * u53 * (1 / 50)).
  { replace (dval x * PI / 180 - y * PI / 180) with ((dval x - y) * (PI / 180)) by field. rewrite Rabs_mult, (Rabs_pos_eq (PI / 180)) by lra.
    apply Rmult_le_compat; [apply Rabs_pos|lra|apply Rabs_le; lra|lra]. }
  replace (dval (f x) - y * PI / 180) with ((dval (f x) - dval x * PI / 180) + (dval x * PI / 180 - y * PI / 180)) by ring.
  eapply Rle_trans; [apply Rabs_triang|]. change (bpow radix2 (-51)) with (4 * u53 * 1) in * || idtac.
  assert (Q : bpow radix2 (-51) = 4 * u53) by (unfold u53; change (-51)%Z with (2 + -53)%Z; rewrite bpow_plus; reflexivity). rewrite Q in *.
  assert (W : dval x * PI / 180 <= 0.42) by nra. assert (4 * u53 * (dval x * PI / 180) <= 4 * u53 * 0.42) by (apply Rmult_le_compat_l; lra). lra.
Qed.

(** Later dates have a smaller obliquity, by more than the error. *)
Lemma arcsec_slope t u : -6 < t -> t < u -> u < 80 -> 10 * (u - t) <= obliquity_arcsec u - obliquity_arcsec t.
Proof.
  intros Ht H Hu. unfold obliquity_arcsec.
  assert (F : 10 <= 46.815 + 0.0006 * (t + u) - 0.00181 * (t * t + t * u + u * u)).
  { assert (t * t <= 6400) by nra. assert (u * u <= 6400) by nra. assert (t * u <= 6400) by nra. lra. }
  assert (F' : 10 * (u - t) <= (46.815 + 0.0006 * (t + u) - 0.00181 * (t * t + t * u + u * u)) * (u - t)) by (apply Rmult_le_compat_r; lra). lra.
Qed.

Lemma obliquity_gap a b : TimeSpec.valid_date a -> TimeSpec.valid_date b -> TimeModel.later a b = true ->
  / 1000000000 <= obliquity_of_ecliptic b - obliquity_of_ecliptic a.
Proof.
  intros Va Vb H. pose proof (centuries_range a Va). pose proof (centuries_range b Vb). pose proof pi_digits as P.
  apply day_number_mono in H; [|assumption..].
  assert (T : / 36525 <= centuries a - centuries b).
  { assert (D : IZR (day_number b) + 1 <= IZR (day_number a)) by (rewrite <- plus_IZR; apply IZR_le; lia). unfold centuries. lra. }
  pose proof (arcsec_slope (centuries b) (centuries a) ltac:(lra) ltac:(lra) ltac:(lra)) as A.
  unfold obliquity_of_ecliptic. fold (centuries a) (centuries b). fold (obliquity_arcsec (centuries a)) (obliquity_arcsec (centuries b)).
  set (qa := obliquity_arcsec (centuries a)) in *. set (qb := obliquity_arcsec (centuries b)) in *.
  replace ((23.439292 - qb / 3600) * PI / 180 - (23.439292 - qa / 3600) * PI / 180) with ((qa - qb) / 3600 * (PI / 180)) by field.
  assert (K : 10 * / 36525 / 3600 <= (qa - qb) / 3600) by (unfold Rdiv; apply Rmult_le_compat_r; lra).
  apply Rle_trans with (10 * / 36525 / 3600 * (3 / 180)); [lra|]. apply Rmult_le_compat; lra.
Qed.

Lemma obliquity_falls f a b : good_radians f -> TimeSpec.valid_date a -> TimeSpec.valid_date b -> TimeModel.later a b = true ->
  dval (obliquity_d f a) < dval (obliquity_d f b).
Proof.
  intros G Va Vb H. pose proof (obliquity_gap a b Va Vb H) as D. destruct (obliquity_close f a G Va) as [_ A]. destruct (obliquity_close f b G Vb) as [_ B].
  apply Rabs_le_inv in A, B. change (bpow radix2 (-51)) with (/ 2251799813685248) in *. lra.
Qed.

(** ** A platform where long double is double *)

Lemma pi_d_ok : fin pi_d = true /\ Rabs (val pi_d - PI) <= / 4000000000000000.
Proof.
  split; [vm_compute; reflexivity|].
  assert (V : val pi_d = 7074237752028440 * bpow radix2 (-51)).
  { rewrite <- d_bits_val. unfold fval.
    assert (Q : float_of TextModel.binary64 (d_bits pi_d) = F754_finite false 7074237752028440 (-51)) by (vm_compute; reflexivity).
    rewrite Q. reflexivity. }
  rewrite V. change (bpow radix2 (-51)) with (/ 2251799813685248). pose proof pi_digits. apply Rabs_le. lra.
Qed.

Lemma plain_good : good_radians plain_radians.
Proof.
  intros x F [L U]. change (dval x) with (val x) in *. change (dfinite x) with (fin x = true) in F. unfold plain_radians. destruct pi_d_ok as [Fp Vp]. pose proof pi_digits as P.
  apply Rabs_le_inv in Vp. pose proof u53_eq as Ue. pose proof u53_pos as U0.
  assert (M : 3 <= val x * val pi_d <= 1200) by nra.
  assert (A1 : Rabs (rnd (val x * val pi_d) - val x * val pi_d) <= u53 * (val x * val pi_d)).
  { rewrite <- (Rabs_pos_eq (val x * val pi_d)) at 3 by lra. apply rnd_rel. rewrite Rabs_pos_eq by lra. apply Rle_trans with (bpow radix2 0); [apply bpow_le; lia|change (bpow radix2 0) with 1; lra]. }
  apply Rabs_le_inv in A1.
  assert (M' : 2 <= rnd (val x * val pi_d) <= 1300) by nra.
  destruct (mul_ok x pi_d F Fp) as [F1 V1]; [apply (fits 11); [lia|]; rewrite Rabs_pos_eq by lra; change (bpow radix2 11) with 2048; lra|].
  destruct (small_int_ok 180 ltac:(lia)) as [F2 V2]. set (w := rnd (val x * val pi_d)) in *.
  assert (A2 : Rabs (rnd (w / 180) - w / 180) <= u53 * (w / 180)).
  { rewrite <- (Rabs_pos_eq (w / 180)) at 3 by lra. apply rnd_rel. rewrite Rabs_pos_eq by lra. apply Rle_trans with (bpow radix2 (-7)); [apply bpow_le; lia|change (bpow radix2 (-7)) with (/ 128); lra]. }
  apply Rabs_le_inv in A2.
  destruct (div_ok (d_mul x pi_d) (d_of_Z 180) F1) as [F3 V3]; [rewrite V2; lra| |].
  { rewrite V1, V2. apply (fits 11); [lia|]. apply Rabs_le. change (bpow radix2 11) with 2048. nra. }
  split; [exact F3|]. change (dval (d_div (d_mul x pi_d) (d_of_Z 180))) with (val (d_div (d_mul x pi_d) (d_of_Z 180))). rewrite V3, V1, V2.
  assert (Q : bpow radix2 (-51) = 4 * u53) by (unfold u53; change (-51)%Z with (2 + -53)%Z; rewrite bpow_plus; reflexivity). rewrite Q.
  assert (D : Rabs (val x * val pi_d - val x * PI) <= / 4 * u53 * (val x * PI) * 3).
  { replace (val x * val pi_d - val x * PI) with (val x * (val pi_d - PI)) by ring. rewrite Rabs_mult, (Rabs_pos_eq (val x)) by lra.
    replace (/ 4 * u53 * (val x * PI) * 3) with (val x * (3 / 4 * u53 * PI)) by field. apply Rmult_le_compat_l; [lra|]. rewrite Ue. apply Rabs_le. lra. }
  apply Rabs_le_inv in D. fold w. set (p := val x * val pi_d) in *. set (q := val x * PI) in *.
  assert (Hq : 3 <= q <= 1200) by (unfold q; nra).
  assert (E1 : Rabs (w - q) <= 2 * u53 * q) by (apply Rabs_le; nra).
  assert (E2 : Rabs (rnd (w / 180) - q / 180) <= Rabs (rnd (w / 180) - w / 180) + Rabs (w / 180 - q / 180)).
  { replace (rnd (w / 180) - q / 180) with ((rnd (w / 180) - w / 180) + (w / 180 - q / 180)) by ring. apply Rabs_triang. }
  eapply Rle_trans; [exact E2|]. apply Rabs_le_inv in E1.
  assert (E3 : Rabs (rnd (w / 180) - w / 180) <= u53 * (w / 180)) by (apply Rabs_le; exact A2).
  assert (E4 : Rabs (w / 180 - q / 180) <= 2 * u53 * q / 180) by (apply Rabs_le; lra).
  assert (E5 : u53 * (w / 180) <= u53 * (1.1 * q / 180)) by (apply Rmult_le_compat_l; [lra|]; nra). nra.
Qed.

(** ** Ecliptic coordinates of a date *)

(** Two obliquities that are close give close positions. *)
Lemma rotate_close e e' y z g : Rabs (e' - e) <= g -> Rabs y <= 1 -> Rabs z <= 1 ->
  Rabs (cos e' * y - sin e' * z - (cos e * y - sin e * z)) <= 2 * g /\ Rabs (sin e' * y + cos e' * z - (sin e * y + cos e * z)) <= 2 * g /\
  Rabs (cos e' * y + sin e' * z - (cos e * y + sin e * z)) <= 2 * g /\ Rabs (- (sin e' * y) + cos e' * z - (- (sin e * y) + cos e * z)) <= 2 * g.
Proof.
  intros G Y Z. pose proof (Rle_trans _ _ _ (sin_lipschitz e' e) G) as S. pose proof (Rle_trans _ _ _ (cos_lipschitz e' e) G) as C.
  pose proof (abs_le_mul y _ _ Y S) as SY. pose proof (abs_le_mul y _ _ Y C) as CY. pose proof (abs_le_mul z _ _ Z S) as SZ. pose proof (abs_le_mul z _ _ Z C) as CZ.
  apply Rabs_le_inv in SY, CY, SZ, CZ. repeat split; apply Rabs_le; lra.
Qed.

(** The two maps of a date, with the true obliquity. *)
Lemma date_angles L f d m t u v : good_libm L -> good_radians f -> TimeSpec.valid_date d -> dfinite u -> dfinite v ->
  (m = ecliptic_to_ra_dec_d L (obliquity_d f d) /\ t = true_from_ecliptic (obliquity_of_ecliptic d) \/
   m = ra_dec_to_ecliptic_d L (obliquity_d f d) /\ t = true_to_ecliptic (obliquity_of_ecliptic d)) ->
  let q := convert_angles_d L m (u, v) in let p := t (direction (dval u) (dval v)) in
  dfinite (fst q) /\
  (dfinite (snd q) -> Rabs (sin (dval (snd q)) - rz p) <= bpow radix2 (-47) /\ within (bpow radix2 (-21)) (direction (dval (fst q)) (dval (snd q))) p) /\
  (Rabs (rz p) <= 1 - bpow radix2 (-48) -> dfinite (snd q)) /\
  (Rabs (rz p) <= 8 / 9 -> within (bpow radix2 (-44)) (direction (dval (fst q)) (dval (snd q))) p).
Proof.
  intros GL GR D Fu Fv M q p. destruct (obliquity_close f d GR D) as [Fe Ee]. set (e := obliquity_d f d) in *. set (e0 := obliquity_of_ecliptic d) in *.
  set (s := direction (dval u) (dval v)) in *.
  assert (Sy : Rabs (ry s) <= 1) by (unfold s, direction; cbn [ry]; rewrite Rabs_mult; pose proof (sin_abs_1 (dval u)); pose proof (cos_abs_1 (dval v)); pose proof (Rabs_pos (sin (dval u))); pose proof (Rabs_pos (cos (dval v))); nra).
  assert (Sz : Rabs (rz s) <= 1) by (unfold s, direction; cbn [rz]; apply sin_abs_1).
  destruct (rotate_close e0 (dval e) (ry s) (rz s) _ Ee Sy Sz) as (R1 & R2 & R3 & R4).
  assert (K : exists t', conversion L e m t' /\ within (2 * bpow radix2 (-51)) (t' s) p).
  { assert (Z0 : forall x : R, Rabs (x - x) <= 2 * bpow radix2 (-51)).
    { intros x. rewrite Rminus_diag_eq, Rabs_R0 by reflexivity. pose proof (bpow_gt_0 radix2 (-51)). lra. }
    destruct M as [[Em Et]|[Em Et]]; unfold p; rewrite Em, Et.
    - exists (true_from_ecliptic (dval e)). split; [constructor|]. split; [apply Z0|]. split; [exact R1|exact R2].
    - exists (true_to_ecliptic (dval e)). split; [constructor|]. split; [apply Z0|]. split; [exact R3|exact R4]. }
  destruct K as (t' & Cv & W). destruct (conversion_angles L GL e m t' u v Cv Fe Fu Fv) as (F1 & _ & _ & H1 & H2 & H3).
  fold q s in F1, H1, H2, H3. set (p' := t' s) in *. destruct W as (W1 & W2 & W3).
  change (Rabs (rx p' - rx p) <= 2 * bpow radix2 (-51)) in W1. change (Rabs (ry p' - ry p) <= 2 * bpow radix2 (-51)) in W2. change (Rabs (rz p' - rz p) <= 2 * bpow radix2 (-51)) in W3.
  clearbody p p' q s.
  assert (B50 : 2 * bpow radix2 (-51) = bpow radix2 (-50)) by (change (-50)%Z with (1 + -51)%Z; rewrite bpow_plus; reflexivity). rewrite B50 in *.
  assert (Dbl : forall k, 2 * bpow radix2 k = bpow radix2 (k + 1)) by (intros k; rewrite bpow_plus; change (bpow radix2 1) with 2; ring).
  assert (WW : forall k a, (-50 <= k)%Z -> within (bpow radix2 k) a p' -> within (bpow radix2 (k + 1)) a p).
  { intros k a Hk (A1 & A2 & A3). change (Rabs (rx a - rx p') <= bpow radix2 k) in A1. change (Rabs (ry a - ry p') <= bpow radix2 k) in A2. change (Rabs (rz a - rz p') <= bpow radix2 k) in A3.
    pose proof (bpow_le radix2 (-50) k Hk) as B. rewrite <- Dbl. apply Rabs_le_inv in A1, A2, A3, W1, W2, W3.
    split; [|split]; apply Rabs_le; lra. }
  split; [exact F1|]. split; [|split].
  - intros F2. destruct (H1 F2) as (A & _ & B). split; [|apply (WW (-22)%Z); [lia|exact B]].
    pose proof (Dbl (-48)%Z) as D48. change (-48 + 1)%Z with (-47)%Z in D48. rewrite <- D48. pose proof (bpow_le radix2 (-50) (-48) ltac:(lia)).
    apply Rabs_le_inv in A, W3. apply Rabs_le. lra.
  - intros Z. apply H2. pose proof (Dbl (-49)%Z) as D49. change (-49 + 1)%Z with (-48)%Z in D49. pose proof (bpow_le radix2 (-50) (-49) ltac:(lia)).
    apply Rabs_le_inv in Z, W3. apply Rabs_le. lra.
  - intros Z. assert (Z' : Rabs (rz p') <= 9 / 10) by (change (bpow radix2 (-50)) with (/ 1125899906842624) in W3; apply Rabs_le_inv in Z, W3; apply Rabs_le; lra).
    apply (WW (-45)%Z); [lia|]. apply H3, Z'.
Qed.
