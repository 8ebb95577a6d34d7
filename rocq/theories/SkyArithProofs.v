(** * Arithmetic of spherical representations in doubles. *)
From Coq Require Import ZArith Reals Lia Lra Psatz.
From Flocq Require Import Core Relative IEEE754.BinarySingleNaN IEEE754.Binary IEEE754.Bits.
From Verif Require Import TextModel TextSpec TextRound TextScan TextFloat TextProofs TextLaws TextRead TextCard DoubleModel DoubleSpec DoubleProofs DoubleUnits VectorModel VectorSpec VectorProofs VectorArith VectorProducts VectorLength VectorUnit SkyModel SkySpec SkyAngles SkyProofs SkyConvert SkySeparation SkyTransform SkyArithModel SkyArithSpec.
Local Open Scope R_scope.

#[local] Instance prec53 : Prec_gt_0 53 := eq_refl.
#[local] Existing Instance near.

(** ** Lengths *)

Lemma rlength_pos p : 0 <= rlength p. Proof. apply sqrt_pos. Qed.
Lemma rlength_sq p : rlength p * rlength p = rx p * rx p + ry p * ry p + rz p * rz p.
Proof. unfold rlength. apply sqrt_sqrt. nra. Qed.

Lemma rlength_triangle p q : rlength (radd p q) <= rlength p + rlength q.
Proof.
  pose proof (rlength_pos p) as P. pose proof (rlength_pos q) as Q. apply Rsqr_incr_0_var; [|lra]. unfold Rsqr. rewrite rlength_sq.
  pose proof (rlength_sq p) as Sp. pose proof (rlength_sq q) as Sq. pose proof (size_cauchy p q) as C. pose proof (dot_le_size p q) as D.
  apply Rabs_le_inv in D. unfold rdot in D. unfold radd. cbn [rx ry rz]. nra.
Qed.

Lemma length_coord e p : 0 <= e -> Rabs (rx p) <= e -> Rabs (ry p) <= e -> Rabs (rz p) <= e -> rlength p <= 2 * e.
Proof.
  intros E X Y Z. apply Rsqr_incr_0_var; [|lra]. unfold Rsqr. rewrite rlength_sq.
  assert (S : forall x, Rabs x <= e -> x * x <= e * e).
  { intros x H. rewrite <- (Rabs_pos_eq (x * x)) by nra. rewrite Rabs_mult. apply Rmult_le_compat; auto using Rabs_pos. }
  pose proof (S _ X). pose proof (S _ Y). pose proof (S _ Z). nra.
Qed.

Definition rminus (p q : rvec) : rvec := RV (rx p - rx q) (ry p - ry q) (rz p - rz q).
Lemma radd_minus p q : radd q (rminus p q) = p.
Proof. destruct p as [a b c]. unfold radd, rminus. cbn [rx ry rz]. f_equal; ring. Qed.

Lemma length_diff e p t : 0 <= e -> within e p t -> Rabs (rlength p - rlength t) <= 2 * e.
Proof.
  intros E (X & Y & Z).
  assert (D : rlength (rminus p t) <= 2 * e) by (apply length_coord; assumption).
  assert (D' : rlength (rminus t p) <= 2 * e) by (apply length_coord; [exact E|..]; unfold rminus; cbn [rx ry rz]; rewrite Rabs_minus_sym; assumption).
  pose proof (rlength_triangle t (rminus p t)) as T1. pose proof (rlength_triangle p (rminus t p)) as T2. rewrite radd_minus in T1, T2. apply Rabs_le. lra.
Qed.

(** ** Back to angles *)

(** What is known of a point made from the vector [p]. *)
Definition made (s : angular) (o : dsph) (p : rvec) : Prop :=
  dfinite (s1 o) /\ dfinite (s2 o) /\ dfinite (s3 o) /\ Rabs (dval (s3 o) - rlength p) <= bpow radix2 (-47) * rlength p /\
  within (bpow radix2 (-20)) (sph_direction s (dval (s1 o)) (dval (s2 o))) (unit_of p) /\
  (Rabs (rz (unit_of p)) <= 8 / 9 -> within (bpow radix2 (-43)) (sph_direction s (dval (s1 o)) (dval (s2 o))) (unit_of p)).

Lemma within_weaken e f p q : e <= f -> within e p q -> within f p q.
Proof. intros H (A & B & C). repeat split; eapply Rle_trans; eassumption. Qed.
Lemma b47 : bpow radix2 (-47) = 64 * u53. Proof. rewrite u53_eq. cbn. lra. Qed.
Lemma b48 : bpow radix2 (-48) = 32 * u53. Proof. rewrite u53_eq. cbn. lra. Qed.
Lemma b45 : bpow radix2 (-45) = 256 * u53. Proof. rewrite u53_eq. cbn. lra. Qed.

Lemma direction_le s a b : Rabs (rx (sph_direction s a b)) <= 1 /\ Rabs (ry (sph_direction s a b)) <= 1 /\ Rabs (rz (sph_direction s a b)) <= 1.
Proof.
  assert (S : forall t, Rabs (sin t) <= 1) by (intros t; apply Rabs_le; apply SIN_bound).
  assert (C : forall t, Rabs (cos t) <= 1) by (intros t; apply Rabs_le; apply COS_bound).
  assert (M : forall x y, Rabs x <= 1 -> Rabs y <= 1 -> Rabs (x * y) <= 1).
  { intros x y X Y. rewrite Rabs_mult. replace 1 with (1 * 1) by ring. apply Rmult_le_compat; auto using Rabs_pos. }
  destruct s; cbn [sph_direction rx ry rz]; auto.
Qed.

(** The vector of the made point. *)
Lemma made_coord r l D n x X d e : 0 <= l -> Rabs (r - l) <= bpow radix2 (-47) * l -> Rabs D <= 1 -> Rabs (D - n) <= d -> x = l * n -> Rabs (x - X) <= e ->
  Rabs (r * D - X) <= (bpow radix2 (-47) + d) * l + e.
Proof.
  intros L A B C -> E. replace (r * D - X) with (D * (r - l) + (l * (D - n) + (l * n - X))) by ring.
  eapply Rle_trans; [apply Rabs_triang|]. pose proof (Rabs_triang (l * (D - n)) (l * n - X)) as T.
  pose proof (abs_le_mul _ _ _ B A) as T1. assert (T2 : Rabs (l * (D - n)) <= d * l) by (rewrite Rabs_mult, (Rabs_pos_eq l) by exact L; rewrite Rmult_comm; apply Rmult_le_compat_r; assumption). lra.
Qed.

Lemma made_vector s o p t d e : 0 < rlength p -> Rabs (dval (s3 o) - rlength p) <= bpow radix2 (-47) * rlength p ->
  within d (sph_direction s (dval (s1 o)) (dval (s2 o))) (unit_of p) -> within e p t ->
  within ((bpow radix2 (-47) + d) * rlength p + e) (sph_vector s o) t.
Proof.
  intros P A (X & Y & Z) (X' & Y' & Z'). destruct (direction_le s (dval (s1 o)) (dval (s2 o))) as (D1 & D2 & D3).
  unfold sph_vector, scale. set (D := sph_direction s (dval (s1 o)) (dval (s2 o))) in *. clearbody D.
  unfold unit_of, scale in X, Y, Z. cbn [rx ry rz] in X, Y, Z. assert (N : rlength p <> 0) by lra.
  split; [|split]; cbn [rx ry rz]; eapply made_coord; try eassumption; try lra; field; exact N.
Qed.

Lemma settle s o p t z e : made s o p -> 0 < rlength p -> 0 <= e -> within e p t -> e <= bpow radix2 (-48) * z -> rlength t <= 2 * z ->
  bpow radix2 (-40) * z <= rlength t -> close_to s o t z.
Proof.
  intros (F1 & F2 & F3 & D & W & W') P E H Ez T1 T2. pose proof (length_diff e p t E H) as LD. apply Rabs_le_inv in LD.
  rewrite b48 in Ez. pose proof u53_eq as U. pose proof u53_pos as U0. pose proof (rlength_pos t) as Pt. assert (Pz : 0 <= z) by lra.
  assert (Ez' : e <= rlength t / 256) by (change (bpow radix2 (-40)) with (/ 1099511627776) in T2; rewrite U in Ez; lra).
  split; [exact F1|]. split; [exact F2|]. split; [exact F3|]. split; [|split].
  - replace (dval (s3 o) - rlength t) with ((dval (s3 o) - rlength p) + (rlength p - rlength t)) by ring. eapply Rle_trans; [apply Rabs_triang|].
    assert (Rabs (rlength p - rlength t) <= 2 * e) by (apply Rabs_le; lra). rewrite b47 in D. rewrite b45. rewrite U in *. lra.
  - eapply within_weaken; [|exact (made_vector s o p t _ e P D W H)]. rewrite b47.
    change (bpow radix2 (-20)) with (/ 1048576). change (bpow radix2 (-19)) with (/ 524288). rewrite U in *. lra.
  - intros Z. assert (Zp : Rabs (rz (unit_of p)) <= 8 / 9).
    { unfold unit_of, scale. cbn [rz]. rewrite Rabs_mult, Rabs_inv, (Rabs_pos_eq (rlength p)) by lra. apply (Rmult_le_reg_l (rlength p)); [exact P|].
      rewrite <- Rmult_assoc, Rinv_r, Rmult_1_l by lra. destruct H as (_ & _ & H). pose proof (Rabs_triang (rz p - rz t) (rz t)) as T. replace (rz p - rz t + rz t) with (rz p) in T by ring. lra. }
    eapply within_weaken; [|exact (made_vector s o p t _ e P D (W' Zp) H)]. rewrite b47.
    change (bpow radix2 (-43)) with (/ 8796093022208). change (bpow radix2 (-42)) with (/ 4398046511104). rewrite U in *. lra.
Qed.

(** ** Operands as computed *)

(** The double [a] is [A] up to [c] roundings of a number of size [r]. *)
Definition app (r c : R) (a : double) (A : R) : Prop := fin a = true /\ Rabs (val a) <= 101 / 100 * r /\ Rabs (val a - A) <= c * u53 * r /\ Rabs A <= r.
Definition app3 (r c : R) (a : dvec) (p : rvec) : Prop := app r c (dx a) (rx p) /\ app r c (dy a) (ry p) /\ app r c (dz a) (rz p).

Lemma app_weaken r c d a A : 0 <= r -> c <= d -> app r c a A -> app r d a A.
Proof.
  intros R H (F & B & E & S). split; [exact F|]. split; [exact B|]. split; [|exact S]. eapply Rle_trans; [exact E|].
  pose proof u53_pos. apply Rmult_le_compat_r; [exact R|]. nra.
Qed.

Lemma sent_app r c a A : 0 <= r -> sent r c a A -> app r c a (r * A).
Proof.
  intros R (F & B & E & S). split; [exact F|]. split; [lra|]. split; [exact E|]. rewrite Rabs_mult, (Rabs_pos_eq r) by exact R. nra.
Qed.

(** A change of units. *)
Lemma app_cast f r c a A : cast_ok f -> 0 <= c <= 5 -> bpow radix2 (-1000) <= r <= bpow radix2 500 -> fin a = true ->
  Rabs (val a * ratio f) <= 101 / 100 * r -> Rabs (val a * ratio f - A * ratio f) <= c * u53 * r -> Rabs (A * ratio f) <= r ->
  app r (c + 11 / 10) (cast f a) (A * ratio f).
Proof.
  intros Cf Hc [Lo Hi] F M EA SA. pose proof u53_pos as U0. pose proof u53_eq as U. pose proof (bpow_gt_0 radix2 (-1000)) as P0. pose proof (bpow_gt_0 radix2 500) as P5.
  assert (Q : 0 < u53 * r) by (apply Rmult_lt_0_compat; lra).
  destruct f as [k|]; cbn [cast ratio] in *.
  - destruct Cf as [Fk _]. unfold dfinite, dval in *.
    assert (Y : Rabs (val a * val k) <= bpow radix2 501) by (change 501%Z with (500 + 1)%Z; rewrite bpow_double; lra).
    destruct (mul_ok a k F Fk (fits 501 _ ltac:(lia) (rnd_bound _ 501 ltac:(lia) Y))) as [Fm Vm].
    pose proof (rnd_err (val a * val k)) as RE. rewrite <- Vm in RE. pose proof (tiny_le r (-1000) ltac:(lia) Lo) as T.
    assert (RE' : Rabs (val (d_mul a k) - val a * val k) <= 105 / 100 * u53 * r).
    { assert (u53 * Rabs (val a * val k) <= u53 * (101 / 100 * r)) by (apply Rmult_le_compat_l; lra). lra. }
    assert (EA' : Rabs (val (d_mul a k) - A * val k) <= (c + 11 / 10) * u53 * r).
    { replace (val (d_mul a k) - A * val k) with ((val (d_mul a k) - val a * val k) + (val a * val k - A * val k)) by ring.
      eapply Rle_trans; [apply Rabs_triang|]. lra. }
    split; [exact Fm|]. split; [|split; [exact EA'|exact SA]].
    replace (val (d_mul a k)) with ((val (d_mul a k) - A * val k) + A * val k) by ring. eapply Rle_trans; [apply Rabs_triang|].
    assert ((c + 11 / 10) * u53 * r <= 7 * u53 * r) by (apply Rmult_le_compat_r; [lra|nra]). rewrite U in *. lra.
  - rewrite !Rmult_1_r in *. split; [exact F|]. split; [lra|]. split; [lra|exact SA].
Qed.

(** ** Sums *)

Lemma app_add r t c d a A b B : 0 <= c <= 10 -> 0 <= d <= 10 -> 0 <= r <= bpow radix2 500 -> 0 <= t <= bpow radix2 500 -> app r c a A -> app t d b B ->
  fin (d_add a b) = true /\ Rabs (val (d_add a b) - (A + B)) <= (c + 11 / 10) * u53 * r + (d + 11 / 10) * u53 * t /\
  Rabs (val (d_add a b)) <= bpow radix2 502.
Proof.
  intros C D [R0 R] [T0 T] (Fa & Ba & Ea & Sa) (Fb & Bb & Eb & Sb). pose proof u53_pos as U0. pose proof (bpow_gt_0 radix2 500) as P5.
  pose proof (Rabs_triang (val a) (val b)) as T1.
  assert (Y : Rabs (val a + val b) <= bpow radix2 502) by (change 502%Z with (500 + 1 + 1)%Z; rewrite !bpow_double; lra).
  pose proof (rnd_bound _ 502 ltac:(lia) Y) as Q. destruct (add_ok a b Fa Fb (fits 502 _ ltac:(lia) Q)) as [Fs Vs]. split; [exact Fs|]. split; [|rewrite Vs; exact Q].
  pose proof (add_rel a b) as X. unfold rel in X. rewrite Rmult_1_l, <- Vs in X.
  assert (X' : Rabs (val (d_add a b) - (val a + val b)) <= u53 * (101 / 100 * r + 101 / 100 * t)) by (eapply Rle_trans; [exact X|apply Rmult_le_compat_l; lra]).
  replace (val (d_add a b) - (A + B)) with ((val (d_add a b) - (val a + val b)) + ((val a - A) + (val b - B))) by ring.
  eapply Rle_trans; [apply Rabs_triang|]. pose proof (Rabs_triang (val a - A) (val b - B)) as T2.
  assert (0 <= u53 * r) by nra. assert (0 <= u53 * t) by nra. lra.
Qed.

(** Half of a double, of ordinary size or not. *)
Lemma half_app a X e z : fin a = true -> Rabs (val a) <= bpow radix2 502 -> Rabs (val a - X) <= e -> bpow radix2 (-1000) <= z -> Rabs X <= 2 * z -> e <= z ->
  fin (d_div a (d_of_Z 2)) = true /\ Rabs (val (d_div a (d_of_Z 2)) - X / 2) <= e / 2 + 2 * u53 * z.
Proof.
  intros F B E Z SX Ez. destruct (small_int_ok 2 ltac:(lia)) as [F2 V2]. assert (N : val (d_of_Z 2) <> 0) by (rewrite V2; lra).
  assert (Y : Rabs (val a / val (d_of_Z 2)) <= bpow radix2 502).
  { rewrite V2. unfold Rdiv. rewrite Rabs_mult, (Rabs_pos_eq (/ 2)) by lra. pose proof (Rabs_pos (val a)). lra. }
  destruct (div_ok a (d_of_Z 2) F N (fits 502 _ ltac:(lia) (rnd_bound _ 502 ltac:(lia) Y))) as [Fd Vd]. split; [exact Fd|].
  pose proof (rnd_err (val a / val (d_of_Z 2))) as RE. rewrite <- Vd, V2 in RE. pose proof (tiny_le z (-1000) ltac:(lia) Z) as T. pose proof u53_pos as U0.
  pose proof (bpow_gt_0 radix2 (-1000)) as P0. pose proof (Rabs_triang (val a - X) X) as T1. replace (val a - X + X) with (val a) in T1 by ring.
  assert (SA : Rabs (val a / 2) <= 3 / 2 * z) by (unfold Rdiv; rewrite Rabs_mult, (Rabs_pos_eq (/ 2)) by lra; lra).
  assert (u53 * Rabs (val a / 2) <= u53 * (3 / 2 * z)) by (apply Rmult_le_compat_l; lra).
  replace (val (d_div a (d_of_Z 2)) - X / 2) with ((val (d_div a (d_of_Z 2)) - val a / 2) + (val a - X) / 2) by field.
  eapply Rle_trans; [apply Rabs_triang|]. assert (Rabs ((val a - X) / 2) <= e / 2) by (unfold Rdiv; rewrite Rabs_mult, (Rabs_pos_eq (/ 2)) by lra; lra).
  assert (0 < u53 * z) by (apply Rmult_lt_0_compat; lra). lra.
Qed.

(** ** Products *)

Lemma app_mul r t c d a A b B : 0 <= c <= 10 -> 0 <= d <= 10 -> bpow radix2 (-1000) <= r * t <= bpow radix2 900 -> 0 <= r -> 0 <= t -> app r c a A -> app t d b B ->
  fin (d_mul a b) = true /\ Rabs (val (d_mul a b)) <= 11 / 10 * (r * t) /\ Rabs (val (d_mul a b) - A * B) <= (101 / 100 * c + d + 11 / 10) * u53 * (r * t).
Proof.
  intros C D [Lo Hi] R T (Fa & Ba & Ea & Sa) (Fb & Bb & Eb & Sb). pose proof u53_pos as U0. pose proof u53_eq as U. pose proof (bpow_gt_0 radix2 (-1000)) as P0. pose proof (bpow_gt_0 radix2 900) as P9.
  assert (M : Rabs (val a * val b) <= 102012 / 100000 * (r * t)).
  { rewrite Rabs_mult. apply Rle_trans with ((101 / 100 * r) * (101 / 100 * t)); [apply Rmult_le_compat; auto using Rabs_pos|]. assert (0 <= r * t) by lra. lra. }
  assert (Y : Rabs (val a * val b) <= bpow radix2 901) by (change 901%Z with (900 + 1)%Z; rewrite bpow_double; lra).
  destruct (mul_ok a b Fa Fb (fits 901 _ ltac:(lia) (rnd_bound _ 901 ltac:(lia) Y))) as [F V]. split; [exact F|].
  pose proof (rnd_err (val a * val b)) as RE. rewrite <- V in RE. pose proof (tiny_le (r * t) (-1000) ltac:(lia) Lo) as Ti.
  assert (Q : 0 < u53 * (r * t)) by (apply Rmult_lt_0_compat; lra).
  assert (RE' : Rabs (val (d_mul a b) - val a * val b) <= 103 / 100 * u53 * (r * t)).
  { assert (u53 * Rabs (val a * val b) <= u53 * (102012 / 100000 * (r * t))) by (apply Rmult_le_compat_l; lra). lra. }
  split.
  - replace (val (d_mul a b)) with ((val (d_mul a b) - val a * val b) + val a * val b) by ring. eapply Rle_trans; [apply Rabs_triang|]. rewrite U in *. lra.
  - replace (val (d_mul a b) - A * B) with ((val (d_mul a b) - val a * val b) + (val b * (val a - A) + A * (val b - B))) by ring.
    eapply Rle_trans; [apply Rabs_triang|]. pose proof (Rabs_triang (val b * (val a - A)) (A * (val b - B))) as T1.
    assert (T2 : Rabs (val b * (val a - A)) <= 101 / 100 * c * u53 * (r * t)).
    { rewrite Rabs_mult. replace (101 / 100 * c * u53 * (r * t)) with ((101 / 100 * t) * (c * u53 * r)) by ring. apply Rmult_le_compat; auto using Rabs_pos. }
    assert (T3 : Rabs (A * (val b - B)) <= d * u53 * (r * t)).
    { rewrite Rabs_mult. replace (d * u53 * (r * t)) with (r * (d * u53 * t)) by ring. apply Rmult_le_compat; auto using Rabs_pos. }
    lra.
Qed.

(** A component of the cross product. *)
Lemma cross_part r t c d a A b B a' A' b' B' : 0 <= c <= 10 -> 0 <= d <= 10 -> bpow radix2 (-1000) <= r * t <= bpow radix2 900 -> 0 <= r -> 0 <= t ->
  app r c a A -> app t d b B -> app r c a' A' -> app t d b' B' ->
  fin (d_sub (d_mul a b) (d_mul a' b')) = true /\
  Rabs (val (d_sub (d_mul a b) (d_mul a' b')) - (A * B - A' * B')) <= (2 * (101 / 100 * c + d + 11 / 10) + 23 / 10) * u53 * (r * t).
Proof.
  intros C D Z R T Ha Hb Ha' Hb'. destruct (app_mul r t c d a A b B C D Z R T Ha Hb) as (F1 & S1 & E1).
  destruct (app_mul r t c d a' A' b' B' C D Z R T Ha' Hb') as (F2 & S2 & E2).
  set (p := d_mul a b) in *. set (q := d_mul a' b') in *. clearbody p q. pose proof u53_pos as U0. pose proof (bpow_gt_0 radix2 (-1000)) as P0. pose proof (bpow_gt_0 radix2 900) as P9.
  assert (TR : Rabs (val p - val q) <= 22 / 10 * (r * t)) by (unfold Rminus; eapply Rle_trans; [apply Rabs_triang|]; rewrite Rabs_Ropp; lra).
  assert (Y : Rabs (val p - val q) <= bpow radix2 902) by (change 902%Z with (900 + 1 + 1)%Z; rewrite !bpow_double; lra).
  destruct (sub_ok p q F1 F2 (fits 902 _ ltac:(lia) (rnd_bound _ 902 ltac:(lia) Y))) as [F V]. split; [exact F|].
  pose proof (rnd_err (val p - val q)) as RE. rewrite <- V in RE. pose proof (tiny_le (r * t) (-1000) ltac:(lia) (proj1 Z)) as Ti.
  assert (Q : 0 < u53 * (r * t)) by (apply Rmult_lt_0_compat; lra).
  assert (u53 * Rabs (val p - val q) <= u53 * (22 / 10 * (r * t))) by (apply Rmult_le_compat_l; lra).
  replace (val (d_sub p q) - (A * B - A' * B')) with ((val (d_sub p q) - (val p - val q)) + ((val p - A * B) - (val q - A' * B'))) by ring.
  eapply Rle_trans; [apply Rabs_triang|]. assert (Rabs ((val p - A * B) - (val q - A' * B')) <= Rabs (val p - A * B) + Rabs (val q - A' * B')).
  { unfold Rminus at 1. eapply Rle_trans; [apply Rabs_triang|]. rewrite Rabs_Ropp. lra. }
  lra.
Qed.

(** ** Operands *)

Lemma length_scale k n : 0 <= k -> runit n -> rlength (scale k n) = k.
Proof.
  intros K U. unfold runit in U. unfold rlength, scale. cbn [rx ry rz].
  replace (k * rx n * (k * rx n) + k * ry n * (k * ry n) + k * rz n * (k * rz n)) with (k * k * (rx n * rx n + ry n * ry n + rz n * rz n)) by ring.
  rewrite U, Rmult_1_r. apply R_sqrt.sqrt_square, K.
Qed.

Lemma length_mono p q : Rabs (rx p) <= Rabs (rx q) -> Rabs (ry p) <= Rabs (ry q) -> Rabs (rz p) <= Rabs (rz q) -> rlength p <= rlength q.
Proof.
  intros X Y Z. unfold rlength. apply sqrt_le_1_alt. assert (S : forall x y, Rabs x <= Rabs y -> x * x <= y * y).
  { intros x y H. rewrite <- (Rabs_pos_eq (x * x)), <- (Rabs_pos_eq (y * y)) by nra. rewrite !Rabs_mult. apply Rmult_le_compat; auto using Rabs_pos. }
  pose proof (S _ _ X). pose proof (S _ _ Y). pose proof (S _ _ Z). lra.
Qed.

Lemma ratio_bounds f : cast_ok f -> bpow radix2 (-250) <= ratio f <= bpow radix2 250.
Proof.
  destruct f as [c|]; cbn [cast_ok ratio]; [intros [_ H]; exact H|]. intros _. split; [apply Rle_trans with (bpow radix2 0); [apply bpow_le; lia|cbn; lra]|apply Rle_trans with (bpow radix2 0); [cbn; lra|apply bpow_le; lia]].
Qed.

Section Library.
Context (L : libm) (G : good_libm L).

Lemma first_app s p : sph_ok p -> rlength (sph_vector s p) = dval (s3 p) /\ bpow radix2 (-200) <= dval (s3 p) <= bpow radix2 200 /\
  app3 (dval (s3 p)) (42 / 10) (to_cartesian_d L s p) (sph_vector s p).
Proof.
  intros H. destruct (ok_wide p H) as (F1 & F2 & F3 & B). destruct H as (_ & _ & _ & B').
  assert (P : 0 <= dval (s3 p)) by (pose proof (bpow_gt_0 radix2 (-200)); lra).
  destruct (to_cartesian_sent L G s p F1 F2 F3 B) as (X & Y & Z).
  split; [apply length_scale; [exact P|apply sph_unit]|]. split; [exact B'|].
  split; [|split]; (apply sent_app; [exact P|assumption]).
Qed.

Definition cast3 (fx fy fz : option double) (v : dvec) : dvec := DV (cast fx (dx v)) (cast fy (dy v)) (cast fz (dz v)).

Lemma operand_app fx fy fz o : operand_ok fx fy fz o -> let T := operand_vector fx fy fz o in
  bpow radix2 (-460) <= rlength T <= bpow radix2 460 /\ app3 (rlength T) (53 / 10) (cast3 fx fy fz (cart_d L o)) T.
Proof.
  intros (Cx & Cy & Cz & H) T. destruct (ratio_bounds _ Cx) as [Lx Ux]. destruct (ratio_bounds _ Cy) as [Ly Uy]. destruct (ratio_bounds _ Cz) as [Lz Uz].
  pose proof (bpow_gt_0 radix2 (-250)) as P0. pose proof (bpow_gt_0 radix2 (-200)) as P2. pose proof u53_pos as U0. destruct o as [s p|v].
  - destruct H as (Ok & -> & ->). destruct (first_app s p Ok) as (Len & B & A). set (r := dval (s3 p)) in *.
    assert (ET : rlength T = r * ratio fx).
    { replace T with (scale (r * ratio fx) (sph_direction s (dval (s1 p)) (dval (s2 p)))).
      - apply length_scale; [apply Rmult_le_pos; lra|apply sph_unit].
      - unfold T, operand_vector, plain_vector, sph_vector, scale. cbn [rx ry rz]. fold r. f_equal; ring. }
    assert (Bt : bpow radix2 (-460) <= rlength T <= bpow radix2 460).
    { rewrite ET. split.
      - apply Rle_trans with (bpow radix2 (-200 + -250)); [apply bpow_le; lia|]. rewrite bpow_plus. apply Rmult_le_compat; lra.
      - apply Rle_trans with (bpow radix2 (200 + 250)); [|apply bpow_le; lia]. rewrite bpow_plus. apply Rmult_le_compat; lra. }
    split; [exact Bt|]. assert (Bt' : bpow radix2 (-1000) <= rlength T <= bpow radix2 500).
    { split; [apply Rle_trans with (bpow radix2 (-460)); [apply bpow_le; lia|lra]|apply Rle_trans with (bpow radix2 460); [lra|apply bpow_le; lia]]. }
    assert (One : forall a X, app r (42 / 10) a X -> app (rlength T) (53 / 10) (cast fx a) (X * ratio fx)).
    { intros a X (Fa & Ba & Ea & Sa). replace (53 / 10) with (42 / 10 + 11 / 10) by lra. apply app_cast; [exact Cx|lra|exact Bt'|exact Fa|..]; rewrite ET.
      - rewrite Rabs_mult, (Rabs_pos_eq (ratio fx)) by lra. rewrite <- Rmult_assoc. apply Rmult_le_compat_r; lra.
      - replace (val a * ratio fx - X * ratio fx) with ((val a - X) * ratio fx) by ring. rewrite Rabs_mult, (Rabs_pos_eq (ratio fx)) by lra. rewrite <- Rmult_assoc. apply Rmult_le_compat_r; lra.
      - rewrite Rabs_mult, (Rabs_pos_eq (ratio fx)) by lra. apply Rmult_le_compat_r; lra. }
    destruct A as (X & Y & Z). split; [|split]; apply One; assumption.
  - destruct H as ((Fx & Fy & Fz) & B). unfold dfinite in Fx, Fy, Fz.
    assert (ET : T = RV (val (dx v) * ratio fx) (val (dy v) * ratio fy) (val (dz v) * ratio fz)) by reflexivity.
    assert (Bt : bpow radix2 (-460) <= rlength T <= bpow radix2 460).
    { pose proof (rlength_pos (vval v)) as Pv. split.
      - apply Rle_trans with (bpow radix2 (-250) * rlength (vval v)).
        + apply Rle_trans with (bpow radix2 (-250 + -200)); [apply bpow_le; lia|]. rewrite bpow_plus. apply Rmult_le_compat_l; lra.
        + assert (E : bpow radix2 (-250) * rlength (vval v) = rlength (scale (bpow radix2 (-250)) (vval v))).
          { unfold rlength, scale. cbn [rx ry rz]. rewrite <- (R_sqrt.sqrt_square (bpow radix2 (-250))) at 1 by lra. rewrite <- sqrt_mult_alt by nra. f_equal. ring. }
          rewrite E. apply length_mono; rewrite ET; unfold scale, vval, dval; cbn [rx ry rz]; rewrite !Rabs_mult, (Rabs_pos_eq (bpow radix2 (-250))), (Rabs_pos_eq (ratio _)) by lra;
            rewrite Rmult_comm; apply Rmult_le_compat_l; auto using Rabs_pos.
      - apply Rle_trans with (bpow radix2 250 * rlength (vval v)).
        + assert (E : bpow radix2 250 * rlength (vval v) = rlength (scale (bpow radix2 250) (vval v))).
          { unfold rlength, scale. cbn [rx ry rz]. rewrite <- (R_sqrt.sqrt_square (bpow radix2 250)) at 1 by lra. rewrite <- sqrt_mult_alt by nra. f_equal. ring. }
          rewrite E. apply length_mono; rewrite ET; unfold scale, vval, dval; cbn [rx ry rz]; rewrite !Rabs_mult, (Rabs_pos_eq (bpow radix2 250)), (Rabs_pos_eq (ratio _)) by lra;
            rewrite (Rmult_comm (bpow radix2 250)); apply Rmult_le_compat_l; auto using Rabs_pos.
        + apply Rle_trans with (bpow radix2 (250 + 200)); [rewrite bpow_plus; apply Rmult_le_compat_l; lra|apply bpow_le; lia]. }
    split; [exact Bt|]. assert (Bt' : bpow radix2 (-1000) <= rlength T <= bpow radix2 500).
    { split; [apply Rle_trans with (bpow radix2 (-460)); [apply bpow_le; lia|lra]|apply Rle_trans with (bpow radix2 460); [lra|apply bpow_le; lia]]. }
    destruct (part_le_length T) as (P1 & P3 & P4). pose proof (bpow_gt_0 radix2 (-460)) as P46.
    assert (One : forall f a, cast_ok f -> fin a = true -> Rabs (val a * ratio f) <= rlength T -> app (rlength T) (53 / 10) (cast f a) (val a * ratio f)).
    { intros f a Cf Fa Ba. apply (app_weaken _ (0 + 11 / 10)); [lra|lra|]. apply app_cast; [exact Cf|lra|exact Bt'|exact Fa|lra| |exact Ba].
      rewrite Rminus_diag_eq, Rabs_R0 by reflexivity. lra. }
    rewrite ET in P1, P3, P4. cbn [rx ry rz] in P1, P3, P4. rewrite <- ET in P1, P3, P4.
    split; [|split]; apply One; assumption.
Qed.

(** ** The results *)

Lemma from_made s old p : vfinite p -> bpow radix2 (-390) <= rlength (vval p) <= bpow radix2 390 -> made s (from_cartesian_d L s old p) (vval p).
Proof.
  intros F [Lo Hi]. pose proof (bpow_gt_0 radix2 (-390)) as P0. assert (P : 0 < rlength (vval p)) by lra.
  assert (B : bpow radix2 (-400) <= rlength (vval p) <= bpow radix2 400).
  { split; [eapply Rle_trans; [|exact Lo]|eapply Rle_trans; [exact Hi|]]; apply bpow_le; lia. }
  destruct (from_close L G s old _ 0 p _ B ltac:(lra) (unit_of_unit _ P) (exact_sent p F P)) as (F1 & F2 & F3 & D & W & W').
  split; [exact F1|]. split; [exact F2|]. split; [exact F3|]. split; [|split].
  - unfold rel in D. rewrite (Rabs_pos_eq (rlength (vval p))) in D by lra. eapply Rle_trans; [exact D|]. rewrite b47. pose proof u53_pos. nra.
  - eapply within_weaken; [|exact W]. apply bpow_le. lia.
  - intros Z. eapply within_weaken; [|apply W'; lra]. apply bpow_le. lia.
Qed.

Lemma make_made s old p : vfinite p -> bpow radix2 (-390) <= rlength (vval p) <= bpow radix2 390 -> made s (make_angular_d L s old p) (vval p).
Proof.
  intros F B. pose proof (bpow_gt_0 radix2 (-390)) as P0. assert (P : 0 < rlength (vval p)) by lra.
  exact (make_close L G s old _ 0 p _ B ltac:(lra) (unit_of_unit _ P) (exact_sent p F P)).
Qed.

(** A computed vector close to [t], turned into angles in either way. *)
Lemma finish s old p t z e : vfinite p -> 0 <= e -> within e (vval p) t -> e <= bpow radix2 (-48) * z -> rlength t <= 2 * z -> clear_of t z ->
  close_to s (from_cartesian_d L s old p) t z /\ close_to s (make_angular_d L s old p) t z.
Proof.
  intros F E W Ez T (C & Lo & Hi). pose proof (length_diff e _ t E W) as LD. apply Rabs_le_inv in LD. pose proof (rlength_pos t) as Pt.
  pose proof (bpow_gt_0 radix2 (-380)) as P0. assert (Pz : 0 < z) by lra.
  assert (Ee : e <= rlength t / 256) by (change (bpow radix2 (-40)) with (/ 1099511627776) in C; change (bpow radix2 (-48)) with (/ 281474976710656) in Ez; lra).
  assert (B : bpow radix2 (-390) <= rlength (vval p) <= bpow radix2 390).
  { split.
    - apply Rle_trans with (bpow radix2 (-380) / 2); [|lra]. replace (bpow radix2 (-380) / 2) with (bpow radix2 (-381)); [apply bpow_le; lia|].
      change (-380)%Z with (-381 + 1)%Z. rewrite bpow_double. field.
    - apply Rle_trans with (2 * bpow radix2 380); [lra|]. rewrite <- bpow_double. apply bpow_le. lia. }
  pose proof (bpow_gt_0 radix2 (-390)) as P3.
  split; [apply (settle s _ (vval p) t z e)|apply (settle s _ (vval p) t z e)]; try assumption; try lra; [exact (from_made s old p F B)|exact (make_made s old p F B)].
Qed.

Lemma sum_near fx fy fz r a A o : bpow radix2 (-460) <= r <= bpow radix2 460 -> app3 r (42 / 10) a A -> operand_ok fx fy fz o ->
  let T := operand_vector fx fy fz o in
  vfinite (sum_d fx fy fz a (cart_d L o)) /\ each (fun c => Rabs (val (c (sum_d fx fy fz a (cart_d L o)))) <= bpow radix2 502) /\
  within (8 * u53 * (r + rlength T)) (vval (sum_d fx fy fz a (cart_d L o))) (radd A T).
Proof.
  intros [R0 R] (X & Y & Z) Ok T. destruct (operand_app fx fy fz o Ok) as (B & X' & Y' & Z'). fold T in B, X', Y', Z'.
  cbn [cast3 dx dy dz] in X', Y', Z'. pose proof (bpow_gt_0 radix2 (-460)) as P0. set (t := rlength T) in *. clearbody T t.
  assert (Hr : 0 <= r <= bpow radix2 500) by (split; [lra|apply Rle_trans with (bpow radix2 460); [lra|apply bpow_le; lia]]).
  assert (Ht : 0 <= t <= bpow radix2 500) by (split; [lra|apply Rle_trans with (bpow radix2 460); [lra|apply bpow_le; lia]]).
  destruct (app_add r t (42 / 10) (53 / 10) _ _ _ _ ltac:(lra) ltac:(lra) Hr Ht X X') as (F1 & E1 & S1).
  destruct (app_add r t (42 / 10) (53 / 10) _ _ _ _ ltac:(lra) ltac:(lra) Hr Ht Y Y') as (F2 & E2 & S2).
  destruct (app_add r t (42 / 10) (53 / 10) _ _ _ _ ltac:(lra) ltac:(lra) Hr Ht Z Z') as (F3 & E3 & S3).
  assert (Q : (42 / 10 + 11 / 10) * u53 * r + (53 / 10 + 11 / 10) * u53 * t <= 8 * u53 * (r + t)).
  { pose proof u53_pos. assert (0 <= u53 * r) by nra. assert (0 <= u53 * t) by nra. lra. }
  split; [repeat split; assumption|]. split; [repeat split; assumption|].
  split; [|split]; cbn [sum_d vval radd rx ry rz dx dy dz]; eapply Rle_trans; try exact Q; assumption.
Qed.

Theorem sum_ok s old fx fy fz p b : sph_ok p -> operand_ok fx fy fz b ->
  let T := radd (sph_vector s p) (operand_vector fx fy fz b) in let z := dval (s3 p) + rlength (operand_vector fx fy fz b) in
  clear_of T z -> close_to s (sph_sum_d L s old fx fy fz p b) T z /\ close_to s (sph_plus_d L s old fx fy fz p b) T z.
Proof.
  intros Hp Hb T z C. destruct (first_app s p Hp) as (Len & Br & A).
  assert (Br' : bpow radix2 (-460) <= dval (s3 p) <= bpow radix2 460).
  { split; [apply Rle_trans with (bpow radix2 (-200)); [apply bpow_le; lia|lra]|apply Rle_trans with (bpow radix2 200); [lra|apply bpow_le; lia]]. }
  destruct (sum_near fx fy fz _ _ _ b Br' A Hb) as (F & _ & W). fold T in W. pose proof u53_pos as U0. pose proof (bpow_gt_0 radix2 (-200)) as P2.
  pose proof (rlength_pos (operand_vector fx fy fz b)) as Pb. fold z in W.
  apply (finish s old _ T z (8 * u53 * z)); [exact F| |exact W| | |exact C].
  - unfold z. assert (0 <= dval (s3 p) + rlength (operand_vector fx fy fz b)) by lra. nra.
  - rewrite b48. unfold z. apply Rmult_le_compat_r; lra.
  - pose proof (rlength_triangle (sph_vector s p) (operand_vector fx fy fz b)) as Tr. rewrite Len in Tr. fold T z in Tr. unfold z in *. lra.
Qed.

Theorem mean_near_ok s old fx fy fz p b : sph_ok p -> operand_ok fx fy fz b ->
  let T := scale (/ 2) (radd (sph_vector s p) (operand_vector fx fy fz b)) in let z := (dval (s3 p) + rlength (operand_vector fx fy fz b)) / 2 in
  clear_of T z -> close_to s (sph_mean_d L s old fx fy fz p b) T z.
Proof.
  intros Hp Hb T z C. destruct (first_app s p Hp) as (Len & Br & A).
  assert (Br' : bpow radix2 (-460) <= dval (s3 p) <= bpow radix2 460).
  { split; [apply Rle_trans with (bpow radix2 (-200)); [apply bpow_le; lia|lra]|apply Rle_trans with (bpow radix2 200); [lra|apply bpow_le; lia]]. }
  destruct (sum_near fx fy fz _ _ _ b Br' A Hb) as ((F1 & F2 & F3) & (S1 & S2 & S3) & W1 & W2 & W3).
  pose proof u53_pos as U0. pose proof u53_eq as U. pose proof (bpow_gt_0 radix2 (-200)) as P2. pose proof (bpow_gt_0 radix2 (-201)) as P21.
  set (V := operand_vector fx fy fz b) in *. pose proof (rlength_pos V) as Pb.
  destruct (part_le_length (sph_vector s p)) as (Px & Py & Pz). rewrite Len in Px, Py, Pz. destruct (part_le_length V) as (Vx & Vy & Vz).
  set (a := sum_d fx fy fz (to_cartesian_d L s p) (cart_d L b)) in *.
  assert (Lz : bpow radix2 (-1000) <= z).
  { unfold z. apply Rle_trans with (bpow radix2 (-201)); [apply bpow_le; lia|]. replace (bpow radix2 (-201)) with (bpow radix2 (-200) / 2); [lra|]. change (-200)%Z with (-201 + 1)%Z. rewrite bpow_double. field. }
  assert (Ez : 8 * u53 * (dval (s3 p) + rlength V) <= z) by (unfold z; rewrite U; lra).
  assert (One : forall x X Y, fin x = true -> Rabs (val x) <= bpow radix2 502 -> Rabs (val x - (X + Y)) <= 8 * u53 * (dval (s3 p) + rlength V) -> Rabs X <= dval (s3 p) -> Rabs Y <= rlength V ->
    fin (d_div x (d_of_Z 2)) = true /\ Rabs (val (d_div x (d_of_Z 2)) - / 2 * (X + Y)) <= 10 * u53 * z).
  { intros x X Y Fx Sx Ex Bx By. destruct (half_app x (X + Y) _ z Fx Sx Ex Lz) as [Fh Eh]; [|exact Ez|].
    - eapply Rle_trans; [apply Rabs_triang|]. unfold z. lra.
    - split; [exact Fh|]. replace (/ 2 * (X + Y)) with ((X + Y) / 2) by field. eapply Rle_trans; [exact Eh|]. unfold z. lra. }
  destruct (One _ _ _ F1 S1 W1 Px Vx) as [G1 E1]. destruct (One _ _ _ F2 S2 W2 Py Vy) as [G2 E2]. destruct (One _ _ _ F3 S3 W3 Pz Vz) as [G3 E3].
  apply (finish s old _ T z (10 * u53 * z)); [repeat split; assumption| | | | |exact C].
  - assert (0 < z) by (unfold z; lra). nra.
  - split; [exact E1|split; [exact E2|exact E3]].
  - rewrite b48. apply Rmult_le_compat_r; [unfold z|]; lra.
  - apply length_coord; [unfold z; lra|..]; unfold T, scale, radd; cbn [rx ry rz]; rewrite Rabs_mult, (Rabs_pos_eq (/ 2)) by lra;
      match goal with |- _ * Rabs (?x + ?y) <= _ => pose proof (Rabs_triang x y) end; unfold z; lra.
Qed.

Lemma cross_length A B : rlength (rcross A B) <= rlength A * rlength B.
Proof.
  pose proof (rlength_pos A) as PA. pose proof (rlength_pos B) as PB. apply Rsqr_incr_0_var; [|apply Rmult_le_pos; assumption]. unfold Rsqr. rewrite rlength_sq.
  replace (rlength A * rlength B * (rlength A * rlength B)) with ((rlength A * rlength A) * (rlength B * rlength B)) by ring. rewrite !rlength_sq.
  unfold rcross. cbn [rx ry rz]. set (d := rdot A B).
  replace ((rx A * rx A + ry A * ry A + rz A * rz A) * (rx B * rx B + ry B * ry B + rz B * rz B)) with
    ((ry A * rz B - rz A * ry B) * (ry A * rz B - rz A * ry B) + (rz A * rx B - rx A * rz B) * (rz A * rx B - rx A * rz B) + (rx A * ry B - ry A * rx B) * (rx A * ry B - ry A * rx B) + d * d) by (unfold d, rdot; ring).
  pose proof (Rle_0_sqr d) as S. unfold Rsqr in S. lra.
Qed.

Theorem cross_ok s old g2 g3 p b : sph_ok p -> operand_ok (Some (d_of_Z 1)) (Some g2) (Some g3) b ->
  let B := operand_vector (Some (d_of_Z 1)) (Some g2) (Some g3) b in
  let T := rcross (sph_vector s p) B in let z := dval (s3 p) * rlength B in
  clear_of T z -> close_to s (sph_cross_d L s old g2 g3 p b) T z.
Proof.
  intros Hp Hb B T z C. destruct (first_app s p Hp) as (Len & Br & A). destruct (operand_app _ _ _ b Hb) as (Bt & A'). fold B in Bt, A'.
  pose proof (bpow_gt_0 radix2 (-200)) as P2. pose proof (bpow_gt_0 radix2 (-460)) as P4. pose proof u53_pos as U0.
  assert (Hz : bpow radix2 (-1000) <= dval (s3 p) * rlength B <= bpow radix2 900).
  { split.
    - apply Rle_trans with (bpow radix2 (-200 + -460)); [apply bpow_le; lia|]. rewrite bpow_plus. apply Rmult_le_compat; lra.
    - apply Rle_trans with (bpow radix2 (200 + 460)); [|apply bpow_le; lia]. rewrite bpow_plus. apply Rmult_le_compat; lra. }
  destruct A as (X & Y & Z). destruct A' as (X' & Y' & Z'). cbn [cast3 cast dx dy dz] in X', Y', Z'.
  destruct (cross_part (dval (s3 p)) (rlength B) (42 / 10) (53 / 10) _ _ _ _ _ _ _ _ ltac:(lra) ltac:(lra) Hz ltac:(lra) ltac:(lra) Y Z' Z Y') as (F1 & E1).
  destruct (cross_part (dval (s3 p)) (rlength B) (42 / 10) (53 / 10) _ _ _ _ _ _ _ _ ltac:(lra) ltac:(lra) Hz ltac:(lra) ltac:(lra) Z X' X Z') as (F2 & E2).
  destruct (cross_part (dval (s3 p)) (rlength B) (42 / 10) (53 / 10) _ _ _ _ _ _ _ _ ltac:(lra) ltac:(lra) Hz ltac:(lra) ltac:(lra) X Y' Y X') as (F3 & E3).
  fold z in E1, E2, E3, Hz. pose proof (bpow_gt_0 radix2 (-1000)) as P1.
  assert (Q : (2 * (101 / 100 * (42 / 10) + 53 / 10 + 11 / 10) + 23 / 10) * u53 * z <= 32 * u53 * z) by (apply Rmult_le_compat_r; [lra|]; apply Rmult_le_compat_r; lra).
  apply (finish s old _ T z (32 * u53 * z)); [repeat split; assumption| | | | |exact C].
  - apply Rmult_le_pos; lra.
  - split; [|split]; cbn [vval cross_product_d rx ry rz dx dy dz]; (eapply Rle_trans; [|exact Q]); assumption.
  - rewrite b48. lra.
  - pose proof (cross_length (sph_vector s p) B) as CL. rewrite Len in CL. fold T z in CL. lra.
Qed.

Theorem dot_ok gy gz hy hz a b : operand_ok None gy gz a -> operand_ok None hy hz b ->
  let A := operand_vector None gy gz a in let B := operand_vector None hy hz b in
  bpow radix2 (-900) <= rlength A * rlength B <= bpow radix2 900 ->
  dfinite (operand_dot_d L gy gz hy hz a b) /\
  Rabs (dval (operand_dot_d L gy gz hy hz a b) - rdot A B) <= bpow radix2 (-47) * (rlength A * rlength B).
Proof.
  intros Ha Hb A B [Lo Hi]. destruct (operand_app _ _ _ a Ha) as (Ba & Xa & Ya & Za). destruct (operand_app _ _ _ b Hb) as (Bb & Xb & Yb & Zb).
  fold A in Ba, Xa, Ya, Za. fold B in Bb, Xb, Yb, Zb. cbn [cast3 cast dx dy dz] in Xa, Ya, Za, Xb, Yb, Zb.
  pose proof (bpow_gt_0 radix2 (-460)) as P4. pose proof (bpow_gt_0 radix2 (-900)) as P9. pose proof (bpow_gt_0 radix2 900) as P99. pose proof u53_pos as U0. pose proof u53_eq as U.
  assert (Hz : bpow radix2 (-1000) <= rlength A * rlength B <= bpow radix2 900) by (split; [apply Rle_trans with (bpow radix2 (-900)); [apply bpow_le; lia|lra]|lra]).
  destruct (app_mul (rlength A) (rlength B) (53 / 10) (53 / 10) _ _ _ _ ltac:(lra) ltac:(lra) Hz ltac:(lra) ltac:(lra) Xa Xb) as (F0 & S0 & E0).
  destruct (app_mul (rlength A) (rlength B) (53 / 10) (53 / 10) _ _ _ _ ltac:(lra) ltac:(lra) Hz ltac:(lra) ltac:(lra) Ya Yb) as (F1 & S1 & E1).
  destruct (app_mul (rlength A) (rlength B) (53 / 10) (53 / 10) _ _ _ _ ltac:(lra) ltac:(lra) Hz ltac:(lra) ltac:(lra) Za Zb) as (F2 & S2 & E2).
  unfold operand_dot_d, dot_d, dot_product_d, in_x_d. cbn [dx dy dz cast]. unfold rdot.
  set (p0 := d_mul (dx (cart_d L a)) (dx (cart_d L b))) in *. set (p1 := d_mul (cast gy (dy (cart_d L a))) (cast hy (dy (cart_d L b)))) in *.
  set (p2 := d_mul (cast gz (dz (cart_d L a))) (cast hz (dz (cart_d L b)))) in *. clearbody p0 p1 p2. set (z := rlength A * rlength B) in *. clearbody z.
  pose proof (add_rel p1 p2) as X1. unfold rel in X1. rewrite Rmult_1_l in X1. pose proof (Rabs_triang (val p1) (val p2)) as T1.
  assert (Y1 : Rabs (val p1 + val p2) <= bpow radix2 903) by (change 903%Z with (900 + 1 + 1 + 1)%Z; rewrite !bpow_double; lra).
  pose proof (rnd_bound _ 903 ltac:(lia) Y1) as Q1. destruct (add_ok p1 p2 F1 F2 (fits 903 _ ltac:(lia) Q1)) as [Fs Vs]. rewrite <- Vs in X1, Q1. set (w := d_add p1 p2) in *. clearbody w.
  assert (Q0 : 0 < u53 * z) by (apply Rmult_lt_0_compat; lra).
  assert (X1' : Rabs (val w - (val p1 + val p2)) <= u53 * (22 / 10 * z)) by (eapply Rle_trans; [exact X1|apply Rmult_le_compat_l; lra]).
  assert (Sw : Rabs (val w) <= 23 / 10 * z).
  { replace (val w) with ((val w - (val p1 + val p2)) + (val p1 + val p2)) by ring. eapply Rle_trans; [apply Rabs_triang|]. assert (u53 * (22 / 10 * z) <= / 10 * z) by (rewrite U; lra). lra. }
  pose proof (add_rel p0 w) as X2. unfold rel in X2. rewrite Rmult_1_l in X2. pose proof (Rabs_triang (val p0) (val w)) as T2.
  assert (Y2 : Rabs (val p0 + val w) <= bpow radix2 903) by (change 903%Z with (900 + 1 + 1 + 1)%Z; rewrite !bpow_double; lra).
  pose proof (rnd_bound _ 903 ltac:(lia) Y2) as Q2. destruct (add_ok p0 w F0 Fs (fits 903 _ ltac:(lia) Q2)) as [Fd Vd]. rewrite <- Vd in X2. set (v := d_add p0 w) in *. clearbody v. split; [exact Fd|].
  assert (X2' : Rabs (val v - (val p0 + val w)) <= u53 * (34 / 10 * z)) by (eapply Rle_trans; [exact X2|apply Rmult_le_compat_l; lra]). unfold dval.
  replace (val v - (rx A * rx B + ry A * ry B + rz A * rz B)) with
    ((val v - (val p0 + val w)) + ((val w - (val p1 + val p2)) + ((val p0 - rx A * rx B) + ((val p1 - ry A * ry B) + (val p2 - rz A * rz B))))) by ring.
  eapply Rle_trans; [apply Rabs_triang|].
  pose proof (Rabs_triang (val w - (val p1 + val p2)) ((val p0 - rx A * rx B) + ((val p1 - ry A * ry B) + (val p2 - rz A * rz B)))) as T3.
  pose proof (Rabs_triang (val p0 - rx A * rx B) ((val p1 - ry A * ry B) + (val p2 - rz A * rz B))) as T4.
  pose proof (Rabs_triang (val p1 - ry A * ry B) (val p2 - rz A * rz B)) as T5. rewrite b47. lra.
Qed.

(** A Cartesian left operand: the result stays Cartesian. *)
Theorem axes_sum_ok fx fy fz v b : vec_ok v -> operand_ok fx fy fz b ->
  let B := operand_vector fx fy fz b in
  vfinite (axes_sum_d L fx fy fz v b) /\ within (bpow radix2 (-50) * (rlength (vval v) + rlength B)) (vval (axes_sum_d L fx fy fz v b)) (radd (vval v) B).
Proof.
  intros ((F1 & F2 & F3) & Bv) Hb B. pose proof (bpow_gt_0 radix2 (-200)) as P2. pose proof u53_pos as U0.
  assert (Br : bpow radix2 (-460) <= rlength (vval v) <= bpow radix2 460).
  { split; [apply Rle_trans with (bpow radix2 (-200)); [apply bpow_le; lia|lra]|apply Rle_trans with (bpow radix2 200); [lra|apply bpow_le; lia]]. }
  destruct (part_le_length (vval v)) as (Px & Py & Pz). assert (A : app3 (rlength (vval v)) (42 / 10) v (vval v)).
  { assert (One : forall a, fin a = true -> Rabs (val a) <= rlength (vval v) -> app (rlength (vval v)) (42 / 10) a (val a)).
    { intros a Fa Ba. split; [exact Fa|]. split; [lra|]. split; [|exact Ba]. rewrite Rminus_diag_eq, Rabs_R0 by reflexivity. assert (0 <= u53 * rlength (vval v)) by nra. lra. }
    split; [|split]; apply One; assumption. }
  destruct (sum_near fx fy fz _ _ _ b Br A Hb) as (F & _ & W). split; [exact F|]. eapply within_weaken; [|exact W]. fold B.
  assert (E : bpow radix2 (-50) = 8 * u53) by (rewrite u53_eq; cbn; lra). rewrite E. lra.
Qed.

Lemma times_one r a : bpow radix2 (-1000) <= r <= bpow radix2 500 -> fin a = true -> Rabs (val a) <= r -> app r 2 a (val a) /\ app r 2 (d_mul a (d_of_Z 1)) (val a).
Proof.
  intros [Lo Hi] F B. pose proof (bpow_gt_0 radix2 (-1000)) as P0. pose proof u53_pos as U0. assert (0 <= u53 * r) by nra.
  assert (A0 : app r 2 a (val a)) by (split; [exact F|]; split; [lra|]; split; [rewrite Rminus_diag_eq, Rabs_R0 by reflexivity; lra|exact B]).
  split; [exact A0|]. destruct (small_int_ok 1 ltac:(lia)) as [F1 V1].
  assert (C1 : cast_ok (Some (d_of_Z 1))).
  { split; [exact F1|]. unfold dval. rewrite V1. split; [apply Rle_trans with (bpow radix2 0); [apply bpow_le; lia|cbn; lra]|apply Rle_trans with (bpow radix2 0); [cbn; lra|apply bpow_le; lia]]. }
  assert (R1 : ratio (Some (d_of_Z 1)) = 1) by exact V1.
  assert (Q := app_cast (Some (d_of_Z 1)) r 0 a (val a) C1 ltac:(lra) (conj Lo Hi) F). rewrite R1, Rmult_1_r in Q. cbn [cast] in Q.
  apply (app_weaken r (0 + 11 / 10) 2); [lra|lra|]. apply Q; [lra| |exact B]. rewrite Rminus_diag_eq, Rabs_R0 by reflexivity. lra.
Qed.

Theorem axes_cross_ok v b : vec_ok v -> operand_ok None None None b ->
  let B := plain_vector b in
  vfinite (axes_cross_d L v b) /\ within (bpow radix2 (-48) * (rlength (vval v) * rlength B)) (vval (axes_cross_d L v b)) (rcross (vval v) B).
Proof.
  intros ((F1 & F2 & F3) & Bv) Hb B. pose proof (bpow_gt_0 radix2 (-200)) as P2. pose proof (bpow_gt_0 radix2 (-460)) as P4. pose proof u53_pos as U0.
  destruct (small_int_ok 1 ltac:(lia)) as [One V1].
  assert (C1 : cast_ok (Some (d_of_Z 1))).
  { split; [exact One|]. unfold dval. rewrite V1. split; [apply Rle_trans with (bpow radix2 0); [apply bpow_le; lia|cbn; lra]|apply Rle_trans with (bpow radix2 0); [cbn; lra|apply bpow_le; lia]]. }
  assert (R1 : ratio (Some (d_of_Z 1)) = 1) by exact V1.
  assert (Hb' : operand_ok (Some (d_of_Z 1)) (Some (d_of_Z 1)) (Some (d_of_Z 1)) b).
  { destruct Hb as (_ & _ & _ & Hb). split; [exact C1|]. split; [exact C1|]. split; [exact C1|]. destruct b; [split; [apply Hb|split; reflexivity]|exact Hb]. }
  assert (E : operand_vector None None None b = B) by (unfold operand_vector; fold B; cbn [ratio]; rewrite !Rmult_1_r; destruct B; reflexivity).
  assert (E' : operand_vector (Some (d_of_Z 1)) (Some (d_of_Z 1)) (Some (d_of_Z 1)) b = B) by (unfold operand_vector; fold B; rewrite !R1, !Rmult_1_r; destruct B; reflexivity).
  destruct (operand_app _ _ _ b Hb) as (Bt & X & Y & Z). destruct (operand_app _ _ _ b Hb') as (_ & X1 & Y1 & Z1). rewrite E in Bt, X, Y, Z. rewrite E' in X1, Y1, Z1.
  cbn [cast3 cast dx dy dz] in X, Y, Z, X1, Y1, Z1. clearbody B. destruct (part_le_length (vval v)) as (Px & Py & Pz). cbn [vval rx ry rz] in Px, Py, Pz. set (r := rlength (vval v)) in *. fold r in Bv.
  assert (Hr : bpow radix2 (-1000) <= r <= bpow radix2 500) by (split; [apply Rle_trans with (bpow radix2 (-200)); [apply bpow_le; lia|lra]|apply Rle_trans with (bpow radix2 200); [lra|apply bpow_le; lia]]).
  destruct (times_one r _ Hr F1 Px) as [Ax Ax1]. destruct (times_one r _ Hr F2 Py) as [Ay Ay1]. destruct (times_one r _ Hr F3 Pz) as [Az Az1].
  assert (Hz : bpow radix2 (-1000) <= r * rlength B <= bpow radix2 900).
  { split.
    - apply Rle_trans with (bpow radix2 (-200 + -460)); [apply bpow_le; lia|]. rewrite bpow_plus. apply Rmult_le_compat; lra.
    - apply Rle_trans with (bpow radix2 (200 + 460)); [|apply bpow_le; lia]. rewrite bpow_plus. apply Rmult_le_compat; lra. }
  destruct (cross_part r (rlength B) 2 (53 / 10) _ _ _ _ _ _ _ _ ltac:(lra) ltac:(lra) Hz ltac:(lra) ltac:(lra) Ay Z Az1 Y1) as (G1 & E1).
  destruct (cross_part r (rlength B) 2 (53 / 10) _ _ _ _ _ _ _ _ ltac:(lra) ltac:(lra) Hz ltac:(lra) ltac:(lra) Az X Ax1 Z1) as (G2 & E2).
  destruct (cross_part r (rlength B) 2 (53 / 10) _ _ _ _ _ _ _ _ ltac:(lra) ltac:(lra) Hz ltac:(lra) ltac:(lra) Ax Y Ay1 X1) as (G3 & E3).
  pose proof (bpow_gt_0 radix2 (-1000)) as P1.
  assert (Q : (2 * (101 / 100 * 2 + 53 / 10 + 11 / 10) + 23 / 10) * u53 * (r * rlength B) <= bpow radix2 (-48) * (r * rlength B)).
  { rewrite b48. apply Rmult_le_compat_r; [lra|]. apply Rmult_le_compat_r; lra. }
  split; [repeat split; assumption|]. split; [|split]; cbn [vval axes_cross_d cross_d no_factors a32 b23 a13 b31 a21 b12 rcross rx ry rz dx dy dz]; (eapply Rle_trans; [|exact Q]); assumption.
Qed.

(** Opposite vectors: nothing is left to define the second angle. *)
Theorem sum_opposite_angle s old p : sph_ok p ->
  let q := Angles s (DS (s1 p) (s2 p) (d_opp (s3 p))) in
  let o := sph_sum_d L s old None None None p q in let o' := sph_plus_d L s old None None None p q in
  s2 o = old /\ dfinite (s3 o) /\ dval (s3 o) = 0 /\ s2 o' = old /\ dfinite (s3 o') /\ dval (s3 o') = 0.
Proof.
  intros Hp q' o o'. destruct (first_app s p Hp) as (_ & Br & A). destruct (ok_wide p Hp) as (F1 & F2 & F3 & _).
  set (q := to_cartesian_d L s (DS (s1 p) (s2 p) (d_opp (s3 p)))). set (a := to_cartesian_d L s p) in *.
  assert (Opp : opposite a q).
  { pose proof (opp_ok (s3 p)) as [Fo Vo]. unfold dfinite in *.
    assert (M : forall x x' y, fin x = true -> fin x' = true -> val x' = - val x -> in_unit y -> Rabs (val x) <= bpow radix2 200 ->
      fin (d_mul x y) = true /\ fin (d_mul x' y) = true /\ val (d_mul x' y) = - val (d_mul x y) /\ Rabs (val (d_mul x y)) <= bpow radix2 200).
    { intros x x' y Fx Fx' E [Fy By] Bx. assert (Y : Rabs (val x * val y) <= bpow radix2 200).
      { rewrite Rabs_mult, <- (Rmult_1_r (bpow radix2 200)). apply Rmult_le_compat; auto using Rabs_pos. apply Rabs_le. unfold dval in By. lra. }
      pose proof (rnd_bound _ 200 ltac:(lia) Y) as Q. destruct (mul_ok x y Fx Fy (fits 200 _ ltac:(lia) Q)) as [Fm Vm].
      assert (E' : val x' * val y = - (val x * val y)) by (rewrite E; ring).
      assert (Q' : Rabs (rnd (val x' * val y)) <= bpow radix2 200) by (apply rnd_bound; [lia|rewrite E', Rabs_Ropp; exact Y]).
      destruct (mul_ok x' y Fx' Fy (fits 200 _ ltac:(lia) Q')) as [Fm' Vm']. split; [exact Fm|]. split; [exact Fm'|].
      split; [rewrite Vm', Vm, E'; apply round_NE_opp|rewrite Vm; exact Q]. }
    assert (B3 : Rabs (val (s3 p)) <= bpow radix2 200) by (unfold dval in Br; rewrite Rabs_pos_eq; [lra|pose proof (bpow_gt_0 radix2 (-200)); lra]).
    assert (F3' : fin (d_opp (s3 p)) = true) by (rewrite Fo; exact F3).
    pose proof (proj1 (sin_good L G _ F1)) as I1. pose proof (proj1 (cos_good L G _ F1)) as I2. pose proof (proj1 (sin_good L G _ F2)) as I3. pose proof (proj1 (cos_good L G _ F2)) as I4.
    destruct (M _ _ _ F3 F3' Vo I3 B3) as (A1 & A2 & A3 & A4). destruct (M _ _ _ F3 F3' Vo I4 B3) as (B1 & B2 & B5 & B4).
    destruct (M _ _ _ A1 A2 A3 I2 A4) as (C1 & C2 & C3 & _). destruct (M _ _ _ A1 A2 A3 I1 A4) as (D1 & D2 & D3 & _).
    destruct (M _ _ _ B1 B2 B5 I2 B4) as (K1 & K2 & K3 & _). destruct (M _ _ _ B1 B2 B5 I1 B4) as (L1 & L2 & L3 & _).
    unfold opposite, vfinite, each, dfinite, dval, a, q. destruct s; cbn [to_cartesian_d dx dy dz s1 s2 s3]; repeat split; try assumption; lra. }
  destruct (sum_opposite a q Opp) as [Fs Ns]. destruct (null_length _ Fs Ns) as [Fl Vl].
  destruct (null_angle L G s old _ Fs Ns) as (_ & N2 & N3 & N4).
  unfold o, sph_sum_d, from_cartesian_d. cbn [cart_d q' s2 s3]. fold a q.
  rewrite (not_positive _ Fl Vl). split; [reflexivity|]. split; [exact Fl|]. split; [exact Vl|]. split; [exact N2|]. split; [exact N3|exact N4].
Qed.

(** The unit vector has the angles it had and the magnitude 1. *)
Theorem unit_ok s p : s1 (sph_unit_d p) = s1 p /\ s2 (sph_unit_d p) = s2 p /\ dfinite (sph_magnitude_d (sph_unit_d p)) /\ dval (sph_magnitude_d (sph_unit_d p)) = 1 /\
  sph_vector s (sph_unit_d p) = sph_direction s (dval (s1 p)) (dval (s2 p)).
Proof.
  destruct (small_int_ok 1 ltac:(lia)) as [F V]. split; [reflexivity|]. split; [reflexivity|]. split; [exact F|]. split; [exact V|].
  unfold sph_vector, sph_unit_d, scale. cbn [s1 s2 s3]. unfold dval at 1 4 7. rewrite V. destruct (sph_direction s (dval (s1 p)) (dval (s2 p))) as [x y z]. cbn [rx ry rz]. f_equal; ring.
Qed.

End Library.
