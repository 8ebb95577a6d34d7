(** * Angular separations and positional angles in doubles. *)
From Coq Require Import ZArith Reals Lia Lra Psatz.
From Flocq Require Import Core Relative IEEE754.BinarySingleNaN IEEE754.Binary IEEE754.Bits.
From Verif Require Import TextModel TextSpec TextRound TextScan TextFloat TextProofs TextLaws TextRead TextCard DoubleModel DoubleSpec DoubleProofs DoubleUnits VectorModel VectorSpec VectorProofs VectorArith VectorProducts VectorLength VectorUnit SkyModel SkySpec SkyAngles SkyProofs SkyConvert.
Local Open Scope R_scope.

#[local] Instance prec53 : Prec_gt_0 53 := eq_refl.
#[local] Existing Instance near.

(** ** Products commute, with their signs *)

Lemma mul_commutes x y : fin x = true -> fin y = true -> fin (d_mul x y) = true -> d_mul x y = d_mul y x.
Proof.
  intros X Y F. unfold d_mul, b64_mult, Bmult in *.
  match type of F with context [@BinarySingleNaN.Bmult 53 1024 ?a ?b mode_NE (B2BSN 53 1024 x) (B2BSN 53 1024 y)] =>
    assert (E : @BinarySingleNaN.Bmult 53 1024 a b mode_NE (B2BSN 53 1024 x) (B2BSN 53 1024 y) = @BinarySingleNaN.Bmult 53 1024 a b mode_NE (B2BSN 53 1024 y) (B2BSN 53 1024 x)) end.
  { destruct x as [s|s|s pl H|s m e H], y as [t|t|t pl' H'|t m' e' H']; try discriminate; cbn [B2BSN BinarySingleNaN.Bmult]; try (rewrite xorb_comm; reflexivity).
    apply BinarySingleNaN.B2SF_inj. rewrite !BinarySingleNaN.B2SF_SF2B. rewrite xorb_comm, (Pos.mul_comm m), (Z.add_comm e). reflexivity. }
  rewrite <- E. match type of E with ?r = _ => destruct r end; try reflexivity.
  exfalso. cbn [BSN2B] in F. rewrite is_finite_build_nan in F. discriminate.
Qed.

Lemma dot_product_commutes p q : vfinite p -> vfinite q -> fin (d_mul (dx p) (dx q)) = true -> fin (d_mul (dy p) (dy q)) = true -> fin (d_mul (dz p) (dz q)) = true ->
  dot_product_d p q = dot_product_d q p.
Proof.
  intros (A & B & C) (D & E & F) P1 P2 P3. unfold dot_product_d. rewrite (mul_commutes (dx p)), (mul_commutes (dy p)), (mul_commutes (dz p)) by assumption. reflexivity.
Qed.

(** ** The angle from a computed cosine *)

Lemma acos_asin_gap x y : -1 <= x <= 1 -> -1 <= y <= 1 -> acos x - acos y = - (asin x - asin y).
Proof. intros X Y. rewrite !acos_asin by assumption. ring. Qed.

Section Library.
Context (L : libm) (G : good_libm L).

(** The computed angle, if the computed cosine [q] is off by at most 2^-47 from [c]. *)
Lemma acos_result q c : dfinite q -> -1 <= c <= 1 -> Rabs (dval q - c) <= bpow radix2 (-47) ->
  (dfinite (m_acos L q) <-> -1 <= dval q <= 1) /\ sep_result (m_acos L q) c.
Proof.
  intros F C D. pose proof u53_pos as U0. pose proof u53_eq as Ue.
  assert (Dom : dfinite (m_acos L q) <-> -1 <= dval q <= 1).
  { split; [|intros B; apply (acos_good L G); split; assumption]. intros Fq.
    destruct (Rle_dec (-1) (dval q)) as [B1|B1]; [destruct (Rle_dec (dval q) 1) as [B2|B2]; [lra|]|];
      (exfalso; apply (acos_domain L G q); [intros [_ B]; lra|exact Fq]). }
  split; [exact Dom|]. split; [|split].
  - intros Fq. apply Dom in Fq. destruct (acos_good L G q (conj F Fq)) as [_ E].
    assert (Gp : Rabs (acos (dval q) - acos c) <= 3 * bpow radix2 (-23)).
    { rewrite acos_asin_gap, Rabs_Ropp by assumption. apply sq_le; [pose proof (bpow_gt_0 radix2 (-23)); lra|]. eapply Rle_trans; [apply (asin_close _ _ _ Fq C D)|].
      replace (3 * bpow radix2 (-23) * (3 * bpow radix2 (-23))) with (9 * bpow radix2 (-23 + -23)) by (rewrite bpow_plus; ring). change (-23 + -23)%Z with (-47 + 1)%Z. rewrite bpow_double. lra. }
    replace (dval (m_acos L q) - acos c) with ((dval (m_acos L q) - acos (dval q)) + (acos (dval q) - acos c)) by ring. eapply Rle_trans; [apply Rabs_triang|].
    assert (P : bpow radix2 (-51) <= bpow radix2 (-23)) by (apply bpow_le; lia). change (-21)%Z with (-23 + 1 + 1)%Z. rewrite !bpow_double. lra.
  - intros B. apply Dom. apply Rabs_le_inv in D, B. lra.
  - intros B. assert (I : -1 <= dval q <= 1) by (rewrite p47, Ue in D; apply Rabs_le_inv in D, B; lra). destruct (acos_good L G q (conj F I)) as [_ E].
    assert (Gp : Rabs (acos (dval q) - acos c) <= 8 * bpow radix2 (-47)).
    { rewrite acos_asin_gap, Rabs_Ropp by assumption. apply asin_close_mid; [|lra|exact D]. rewrite p47, Ue in D. apply Rabs_le_inv in D, B. apply Rabs_le. lra. }
    replace (dval (m_acos L q) - acos c) with ((dval (m_acos L q) - acos (dval q)) + (acos (dval q) - acos c)) by ring. eapply Rle_trans; [apply Rabs_triang|].
    rewrite p47 in Gp. rewrite p51 in E. rewrite p43. lra.
Qed.

(** ** Cartesian data *)

Lemma size_cauchy p q : rdot_size p q <= rlength p * rlength q.
Proof.
  destruct p as [x y z], q as [a b c]. unfold rdot_size, rlength. cbn [rx ry rz]. rewrite <- sqrt_mult by (apply sum3_pos || nra).
  rewrite <- (R_sqrt.sqrt_square (Rabs (x * a) + Rabs (y * b) + Rabs (z * c))) by (pose proof (Rabs_pos (x * a)); pose proof (Rabs_pos (y * b)); pose proof (Rabs_pos (z * c)); lra).
  apply sqrt_le_1_alt. rewrite !Rabs_mult.
  assert (S : forall t, t * t = Rabs t * Rabs t) by (intros t; rewrite <- Rabs_mult; symmetry; apply Rabs_pos_eq, Rle_0_sqr).
  rewrite (S x), (S y), (S z), (S a), (S b), (S c). generalize (Rabs x) (Rabs y) (Rabs z) (Rabs a) (Rabs b) (Rabs c). clear. intros x y z a b c.
  assert (0 <= (x * b - y * a) * (x * b - y * a)) by apply Rle_0_sqr. assert (0 <= (x * c - z * a) * (x * c - z * a)) by apply Rle_0_sqr.
  assert (0 <= (y * c - z * b) * (y * c - z * b)) by apply Rle_0_sqr. lra.
Qed.

Lemma dot_le_size p q : Rabs (rdot p q) <= rdot_size p q.
Proof.
  unfold rdot, rdot_size. eapply Rle_trans; [apply Rabs_triang|]. apply Rplus_le_compat_r. apply Rabs_triang.
Qed.

Lemma rcos_bound p q : ~ rnull p -> ~ rnull q -> -1 <= rcos p q <= 1.
Proof.
  intros P Q. apply not_null_length in P, Q. apply Rabs_le_inv. unfold rcos, Rdiv. rewrite Rabs_mult, Rabs_inv, (Rabs_pos_eq (rlength p * rlength q)) by nra.
  pose proof (dot_le_size p q). pose proof (size_cauchy p q). apply (Rmult_le_reg_r (rlength p * rlength q)); [nra|]. rewrite Rmult_assoc, Rinv_l by nra. lra.
Qed.

(** A quotient of a number that is off by [k] u53 times [m] and one that is relatively off by [c] u53. *)
Lemma quotient_abs D M d m k c : 0 < m -> 0 <= k <= 50 -> 0 <= c <= 50 -> Rabs d <= m -> Rabs (D - d) <= k * u53 * m -> rel c M m ->
  0 < M /\ Rabs (D / M - d / m) <= (k + c + / 1000) * u53 /\ Rabs (D / M) <= 2.
Proof.
  intros Pm K C Bd E R. destruct (rel_form c M m (proj1 C) R) as (e & -> & Be). pose proof u53_pos as U0. pose proof u53_eq as Ue.
  assert (Be' : Rabs e <= / 1000000) by (eapply Rle_trans; [exact Be|]; rewrite Ue; lra). apply Rabs_le_inv in Be'. assert (P1 : 0 < 1 + e) by lra.
  assert (PM : 0 < m * (1 + e)) by nra. split; [exact PM|].
  assert (I : Rabs (D / (m * (1 + e)) - d / m) <= (k + c + / 1000) * u53).
  { replace (D / (m * (1 + e)) - d / m) with (((D - d) - e * d) / (m * (1 + e))) by (field; split; lra).
    unfold Rdiv. rewrite Rabs_mult, Rabs_inv, (Rabs_pos_eq (m * (1 + e))) by lra.
    apply (Rmult_le_reg_r (m * (1 + e))); [exact PM|]. rewrite Rmult_assoc, Rinv_l by lra. rewrite Rmult_1_r.
    eapply Rle_trans; [apply Rabs_triang|]. rewrite Rabs_Ropp, (Rabs_mult e d).
    assert (X : Rabs e * Rabs d <= c * u53 * m) by (apply Rmult_le_compat; try apply Rabs_pos; assumption).
    assert (Y : (k + c) * u53 * m <= (k + c + / 1000) * u53 * (m * (1 + e))).
    { replace ((k + c + / 1000) * u53 * (m * (1 + e))) with (u53 * m * ((k + c + / 1000) * (1 + e))) by ring. replace ((k + c) * u53 * m) with (u53 * m * (k + c)) by ring.
      apply Rmult_le_compat_l; [apply Rlt_le, Rmult_lt_0_compat; assumption|]. nra. }
    lra. }
  split; [exact I|].
  assert (B1 : Rabs (d / m) <= 1).
  { unfold Rdiv. rewrite Rabs_mult, Rabs_inv, (Rabs_pos_eq m) by lra. apply (Rmult_le_reg_r m); [exact Pm|]. rewrite Rmult_assoc, Rinv_l by lra. lra. }
  replace (D / (m * (1 + e))) with ((D / (m * (1 + e)) - d / m) + d / m) by ring. eapply Rle_trans; [apply Rabs_triang|].
  assert ((k + c + / 1000) * u53 <= / 1000) by (rewrite Ue; lra). lra.
Qed.

Lemma quotient_double D M d m k c : fin D = true -> fin M = true -> 0 < m -> 0 <= k <= 35 -> 0 <= c <= 20 -> Rabs d <= m -> Rabs (val D - d) <= k * u53 * m -> rel c (val M) m ->
  fin (d_div D M) = true /\ Rabs (val (d_div D M) - d / m) <= bpow radix2 (-47).
Proof.
  intros FD FM Pm K C Bd E R. destruct (quotient_abs (val D) (val M) d m k c Pm ltac:(lra) ltac:(lra) Bd E R) as (PM & I & B).
  change 2 with (bpow radix2 1) in B. pose proof (rnd_bound _ 1 ltac:(lia) B) as B'. destruct (div_ok D M FD ltac:(lra) (fits 1 _ ltac:(lia) B')) as [F V]. split; [exact F|].
  pose proof (rnd_abs 1 _ ltac:(lia) B) as X. change (bpow radix2 (1 - 54)) with u53 in X. rewrite V.
  replace (rnd (val D / val M) - d / m) with ((rnd (val D / val M) - val D / val M) + (val D / val M - d / m)) by ring. eapply Rle_trans; [apply Rabs_triang|].
  rewrite p47. pose proof u53_pos. nra.
Qed.

Theorem cartesian_separation gy gz a b : cast_ok gy -> cast_ok gz -> vrange a -> vrange b -> ~ rnull (in_x gy gz a) -> ~ rnull (in_x gy gz b) ->
  sep_result (separation_d L gy gz a b) (rcos (in_x gy gz a) (in_x gy gz b)).
Proof.
  intros C D A B NA NB. destruct (dot_close gy gz gy gz a b C D C D A B) as [Fd Ed].
  destruct (magnitude_low gy gz a C D A NA) as (Fa & Ba & Ra). destruct (magnitude_low gy gz b C D B NB) as (Fb & Bb & Rb).
  pose proof (not_null_length _ NA) as Pa. pose proof (not_null_length _ NB) as Pb. pose proof (rcos_bound _ _ NA NB) as Cb.
  pose proof (size_cauchy (in_x gy gz a) (in_x gy gz b)) as S. pose proof (dot_le_size (in_x gy gz a) (in_x gy gz b)) as S'.
  unfold separation_d, rcos in *. set (p := in_x gy gz a) in *. set (q := in_x gy gz b) in *. set (ma := magnitude_d gy gz a) in *. set (mb := magnitude_d gy gz b) in *. set (dd := dot_d gy gz gy gz a b) in *.
  clearbody p q ma mb dd. unfold dfinite, dval in Fd, Ed.
  assert (Sa : sized 501 ma).
  { split; [exact Fa|]. right. pose proof (bpow_gt_0 radix2 (-500)). rewrite Rabs_pos_eq by lra. split; [|apply Ba]. eapply Rle_trans; [|apply Ba]. apply bpow_le. lia. }
  assert (Sb : sized 501 mb).
  { split; [exact Fb|]. right. pose proof (bpow_gt_0 radix2 (-500)). rewrite Rabs_pos_eq by lra. split; [|apply Bb]. eapply Rle_trans; [|apply Bb]. apply bpow_le. lia. }
  destruct (mul_sized 501 501 ma mb ltac:(lia) ltac:(lia) ltac:(lia) Sa Sb) as (Sm & _ & Rm). pose proof (sized_fin _ _ Sm) as Fm.
  assert (Rm' : rel (8 + 9 / 10) (val (d_mul ma mb)) (rlength p * rlength q)).
  { eapply rel_weaken; [|apply (rel_trans (3 + 9 / 10 + (3 + 9 / 10) + / 1000000) _ (val ma * val mb)); [lra|apply rel_mul; try assumption; lra|exact Rm]]. lra. }
  destruct (quotient_double dd (d_mul ma mb) (rdot p q) (rlength p * rlength q) 8 (8 + 9 / 10) Fd Fm ltac:(nra) ltac:(lra) ltac:(lra) ltac:(lra)) as [Fq Eq]; [|exact Rm'|].
  - eapply Rle_trans; [exact Ed|]. rewrite p50. apply Rmult_le_compat_l; [pose proof u53_pos; lra|exact S].
  - apply acos_result; assumption.
Qed.

Theorem cartesian_symmetric gy gz a b : cast_ok gy -> cast_ok gz -> vrange a -> vrange b -> separation_d L gy gz a b = separation_d L gy gz b a.
Proof.
  intros C D A B. destruct (in_x_parts gy gz a C D A) as (S1 & S2 & S3 & R1 & R2 & R3). destruct (in_x_parts gy gz b C D B) as (T1 & T2 & T3 & R1' & R2' & R3').
  pose proof (sized_fin _ _ (proj1 (mul_sized 500 500 _ _ ltac:(lia) ltac:(lia) ltac:(lia) S1 T1))) as M1.
  pose proof (sized_fin _ _ (proj1 (mul_sized 500 500 _ _ ltac:(lia) ltac:(lia) ltac:(lia) S2 T2))) as M2.
  pose proof (sized_fin _ _ (proj1 (mul_sized 500 500 _ _ ltac:(lia) ltac:(lia) ltac:(lia) S3 T3))) as M3.
  unfold separation_d, dot_d. rewrite (dot_product_commutes (in_x_d gy gz a)); try assumption; try (split; [|split]; eapply sized_fin; eassumption).
  rewrite (mul_commutes (magnitude_d gy gz a)); [reflexivity|apply (magnitude_close gy gz a C D A)|apply (magnitude_close gy gz b C D B)|].
  rewrite (magnitude_cast gy gz a), (magnitude_cast gy gz b).
  destruct (magnitude_val 500 (in_x_d gy gz a) ltac:(lia) (sized_bd 500 _ ltac:(lia) S1) (sized_bd 500 _ ltac:(lia) S2) (sized_bd 500 _ ltac:(lia) S3)) as (Fa & Ba & _).
  destruct (magnitude_val 500 (in_x_d gy gz b) ltac:(lia) (sized_bd 500 _ ltac:(lia) T1) (sized_bd 500 _ ltac:(lia) T2) (sized_bd 500 _ ltac:(lia) T3)) as (Fb & Bb & _).
  apply (mul_bd 501); [lia|split; [exact Fa|rewrite Rabs_pos_eq; apply Ba]|split; [exact Fb|rewrite Rabs_pos_eq; apply Bb]].
Qed.

(** ** Spherical data *)

(** A double off by at most [c] u53 [r] from [r] times [A], and not larger than [r]. *)
Definition sent (r c : R) (a : double) (A : R) : Prop := fin a = true /\ Rabs (val a) <= r /\ Rabs (val a - r * A) <= c * u53 * r /\ Rabs A <= 1.

Lemma tiny_le r k : (-1000 <= k)%Z -> bpow radix2 k <= r -> t1075 <= / 1000 * u53 * r.
Proof.
  intros K H. unfold t1075. apply Rle_trans with (/ 1000 * u53 * bpow radix2 (-1000)).
  - change (-1075)%Z with (-22 + (-53 + -1000))%Z. rewrite 2!bpow_plus. fold u53. replace (/ 1000 * u53 * bpow radix2 (-1000)) with (/ 1000 * (u53 * bpow radix2 (-1000))) by ring.
    apply Rmult_le_compat_r; [apply Rmult_le_pos; apply bpow_ge_0|]. change (bpow radix2 (-22)) with (/ 4194304). lra.
  - apply Rmult_le_compat_l; [pose proof u53_pos; lra|]. eapply Rle_trans; [|exact H]. apply bpow_le. exact K.
Qed.

Lemma sent_mul r c d a A b B : fmt r -> bpow radix2 (-500) <= r <= bpow radix2 500 -> sent r c a A -> ent d b B -> sent r (c + d + 11 / 10) (d_mul a b) (A * B).
Proof.
  intros Fr [Lr Ur] (Fa & Sa & Ea & Ba) (Ub & Eb & Bb). apply unit_abs in Ub. destruct Ub as [Fb Ub].
  assert (P : Rabs (val a * val b) <= r) by (rewrite Rabs_mult; pose proof (Rabs_pos (val a)); pose proof (Rabs_pos (val b)); nra).
  assert (R : Rabs (rnd (val a * val b)) <= r) by (apply abs_round_le_generic; [typeclasses eauto|typeclasses eauto|exact Fr|exact P]).
  destruct (mul_ok a b Fa Fb) as [F V]; [apply (fits 500); [lia|]; eapply Rle_trans; [exact R|exact Ur]|].
  split; [exact F|]. rewrite V. split; [exact R|]. split; [|apply product_le_1; assumption].
  pose proof (rnd_err (val a * val b)) as X. pose proof (tiny_le r (-500) ltac:(lia) Lr) as T. pose proof u53_pos as U0. pose proof (bpow_gt_0 radix2 (-500)).
  replace (rnd (val a * val b) - r * (A * B)) with ((rnd (val a * val b) - val a * val b) + (val b * (val a - r * A) + A * (r * (val b - B)))) by ring.
  eapply Rle_trans; [apply Rabs_triang|]. pose proof (Rabs_triang (val b * (val a - r * A)) (A * (r * (val b - B)))) as T1.
  pose proof (abs_le_mul _ _ _ Ub Ea) as T2. assert (T3 : Rabs (A * (r * (val b - B))) <= d * u53 * r).
  { apply abs_le_mul; [exact Ba|]. rewrite Rabs_mult, (Rabs_pos_eq r) by lra. rewrite (Rmult_comm r). apply Rmult_le_compat_r; [lra|exact Eb]. }
  assert (T4 : u53 * Rabs (val a * val b) <= u53 * r) by (apply Rmult_le_compat_l; lra). assert (0 < u53 * r) by (apply Rmult_lt_0_compat; lra). lra.
Qed.

Lemma sent_self x : fin x = true -> 0 <= val x -> sent (val x) 0 x 1.
Proof. intros F P. split; [exact F|]. split; [rewrite Rabs_pos_eq by lra; lra|]. split; [|rewrite Rabs_R1; lra]. rewrite Rmult_1_r, Rminus_diag_eq, Rabs_R0 by reflexivity. lra. Qed.

Lemma sent_weaken r c d a A : 0 <= r -> c <= d -> sent r c a A -> sent r d a A.
Proof.
  intros R K (F & S & E & B). split; [exact F|]. split; [exact S|]. split; [|exact B]. eapply Rle_trans; [exact E|]. apply Rmult_le_compat_r; [exact R|]. apply Rmult_le_compat_r; [left; apply u53_pos|exact K].
Qed.

Definition sent3 (r c : R) (a : dvec) (p : rvec) : Prop := sent r c (dx a) (rx p) /\ sent r c (dy a) (ry p) /\ sent r c (dz a) (rz p).

Lemma sent_eq r c a A B : A = B -> sent r c a A -> sent r c a B. Proof. intros <-. auto. Qed.

Lemma to_cartesian_sent s p : dfinite (s1 p) -> dfinite (s2 p) -> dfinite (s3 p) -> bpow radix2 (-500) <= dval (s3 p) <= bpow radix2 500 ->
  sent3 (dval (s3 p)) (42 / 10) (to_cartesian_d L s p) (sph_direction s (dval (s1 p)) (dval (s2 p))).
Proof.
  intros F1 F2 F3 B. pose proof (bpow_gt_0 radix2 (-500)) as P0. assert (P : 0 <= dval (s3 p)) by lra. pose proof (sent_self (s3 p) F3 P) as S. unfold dval in *.
  pose proof (val_fmt (s3 p)) as Fr. pose proof (ent_sin L G _ F1) as S1. pose proof (ent_cos L G _ F1) as C1. pose proof (ent_sin L G _ F2) as S2. pose proof (ent_cos L G _ F2) as C2.
  set (r := val (s3 p)) in *. clearbody r.
  pose proof (sent_mul r 0 1 _ _ _ _ Fr B S S2) as Qs. pose proof (sent_mul r 0 1 _ _ _ _ Fr B S C2) as Qc.
  destruct s; cbn [to_cartesian_d sph_direction]; unfold sent3; cbn [dx dy dz rx ry rz].
  - split; [|split].
    + eapply sent_eq; [|eapply sent_weaken; [exact P| |exact (sent_mul r _ 1 _ _ _ _ Fr B Qs C1)]]; [ring|lra].
    + eapply sent_eq; [|eapply sent_weaken; [exact P| |exact (sent_mul r _ 1 _ _ _ _ Fr B Qs S1)]]; [ring|lra].
    + eapply sent_eq; [|eapply sent_weaken; [exact P| |exact Qc]]; [ring|lra].
  - split; [|split].
    + eapply sent_eq; [|eapply sent_weaken; [exact P| |exact (sent_mul r _ 1 _ _ _ _ Fr B Qc C1)]]; [ring|lra].
    + eapply sent_eq; [|eapply sent_weaken; [exact P| |exact (sent_mul r _ 1 _ _ _ _ Fr B Qc S1)]]; [ring|lra].
    + eapply sent_eq; [|eapply sent_weaken; [exact P| |exact Qs]]; [ring|lra].
Qed.

(** The dot product of two such vectors. *)
Lemma prod_sent r t c d a A b B : bpow radix2 (-250) <= r <= bpow radix2 250 -> bpow radix2 (-250) <= t <= bpow radix2 250 -> sent r c a A -> sent t d b B ->
  fin (d_mul a b) = true /\ Rabs (val (d_mul a b)) <= (11 / 10) * (r * t) /\ Rabs (val (d_mul a b) - (r * t) * (A * B)) <= (c + d + 11 / 10) * u53 * (r * t).
Proof.
  intros [Lr Ur] [Lt Ut] (Fa & Sa & Ea & Ba) (Fb & Sb & Eb & Bb). pose proof (bpow_gt_0 radix2 (-250)) as P0.
  assert (L0 : bpow radix2 (-500) <= r * t) by (change (-500)%Z with (-250 + -250)%Z; rewrite bpow_plus; apply Rmult_le_compat; lra).
  assert (U1 : r * t <= bpow radix2 500) by (change 500%Z with (250 + 250)%Z; rewrite bpow_plus; apply Rmult_le_compat; lra).
  assert (P : Rabs (val a * val b) <= r * t) by (rewrite Rabs_mult; apply Rmult_le_compat; try apply Rabs_pos; assumption).
  pose proof (rnd_bound _ 500 ltac:(lia) (Rle_trans _ _ _ P U1)) as R. destruct (mul_ok a b Fa Fb (fits 500 _ ltac:(lia) R)) as [F V]. split; [exact F|]. rewrite V.
  pose proof (rnd_err (val a * val b)) as X. pose proof (tiny_le _ (-500) ltac:(lia) L0) as T. pose proof u53_pos as U0. pose proof u53_eq as Ue. pose proof (bpow_gt_0 radix2 (-500)) as P5.
  assert (T4 : u53 * Rabs (val a * val b) <= u53 * (r * t)) by (apply Rmult_le_compat_l; lra).
  assert (Z : Rabs (rnd (val a * val b) - val a * val b) <= (1 + / 1000) * u53 * (r * t)) by lra. split.
  - replace (rnd (val a * val b)) with ((rnd (val a * val b) - val a * val b) + val a * val b) by ring. eapply Rle_trans; [apply Rabs_triang|].
    assert ((1 + / 1000) * u53 * (r * t) <= / 10 * (r * t)) by (apply Rmult_le_compat_r; [lra|rewrite Ue; lra]). lra.
  - replace (rnd (val a * val b) - r * t * (A * B)) with ((rnd (val a * val b) - val a * val b) + (val b * (val a - r * A) + r * A * (val b - t * B))) by ring.
    eapply Rle_trans; [apply Rabs_triang|]. pose proof (Rabs_triang (val b * (val a - r * A)) (r * A * (val b - t * B))) as T1.
    assert (T2 : Rabs (val b * (val a - r * A)) <= c * u53 * (r * t)) by (rewrite Rabs_mult; replace (c * u53 * (r * t)) with (t * (c * u53 * r)) by ring; apply Rmult_le_compat; try apply Rabs_pos; assumption).
    assert (T3 : Rabs (r * A * (val b - t * B)) <= d * u53 * (r * t)).
    { replace (r * A * (val b - t * B)) with (A * (r * (val b - t * B))) by ring. apply abs_le_mul; [exact Ba|]. rewrite Rabs_mult, (Rabs_pos_eq r) by lra.
      replace (d * u53 * (r * t)) with (r * (d * u53 * t)) by ring. apply Rmult_le_compat_l; [lra|exact Eb]. }
    assert (0 < u53 * (r * t)) by (apply Rmult_lt_0_compat; lra). lra.
Qed.

Lemma dot_sent r t c d a p b q : 0 <= c <= 5 -> 0 <= d <= 5 -> bpow radix2 (-250) <= r <= bpow radix2 250 -> bpow radix2 (-250) <= t <= bpow radix2 250 -> sent3 r c a p -> sent3 t d b q ->
  fin (dot_product_d a b) = true /\ Rabs (val (dot_product_d a b) - r * t * rdot p q) <= (3 * (c + d + 11 / 10) + 6) * u53 * (r * t).
Proof.
  intros C D Hr Ht (A0 & A1 & A2) (B0 & B1 & B2). unfold dot_product_d, rdot.
  destruct (prod_sent r t c d _ _ _ _ Hr Ht A0 B0) as (F0 & S0 & E0). destruct (prod_sent r t c d _ _ _ _ Hr Ht A1 B1) as (F1 & S1 & E1). destruct (prod_sent r t c d _ _ _ _ Hr Ht A2 B2) as (F2 & S2 & E2).
  set (p0 := d_mul (dx a) (dx b)) in *. set (p1 := d_mul (dy a) (dy b)) in *. set (p2 := d_mul (dz a) (dz b)) in *. clearbody p0 p1 p2.
  pose proof (bpow_gt_0 radix2 (-250)) as P0. assert (RT : 0 < r * t) by (apply Rmult_lt_0_compat; lra).
  assert (U1 : r * t <= bpow radix2 500) by (change 500%Z with (250 + 250)%Z; rewrite bpow_plus; apply Rmult_le_compat; lra).
  pose proof u53_pos as U0. pose proof u53_eq as Ue. pose proof (bpow_gt_0 radix2 500) as P5.
  pose proof (add_rel p1 p2) as X1. unfold rel in X1. rewrite Rmult_1_l in X1. pose proof (Rabs_triang (val p1) (val p2)) as T1.
  assert (B1' : Rabs (val p1 + val p2) <= bpow radix2 502) by (change 502%Z with (500 + 1 + 1)%Z; rewrite !bpow_double; lra).
  pose proof (rnd_bound _ 502 ltac:(lia) B1') as Q1. destruct (add_ok p1 p2 F1 F2 (fits 502 _ ltac:(lia) Q1)) as [Fs Vs]. rewrite <- Vs in X1, Q1. set (w := d_add p1 p2) in *. clearbody w.
  assert (X1' : Rabs (val w - (val p1 + val p2)) <= u53 * (22 / 10 * (r * t))) by (eapply Rle_trans; [exact X1|apply Rmult_le_compat_l; lra]).
  assert (Sw : Rabs (val w) <= 23 / 10 * (r * t)).
  { replace (val w) with ((val w - (val p1 + val p2)) + (val p1 + val p2)) by ring. eapply Rle_trans; [apply Rabs_triang|]. assert (u53 * (22 / 10 * (r * t)) <= / 10 * (r * t)) by (rewrite Ue; lra). lra. }
  pose proof (add_rel p0 w) as X2. unfold rel in X2. rewrite Rmult_1_l in X2. pose proof (Rabs_triang (val p0) (val w)) as T2.
  assert (B2' : Rabs (val p0 + val w) <= bpow radix2 502) by (change 502%Z with (500 + 1 + 1)%Z; rewrite !bpow_double; lra).
  pose proof (rnd_bound _ 502 ltac:(lia) B2') as Q2. destruct (add_ok p0 w F0 Fs (fits 502 _ ltac:(lia) Q2)) as [Fd Vd]. rewrite <- Vd in X2. set (v := d_add p0 w) in *. clearbody v. split; [exact Fd|].
  assert (X2' : Rabs (val v - (val p0 + val w)) <= u53 * (34 / 10 * (r * t))) by (eapply Rle_trans; [exact X2|apply Rmult_le_compat_l; lra]).
  replace (val v - r * t * (rx p * rx q + ry p * ry q + rz p * rz q)) with
    ((val v - (val p0 + val w)) + ((val w - (val p1 + val p2)) + ((val p0 - r * t * (rx p * rx q)) + ((val p1 - r * t * (ry p * ry q)) + (val p2 - r * t * (rz p * rz q)))))) by ring.
  eapply Rle_trans; [apply Rabs_triang|].
  pose proof (Rabs_triang (val w - (val p1 + val p2)) ((val p0 - r * t * (rx p * rx q)) + ((val p1 - r * t * (ry p * ry q)) + (val p2 - r * t * (rz p * rz q))))) as T3.
  pose proof (Rabs_triang (val p0 - r * t * (rx p * rx q)) ((val p1 - r * t * (ry p * ry q)) + (val p2 - r * t * (rz p * rz q)))) as T4.
  pose proof (Rabs_triang (val p1 - r * t * (ry p * ry q)) (val p2 - r * t * (rz p * rz q))) as T5. assert (0 < u53 * (r * t)) by (apply Rmult_lt_0_compat; lra). lra.
Qed.

Lemma sph_unit s a b : runit (sph_direction s a b).
Proof.
  unfold runit. pose proof (sin2_cos2 a) as A. pose proof (sin2_cos2 b) as B. unfold Rsqr in *. destruct s; cbn [sph_direction rx ry rz].
  - replace (sin b * cos a * (sin b * cos a) + sin b * sin a * (sin b * sin a) + cos b * cos b) with ((sin a * sin a + cos a * cos a) * (sin b * sin b) + cos b * cos b) by ring. rewrite A. lra.
  - replace (cos b * cos a * (cos b * cos a) + cos b * sin a * (cos b * sin a) + sin b * sin b) with ((sin a * sin a + cos a * cos a) * (cos b * cos b) + sin b * sin b) by ring. rewrite A. lra.
Qed.

Lemma unit_dot p q : runit p -> runit q -> -1 <= rdot p q <= 1.
Proof.
  unfold runit, rdot. destruct p as [x y z], q as [a b c]. cbn [rx ry rz]. intros P Q.
  pose proof (Rle_0_sqr (x - a)) as A1. pose proof (Rle_0_sqr (y - b)) as A2. pose proof (Rle_0_sqr (z - c)) as A3.
  pose proof (Rle_0_sqr (x + a)) as B1. pose proof (Rle_0_sqr (y + b)) as B2. pose proof (Rle_0_sqr (z + c)) as B3. unfold Rsqr in *. lra.
Qed.

Lemma ok_range p : sph_ok p -> dfinite (s1 p) /\ dfinite (s2 p) /\ dfinite (s3 p) /\ bpow radix2 (-250) <= dval (s3 p) <= bpow radix2 250.
Proof.
  intros (F1 & F2 & F3 & B1 & B2). split; [exact F1|]. split; [exact F2|]. split; [exact F3|].
  split; [eapply Rle_trans; [|exact B1]; apply bpow_le; lia|eapply Rle_trans; [exact B2|]; apply bpow_le; lia].
Qed.

Lemma wider r : bpow radix2 (-250) <= r <= bpow radix2 250 -> bpow radix2 (-500) <= r <= bpow radix2 500.
Proof. intros [A B]. split; [eapply Rle_trans; [|exact A]; apply bpow_le; lia|eapply Rle_trans; [exact B|]; apply bpow_le; lia]. Qed.

Theorem sky_separation s p q : sph_ok p -> sph_ok q ->
  sep_result (sky_separation_d L s p q) (rdot (sph_direction s (dval (s1 p)) (dval (s2 p))) (sph_direction s (dval (s1 q)) (dval (s2 q)))).
Proof.
  intros P Q. apply ok_range in P, Q. destruct P as (P1 & P2 & P3 & Bp), Q as (Q1 & Q2 & Q3 & Bq).
  pose proof (to_cartesian_sent s p P1 P2 P3 (wider _ Bp)) as Sp. pose proof (to_cartesian_sent s q Q1 Q2 Q3 (wider _ Bq)) as Sq.
  pose proof (unit_dot _ _ (sph_unit s (dval (s1 p)) (dval (s2 p))) (sph_unit s (dval (s1 q)) (dval (s2 q)))) as Cb.
  unfold sky_separation_d. set (d := sph_direction s (dval (s1 p)) (dval (s2 p))) in *. set (e := sph_direction s (dval (s1 q)) (dval (s2 q))) in *. clearbody d e.
  destruct (dot_sent _ _ (42 / 10) (42 / 10) _ _ _ _ ltac:(lra) ltac:(lra) Bp Bq Sp Sq) as [Fd Ed]. unfold dval in *.
  set (dd := dot_product_d (to_cartesian_d L s p) (to_cartesian_d L s q)) in *. clearbody dd. clear Sp Sq.
  pose proof (bpow_gt_0 radix2 (-250)) as P0. assert (RT : 0 < val (s3 p) * val (s3 q)) by (apply Rmult_lt_0_compat; lra).
  assert (Sa : sized 250 (s3 p)) by (split; [exact P3|right; rewrite Rabs_pos_eq by lra; exact Bp]). assert (Sb : sized 250 (s3 q)) by (split; [exact Q3|right; rewrite Rabs_pos_eq by lra; exact Bq]).
  destruct (mul_sized 250 250 (s3 p) (s3 q) ltac:(lia) ltac:(lia) ltac:(lia) Sa Sb) as (Sm & _ & Rm). pose proof (sized_fin _ _ Sm) as Fm.
  assert (Cb' : Rabs (val (s3 p) * val (s3 q) * rdot d e) <= val (s3 p) * val (s3 q)).
  { rewrite Rabs_mult, (Rabs_pos_eq (val (s3 p) * val (s3 q))) by lra. apply Rabs_le in Cb. pose proof (Rabs_pos (rdot d e)). nra. }
  destruct (quotient_double dd (d_mul (s3 p) (s3 q)) (val (s3 p) * val (s3 q) * rdot d e) (val (s3 p) * val (s3 q)) (3 * (42 / 10 + 42 / 10 + 11 / 10) + 6) 1 Fd Fm RT ltac:(lra) ltac:(lra) Cb' Ed Rm) as [Fq Eq].
  replace (val (s3 p) * val (s3 q) * rdot d e / (val (s3 p) * val (s3 q))) with (rdot d e) in Eq by (field; split; lra).
  apply acos_result; [exact Fq|exact Cb|exact Eq].
Qed.

Theorem sky_symmetric s p q : sph_ok p -> sph_ok q -> sky_separation_d L s p q = sky_separation_d L s q p.
Proof.
  intros P Q. apply ok_range in P, Q. destruct P as (P1 & P2 & P3 & Bp), Q as (Q1 & Q2 & Q3 & Bq).
  destruct (to_cartesian_sent s p P1 P2 P3 (wider _ Bp)) as (Ap & Bp' & Cp). destruct (to_cartesian_sent s q Q1 Q2 Q3 (wider _ Bq)) as (Aq & Bq' & Cq).
  pose proof (proj1 (prod_sent _ _ _ _ _ _ _ _ Bp Bq Ap Aq)) as M1. pose proof (proj1 (prod_sent _ _ _ _ _ _ _ _ Bp Bq Bp' Bq')) as M2. pose proof (proj1 (prod_sent _ _ _ _ _ _ _ _ Bp Bq Cp Cq)) as M3.
  pose proof (bpow_gt_0 radix2 (-250)) as P0. unfold dval in *.
  assert (Sa : sized 250 (s3 p)) by (split; [exact P3|right; rewrite Rabs_pos_eq by lra; exact Bp]). assert (Sb : sized 250 (s3 q)) by (split; [exact Q3|right; rewrite Rabs_pos_eq by lra; exact Bq]).
  pose proof (sized_fin _ _ (proj1 (mul_sized 250 250 (s3 p) (s3 q) ltac:(lia) ltac:(lia) ltac:(lia) Sa Sb))) as M.
  unfold sky_separation_d. rewrite (dot_product_commutes (to_cartesian_d L s p)); try assumption; [|split; [apply Ap|split; [apply Bp'|apply Cp]]|split; [apply Aq|split; [apply Bq'|apply Cq]]].
  rewrite (mul_commutes (s3 p)) by assumption. reflexivity.
Qed.

End Library.
