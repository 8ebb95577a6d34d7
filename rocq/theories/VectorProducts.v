(** * Dot and cross product in doubles. *)
From Coq Require Import ZArith Reals Lia Lra Psatz.
From Flocq Require Import Core Relative IEEE754.BinarySingleNaN IEEE754.Binary IEEE754.Bits.
From Verif Require Import TextModel TextSpec TextRound TextScan TextFloat TextProofs TextLaws TextRead TextCard DoubleModel DoubleSpec DoubleProofs DoubleUnits VectorModel VectorSpec VectorProofs VectorArith.
Local Open Scope R_scope.

#[local] Instance prec53 : Prec_gt_0 53 := eq_refl.
#[local] Existing Instance near.

Definition bd (k : Z) (x : double) : Prop := fin x = true /\ Rabs (val x) <= bpow radix2 k.

Lemma mul_bd k x y : (0 <= k <= 505)%Z -> bd k x -> bd k y -> bd (k + k) (d_mul x y) /\ val (d_mul x y) = rnd (val x * val y).
Proof.
  intros K [X Bx] [Y By]. assert (U : Rabs (rnd (val x * val y)) <= bpow radix2 (k + k)).
  { apply rnd_bound; [lia|]. rewrite Rabs_mult, bpow_plus. apply Rmult_le_compat; auto using Rabs_pos. }
  destruct (mul_ok x y X Y) as [F V]; [apply (fits (k + k)); [lia|exact U]|]. split; [split; [exact F|rewrite V; exact U]|exact V].
Qed.
Lemma add_bd k x y : (0 <= k < 1020)%Z -> bd k x -> bd k y -> bd (k + 1) (d_add x y) /\ val (d_add x y) = rnd (val x + val y).
Proof. intros K [X Bx] [Y By]. destruct (add_bounded k x y K X Y Bx By) as (F & V & U). split; [split; assumption|exact V]. Qed.
Lemma sub_bd k x y : (0 <= k < 1020)%Z -> bd k x -> bd k y -> bd (k + 1) (d_sub x y) /\ val (d_sub x y) = rnd (val x - val y).
Proof. intros K [X Bx] [Y By]. destruct (sub_bounded k x y K X Y Bx By) as (F & V & U). split; [split; assumption|exact V]. Qed.
Lemma bd_weaken k l x : (k <= l)%Z -> bd k x -> bd l x.
Proof. intros L [F B]. split; [exact F|]. eapply Rle_trans; [exact B|]. apply bpow_le, L. Qed.
Lemma sized_bd k x : (0 <= k)%Z -> sized k x -> bd k x.
Proof. intros K S. split; [exact (sized_fin _ _ S)|exact (sized_le _ _ K S)]. Qed.

(** ** Dot product *)

Lemma dot_val p q : vbounded p -> vbounded q ->
  fin (dot_product_d p q) = true /\
  val (dot_product_d p q) = rnd (rnd (val (dx p) * val (dx q)) + rnd (rnd (val (dy p) * val (dy q)) + rnd (val (dz p) * val (dz q)))).
Proof.
  intros (P1 & P2 & P3) (Q1 & Q2 & Q3). unfold dot_product_d.
  destruct (mul_bd 500 _ _ ltac:(lia) P1 Q1) as [M1 V1]. destruct (mul_bd 500 _ _ ltac:(lia) P2 Q2) as [M2 V2]. destruct (mul_bd 500 _ _ ltac:(lia) P3 Q3) as [M3 V3].
  destruct (add_bd (500 + 500) _ _ ltac:(lia) M2 M3) as [A W]. apply (bd_weaken (500 + 500) (500 + 500 + 1) _ ltac:(lia)) in M1.
  destruct (add_bd (500 + 500 + 1) _ _ ltac:(lia) M1 A) as [B W2]. split; [exact (proj1 B)|]. rewrite W2, W, V1, V2, V3. reflexivity.
Qed.

Theorem dot_commutes p q : vbounded p -> vbounded q ->
  dfinite (dot_d None None None None p q) /\ dfinite (dot_d None None None None q p) /\ dval (dot_d None None None None p q) = dval (dot_d None None None None q p).
Proof.
  intros P Q. destruct p as [p1 p2 p3], q as [q1 q2 q3]. destruct (dot_val _ _ P Q) as [F V]. destruct (dot_val _ _ Q P) as [F' V'].
  unfold dot_d, in_x_d. cbn [dx dy dz cast] in *. split; [exact F|]. split; [exact F'|]. unfold dval. rewrite V, V'. f_equal. f_equal; [|f_equal; f_equal]; f_equal; ring.
Qed.

Lemma rnd_pos y : 0 <= y -> 0 <= rnd y.
Proof. intros H. rewrite <- (nearest_0 b64). apply nearest_le; [exact std64|exact H]. Qed.

Theorem dot_self p : vbounded p -> 0 <= dval (dot_d None None None None p p).
Proof.
  intros P. destruct p as [p1 p2 p3]. destruct (dot_val _ _ P P) as [F V]. unfold dot_d, in_x_d, dval. cbn [dx dy dz cast] in *. rewrite V.
  pose proof (rnd_pos _ (Rle_0_sqr (val p1))) as S1. pose proof (rnd_pos _ (Rle_0_sqr (val p2))) as S2. pose proof (rnd_pos _ (Rle_0_sqr (val p3))) as S3. unfold Rsqr in *.
  apply rnd_pos, Rplus_le_le_0_compat; [exact S1|]. apply rnd_pos, Rplus_le_le_0_compat; assumption.
Qed.

(** Vectors in a coordinate plane (one of them suffices) that are perpendicular. *)
Theorem dot_plane p q : vbounded p -> vbounded q ->
  dval (dx p) * dval (dx q) = 0 \/ dval (dy p) * dval (dy q) = 0 \/ dval (dz p) * dval (dz q) = 0 ->
  rdot (vval p) (vval q) = 0 -> dval (dot_d None None None None p q) = 0.
Proof.
  intros P Q H Z. destruct p as [p1 p2 p3], q as [q1 q2 q3]. destruct (dot_val _ _ P Q) as [F V]. unfold dot_d, in_x_d, dval in *. cbn [dx dy dz cast] in *. rewrite V.
  unfold rdot, vval, dval in Z. cbn [dx dy dz rx ry rz] in Z.
  set (a := val p1 * val q1) in *. set (b := val p2 * val q2) in *. set (c := val p3 * val q3) in *. clearbody a b c. clear -H Z.
  assert (I : forall r, rnd (rnd r) = rnd r) by (intros r; apply rnd_id, rnd_fmt).
  destruct H as [H | [H | H]]; rewrite H in *.
  - replace c with (- b) by lra. rewrite (nearest_opp b64 b), Rplus_opp_r, !nearest_0, Rplus_0_r. apply nearest_0.
  - replace c with (- a) by lra. rewrite nearest_0, Rplus_0_l, I, (nearest_opp b64 a), Rplus_opp_r. apply nearest_0.
  - replace b with (- a) by lra. rewrite nearest_0, Rplus_0_r, I, (nearest_opp b64 a), Rplus_opp_r. apply nearest_0.
Qed.

Lemma factor_sized c : factor_ok c -> sized 250 c.
Proof.
  intros [Fc Bc]. split; [exact Fc|]. right. unfold dval in Bc. rewrite Rabs_pos_eq; [exact Bc|]. pose proof (bpow_gt_0 radix2 (-250)). lra.
Qed.

(** Three terms and two rounded additions. *)
Lemma three_terms a b c a0 b0 c0 s d k : 0 <= k <= 10 -> rel k a a0 -> rel k b b0 -> rel k c c0 -> rel 1 s (b + c) -> rel 1 d (a + s) ->
  Rabs (d - (a0 + b0 + c0)) <= (k + 2 + / 1000) * u53 * (Rabs a0 + Rabs b0 + Rabs c0).
Proof.
  unfold rel. intros K A B C S D.
  replace (d - (a0 + b0 + c0)) with ((d - (a + s)) + ((s - (b + c)) + ((a - a0) + ((b - b0) + (c - c0))))) by ring.
  pose proof (Rabs_triang (d - (a + s)) ((s - (b + c)) + ((a - a0) + ((b - b0) + (c - c0))))) as T1.
  pose proof (Rabs_triang (s - (b + c)) ((a - a0) + ((b - b0) + (c - c0)))) as T2.
  pose proof (Rabs_triang (a - a0) ((b - b0) + (c - c0))) as T3. pose proof (Rabs_triang (b - b0) (c - c0)) as T4.
  pose proof (Rabs_triang a s) as T5. pose proof (Rabs_triang b c) as T6.
  pose proof (Rabs_triang (a - a0) a0) as T7. replace (a - a0 + a0) with a in T7 by ring.
  pose proof (Rabs_triang (b - b0) b0) as T8. replace (b - b0 + b0) with b in T8 by ring.
  pose proof (Rabs_triang (c - c0) c0) as T9. replace (c - c0 + c0) with c in T9 by ring.
  pose proof (Rabs_triang (s - (b + c)) (b + c)) as T10. replace (s - (b + c) + (b + c)) with s in T10 by ring.
  pose proof (Rabs_pos a0). pose proof (Rabs_pos b0). pose proof (Rabs_pos c0). rewrite u53_eq in *.
  set (n := / 9007199254740992) in *.
  assert (KA : k * n * Rabs a0 <= 10 * n * Rabs a0) by (apply Rmult_le_compat_r; [assumption|unfold n; lra]).
  assert (KB : k * n * Rabs b0 <= 10 * n * Rabs b0) by (apply Rmult_le_compat_r; [assumption|unfold n; lra]).
  assert (KC : k * n * Rabs c0 <= 10 * n * Rabs c0) by (apply Rmult_le_compat_r; [assumption|unfold n; lra]).
  replace ((k + 2 + / 1000) * n * (Rabs a0 + Rabs b0 + Rabs c0)) with
    (k * n * Rabs a0 + k * n * Rabs b0 + k * n * Rabs c0 + (2 + / 1000) * n * (Rabs a0 + Rabs b0 + Rabs c0)) by ring.
  set (ka := k * n * Rabs a0) in *. set (kb := k * n * Rabs b0) in *. set (kc := k * n * Rabs c0) in *. clearbody ka kb kc. unfold n in *. lra.
Qed.

Lemma two_terms a b a0 b0 d k : 0 <= k <= 10 -> rel k a a0 -> rel k b b0 -> rel 1 d (a - b) ->
  Rabs (d - (a0 - b0)) <= (k + 1 + / 1000) * u53 * (Rabs a0 + Rabs b0).
Proof.
  unfold rel. intros K A B D.
  replace (d - (a0 - b0)) with ((d - (a - b)) + ((a - a0) + - (b - b0))) by ring.
  pose proof (Rabs_triang (d - (a - b)) ((a - a0) + - (b - b0))) as T1.
  pose proof (Rabs_triang (a - a0) (- (b - b0))) as T3. rewrite Rabs_Ropp in T3.
  pose proof (Rabs_triang a (- b)) as T6. rewrite Rabs_Ropp in T6. change (a + - b) with (a - b) in T6.
  pose proof (Rabs_triang (a - a0) a0) as T7. replace (a - a0 + a0) with a in T7 by ring.
  pose proof (Rabs_triang (b - b0) b0) as T8. replace (b - b0 + b0) with b in T8 by ring.
  pose proof (Rabs_pos a0). pose proof (Rabs_pos b0). rewrite u53_eq in *.
  set (n := / 9007199254740992) in *.
  assert (KA : k * n * Rabs a0 <= 10 * n * Rabs a0) by (apply Rmult_le_compat_r; [assumption|unfold n; lra]).
  assert (KB : k * n * Rabs b0 <= 10 * n * Rabs b0) by (apply Rmult_le_compat_r; [assumption|unfold n; lra]).
  replace ((k + 1 + / 1000) * n * (Rabs a0 + Rabs b0)) with (k * n * Rabs a0 + k * n * Rabs b0 + (1 + / 1000) * n * (Rabs a0 + Rabs b0)) by ring.
  set (ka := k * n * Rabs a0) in *. set (kb := k * n * Rabs b0) in *. clearbody ka kb. unfold n in *. lra.
Qed.

Lemma mul_rel k l x y x0 y0 c d : (0 <= k)%Z -> (0 <= l)%Z -> (k + l <= 1020)%Z -> sized k x -> sized l y -> 0 <= c <= 10 -> 0 <= d <= 10 ->
  rel c (val x) x0 -> rel d (val y) y0 -> sized (k + l) (d_mul x y) /\ rel (c + d + 1 + / 1000) (val (d_mul x y)) (x0 * y0).
Proof.
  intros K L M X Y C D Rx Ry. destruct (mul_sized k l x y K L M X Y) as (S & V & R). split; [exact S|].
  pose proof (rel_mul c d _ _ _ _ ltac:(lra) ltac:(lra) Rx Ry) as P. rewrite V.
  apply (rel_weaken (c + d + / 1000000 + 1 + / 1000000)); [lra|]. apply rel_round; [lra|exact P|].
  destruct X as [_ [X|X]]; [left; rewrite X; ring|]. destruct Y as [_ [Y|Y]]; [left; rewrite Y; ring|]. right.
  rewrite Rabs_mult. apply Rle_trans with (bpow radix2 (- k) * bpow radix2 (- l)).
  - rewrite <- bpow_plus. apply bpow_le. lia.
  - apply Rmult_le_compat; try apply bpow_ge_0; [apply X|apply Y].
Qed.

Lemma in_x_parts gy gz a : cast_ok gy -> cast_ok gz -> vrange a ->
  sized 500 (dx (in_x_d gy gz a)) /\ sized 500 (dy (in_x_d gy gz a)) /\ sized 500 (dz (in_x_d gy gz a)) /\
  rel 1 (val (dx (in_x_d gy gz a))) (rx (in_x gy gz a)) /\ rel 1 (val (dy (in_x_d gy gz a))) (ry (in_x gy gz a)) /\ rel 1 (val (dz (in_x_d gy gz a))) (rz (in_x gy gz a)).
Proof.
  intros G H (A1 & A2 & A3). cbn [in_x_d dx dy dz in_x rx ry rz].
  destruct (cast_sized gy _ G A2) as [S2 R2]. destruct (cast_sized gz _ H A3) as [S3 R3].
  split; [apply (sized_weaken 250); [lia|exact A1]|]. split; [exact S2|]. split; [exact S3|]. split; [|split; assumption].
  apply (rel_weaken 0); [lra|apply rel_refl].
Qed.

Theorem dot_close gy gz hy hz a b : cast_ok gy -> cast_ok gz -> cast_ok hy -> cast_ok hz -> vrange a -> vrange b ->
  dfinite (dot_d gy gz hy hz a b) /\
  Rabs (dval (dot_d gy gz hy hz a b) - rdot (in_x gy gz a) (in_x hy hz b)) <= bpow radix2 (-50) * rdot_size (in_x gy gz a) (in_x hy hz b).
Proof.
  intros G1 G2 H1 H2 A B. destruct (in_x_parts gy gz a G1 G2 A) as (X1 & X2 & X3 & RX1 & RX2 & RX3). destruct (in_x_parts hy hz b H1 H2 B) as (Y1 & Y2 & Y3 & RY1 & RY2 & RY3).
  unfold dot_d, dot_product_d, rdot, rdot_size. set (p := in_x_d gy gz a) in *. set (q := in_x_d hy hz b) in *. set (p0 := in_x gy gz a) in *. set (q0 := in_x hy hz b) in *.
  destruct (mul_rel 500 500 _ _ _ _ 1 1 ltac:(lia) ltac:(lia) ltac:(lia) X1 Y1 ltac:(lra) ltac:(lra) RX1 RY1) as [S1 R1].
  destruct (mul_rel 500 500 _ _ _ _ 1 1 ltac:(lia) ltac:(lia) ltac:(lia) X2 Y2 ltac:(lra) ltac:(lra) RX2 RY2) as [S2 R2].
  destruct (mul_rel 500 500 _ _ _ _ 1 1 ltac:(lia) ltac:(lia) ltac:(lia) X3 Y3 ltac:(lra) ltac:(lra) RX3 RY3) as [S3 R3].
  apply (sized_bd (500 + 500)) in S1; [|lia]. apply (sized_bd (500 + 500)) in S2; [|lia]. apply (sized_bd (500 + 500)) in S3; [|lia].
  destruct (add_bd (500 + 500) _ _ ltac:(lia) S2 S3) as [A1 W1]. apply (bd_weaken (500 + 500) (500 + 500 + 1) _ ltac:(lia)) in S1.
  destruct (add_bd (500 + 500 + 1) _ _ ltac:(lia) S1 A1) as [A2 W2]. split; [exact (proj1 A2)|].
  pose proof (add_rel (d_mul (dy p) (dy q)) (d_mul (dz p) (dz q))) as E1. rewrite <- W1 in E1.
  pose proof (add_rel (d_mul (dx p) (dx q)) (d_add (d_mul (dy p) (dy q)) (d_mul (dz p) (dz q)))) as E2. rewrite <- W2 in E2.
  unfold dval. eapply Rle_trans; [apply (three_terms _ _ _ _ _ _ _ _ (1 + 1 + 1 + / 1000) ltac:(lra) R1 R2 R3 E1 E2)|].
  apply Rmult_le_compat_r; [pose proof (Rabs_pos (rx p0 * rx q0)); pose proof (Rabs_pos (ry p0 * ry q0)); pose proof (Rabs_pos (rz p0 * rz q0)); lra|].
  change (bpow radix2 (-50)) with (/ 1125899906842624). rewrite u53_eq. lra.
Qed.

(** ** Cross product *)

Lemma times_one x : fin x = true -> fin (d_mul x (d_of_Z 1)) = true /\ val (d_mul x (d_of_Z 1)) = val x.
Proof.
  intros F. destruct one_ok as [F1 V1]. destruct (mul_ok x (d_of_Z 1) F F1) as [G V]; rewrite V1, Rmult_1_r, rnd_id in * by apply val_fmt; [apply val_below, F|auto].
Qed.
Lemma times_one_bd k x : bd k x -> bd k (d_mul x (d_of_Z 1)) /\ val (d_mul x (d_of_Z 1)) = val x.
Proof. intros [F B]. destruct (times_one x F) as [G V]. split; [split; [exact G|rewrite V; exact B]|exact V]. Qed.

Lemma minor_val y z y' z' : bd 500 y -> bd 500 z -> bd 500 y' -> bd 500 z' ->
  let d := d_sub (d_mul y z') (d_mul (d_mul z (d_of_Z 1)) (d_mul y' (d_of_Z 1))) in
  fin d = true /\ val d = rnd (rnd (val y * val z') - rnd (val z * val y')).
Proof.
  intros Y Z Y' Z' d. destruct (times_one_bd _ _ Z) as [Z1 Vz]. destruct (times_one_bd _ _ Y') as [Y1 Vy].
  destruct (mul_bd 500 _ _ ltac:(lia) Y Z') as [M1 V1]. destruct (mul_bd 500 _ _ ltac:(lia) Z1 Y1) as [M2 V2].
  destruct (sub_bd (500 + 500) _ _ ltac:(lia) M1 M2) as [M3 V3]. split; [exact (proj1 M3)|]. unfold d. rewrite V3, V1, V2, Vz, Vy. reflexivity.
Qed.

Lemma cross_val a b : vbounded a -> vbounded b -> vfinite (cross_d no_factors a b) /\
  val (dx (cross_d no_factors a b)) = rnd (rnd (val (dy a) * val (dz b)) - rnd (val (dz a) * val (dy b))) /\
  val (dy (cross_d no_factors a b)) = rnd (rnd (val (dz a) * val (dx b)) - rnd (val (dx a) * val (dz b))) /\
  val (dz (cross_d no_factors a b)) = rnd (rnd (val (dx a) * val (dy b)) - rnd (val (dy a) * val (dx b))).
Proof.
  intros (A1 & A2 & A3) (B1 & B2 & B3). unfold cross_d, no_factors. cbn [dx dy dz a32 b23 a13 b31 a21 b12].
  destruct (minor_val _ _ _ _ A2 A3 B2 B3) as [F1 V1]. destruct (minor_val _ _ _ _ A3 A1 B3 B1) as [F2 V2]. destruct (minor_val _ _ _ _ A1 A2 B1 B2) as [F3 V3].
  split; [split; [exact F1|split; [exact F2|exact F3]]|]. split; [exact V1|]. split; [exact V2|exact V3].
Qed.

Theorem cross_parallel a b : vbounded a -> vbounded b -> parallel (vval a) (vval b) ->
  vfinite (cross_d no_factors a b) /\ rnull (vval (cross_d no_factors a b)).
Proof.
  intros A B (P1 & P2 & P3). destruct (cross_val a b A B) as (F & V1 & V2 & V3). split; [exact F|].
  unfold rnull, vval, dval in *. cbn [rx ry rz] in *. rewrite V1, V2, V3, P1, P2, P3, !Rminus_eq_0. split; [|split]; apply nearest_0.
Qed.

Theorem cross_opposite a b : vbounded a -> vbounded b -> opposite (cross_d no_factors a b) (cross_d no_factors b a).
Proof.
  intros A B. destruct (cross_val a b A B) as (F & V1 & V2 & V3). destruct (cross_val b a B A) as (G & W1 & W2 & W3).
  split; [exact F|]. split; [exact G|]. unfold each, dval. rewrite V1, V2, V3, W1, W2, W3.
  assert (E : forall x y z t, rnd (rnd (x * y) - rnd (z * t)) = - rnd (rnd (t * z) - rnd (y * x))).
  { intros x y z t. rewrite <- (nearest_opp b64). rewrite Ropp_minus_distr, (Rmult_comm y x), (Rmult_comm t z). reflexivity. }
  split; [|split]; apply E.
Qed.

Lemma minor_close y z y' z' k l : in_range y -> in_range z -> in_range y' -> in_range z' -> factor_ok k -> factor_ok l ->
  let d := d_sub (d_mul y z') (d_mul (d_mul z k) (d_mul y' l)) in
  fin d = true /\ Rabs (val d - (val y * val z' - val z * val k * (val y' * val l))) <=
    bpow radix2 (-50) * (Rabs (val y * val z') + Rabs (val z * val k * (val y' * val l))).
Proof.
  intros Y Z Y' Z' K L d. apply factor_sized in K, L.
  assert (R0 : forall x, rel 0 x x) by exact rel_refl.
  destruct (mul_rel 250 250 y z' _ _ 0 0 ltac:(lia) ltac:(lia) ltac:(lia) Y Z' ltac:(lra) ltac:(lra) (R0 _) (R0 _)) as [S1 R1].
  destruct (mul_rel 250 250 z k _ _ 0 0 ltac:(lia) ltac:(lia) ltac:(lia) Z K ltac:(lra) ltac:(lra) (R0 _) (R0 _)) as [S2 R2].
  destruct (mul_rel 250 250 y' l _ _ 0 0 ltac:(lia) ltac:(lia) ltac:(lia) Y' L ltac:(lra) ltac:(lra) (R0 _) (R0 _)) as [S3 R3].
  destruct (mul_rel 500 500 _ _ _ _ (0 + 0 + 1 + / 1000) (0 + 0 + 1 + / 1000) ltac:(lia) ltac:(lia) ltac:(lia) S2 S3 ltac:(lra) ltac:(lra) R2 R3) as [S4 R4].
  apply (sized_bd (250 + 250)) in S1; [|lia]. apply (sized_bd (500 + 500)) in S4; [|lia]. apply (bd_weaken (250 + 250) (500 + 500) _ ltac:(lia)) in S1.
  destruct (sub_bd (500 + 500) _ _ ltac:(lia) S1 S4) as [S5 V5]. split; [exact (proj1 S5)|].
  pose proof (sub_rel (d_mul y z') (d_mul (d_mul z k) (d_mul y' l))) as E. rewrite <- V5 in E. fold d in E.
  apply (rel_weaken _ 4) in R1; [|lra]. apply (rel_weaken _ 4) in R4; [|lra].
  eapply Rle_trans; [apply (two_terms _ _ _ _ _ 4 ltac:(lra) R1 R4 E)|].
  apply Rmult_le_compat_r; [apply Rplus_le_le_0_compat; apply Rabs_pos|]. change (bpow radix2 (-50)) with (/ 1125899906842624). rewrite u53_eq. lra.
Qed.

Theorem cross_close k a b : factor_ok (a32 k) -> factor_ok (b23 k) -> factor_ok (a13 k) -> factor_ok (b31 k) -> factor_ok (a21 k) -> factor_ok (b12 k) ->
  vrange a -> vrange b -> vfinite (cross_d k a b) /\
  Rabs (dval (dx (cross_d k a b)) - (dval (dy a) * dval (dz b) - dval (dz a) * dval (a32 k) * (dval (dy b) * dval (b23 k)))) <=
    bpow radix2 (-50) * (Rabs (dval (dy a) * dval (dz b)) + Rabs (dval (dz a) * dval (a32 k) * (dval (dy b) * dval (b23 k)))) /\
  Rabs (dval (dy (cross_d k a b)) - (dval (dz a) * dval (dx b) - dval (dx a) * dval (a13 k) * (dval (dz b) * dval (b31 k)))) <=
    bpow radix2 (-50) * (Rabs (dval (dz a) * dval (dx b)) + Rabs (dval (dx a) * dval (a13 k) * (dval (dz b) * dval (b31 k)))) /\
  Rabs (dval (dz (cross_d k a b)) - (dval (dx a) * dval (dy b) - dval (dy a) * dval (a21 k) * (dval (dx b) * dval (b12 k)))) <=
    bpow radix2 (-50) * (Rabs (dval (dx a) * dval (dy b)) + Rabs (dval (dy a) * dval (a21 k) * (dval (dx b) * dval (b12 k)))).
Proof.
  intros K1 K2 K3 K4 K5 K6 (A1 & A2 & A3) (B1 & B2 & B3). unfold cross_d. cbn [dx dy dz].
  destruct (minor_close _ _ _ _ _ _ A2 A3 B2 B3 K1 K2) as [F1 E1]. destruct (minor_close _ _ _ _ _ _ A3 A1 B3 B1 K3 K4) as [F2 E2]. destruct (minor_close _ _ _ _ _ _ A1 A2 B1 B2 K5 K6) as [F3 E3].
  split; [split; [exact F1|split; [exact F2|exact F3]]|]. split; [exact E1|]. split; [exact E2|exact E3].
Qed.
