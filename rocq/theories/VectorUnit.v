(** * Theorems about magnitude and unit vector in doubles. *)
From Coq Require Import ZArith Reals Lia Lra Psatz.
From Flocq Require Import Core Relative IEEE754.BinarySingleNaN IEEE754.Binary IEEE754.Bits.
From Verif Require Import TextModel TextSpec TextRound TextScan TextFloat TextProofs TextLaws TextRead TextCard DoubleModel DoubleSpec DoubleProofs DoubleUnits VectorModel VectorSpec VectorProofs VectorArith VectorProducts VectorLength.
Local Open Scope R_scope.

#[local] Instance prec53 : Prec_gt_0 53 := eq_refl.
#[local] Existing Instance near.

Lemma given_sized x : givable x -> sized 500 x.
Proof. intros [[F Z]|[F B]]; (split; [exact F|]); [left; exact Z|right; exact B]. Qed.

Theorem magnitude_close gy gz a : cast_ok gy -> cast_ok gz -> vrange a ->
  dfinite (magnitude_d gy gz a) /\ Rabs (dval (magnitude_d gy gz a) - rlength (in_x gy gz a)) <= bpow radix2 (-51) * rlength (in_x gy gz a).
Proof.
  intros G H A. rewrite magnitude_cast. destruct (in_x_parts gy gz a G H A) as (S1 & S2 & S3 & R1 & R2 & R3).
  destruct (magnitude_rel 500 _ (in_x gy gz a) ltac:(lia) S1 S2 S3 R1 R2 R3) as [F R]. split; [exact F|].
  unfold dval. unfold rel in R. assert (P : 0 <= rlength (in_x gy gz a)) by apply sqrt_pos. rewrite (Rabs_pos_eq (rlength _)) in R by exact P.
  eapply Rle_trans; [exact R|]. apply Rmult_le_compat_r; [exact P|]. change (bpow radix2 (-51)) with (/ 2251799813685248). rewrite u53_eq. lra.
Qed.

Theorem magnitude_parts a : each (fun c => givable (c a)) ->
  dfinite (magnitude_d None None a) /\ each (fun c => Rabs (dval (c a)) <= dval (magnitude_d None None a)).
Proof.
  intros (A1 & A2 & A3). exact (magnitude_ge_parts a (given_sized _ A1) (given_sized _ A2) (given_sized _ A3)).
Qed.

Theorem magnitude_axis a : each (fun c => givable (c a)) ->
  (dval (dy a) = 0 -> dval (dz a) = 0 -> dval (magnitude_d None None a) = Rabs (dval (dx a))) /\
  (dval (dx a) = 0 -> dval (dz a) = 0 -> dval (magnitude_d None None a) = Rabs (dval (dy a))) /\
  (dval (dx a) = 0 -> dval (dy a) = 0 -> dval (magnitude_d None None a) = Rabs (dval (dz a))).
Proof.
  intros (A1 & A2 & A3). apply given_sized in A1, A2, A3.
  destruct (magnitude_val 500 a ltac:(lia) (sized_bd 500 _ ltac:(lia) A1) (sized_bd 500 _ ltac:(lia) A2) (sized_bd 500 _ ltac:(lia) A3)) as (_ & _ & V). unfold dval. rewrite V.
  assert (I : forall r, rnd (rnd r) = rnd r) by (intros r; apply rnd_id, rnd_fmt).
  split; [|split]; intros E1 E2; rewrite E1, E2, !Rmult_0_l, !nearest_0, ?Rplus_0_l, ?Rplus_0_r, ?nearest_0, ?Rplus_0_l, !I; (apply sqrt_square; [apply val_fmt|]); [apply A1|apply A2|apply A3].
Qed.

Theorem magnitude_zero a : each (fun c => givable (c a)) -> (dval (magnitude_d None None a) = 0 <-> rnull (vval a)).
Proof.
  intros A. split.
  - intros Z. destruct (magnitude_parts a A) as (_ & P1 & P2 & P3). rewrite Z in *.
    assert (N : forall r, Rabs r <= 0 -> r = 0) by (intros r Hr; destruct (Req_dec r 0) as [E|E]; [exact E|apply Rabs_pos_lt in E; lra]).
    split; [|split]; apply N; assumption.
  - intros (N1 & N2 & N3). cbn [vval rx ry rz] in *. destruct (magnitude_axis a A) as (H & _). rewrite (H N2 N3), N1. apply Rabs_R0.
Qed.

(** Larger components, larger magnitude. *)
Theorem magnitude_monotone a b : vbounded a -> vbounded b -> each (fun c => Rabs (dval (c a)) <= Rabs (dval (c b))) ->
  dval (magnitude_d None None a) <= dval (magnitude_d None None b).
Proof.
  intros (A1 & A2 & A3) (B1 & B2 & B3) (H1 & H2 & H3).
  destruct (magnitude_val 500 a ltac:(lia) A1 A2 A3) as (_ & _ & V). destruct (magnitude_val 500 b ltac:(lia) B1 B2 B3) as (_ & _ & W).
  unfold dval in *. rewrite V, W. clear V W.
  assert (S : forall x y, Rabs x <= Rabs y -> rnd (x * x) <= rnd (y * y)).
  { intros x y L. apply round_le; [typeclasses eauto|typeclasses eauto|]. apply Rsqr_le_abs_1 in L. exact L. }
  apply S in H1, H2, H3. assert (M : forall r s, r <= s -> rnd r <= rnd s) by (intros r s L; apply round_le; [typeclasses eauto|typeclasses eauto|exact L]).
  repeat first [assumption | apply Rle_refl | apply M | apply sqrt_le_1_alt | apply Rplus_le_compat].
Qed.

(** ** Unit vectors *)

Lemma not_null_length p : ~ rnull p -> 0 < rlength p.
Proof.
  intros N. destruct p as [x y z]. unfold rnull, rlength in *. cbn [rx ry rz] in *. apply sqrt_lt_R0.
  assert (Qx : 0 <= x * x) by apply Rle_0_sqr. assert (Qy : 0 <= y * y) by apply Rle_0_sqr. assert (Qz : 0 <= z * z) by apply Rle_0_sqr.
  destruct (Req_dec x 0) as [->|X]; [|apply Rsqr_pos_lt in X; unfold Rsqr in X; lra].
  destruct (Req_dec y 0) as [->|Y]; [|apply Rsqr_pos_lt in Y; unfold Rsqr in Y; lra].
  destruct (Req_dec z 0) as [->|Z]; [|apply Rsqr_pos_lt in Z; unfold Rsqr in Z; lra]. tauto.
Qed.

Lemma part_unit x m : fin x = true -> fin m = true -> 0 < val m -> Rabs (val x) <= val m -> fin (d_div x m) = true /\ val (d_div x m) = rnd (val x / val m) /\ Rabs (val (d_div x m)) <= 1.
Proof.
  intros X M P L. assert (Q : Rabs (rnd (val x / val m)) <= bpow radix2 0).
  { apply rnd_bound; [lia|]. cbn [bpow]. unfold Rdiv. rewrite Rabs_mult, Rabs_inv, (Rabs_pos_eq (val m)) by lra.
    apply (Rmult_le_reg_r (val m)); [exact P|]. rewrite Rmult_assoc, Rinv_l by lra. lra. }
  destruct (div_ok x m X) as [F V]; [lra|apply (fits 0); [lia|exact Q]|]. split; [exact F|]. split; [exact V|]. rewrite V. exact Q.
Qed.

(** Every component of a unit vector is between -1 and 1. *)
Theorem unit_between a : each (fun c => givable (c a)) -> ~ rnull (vval a) ->
  vfinite (unit_vector_d None None None None a) /\ each (fun c => -1 <= dval (c (unit_vector_d None None None None a)) <= 1).
Proof.
  intros A N. destruct (magnitude_parts a A) as (F & P1 & P2 & P3). pose proof (magnitude_zero a A) as Z. unfold dval, dfinite in *.
  assert (P : 0 < val (magnitude_d None None a)).
  { pose proof (Rabs_pos (val (dx a))). assert (val (magnitude_d None None a) <> 0) by tauto. lra. }
  destruct A as (A1 & A2 & A3). apply given_sized in A1, A2, A3.
  destruct (part_unit _ _ (sized_fin _ _ A1) F P P1) as (F1 & _ & B1). destruct (part_unit _ _ (sized_fin _ _ A2) F P P2) as (F2 & _ & B2). destruct (part_unit _ _ (sized_fin _ _ A3) F P P3) as (F3 & _ & B3).
  split; [split; [exact F1|split; [exact F2|exact F3]]|]. apply Rabs_le_inv in B1, B2, B3. split; [exact B1|split; [exact B2|exact B3]].
Qed.

(** A vector along an axis. *)
Lemma div_self_abs x m : fin x = true -> val x <> 0 -> fin m = true -> val m = Rabs (val x) -> val (d_div x m) = val x / Rabs (val x).
Proof.
  intros X N M E. assert (P : 0 < val m) by (rewrite E; apply Rabs_pos_lt, N).
  destruct (part_unit x m X M P ltac:(lra)) as (_ & V & _). rewrite V, E. apply rnd_id.
  destruct (Rcase_abs (val x)) as [L|L].
  - rewrite (Rabs_left _ L). replace (val x / - val x) with (- bpow radix2 0) by (cbn; field; lra). apply generic_format_opp, pow_fmt. lia.
  - rewrite Rabs_pos_eq by lra. replace (val x / val x) with (bpow radix2 0) by (cbn; field; lra). apply pow_fmt. lia.
Qed.

Theorem unit_axis a : each (fun c => givable (c a)) -> dval (dx a) <> 0 -> dval (dy a) = 0 -> dval (dz a) = 0 ->
  let e := unit_vector_d None None None None a in
  dval (dx e) = dval (dx a) / Rabs (dval (dx a)) /\ dval (dy e) = 0 /\ dval (dz e) = 0.
Proof.
  intros A N Y Z e. destruct (magnitude_parts a A) as (F & P1 & P2 & P3). destruct (magnitude_axis a A) as (M & _). specialize (M Y Z). unfold dval, dfinite in *.
  destruct A as (A1 & A2 & A3). apply given_sized in A1, A2, A3.
  assert (P : 0 < val (magnitude_d None None a)) by (rewrite M; apply Rabs_pos_lt, N).
  unfold e, unit_vector_d. cbn [dx dy dz cast]. split; [apply div_self_abs; [exact (sized_fin _ _ A1)|exact N|exact F|exact M]|].
  destruct (part_unit _ _ (sized_fin _ _ A2) F P P2) as (_ & -> & _). destruct (part_unit _ _ (sized_fin _ _ A3) F P P3) as (_ & -> & _).
  rewrite Y, Z. unfold Rdiv. rewrite !Rmult_0_l. split; apply nearest_0.
Qed.

(** Closeness, with units. *)
Lemma quotient_rel x m m0 k l c : (0 <= k)%Z -> (0 <= l)%Z -> (k + l <= 1020)%Z -> sized k x -> fin m = true -> val m <> 0 -> bpow radix2 (- l) <= Rabs (val m) <= bpow radix2 l ->
  0 <= c <= 10 -> m0 <> 0 -> rel c (val m) m0 ->
  sized (k + l) (d_div x m) /\ rel (c + 1 + / 1000) (val (d_div x m)) (val x / m0).
Proof.
  intros K L KL X F N B C M R. pose proof (sized_le _ _ K X) as Bx. pose proof (bpow_gt_0 radix2 (- l)) as Pl. pose proof (bpow_gt_0 radix2 l) as Pl'.
  assert (Im : bpow radix2 (- l) <= / Rabs (val m) <= bpow radix2 l).
  { split.
    - rewrite bpow_opp. apply Rinv_le_contravar; [lra|apply B].
    - rewrite <- (Rinv_inv (bpow radix2 l)), <- bpow_opp. apply Rinv_le_contravar; [exact Pl|apply B]. }
  assert (E : Rabs (val x / val m) = Rabs (val x) * / Rabs (val m)) by (unfold Rdiv; rewrite Rabs_mult, Rabs_inv; reflexivity).
  assert (U : Rabs (val x / val m) <= bpow radix2 (k + l)).
  { rewrite E, bpow_plus. apply Rmult_le_compat; [apply Rabs_pos|lra|exact Bx|apply Im]. }
  assert (Lo : val x / val m = 0 \/ bpow radix2 (- (k + l)) <= Rabs (val x / val m)).
  { destruct X as [_ [X|X]]; [left; rewrite X; unfold Rdiv; ring|right]. rewrite E. replace (- (k + l))%Z with (- k + - l)%Z by lia. rewrite bpow_plus.
    apply Rmult_le_compat; [apply bpow_ge_0|apply bpow_ge_0|apply X|apply Im]. }
  assert (U2 : Rabs (rnd (val x / val m)) <= bpow radix2 (k + l)) by (apply rnd_bound; [lia|exact U]).
  destruct (div_ok x m (sized_fin _ _ X) N) as [G V]; [apply (fits (k + l)); [lia|exact U2]|].
  split.
  - split; [exact G|]. rewrite V. destruct Lo as [Lo|Lo]; [left; rewrite Lo; apply nearest_0|right]. split; [apply rnd_bound_low; [lia|exact Lo]|exact U2].
  - rewrite V. destruct (rel_div 0 c _ _ _ _ ltac:(lra) ltac:(lra) M (rel_refl (val x)) R) as [_ D].
    apply (rel_weaken (0 + c + / 1000000 + 1 + / 1000000)); [lra|]. apply rel_round; [lra|exact D|].
    destruct Lo as [Lo|Lo]; [left; exact Lo|right]. eapply Rle_trans; [|exact Lo]. apply bpow_le. lia.
Qed.

Lemma magnitude_low gy gz a : cast_ok gy -> cast_ok gz -> vrange a -> ~ rnull (in_x gy gz a) ->
  fin (magnitude_d gy gz a) = true /\ bpow radix2 (-500) <= val (magnitude_d gy gz a) <= bpow radix2 501 /\ rel (3 + 9 / 10) (val (magnitude_d gy gz a)) (rlength (in_x gy gz a)).
Proof.
  intros G H A N. rewrite magnitude_cast. destruct (in_x_parts gy gz a G H A) as (S1 & S2 & S3 & R1 & R2 & R3).
  destruct (magnitude_rel 500 _ (in_x gy gz a) ltac:(lia) S1 S2 S3 R1 R2 R3) as [F R]. split; [exact F|]. split; [|exact R].
  destruct (magnitude_val 500 _ ltac:(lia) (sized_bd 500 _ ltac:(lia) S1) (sized_bd 500 _ ltac:(lia) S2) (sized_bd 500 _ ltac:(lia) S3)) as (_ & U & _).
  split; [|apply U]. destruct (magnitude_ge_parts _ S1 S2 S3) as (_ & L1 & L2 & L3).
  set (p := in_x_d gy gz a) in *. set (p0 := in_x gy gz a) in *.
  assert (D : forall x x0, sized 500 x -> rel 1 (val x) x0 -> x0 = 0 \/ bpow radix2 (-500) <= Rabs (val x)).
  { intros x x0 [_ [Z|B]] Rx; [left|right; apply B]. destruct (Req_dec x0 0) as [E|E]; [exact E|]. apply (rel_abs 1) in Rx; [|lra]. rewrite Z, Rabs_R0 in Rx. apply Rabs_pos_lt in E. lra. }
  destruct (D _ _ S1 R1) as [Z1|Z1]; [|lra]. destruct (D _ _ S2 R2) as [Z2|Z2]; [|lra]. destruct (D _ _ S3 R3) as [Z3|Z3]; [|lra].
  exfalso. apply N. split; [exact Z1|split; [exact Z2|exact Z3]].
Qed.

Lemma ratio_pos f : cast_ok f -> 0 < ratio f.
Proof. destruct f as [c|]; cbn; [|lra]. intros [_ [B _]]. pose proof (bpow_gt_0 radix2 (-250)). lra. Qed.

Lemma cast_magnitude f m m0 : cast_ok f -> fin m = true -> bpow radix2 (-500) <= val m <= bpow radix2 501 -> rel (3 + 9 / 10) (val m) m0 ->
  fin (cast f m) = true /\ bpow radix2 (-751) <= Rabs (val (cast f m)) <= bpow radix2 751 /\ rel (4 + 91 / 100) (val (cast f m)) (m0 * ratio f).
Proof.
  intros C F B R. pose proof (bpow_gt_0 radix2 (-500)) as P0. destruct f as [c|]; cbn [cast ratio].
  - apply factor_sized in C as Sc. assert (Sm : sized 501 m).
    { split; [exact F|]. right. rewrite Rabs_pos_eq by lra. split; [|apply B]. eapply Rle_trans; [|apply B]. apply bpow_le. lia. }
    destruct (mul_rel 501 250 m c m0 (val c) (3 + 9 / 10) 0 ltac:(lia) ltac:(lia) ltac:(lia) Sm Sc ltac:(lra) ltac:(lra) R (rel_refl (val c))) as [S Rm].
    split; [exact (sized_fin _ _ S)|]. split.
    + destruct S as [_ [Z|S]]; [|exact S]. exfalso.
      apply (rel_weaken _ 10) in Rm; [|lra]. apply rel_abs in Rm; [|lra]. rewrite Z, Rabs_R0 in Rm.
      assert (M0 : m0 <> 0). { intros ->. apply rel_zero in R. lra. }
      destruct C as [_ C]. pose proof (bpow_gt_0 radix2 (-250)). unfold dval in C.
      assert (Q : m0 * val c <> 0) by (apply Rmult_integral_contrapositive; split; [exact M0|lra]). apply Rabs_pos_lt in Q. lra.
    + unfold dval. eapply rel_weaken; [|exact Rm]. lra.
  - rewrite Rmult_1_r. split; [exact F|]. split; [|eapply rel_weaken; [|exact R]; lra]. rewrite Rabs_pos_eq by lra.
    split; eapply Rle_trans; try apply B; apply bpow_le; lia.
Qed.

Lemma unit_rel gy gz xy xz a : cast_ok gy -> cast_ok gz -> cast_ok xy -> cast_ok xz -> vrange a -> ~ rnull (in_x gy gz a) ->
  let e := unit_vector_d gy gz xy xz a in let l := rlength (in_x gy gz a) in
  vfinite e /\ rel 6 (val (dx e)) (val (dx a) / l) /\ rel 6 (val (dy e)) (val (dy a) / (l * ratio xy)) /\ rel 6 (val (dz e)) (val (dz a) / (l * ratio xz)).
Proof.
  intros G H Cy Cz A N e l. destruct (magnitude_low gy gz a G H A N) as (F & B & R). fold l in R. pose proof (not_null_length _ N) as Pl. fold l in Pl.
  set (m := magnitude_d gy gz a) in *. pose proof (bpow_gt_0 radix2 (-500)) as P0.
  destruct (cast_magnitude None m l I F B R) as (F1 & B1 & R1). cbn [cast ratio] in F1, B1, R1. rewrite Rmult_1_r in R1.
  destruct (cast_magnitude xy m l Cy F B R) as (F2 & B2 & R2). destruct (cast_magnitude xz m l Cz F B R) as (F3 & B3 & R3).
  assert (NZ : forall t, bpow radix2 (-751) <= Rabs t <= bpow radix2 751 -> t <> 0).
  { intros t Bt ->. rewrite Rabs_R0 in Bt. pose proof (bpow_gt_0 radix2 (-751)). lra. }
  destruct A as (A1 & A2 & A3). apply range_sized in A1, A2, A3.
  pose proof (ratio_pos xy Cy) as Py. pose proof (ratio_pos xz Cz) as Pz.
  destruct (quotient_rel _ _ l 250 751 (4 + 91 / 100) ltac:(lia) ltac:(lia) ltac:(lia) A1 F1 (NZ _ B1) B1 ltac:(lra) ltac:(lra) R1) as [Q1 E1].
  destruct (quotient_rel _ _ (l * ratio xy) 250 751 (4 + 91 / 100) ltac:(lia) ltac:(lia) ltac:(lia) A2 F2 (NZ _ B2) B2 ltac:(lra) ltac:(nra) R2) as [Q2 E2].
  destruct (quotient_rel _ _ (l * ratio xz) 250 751 (4 + 91 / 100) ltac:(lia) ltac:(lia) ltac:(lia) A3 F3 (NZ _ B3) B3 ltac:(lra) ltac:(nra) R3) as [Q3 E3].
  split; [split; [exact (sized_fin _ _ Q1)|split; [exact (sized_fin _ _ Q2)|exact (sized_fin _ _ Q3)]]|].
  split; [|split]; (eapply rel_weaken; [|eassumption]); lra.
Qed.

Theorem unit_close gy gz xy xz a : cast_ok gy -> cast_ok gz -> cast_ok xy -> cast_ok xz -> vrange a -> ~ rnull (in_x gy gz a) ->
  let e := unit_vector_d gy gz xy xz a in let l := rlength (in_x gy gz a) in
  vfinite e /\
  Rabs (dval (dx e) - dval (dx a) / l) <= bpow radix2 (-50) * Rabs (dval (dx a) / l) /\
  Rabs (dval (dy e) - dval (dy a) / (l * ratio xy)) <= bpow radix2 (-50) * Rabs (dval (dy a) / (l * ratio xy)) /\
  Rabs (dval (dz e) - dval (dz a) / (l * ratio xz)) <= bpow radix2 (-50) * Rabs (dval (dz a) / (l * ratio xz)).
Proof.
  intros G H Cy Cz A N e l. destruct (unit_rel gy gz xy xz a G H Cy Cz A N) as (F & R1 & R2 & R3). split; [exact F|].
  assert (W : forall p q, rel 6 p q -> Rabs (p - q) <= bpow radix2 (-50) * Rabs q).
  { intros p q Rp. eapply Rle_trans; [exact Rp|]. apply Rmult_le_compat_r; [apply Rabs_pos|]. change (bpow radix2 (-50)) with (/ 1125899906842624). rewrite u53_eq. lra. }
  split; [|split]; apply W; assumption.
Qed.

(** ** The length of a unit vector *)

Lemma length_rel c p p0 : 0 <= c <= 20 -> rel c (rx p) (rx p0) -> rel c (ry p) (ry p0) -> rel c (rz p) (rz p0) -> rel (c + / 1000) (rlength p) (rlength p0).
Proof.
  intros C R1 R2 R3. destruct p as [x y z], p0 as [x0 y0 z0]. unfold rlength. cbn [rx ry rz] in *.
  assert (Qx : 0 <= x0 * x0) by apply Rle_0_sqr. assert (Qy : 0 <= y0 * y0) by apply Rle_0_sqr. assert (Qz : 0 <= z0 * z0) by apply Rle_0_sqr.
  pose proof (rel_mul c c _ _ _ _ ltac:(lra) ltac:(lra) R1 R1) as M1. pose proof (rel_mul c c _ _ _ _ ltac:(lra) ltac:(lra) R2 R2) as M2. pose proof (rel_mul c c _ _ _ _ ltac:(lra) ltac:(lra) R3 R3) as M3.
  pose proof (rel_add _ _ _ _ _ (Rplus_le_le_0_compat _ _ Qx Qy) Qz (rel_add _ _ _ _ _ Qx Qy M1 M2) M3) as S.
  assert (Q0 : 0 <= x0 * x0 + y0 * y0 + z0 * z0) by lra.
  destruct (rel_sqrt (c + c + / 1000000) _ _ ltac:(lra) Q0 S) as [_ Q]. eapply rel_weaken; [|exact Q]. lra.
Qed.

Lemma scaled_length p l : 0 < l -> rlength p = l -> rlength (RV (rx p / l) (ry p / l) (rz p / l)) = 1.
Proof.
  intros P E. destruct p as [x y z]. unfold rlength in *. cbn [rx ry rz] in *.
  replace (x / l * (x / l) + y / l * (y / l) + z / l * (z / l)) with ((x * x + y * y + z * z) / (l * l)) by (field; lra).
  assert (S : x * x + y * y + z * z = l * l).
  { rewrite <- E. symmetry. apply sqrt_sqrt. assert (0 <= x * x) by apply Rle_0_sqr. assert (0 <= y * y) by apply Rle_0_sqr. assert (0 <= z * z) by apply Rle_0_sqr. lra. }
  rewrite S. replace (l * l / (l * l)) with 1 by (field; lra). apply sqrt_1.
Qed.

Theorem unit_length a : vrange a -> ~ rnull (vval a) ->
  let e := unit_vector_d None None None None a in
  Rabs (rlength (vval e) - 1) <= bpow radix2 (-50) /\
  dfinite (magnitude_d None None e) /\ Rabs (dval (magnitude_d None None e) - 1) <= bpow radix2 (-49).
Proof.
  intros A N e. assert (I1 : in_x None None a = vval a) by (unfold in_x, vval; cbn [ratio]; rewrite !Rmult_1_r; reflexivity).
  destruct (unit_rel None None None None a I I I I A) as (F & R1 & R2 & R3); [rewrite I1; exact N|]. fold e in F, R1, R2, R3. rewrite I1 in *. cbn [ratio] in *. rewrite Rmult_1_r in *.
  set (l := rlength (vval a)) in *. pose proof (not_null_length _ N) as Pl. fold l in Pl.
  assert (L : rel (6 + / 1000) (rlength (vval e)) 1).
  { rewrite <- (scaled_length (vval a) l Pl eq_refl). apply length_rel; [lra| | |]; cbn [vval rx ry rz]; assumption. }
  assert (L1 : Rabs (rlength (vval e) - 1) <= bpow radix2 (-50)).
  { unfold rel in L. rewrite Rabs_R1 in L. change (bpow radix2 (-50)) with (/ 1125899906842624). rewrite u53_eq in L. lra. }
  split; [exact L1|].
  (* the components are in range for another magnitude *)
  destruct (magnitude_low None None a I I A) as (Fm & Bm & Rm); [rewrite I1; exact N|].
  assert (Bm2 : bpow radix2 (-251) <= Rabs (val (magnitude_d None None a)) <= bpow radix2 251).
  { pose proof A as (A1 & A2 & A3). apply range_sized in A1, A2, A3.
    destruct (magnitude_val 250 a ltac:(lia) (sized_bd 250 _ ltac:(lia) A1) (sized_bd 250 _ ltac:(lia) A2) (sized_bd 250 _ ltac:(lia) A3)) as (_ & U & _).
    destruct (magnitude_ge_parts a (sized_weaken 250 500 _ ltac:(lia) A1) (sized_weaken 250 500 _ ltac:(lia) A2) (sized_weaken 250 500 _ ltac:(lia) A3)) as (_ & L1' & L2' & L3').
    rewrite Rabs_pos_eq by lra. split; [|apply U].
    apply Rle_trans with (bpow radix2 (-250)); [apply bpow_le; lia|].
    destruct A1 as [_ [Z1|Z1]]; [|exact (Rle_trans _ _ _ (proj1 Z1) L1')]. destruct A2 as [_ [Z2|Z2]]; [|exact (Rle_trans _ _ _ (proj1 Z2) L2')]. destruct A3 as [_ [Z3|Z3]]; [|exact (Rle_trans _ _ _ (proj1 Z3) L3')].
    exfalso. apply N. split; [exact Z1|split; [exact Z2|exact Z3]]. }
  assert (NZ : val (magnitude_d None None a) <> 0).
  { intros Z. rewrite Z, Rabs_R0 in Bm2. pose proof (bpow_gt_0 radix2 (-251)). lra. }
  rewrite I1 in Rm. fold l in Rm.
  destruct A as (A1 & A2 & A3). apply range_sized in A1, A2, A3.
  destruct (quotient_rel _ _ l 250 251 (3 + 9 / 10) ltac:(lia) ltac:(lia) ltac:(lia) A1 Fm NZ Bm2 ltac:(lra) ltac:(lra) Rm) as [Q1 _].
  destruct (quotient_rel _ _ l 250 251 (3 + 9 / 10) ltac:(lia) ltac:(lia) ltac:(lia) A2 Fm NZ Bm2 ltac:(lra) ltac:(lra) Rm) as [Q2 _].
  destruct (quotient_rel _ _ l 250 251 (3 + 9 / 10) ltac:(lia) ltac:(lia) ltac:(lia) A3 Fm NZ Bm2 ltac:(lra) ltac:(lra) Rm) as [Q3 _].
  assert (W : forall r, rel 1 r r) by (intros r; apply (rel_weaken 0); [lra|apply rel_refl]).
  destruct (magnitude_rel 501 e (vval e) ltac:(lia) Q1 Q2 Q3 (W _) (W _) (W _)) as [Fe Re]. split; [exact Fe|].
  unfold rel in Re. unfold dval. rewrite (Rabs_pos_eq (rlength _)) in Re by apply sqrt_pos.
  replace (val (magnitude_d None None e) - 1) with ((val (magnitude_d None None e) - rlength (vval e)) + (rlength (vval e) - 1)) by ring.
  eapply Rle_trans; [apply Rabs_triang|]. apply Rabs_le_inv in L1 as L2. change (bpow radix2 (-50)) with (/ 1125899906842624) in *. change (bpow radix2 (-49)) with (/ 562949953421312).
  rewrite u53_eq in Re. lra.
Qed.

(** ** The null vector has none *)

Lemma zero_over_zero x m : fin x = true -> val x = 0 -> fin m = true -> val m = 0 -> fin (d_div x m) = false.
Proof.
  assert (Z : forall t, fin t = true -> val t = 0 -> exists s, t = B754_zero 53 1024 s).
  { intros [s|s|s pl e|s p e H] F V; try discriminate F; [exists s; reflexivity|]. exfalso. cbn in V. apply eq_0_F2R in V. destruct s; discriminate V. }
  intros F V G W. destruct (Z x F V) as [s ->]. destruct (Z m G W) as [t ->]. reflexivity.
Qed.

Theorem unit_null a : vfinite a -> rnull (vval a) -> each (fun c => ~ dfinite (c (unit_vector_d None None None None a))).
Proof.
  intros (F1 & F2 & F3) N. assert (Z : forall x, dfinite x -> dval x = 0 -> givable x) by (intros x Fx Vx; left; split; assumption).
  pose proof N as (N1 & N2 & N3). cbn [vval rx ry rz] in *.
  assert (A : each (fun c => givable (c a))) by (split; [|split]; apply Z; assumption).
  destruct (magnitude_parts a A) as (F & _). apply (magnitude_zero a A) in N. unfold dval, dfinite in *.
  split; [|split]; intros H; [pose proof (zero_over_zero _ _ F1 N1 F N)|pose proof (zero_over_zero _ _ F2 N2 F N)|pose proof (zero_over_zero _ _ F3 N3 F N)];
    unfold unit_vector_d in H; cbn [dx dy dz cast] in H; congruence.
Qed.
