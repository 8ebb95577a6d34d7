(** * Properties of the arithmetic of Cartesian vectors in doubles. *)
From Coq Require Import ZArith Reals Lia Lra.
From Flocq Require Import Core IEEE754.Binary.
From Flocq Require IEEE754.Bits.
From Verif Require Import CppProofs TextModel TextSpec TextProofs TextLaws TextRead TextCard DoubleModel DoubleSpec DoubleProofs DoubleUnits VectorModel VectorSpec VectorProofs VectorArith VectorProducts VectorLength VectorUnit.
Local Open Scope R_scope.

(** The operations of vectors in the same units. *)
Notation vsum := (sum_d None None None).
Notation vmean := (mean_d None None None).
Notation vdot := (dot_d None None None None).
Notation vcross := (cross_d no_factors).
Notation vlength := (magnitude_d None None).
Notation vunit := (unit_vector_d None None None None).

(** Concrete vectors, for the examples and the counterexamples. *)
Definition vec (x y z : Z) : dvec := DV (d_of_Z x) (d_of_Z y) (d_of_Z z).
Definition kilo : double := d_of_Z 1000.

Lemma val_is x s m e : float_of TextModel.binary64 (d_bits x) = F754_finite s m e -> dval x = IZR (cond_Zopp s (Zpos m)) * bpow radix2 e.
Proof. intros H. unfold dval. rewrite <- d_bits_val. unfold fval. rewrite H. reflexivity. Qed.
Lemma val_is_zero x s : float_of TextModel.binary64 (d_bits x) = F754_zero s -> dval x = 0.
Proof. intros H. unfold dval. rewrite <- d_bits_val. unfold fval. rewrite H. reflexivity. Qed.

Lemma vec_fin x y z : (Z.abs x < 2 ^ 53)%Z -> (Z.abs y < 2 ^ 53)%Z -> (Z.abs z < 2 ^ 53)%Z -> vfinite (vec x y z).
Proof. intros X Y Z. split; [|split]; apply small_int_ok; assumption. Qed.
Lemma vec_val x y z : (Z.abs x < 2 ^ 53)%Z -> (Z.abs y < 2 ^ 53)%Z -> (Z.abs z < 2 ^ 53)%Z -> vval (vec x y z) = RV (IZR x) (IZR y) (IZR z).
Proof. intros X Y Z. unfold vval, vec, dval. cbn [dx dy dz]. destruct (small_int_ok x X) as [_ ->]. destruct (small_int_ok y Y) as [_ ->]. destruct (small_int_ok z Z) as [_ ->]. reflexivity. Qed.

Lemma int_size z : (Z.abs z < 2 ^ 53)%Z -> dfinite (d_of_Z z) /\ dval (d_of_Z z) = IZR z /\ Rabs (dval (d_of_Z z)) <= bpow radix2 53 /\ (z = 0%Z \/ 1 <= Rabs (dval (d_of_Z z))).
Proof.
  intros H. destruct (small_int_ok z H) as [F V]. unfold dval. rewrite V. split; [exact F|]. split; [reflexivity|]. rewrite <- abs_IZR. split.
  - change (bpow radix2 53) with (IZR (2 ^ 53)). apply IZR_le. lia.
  - destruct (Z.eq_dec z 0) as [E|E]; [left; exact E|right]. apply IZR_le. lia.
Qed.
Lemma int_range z : (Z.abs z < 2 ^ 53)%Z -> in_range (d_of_Z z).
Proof.
  intros H. destruct (int_size z H) as (F & V & U & L). split; [exact F|]. destruct L as [->|L]; [left; exact V|right]. split.
  - apply Rle_trans with 1; [|exact L]. change 1 with (bpow radix2 0). apply bpow_le. lia.
  - eapply Rle_trans; [exact U|]. apply bpow_le. lia.
Qed.
Lemma int_givable z : (Z.abs z < 2 ^ 53)%Z -> givable (d_of_Z z).
Proof.
  intros H. destruct (int_range z H) as [F [Z|[L U]]]; [left; auto|right]. split; [exact F|].
  split; [apply Rle_trans with (bpow radix2 (-250)); [apply bpow_le; lia|exact L]|apply Rle_trans with (bpow radix2 250); [exact U|apply bpow_le; lia]].
Qed.
Lemma vec_range x y z : (Z.abs x < 2 ^ 53)%Z -> (Z.abs y < 2 ^ 53)%Z -> (Z.abs z < 2 ^ 53)%Z -> vrange (vec x y z).
Proof. intros X Y Z. split; [|split]; apply int_range; assumption. Qed.
Lemma vec_givable x y z : (Z.abs x < 2 ^ 53)%Z -> (Z.abs y < 2 ^ 53)%Z -> (Z.abs z < 2 ^ 53)%Z -> each (fun c => givable (c (vec x y z))).
Proof. intros X Y Z. split; [|split]; apply int_givable; assumption. Qed.
Lemma vec_bounded x y z : (Z.abs x < 2 ^ 53)%Z -> (Z.abs y < 2 ^ 53)%Z -> (Z.abs z < 2 ^ 53)%Z -> vbounded (vec x y z).
Proof.
  assert (K : forall t, (Z.abs t < 2 ^ 53)%Z -> dfinite (d_of_Z t) /\ Rabs (dval (d_of_Z t)) <= bpow radix2 500).
  { intros t T. destruct (int_size t T) as (F & _ & U & _). split; [exact F|]. eapply Rle_trans; [exact U|]. apply bpow_le. lia. }
  intros X Y Z. split; [|split]; apply K; assumption.
Qed.
Lemma kilo_ok : cast_ok (Some kilo).
Proof.
  destruct (int_range 1000 eq_refl) as [F [Z|B]]; [rewrite (proj1 (proj2 (int_size 1000 eq_refl))) in Z; lra|]. split; [exact F|].
  rewrite Rabs_pos_eq in B; [exact B|]. rewrite (proj1 (proj2 (int_size 1000 eq_refl))). lra.
Qed.
Lemma sum_fits x y : (Z.abs x < 2 ^ 52)%Z -> (Z.abs y < 2 ^ 52)%Z -> no_overflow (dval (d_of_Z x) + dval (d_of_Z y)).
Proof.
  intros X Y. destruct (int_size x ltac:(lia)) as (_ & -> & _). destruct (int_size y ltac:(lia)) as (_ & -> & _). rewrite <- plus_IZR.
  unfold no_overflow. apply (fits 53); [lia|]. apply rnd_bound; [lia|]. rewrite <- abs_IZR. change (bpow radix2 53) with (IZR (2 ^ 53)). apply IZR_le. lia.
Qed.

(** ** C97: sum *)

(** Each component of the sum is the double nearest to the sum of the components. *)
Theorem C97_nearest : forall a b, vfinite a -> vfinite b -> each (fun c => no_overflow (dval (c a) + dval (c b))) ->
  vfinite (vsum a b) /\
  each (fun c => dval (c (vsum a b)) = nearest_double (dval (c a) + dval (c b)) /\
    Rabs (dval (c (vsum a b)) - (dval (c a) + dval (c b))) <= bpow radix2 (-53) * Rabs (dval (c a) + dval (c b))).
Proof. exact sum_nearest. Qed.
Print Assumptions C97_nearest.

(** The order of the operands does not matter. *)
Theorem C97_commutes : forall a b, vfinite a -> vfinite b -> each (fun c => no_overflow (dval (c a) + dval (c b))) -> vsame (vsum a b) (vsum b a).
Proof. exact sum_commutes. Qed.
Print Assumptions C97_commutes.

(** The null vector changes nothing; opposite vectors give the null vector. *)
Theorem C97_null : forall a b, vfinite a -> vfinite b -> rnull (vval b) -> vsame (vsum a b) a /\ vsame (vsum b a) a.
Proof. exact sum_zero. Qed.
Print Assumptions C97_null.

Theorem C97_opposite : forall a b, opposite a b -> vfinite (vsum a b) /\ rnull (vval (vsum a b)).
Proof. exact sum_opposite. Qed.
Print Assumptions C97_opposite.

(** With any conversion factors, each component is right to 2^-51 of the sizes of what is added. *)
Theorem C97_units : forall fx fy fz a b, cast_ok fx -> cast_ok fy -> cast_ok fz -> vrange a -> vrange b ->
  vfinite (sum_d fx fy fz a b) /\
  Rabs (dval (dx (sum_d fx fy fz a b)) - (dval (dx a) + dval (dx b) * ratio fx)) <= bpow radix2 (-51) * (Rabs (dval (dx a)) + Rabs (dval (dx b) * ratio fx)) /\
  Rabs (dval (dy (sum_d fx fy fz a b)) - (dval (dy a) + dval (dy b) * ratio fy)) <= bpow radix2 (-51) * (Rabs (dval (dy a)) + Rabs (dval (dy b) * ratio fy)) /\
  Rabs (dval (dz (sum_d fx fy fz a b)) - (dval (dz a) + dval (dz b) * ratio fz)) <= bpow radix2 (-51) * (Rabs (dval (dz a)) + Rabs (dval (dz b) * ratio fz)).
Proof. exact sum_close. Qed.
Print Assumptions C97_units.

(** How a sum of three is grouped does matter. *)
Theorem C97_associative_refuted : exists a b c, vfinite a /\ vfinite b /\ vfinite c /\ vfinite (vsum (vsum a b) c) /\ vfinite (vsum a (vsum b c)) /\
  dval (dx (vsum (vsum a b) c)) <> dval (dx (vsum a (vsum b c))).
Proof.
  exists (vec (2 ^ 53) 0 0), (vec 1 0 0), (vec 1 0 0).
  split; [repeat split; vm_compute; reflexivity|]. split; [repeat split; vm_compute; reflexivity|]. split; [repeat split; vm_compute; reflexivity|].
  split; [repeat split; vm_compute; reflexivity|]. split; [repeat split; vm_compute; reflexivity|].
  rewrite (val_is (dx (vsum (vsum (vec (2 ^ 53) 0 0) (vec 1 0 0)) (vec 1 0 0))) false 4503599627370496 1) by (vm_compute; reflexivity).
  rewrite (val_is (dx (vsum (vec (2 ^ 53) 0 0) (vsum (vec 1 0 0) (vec 1 0 0)))) false 4503599627370497 1) by (vm_compute; reflexivity).
  cbn [cond_Zopp]. change (bpow radix2 1) with 2. lra.
Qed.
Print Assumptions C97_associative_refuted.

Example C97_case : let a := vec 3 (-4) 12 in let b := vec (-3) 4 5 in
  vfinite a /\ vfinite b /\ each (fun c => no_overflow (dval (c a) + dval (c b))) /\ vrange a /\ vrange b /\ cast_ok (Some kilo) /\
  opposite (vec 1 2 (-7)) (vec (-1) (-2) 7) /\ rnull (vval (vec 0 0 0)).
Proof.
  cbv zeta. split; [apply vec_fin; reflexivity|]. split; [apply vec_fin; reflexivity|]. split; [split; [|split]; apply sum_fits; reflexivity|].
  split; [apply vec_range; reflexivity|]. split; [apply vec_range; reflexivity|]. split; [exact kilo_ok|]. split.
  - split; [apply vec_fin; reflexivity|]. split; [apply vec_fin; reflexivity|]. unfold each, vec. cbn [dx dy dz].
    repeat match goal with |- context [dval (d_of_Z ?z)] => rewrite (proj1 (proj2 (int_size z eq_refl))) end. lra.
  - rewrite (vec_val 0 0 0) by reflexivity. repeat split.
Qed.

(** ** C98: mean *)

(** Each component of the mean is between those of the operands, and right to half a unit in the last place. *)
Theorem C98_between : forall a b, vfinite a -> vfinite b -> each (fun c => no_overflow (dval (c a) + dval (c b))) ->
  vfinite (vmean a b) /\
  each (fun c => Rmin (dval (c a)) (dval (c b)) <= dval (c (vmean a b)) <= Rmax (dval (c a)) (dval (c b)) /\
    Rabs (dval (c (vmean a b)) - (dval (c a) + dval (c b)) / 2) <= bpow radix2 (-53) * Rabs ((dval (c a) + dval (c b)) / 2) + bpow radix2 (-1075)).
Proof. exact mean_ok. Qed.
Print Assumptions C98_between.

Theorem C98_commutes : forall a b, vfinite a -> vfinite b -> each (fun c => no_overflow (dval (c a) + dval (c b))) -> vsame (vmean a b) (vmean b a).
Proof. exact mean_commutes. Qed.
Print Assumptions C98_commutes.

(** The mean of a vector and itself is the vector. *)
Theorem C98_self : forall a, vfinite a -> each (fun c => Rabs (dval (c a)) < bpow radix2 1023) -> vsame (vmean a a) a.
Proof. exact mean_self. Qed.
Print Assumptions C98_self.

Theorem C98_units : forall fx fy fz a b, cast_ok fx -> cast_ok fy -> cast_ok fz -> vrange a -> vrange b ->
  let m := mean_d fx fy fz a b in
  vfinite m /\
  Rabs (dval (dx m) - (dval (dx a) + dval (dx b) * ratio fx) / 2) <= bpow radix2 (-51) * (Rabs (dval (dx a)) + Rabs (dval (dx b) * ratio fx)) + bpow radix2 (-1075) /\
  Rabs (dval (dy m) - (dval (dy a) + dval (dy b) * ratio fy) / 2) <= bpow radix2 (-51) * (Rabs (dval (dy a)) + Rabs (dval (dy b) * ratio fy)) + bpow radix2 (-1075) /\
  Rabs (dval (dz m) - (dval (dz a) + dval (dz b) * ratio fz) / 2) <= bpow radix2 (-51) * (Rabs (dval (dz a)) + Rabs (dval (dz b) * ratio fz)) + bpow radix2 (-1075).
Proof. exact mean_close. Qed.
Print Assumptions C98_units.

(** The mean of two large numbers is infinite. *)
Theorem C98_self_large_refuted : exists a, vfinite a /\ ~ dfinite (dx (vmean a a)).
Proof.
  exists (vec (2 ^ 1023) 0 0). split; [repeat split; vm_compute; reflexivity|].
  assert (H : is_finite 53 1024 (dx (vmean (vec (2 ^ 1023) 0 0) (vec (2 ^ 1023) 0 0))) = false) by (vm_compute; reflexivity).
  unfold dfinite. rewrite H. discriminate.
Qed.
Print Assumptions C98_self_large_refuted.

Example C98_case : let a := vec 3 (-4) 12 in let b := vec (-3) 4 5 in
  vfinite a /\ vfinite b /\ each (fun c => no_overflow (dval (c a) + dval (c b))) /\ each (fun c => Rabs (dval (c a)) < bpow radix2 1023).
Proof.
  cbv zeta. split; [apply vec_fin; reflexivity|]. split; [apply vec_fin; reflexivity|]. split; [split; [|split]; apply sum_fits; reflexivity|].
  assert (L : bpow radix2 500 < bpow radix2 1023) by (apply bpow_lt; lia).
  destruct (vec_bounded 3 (-4) 12 eq_refl eq_refl eq_refl) as ((_ & B1) & (_ & B2) & (_ & B3)). split; [|split]; eapply Rle_lt_trans; eassumption.
Qed.

(** ** C99: dot product *)

Theorem C99_commutes : forall p q, vbounded p -> vbounded q ->
  dfinite (vdot p q) /\ dfinite (vdot q p) /\ dval (vdot p q) = dval (vdot q p).
Proof. exact dot_commutes. Qed.
Print Assumptions C99_commutes.

(** The product of a vector and itself is not negative. *)
Theorem C99_self : forall p, vbounded p -> 0 <= dval (vdot p p).
Proof. exact dot_self. Qed.
Print Assumptions C99_self.

(** For vectors of which one component does not contribute, perpendicular vectors have the product zero. *)
Theorem C99_perpendicular_plane : forall p q, vbounded p -> vbounded q ->
  dval (dx p) * dval (dx q) = 0 \/ dval (dy p) * dval (dy q) = 0 \/ dval (dz p) * dval (dz q) = 0 ->
  rdot (vval p) (vval q) = 0 -> dval (vdot p q) = 0.
Proof. exact dot_plane. Qed.
Print Assumptions C99_perpendicular_plane.

(** With any conversion factors, the product is right to 2^-50 of the sizes of its terms. *)
Theorem C99_units : forall gy gz hy hz a b, cast_ok gy -> cast_ok gz -> cast_ok hy -> cast_ok hz -> vrange a -> vrange b ->
  dfinite (dot_d gy gz hy hz a b) /\
  Rabs (dval (dot_d gy gz hy hz a b) - rdot (in_x gy gz a) (in_x hy hz b)) <= bpow radix2 (-50) * rdot_size (in_x gy gz a) (in_x hy hz b).
Proof. exact dot_close. Qed.
Print Assumptions C99_units.

(** Other perpendicular vectors need not have the product zero. *)
Theorem C99_perpendicular_refuted : exists p q, vrange p /\ vrange q /\ rdot (vval p) (vval q) = 0 /\ dval (vdot p q) <> 0.
Proof.
  exists (vec 1 (2 ^ 27 + 1) (2 ^ 27)), (vec (- (2 ^ 28 + 1)) (2 ^ 27 + 1) (- 2 ^ 27)).
  split; [apply vec_range; reflexivity|]. split; [apply vec_range; reflexivity|]. split.
  - rewrite !vec_val by reflexivity. unfold rdot. cbn [rx ry rz]. rewrite <- !mult_IZR, <- !plus_IZR. f_equal.
  - rewrite (val_is (vdot (vec 1 (2 ^ 27 + 1) (2 ^ 27)) (vec (- (2 ^ 28 + 1)) (2 ^ 27 + 1) (- 2 ^ 27))) true 4503599627370496 (-52)) by (vm_compute; reflexivity).
    apply Rmult_integral_contrapositive. split; [intros H; apply eq_IZR_R0 in H; discriminate H|]. apply Rgt_not_eq, bpow_gt_0.
Qed.
Print Assumptions C99_perpendicular_refuted.

Example C99_case : let p := vec 3 (-4) 0 in let q := vec 4 3 7 in
  vbounded p /\ vbounded q /\ vrange p /\ vrange q /\ dval (dz p) * dval (dz q) = 0 /\ rdot (vval p) (vval q) = 0 /\ cast_ok (Some kilo).
Proof.
  cbv zeta. split; [apply vec_bounded; reflexivity|]. split; [apply vec_bounded; reflexivity|]. split; [apply vec_range; reflexivity|]. split; [apply vec_range; reflexivity|].
  split; [unfold vec; cbn [dz]; rewrite (proj1 (proj2 (int_size 0 eq_refl))); lra|]. split; [|exact kilo_ok].
  rewrite !vec_val by reflexivity. unfold rdot. cbn [rx ry rz]. lra.
Qed.

(** ** C100: cross product *)

(** Parallel vectors have the null vector as product. *)
Theorem C100_parallel : forall a b, vbounded a -> vbounded b -> parallel (vval a) (vval b) -> vfinite (vcross a b) /\ rnull (vval (vcross a b)).
Proof. exact cross_parallel. Qed.
Print Assumptions C100_parallel.

(** Exchanging the operands negates the product. *)
Theorem C100_opposite : forall a b, vbounded a -> vbounded b -> opposite (vcross a b) (vcross b a).
Proof. exact cross_opposite. Qed.
Print Assumptions C100_opposite.

(** With any conversion factors, each component is right to 2^-50 of the sizes of its two terms. *)
Theorem C100_units : forall k a b, factor_ok (a32 k) -> factor_ok (b23 k) -> factor_ok (a13 k) -> factor_ok (b31 k) -> factor_ok (a21 k) -> factor_ok (b12 k) ->
  vrange a -> vrange b -> vfinite (cross_d k a b) /\
  Rabs (dval (dx (cross_d k a b)) - (dval (dy a) * dval (dz b) - dval (dz a) * dval (a32 k) * (dval (dy b) * dval (b23 k)))) <=
    bpow radix2 (-50) * (Rabs (dval (dy a) * dval (dz b)) + Rabs (dval (dz a) * dval (a32 k) * (dval (dy b) * dval (b23 k)))) /\
  Rabs (dval (dy (cross_d k a b)) - (dval (dz a) * dval (dx b) - dval (dx a) * dval (a13 k) * (dval (dz b) * dval (b31 k)))) <=
    bpow radix2 (-50) * (Rabs (dval (dz a) * dval (dx b)) + Rabs (dval (dx a) * dval (a13 k) * (dval (dz b) * dval (b31 k)))) /\
  Rabs (dval (dz (cross_d k a b)) - (dval (dx a) * dval (dy b) - dval (dy a) * dval (a21 k) * (dval (dx b) * dval (b12 k)))) <=
    bpow radix2 (-50) * (Rabs (dval (dx a) * dval (dy b)) + Rabs (dval (dy a) * dval (a21 k) * (dval (dx b) * dval (b12 k)))).
Proof. exact cross_close. Qed.
Print Assumptions C100_units.

(** The product can be the null vector although the vectors are not parallel. *)
Theorem C100_parallel_only_refuted : exists p q, vrange p /\ vrange q /\ rnull (vval (vcross p q)) /\ ~ parallel (vval p) (vval q).
Proof.
  exists (vec 0 (2 ^ 27 + 1) (2 ^ 28)), (vec 0 (2 ^ 26 + 1) (2 ^ 27 + 1)).
  split; [apply vec_range; reflexivity|]. split; [apply vec_range; reflexivity|]. split.
  - unfold rnull, vval. cbn [rx ry rz]. split; [|split]; apply (val_is_zero _ false); vm_compute; reflexivity.
  - rewrite !vec_val by reflexivity. intros (H & _). cbn [ry rz] in H. rewrite <- !mult_IZR in H. apply eq_IZR in H. vm_compute in H. discriminate.
Qed.
Print Assumptions C100_parallel_only_refuted.

Example C100_case : let a := vec 3 (-4) 12 in let b := vec (-6) 8 (-24) in
  vbounded a /\ vbounded b /\ parallel (vval a) (vval b) /\ vrange a /\ vrange b /\ factor_ok kilo /\
  d_bits (dz (vcross (vec 1 0 0) (vec 0 1 0))) = d_bits (d_of_Z 1).
Proof.
  cbv zeta. split; [apply vec_bounded; reflexivity|]. split; [apply vec_bounded; reflexivity|]. split; [rewrite !vec_val by reflexivity; unfold parallel; cbn [rx ry rz]; lra|].
  split; [apply vec_range; reflexivity|]. split; [apply vec_range; reflexivity|]. split; [exact kilo_ok|]. vm_compute. reflexivity.
Qed.

(** ** C101: magnitude *)

(** With any conversion factors, the magnitude is right to 2^-51 of itself. *)
Theorem C101_close : forall gy gz a, cast_ok gy -> cast_ok gz -> vrange a ->
  dfinite (magnitude_d gy gz a) /\ Rabs (dval (magnitude_d gy gz a) - rlength (in_x gy gz a)) <= bpow radix2 (-51) * rlength (in_x gy gz a).
Proof. exact magnitude_close. Qed.
Print Assumptions C101_close.

(** No component exceeds it. *)
Theorem C101_parts : forall a, each (fun c => givable (c a)) ->
  dfinite (vlength a) /\ each (fun c => Rabs (dval (c a)) <= dval (vlength a)).
Proof. exact magnitude_parts. Qed.
Print Assumptions C101_parts.

(** For a vector along an axis it is exactly the absolute value of the component. *)
Theorem C101_axis : forall a, each (fun c => givable (c a)) ->
  (dval (dy a) = 0 -> dval (dz a) = 0 -> dval (vlength a) = Rabs (dval (dx a))) /\
  (dval (dx a) = 0 -> dval (dz a) = 0 -> dval (vlength a) = Rabs (dval (dy a))) /\
  (dval (dx a) = 0 -> dval (dy a) = 0 -> dval (vlength a) = Rabs (dval (dz a))).
Proof. exact magnitude_axis. Qed.
Print Assumptions C101_axis.

(** It is zero for the null vector only. *)
Theorem C101_zero : forall a, each (fun c => givable (c a)) -> (dval (vlength a) = 0 <-> rnull (vval a)).
Proof. exact magnitude_zero. Qed.
Print Assumptions C101_zero.

(** It does not decrease when components grow. *)
Theorem C101_monotone : forall a b, vbounded a -> vbounded b -> each (fun c => Rabs (dval (c a)) <= Rabs (dval (c b))) ->
  dval (vlength a) <= dval (vlength b).
Proof. exact magnitude_monotone. Qed.
Print Assumptions C101_monotone.

(** Outside these ranges: a vector of length 2^600 has infinite magnitude, one of length 2^-600 has magnitude zero. *)
Theorem C101_range_refuted : exists a b,
  (vfinite a /\ rlength (vval a) = bpow radix2 600 /\ ~ dfinite (vlength a)) /\
  (vfinite b /\ rlength (vval b) = bpow radix2 (-600) /\ dval (vlength b) = 0).
Proof.
  assert (L : forall x r, dval x = r -> 0 <= r -> rlength (vval (DV x (d_of_Z 0) (d_of_Z 0))) = r).
  { intros x r V P. unfold rlength, vval. cbn [dx dy dz rx ry rz]. rewrite V, (proj1 (proj2 (int_size 0 eq_refl))).
    replace (r * r + 0 * 0 + 0 * 0) with (r * r) by ring. apply R_sqrt.sqrt_square. exact P. }
  exists (vec (2 ^ 600) 0 0), (DV (d_div (d_of_Z 1) (d_of_Z (2 ^ 600))) (d_of_Z 0) (d_of_Z 0)). split; (split; [repeat split; vm_compute; reflexivity|]); (split; [apply L|]).
  - rewrite (val_is _ false 4503599627370496 548) by (vm_compute; reflexivity). cbn [cond_Zopp]. change (IZR (Z.pos 4503599627370496)) with (bpow radix2 52). rewrite <- bpow_plus. reflexivity.
  - apply bpow_ge_0.
  - assert (H : is_finite 53 1024 (vlength (vec (2 ^ 600) 0 0)) = false) by (vm_compute; reflexivity). unfold dfinite. rewrite H. discriminate.
  - rewrite (val_is _ false 4503599627370496 (-652)) by (vm_compute; reflexivity). cbn [cond_Zopp]. change (IZR (Z.pos 4503599627370496)) with (bpow radix2 52). rewrite <- bpow_plus. reflexivity.
  - apply bpow_ge_0.
  - apply (val_is_zero _ false). vm_compute. reflexivity.
Qed.
Print Assumptions C101_range_refuted.

Example C101_case : let a := vec 3 (-4) 12 in vrange a /\ cast_ok (Some kilo) /\ each (fun c => givable (c a)) /\ vbounded a /\ d_bits (vlength a) = d_bits (d_of_Z 13) /\
  each (fun c => givable (c (vec 0 (-5) 0))) /\ dval (vlength (vec 0 (-5) 0)) = 5.
Proof.
  cbv zeta. split; [apply vec_range; reflexivity|]. split; [exact kilo_ok|]. split; [apply vec_givable; reflexivity|]. split; [apply vec_bounded; reflexivity|].
  split; [vm_compute; reflexivity|]. assert (G : each (fun c => givable (c (vec 0 (-5) 0)))) by (apply vec_givable; reflexivity). split; [exact G|].
  destruct (magnitude_axis _ G) as (_ & H & _). rewrite H; unfold vec; cbn [dx dy dz].
  - rewrite (proj1 (proj2 (int_size (-5) eq_refl))). rewrite Rabs_left; lra.
  - apply (int_size 0 eq_refl).
  - apply (int_size 0 eq_refl).
Qed.

(** ** C102: unit vector *)

(** No component of a unit vector is outside [-1, 1]. *)
Theorem C102_between : forall a, each (fun c => givable (c a)) -> ~ rnull (vval a) ->
  vfinite (vunit a) /\ each (fun c => -1 <= dval (c (vunit a)) <= 1).
Proof. exact unit_between. Qed.
Print Assumptions C102_between.

(** Along an axis it is exact. *)
Theorem C102_axis : forall a, each (fun c => givable (c a)) -> dval (dx a) <> 0 -> dval (dy a) = 0 -> dval (dz a) = 0 ->
  dval (dx (vunit a)) = dval (dx a) / Rabs (dval (dx a)) /\ dval (dy (vunit a)) = 0 /\ dval (dz (vunit a)) = 0.
Proof. exact unit_axis. Qed.
Print Assumptions C102_axis.

(** With any conversion factors, each component is right to 2^-50 of itself. *)
Theorem C102_close : forall gy gz xy xz a, cast_ok gy -> cast_ok gz -> cast_ok xy -> cast_ok xz -> vrange a -> ~ rnull (in_x gy gz a) ->
  let e := unit_vector_d gy gz xy xz a in let l := rlength (in_x gy gz a) in
  vfinite e /\
  Rabs (dval (dx e) - dval (dx a) / l) <= bpow radix2 (-50) * Rabs (dval (dx a) / l) /\
  Rabs (dval (dy e) - dval (dy a) / (l * ratio xy)) <= bpow radix2 (-50) * Rabs (dval (dy a) / (l * ratio xy)) /\
  Rabs (dval (dz e) - dval (dz a) / (l * ratio xz)) <= bpow radix2 (-50) * Rabs (dval (dz a) / (l * ratio xz)).
Proof. exact unit_close. Qed.
Print Assumptions C102_close.

(** Its length is 1 to 2^-50, and what [magnitude] says of it is 1 to 2^-49. *)
Theorem C102_length : forall a, vrange a -> ~ rnull (vval a) ->
  Rabs (rlength (vval (vunit a)) - 1) <= bpow radix2 (-50) /\
  dfinite (vlength (vunit a)) /\ Rabs (dval (vlength (vunit a)) - 1) <= bpow radix2 (-49).
Proof. exact unit_length. Qed.
Print Assumptions C102_length.

(** The null vector has none: no component of the result is a number. *)
Theorem C102_null : forall a, vfinite a -> rnull (vval a) -> each (fun c => ~ dfinite (c (vunit a))).
Proof. exact unit_null. Qed.
Print Assumptions C102_null.

(** The length of a unit vector need not come out as 1, and the unit vector of a unit vector need not be itself. *)
Theorem C102_exact_refuted : exists a, vrange a /\ ~ rnull (vval a) /\ dval (vlength (vunit a)) <> 1 /\ dval (dx (vunit (vunit a))) <> dval (dx (vunit a)).
Proof.
  exists (vec 1 1 0). split; [apply vec_range; reflexivity|]. split; [rewrite vec_val by reflexivity; intros (H & _); cbn in H; lra|]. split.
  - rewrite (val_is _ false 9007199254740991 (-53)) by (vm_compute; reflexivity). cbn [cond_Zopp]. change (bpow radix2 (-53)) with (/ 9007199254740992). lra.
  - rewrite (val_is (dx (vunit (vunit (vec 1 1 0)))) false 6369051672525773 (-53)) by (vm_compute; reflexivity).
    rewrite (val_is (dx (vunit (vec 1 1 0))) false 6369051672525772 (-53)) by (vm_compute; reflexivity). cbn [cond_Zopp]. change (bpow radix2 (-53)) with (/ 9007199254740992). lra.
Qed.
Print Assumptions C102_exact_refuted.

Example C102_case : let a := vec 3 (-4) 12 in each (fun c => givable (c a)) /\ ~ rnull (vval a) /\ vrange a /\ cast_ok (Some kilo) /\
  ~ rnull (in_x (Some kilo) None a) /\ d_bits (dy (vunit (vec 0 (-5) 0))) = d_bits (d_of_Z (-1)) /\ rnull (vval (vec 0 0 0)) /\
  (each (fun c => givable (c (vec (-5) 0 0))) /\ dval (dx (vec (-5) 0 0)) <> 0).
Proof.
  cbv zeta. split; [apply vec_givable; reflexivity|]. split; [rewrite vec_val by reflexivity; intros (H & _); cbn in H; lra|]. split; [apply vec_range; reflexivity|]. split; [exact kilo_ok|].
  split; [unfold in_x; intros (H & _); cbn [rx vec dx] in H; rewrite (proj1 (proj2 (int_size 3 eq_refl))) in H; lra|]. split; [vm_compute; reflexivity|].
  split; [rewrite (vec_val 0 0 0) by reflexivity; repeat split|]. split; [apply vec_givable; reflexivity|]. unfold vec. cbn [dx]. rewrite (proj1 (proj2 (int_size (-5) eq_refl))). lra.
Qed.
