(** * Lemmas about mean and standard deviation. *)
From Coq Require Import Reals List Lra Lia Permutation.
From Verif Require Export StatModel.
Import ListNotations.
Local Open Scope R_scope.

Lemma fold_plus l : forall a, fold_left Rplus l a = a + rsum l.
Proof.
  unfold rsum. induction l as [|x l IH]; intros a; cbn [fold_left]; [lra|].
  rewrite (IH (a + x)), (IH (0 + x)). lra.
Qed.

Lemma rsum_cons x l : rsum (x :: l) = x + rsum l.
Proof. unfold rsum at 1. cbn [fold_left]. rewrite fold_plus. lra. Qed.

Lemma rsum_perm l1 l2 : Permutation l1 l2 -> rsum l1 = rsum l2.
Proof.
  induction 1; [reflexivity|rewrite !rsum_cons; lra|rewrite !rsum_cons; lra|congruence].
Qed.

Lemma rsum_bounds lo hi l : (forall x, In x l -> lo <= x <= hi) ->
  INR (length l) * lo <= rsum l <= INR (length l) * hi.
Proof.
  induction l as [|x l IH]; intros H; [unfold rsum; cbn; lra|].
  rewrite rsum_cons. cbn [length]. rewrite S_INR.
  pose proof (H x (or_introl eq_refl)). assert (forall y, In y l -> lo <= y <= hi) as H' by (intros y Hy; apply H; right; exact Hy).
  specialize (IH H'). lra.
Qed.

Lemma length_pos {A} (l : list A) : l <> [] -> 0 < INR (length l).
Proof. destruct l; [contradiction|]. intros _. apply lt_0_INR. cbn. lia. Qed.

Lemma mean_bounds lo hi l : l <> [] -> (forall x, In x l -> lo <= x <= hi) -> lo <= image_mean l <= hi.
Proof.
  intros Hne H. pose proof (length_pos l Hne) as Hp. pose proof (rsum_bounds lo hi l H) as [A B].
  unfold image_mean. destruct l as [|x l]; [contradiction|]. set (n := INR (length (x :: l))) in *.
  split.
  - apply Rmult_le_reg_r with n; [exact Hp|]. unfold Rdiv. rewrite Rmult_assoc, Rinv_l by lra. lra.
  - apply Rmult_le_reg_r with n; [exact Hp|]. unfold Rdiv. rewrite Rmult_assoc, Rinv_l by lra. lra.
Qed.

Lemma mean_perm l1 l2 : Permutation l1 l2 -> image_mean l1 = image_mean l2.
Proof.
  intros P. unfold image_mean. rewrite (rsum_perm _ _ P), (Permutation_length P).
  destruct l1, l2; try reflexivity.
  - apply Permutation_nil in P. discriminate.
  - apply Permutation_sym, Permutation_nil in P. discriminate.
Qed.

Lemma mean_sum l : l <> [] -> image_mean l * INR (length l) = rsum l.
Proof. intros H. pose proof (length_pos l H). unfold image_mean. destruct l; [contradiction|]. field. lra. Qed.

Lemma rsum_squares_zero (f : R -> R) l : rsum (map (fun v => f v * f v) l) = 0 -> forall x, In x l -> f x = 0.
Proof.
  induction l as [|y l IH]; intros H x Hx; [contradiction|].
  cbn [map] in H. rewrite rsum_cons in H.
  assert (P : 0 <= rsum (map (fun v => f v * f v) l)).
  { clear. induction l as [|z l IHl]; [unfold rsum; cbn; lra|]. cbn [map]. rewrite rsum_cons. nra. }
  assert (f y = 0) by nra. destruct Hx as [<-|Hx]; [assumption|]. apply IH; [nra|exact Hx].
Qed.

Lemma rsum_squares_nonneg (f : R -> R) l : 0 <= rsum (map (fun v => f v * f v) l).
Proof. induction l as [|z l IHl]; [unfold rsum; cbn; lra|]. cbn [map]. rewrite rsum_cons. nra. Qed.

Lemma std_dev_value l : (2 <= length l)%nat ->
  exists s, image_std_dev l = Some s /\ 0 <= s /\
    s * s * INR (length l - 1) = rsum (map (fun v => (v - image_mean l) * (v - image_mean l)) l).
Proof.
  intros H. destruct l as [|x [|y l]]; [cbn in H; lia|cbn in H; lia|].
  unfold image_std_dev. eexists. split; [reflexivity|]. split; [apply sqrt_pos|].
  set (d := rsum _). set (n := INR _).
  assert (Hn : 0 < n) by (apply lt_0_INR; cbn; lia).
  rewrite sqrt_sqrt; [field; lra|]. apply Rmult_le_pos; [apply (rsum_squares_nonneg (fun v => v - image_mean (x :: y :: l)))|].
  left. apply Rinv_0_lt_compat, Hn.
Qed.

Lemma std_dev_zero l : (2 <= length l)%nat ->
  (image_std_dev l = Some 0 <-> forall x y, In x l -> In y l -> x = y).
Proof.
  intros H. destruct (std_dev_value l H) as (s & E & P & Q). rewrite E.
  assert (Hn : 0 < INR (length l - 1)) by (apply lt_0_INR; lia). split.
  - intros K. injection K as ->. rewrite Rmult_0_l, Rmult_0_l in Q. symmetry in Q.
    assert (Z := rsum_squares_zero (fun v => v - image_mean l) l Q). cbv beta in Z.
    intros x y Hx Hy. pose proof (Z x Hx). pose proof (Z y Hy). lra.
  - intros K. f_equal. destruct l as [|x l]; [cbn in H; lia|].
    assert (M : image_mean (x :: l) = x).
    { assert (B : x <= image_mean (x :: l) <= x); [|lra].
      apply mean_bounds; [discriminate|]. intros z Hz. rewrite (K z x Hz (or_introl eq_refl)). lra. }
    rewrite M in Q.
    assert (S0 : forall l', (forall z, In z l' -> z = x) -> rsum (map (fun v => (v - x) * (v - x)) l') = 0).
    { clear. induction l' as [|z l' IH]; intros Hz; [reflexivity|]. cbn [map]. rewrite rsum_cons, IH.
      - rewrite (Hz z (or_introl eq_refl)). lra.
      - intros w Hw. apply Hz. right. exact Hw. }
    rewrite S0 in Q by (intros z Hz; apply K; [exact Hz|left; reflexivity]).
    assert (s * s = 0) by (apply Rmult_integral in Q; destruct Q; [assumption|lra]). nra.
Qed.
