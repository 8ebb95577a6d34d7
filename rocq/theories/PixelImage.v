(** * Mean and standard deviation of the pixels of an image. *)
From Coq Require Import ZArith NArith Reals List Lia Lra Psatz Permutation ZifyBool ZifyN ZifyNat.
From Flocq Require Import Core Relative IEEE754.BinarySingleNaN IEEE754.Binary IEEE754.Bits.
From Verif Require Import ConvSpec ImageModel TextModel TextSpec TextRound TextScan TextFloat TextProofs TextLaws TextRead TextCard DoubleModel DoubleSpec DoubleProofs DoubleUnits VectorModel VectorSpec VectorProofs VectorArith PixelModel PixelSpec PixelProofs PixelSums PixelStats.
Import ListNotations.
Local Open Scope R_scope.

#[local] Instance prec53 : Prec_gt_0 53 := eq_refl.
#[local] Existing Instance near.

Lemma ordinary_tame b w : pixel_pattern b w -> ordinary b w -> tame (pixel_double b w) /\ val (pixel_double b w) = pixel_value b w.
Proof.
  intros P [N O]. destruct (pixel_ok b w P) as (F & V & _). specialize (V N). split; [|exact V]. split; [apply F, N|]. rewrite V. split.
  - destruct O as [->|[_ U]]; [rewrite Rabs_R0; apply bpow_ge_0|exact U].
  - apply (fmt_grid (-280)); [lia|rewrite <- V; apply val_fmt|]. destruct O as [E|[L _]]; [left; exact E|right; exact L].
Qed.

Lemma ordinary_int k w : (1 <= k <= 4)%nat -> (w < 256 ^ N.of_nat k)%N -> IZR (signed_of k w) = 0 \/ bpow radix2 (-280) <= Rabs (IZR (signed_of k w)) <= bpow radix2 400.
Proof.
  intros K W. pose proof (signed_range_ok k w ltac:(lia) W) as R. assert (E : (2 ^ (8 * Z.of_nat k - 1) <= 2 ^ 31)%Z) by (apply Z.pow_le_mono_r; lia).
  destruct (Z.eq_dec (signed_of k w) 0) as [->|N]; [left; reflexivity|right]. rewrite <- abs_IZR. split.
  - apply Rle_trans with 1; [change 1 with (bpow radix2 0); apply bpow_le; lia|]. apply IZR_le. lia.
  - apply Rle_trans with (bpow radix2 31); [|apply bpow_le; lia]. change (bpow radix2 31) with (IZR (2 ^ 31)). apply IZR_le. lia.
Qed.

Theorem number_ordinary b w : b <> F64 -> pixel_pattern b w -> pixel_number b w -> ordinary b w.
Proof.
  intros B P N. split; [exact N|]. unfold pixel_pattern in P. destruct b; cbn [pixel_value]; try (apply ordinary_int; [lia|exact P]); [|contradiction].
  cbn [pixel_number] in N. pose proof (float_cases w) as C. destruct (decode TextModel.binary32 w) as [neg|neg|neg q e].
  - destruct C as [p C]. unfold finite in N. rewrite C in N. discriminate.
  - unfold finite in N. rewrite C in N. discriminate.
  - destruct C as (_ & Q & E & V & U). destruct (Z.eq_dec q 0) as [->|Z]; [left; rewrite V; destruct neg; ring|right]. split.
    + assert (A : Rabs (fval TextModel.binary32 w) = IZR q * bpow radix2 e).
      { rewrite V. assert (0 <= IZR q * bpow radix2 e) by (apply Rmult_le_pos; [apply IZR_le; lia|apply bpow_ge_0]). destruct neg; [rewrite Rabs_Ropp|]; apply Rabs_pos_eq; assumption. }
      rewrite A. apply Rle_trans with (1 * bpow radix2 e); [rewrite Rmult_1_l; apply bpow_le; lia|]. apply Rmult_le_compat_r; [apply bpow_ge_0|]. apply IZR_le. lia.
    + apply Rlt_le. eapply Rlt_trans; [exact U|]. apply bpow_lt. lia.
Qed.

Lemma image_tame b l : Forall (pixel_pattern b) l -> Forall (ordinary b) l -> Forall tame (map (pixel_double b) l) /\ vals (map (pixel_double b) l) = map (pixel_value b) l.
Proof.
  intros P O. induction P as [|w l Pw P IH]; [split; [constructor|reflexivity]|]. inversion O as [|? ? Ow O']; subst. destruct (ordinary_tame b w Pw Ow) as [T V]. destruct (IH O') as [A E].
  cbn [map]. split; [constructor; assumption|]. f_equal; [exact V|exact E].
Qed.

Lemma map_not_nil {A B} (f : A -> B) l : l <> [] -> map f l <> []. Proof. destruct l; [contradiction|discriminate]. Qed.

Theorem image_mean b im : proper b im -> Forall (ordinary b) (pixels im) -> pixels im <> [] -> countable im ->
  dfinite (pixel_mean b im) /\
  Rabs (dval (pixel_mean b im) - true_mean (values b im)) <= ((1 + eps) ^ size im - 1) * (total_size (values b im) / INR (size im)).
Proof.
  intros P O N L. destruct (image_tame b (pixels im) P O) as [T V]. unfold pixel_mean, values, dfinite, dval, countable in *.
  pose proof (tame_mean (map (pixel_double b) (pixels im)) (map_not_nil _ _ N) T) as M. rewrite V in M. rewrite !map_length in M. exact (M L).
Qed.

(** Doubles of any size up to 2^900. *)
Theorem image_mean_double im : proper F64 im -> Forall (fun w => pixel_number F64 w /\ Rabs (pixel_value F64 w) <= bpow radix2 900) (pixels im) -> pixels im <> [] -> countable im ->
  dfinite (pixel_mean F64 im) /\
  Rabs (dval (pixel_mean F64 im) - true_mean (values F64 im)) <= ((1 + eps) ^ size im - 1) * (total_size (values F64 im) / INR (size im)) + bpow radix2 (-1075).
Proof.
  intros P O N L. unfold pixel_mean, values, dfinite, dval, countable, proper in *.
  assert (A : Forall (fun x => fin x = true /\ Rabs (val x) <= bpow radix2 900) (map (pixel_double F64) (pixels im)) /\ vals (map (pixel_double F64) (pixels im)) = map (pixel_value F64) (pixels im)).
  { clear N L. induction P as [|w l Pw P IH]; [split; [constructor|reflexivity]|]. inversion O as [|? ? [Nw Bw] O']; subst. destruct (IH O') as [A E]. destruct (pixel_ok F64 w Pw) as (F & V & _). specialize (V Nw).
    cbn [map]. split; [constructor; [split; [apply F, Nw|rewrite V; exact Bw]|exact A]|]. f_equal; [exact V|exact E]. }
  destruct A as [A V]. destruct (mean_step 900 (map (pixel_double F64) (pixels im)) ltac:(lia) (map_not_nil _ _ N) A) as (F & _ & _); [rewrite map_length; exact L|]. split; [exact F|].
  pose proof (mean_error 900 (map (pixel_double F64) (pixels im)) ltac:(lia) (map_not_nil _ _ N) A) as M. rewrite V in M. rewrite !map_length in M. exact (M L).
Qed.

(** ** Integer pixels *)
Lemma integral_ok b w : integral b -> pixel_pattern b w -> fin (pixel_double b w) = true /\ val (pixel_double b w) = pixel_value b w /\ exists z, val (pixel_double b w) = IZR z.
Proof.
  intros I P. destruct (pixel_ok b w P) as (F & V & _). assert (N : pixel_number b w) by (destruct I as [->|[->| ->]]; exact Logic.I). specialize (V N). split; [apply F, N|]. split; [exact V|]. rewrite V.
  destruct I as [->|[->| ->]]; eexists; reflexivity.
Qed.

Lemma integral_vals b l : integral b -> Forall (pixel_pattern b) l ->
  Forall (fun x => fin x = true /\ exists z, val x = IZR z) (map (pixel_double b) l) /\ vals (map (pixel_double b) l) = map (pixel_value b) l.
Proof.
  intros I P. induction P as [|w l Pw P IH]; [split; [constructor|reflexivity]|]. destruct IH as [A E]. destruct (integral_ok b w I Pw) as (F & V & Z). cbn [map].
  split; [constructor; [split; assumption|exact A]|]. f_equal; [exact V|exact E].
Qed.

Lemma total_bound c l : Forall (fun x => Rabs x <= c) l -> total_size l <= INR (length l) * c.
Proof. induction 1 as [|x l H A IH]; [cbn; lra|]. cbn [length]. rewrite total_size_cons, S_INR. lra. Qed.

Theorem integer_total b im k : integral b -> proper b im -> element_size b = N.of_nat k -> total_size (values b im) <= INR (size im) * bpow radix2 (8 * Z.of_nat k - 1).
Proof.
  intros I P K. unfold values. rewrite <- (map_length (pixel_value b)). apply total_bound, Forall_map. eapply Forall_impl; [|exact P]. intros w Pw. unfold pixel_pattern in Pw. rewrite K in Pw.
  assert (R : forall n, (1 <= n)%nat -> (w < 256 ^ N.of_nat n)%N -> Rabs (IZR (signed_of n w)) <= bpow radix2 (8 * Z.of_nat n - 1)).
  { intros n Hn W. pose proof (signed_range_ok n w Hn W) as S. rewrite <- abs_IZR, <- (IZR_Zpower radix2) by lia. apply IZR_le. change (radix2 ^ (8 * Z.of_nat n - 1))%Z with (2 ^ (8 * Z.of_nat n - 1))%Z. lia. }
  destruct I as [->|[->| ->]]; cbn in K; [assert (k = 1%nat) as -> by lia|assert (k = 2%nat) as -> by lia|assert (k = 4%nat) as -> by lia]; apply R; try lia; exact Pw.
Qed.

Lemma exact_mean l : l <> [] -> Forall (fun x => fin x = true /\ exists z, val x = IZR z) l -> total_size (vals l) < bpow radix2 53 -> (Z.of_nat (length l) < 2 ^ 53)%Z ->
  fin (mean_doubles l) = true /\ val (mean_doubles l) = rnd (total (vals l) / INR (length l)).
Proof.
  intros N A B L. destruct (sum_exact l A B) as [F V]. destruct (count_ok _ L) as [_ C]. assert (N1 : (1 <= length l)%nat) by (destruct l; [contradiction|cbn; lia]). pose proof (count_pos _ N1) as P.
  assert (E : mean_doubles l = d_div (accumulate_d l) (count_d (length l))) by (destruct l; [contradiction|reflexivity]). rewrite E.
  assert (Q : Rabs (total (vals l) / INR (length l)) <= bpow radix2 53).
  { rewrite div_size by exact N1. pose proof (total_abs (vals l)) as T. pose proof (total_size_pos (vals l)). apply (Rmult_le_reg_r (INR (length l))); [lra|]. unfold Rdiv. rewrite Rmult_assoc, Rinv_l, Rmult_1_r by lra.
    apply Rle_trans with (bpow radix2 53 * 1); [lra|]. apply Rmult_le_compat_l; [apply bpow_ge_0|exact P]. }
  destruct (div_ok (accumulate_d l) (count_d (length l)) F) as [G W]; [rewrite C; lra|rewrite C, V; apply (fits 53); [lia|apply rnd_bound; [lia|exact Q]]|]. rewrite C, V in W. auto.
Qed.

Theorem integer_mean b im : integral b -> proper b im -> pixels im <> [] -> countable im -> total_size (values b im) < bpow radix2 53 ->
  dfinite (pixel_mean b im) /\ dval (pixel_mean b im) = nearest_double (true_mean (values b im)).
Proof.
  intros I P N L B. destruct (integral_vals b (pixels im) I P) as [A V]. unfold pixel_mean, values, dfinite, dval, countable, true_mean in *.
  pose proof (exact_mean (map (pixel_double b) (pixels im)) (map_not_nil _ _ N) A) as M. rewrite V in M. rewrite !map_length in M |- *. exact (M B L).
Qed.

Lemma total_between lo hi l : Forall (fun x => lo <= x <= hi) l -> INR (length l) * lo <= total l <= INR (length l) * hi.
Proof. induction 1 as [|x l H A IH]; [cbn; lra|]. cbn [length]. rewrite total_cons, S_INR. lra. Qed.

Theorem integer_mean_between b im lo hi : integral b -> proper b im -> pixels im <> [] -> countable im -> total_size (values b im) < bpow radix2 53 ->
  pixel_pattern b lo -> pixel_pattern b hi -> Forall (fun w => pixel_value b lo <= pixel_value b w <= pixel_value b hi) (pixels im) ->
  pixel_value b lo <= dval (pixel_mean b im) <= pixel_value b hi.
Proof.
  intros I P N L B Pl Ph A. destruct (integer_mean b im I P N L B) as [_ ->]. unfold true_mean, values. rewrite map_length.
  assert (T : INR (size im) * pixel_value b lo <= total (map (pixel_value b) (pixels im)) <= INR (size im) * pixel_value b hi).
  { rewrite <- (map_length (pixel_value b) (pixels im)). apply total_between. apply Forall_map. exact A. }
  assert (N1 : (1 <= size im)%nat) by (destruct (pixels im); [contradiction|cbn; lia]). pose proof (count_pos _ N1) as Q.
  destruct (integral_ok b lo I Pl) as (_ & Vl & _). destruct (integral_ok b hi I Ph) as (_ & Vh & _). rewrite <- Vl, <- Vh in *.
  pose proof (val_nearest (pixel_double b lo)) as El. pose proof (val_nearest (pixel_double b hi)) as Eh. unfold dval, nearest_double in *.
  split; [rewrite <- El|rewrite <- Eh]; apply nearest_le; try exact std64; unfold Rdiv; apply (Rmult_le_reg_r (INR (size im))); try lra; rewrite Rmult_assoc, Rinv_l, Rmult_1_r by lra; lra.
Qed.

Lemma total_perm l l' : Permutation l l' -> total l = total l'.
Proof. induction 1; rewrite ?total_cons; try lra. Qed.
Lemma size_perm l l' : Permutation l l' -> total_size l = total_size l'.
Proof. intros H. apply total_perm, Permutation_map, H. Qed.

Theorem integer_mean_order b im im' : integral b -> proper b im -> countable im -> total_size (values b im) < bpow radix2 53 -> Permutation (pixels im) (pixels im') ->
  dval (pixel_mean b im) = dval (pixel_mean b im').
Proof.
  intros I P L B H. assert (D : pixels im = [] \/ pixels im <> []) by (destruct (pixels im); [left; reflexivity|right; discriminate]). destruct D as [E|N].
  - pose proof H as H'. rewrite E in H'. apply Permutation_nil in H'. unfold pixel_mean. rewrite E, H'. reflexivity.
  - assert (N' : pixels im' <> []) by (intros E; rewrite E in H; apply Permutation_sym, Permutation_nil in H; contradiction).
    assert (P' : proper b im') by (unfold proper in *; rewrite Forall_forall in *; intros w W; apply P; apply (Permutation_in w (Permutation_sym H) W)).
    pose proof (Permutation_length H) as Q. assert (H2 : Permutation (values b im) (values b im')) by (apply Permutation_map, H).
    rewrite (proj2 (integer_mean b im I P N L B)), (proj2 (integer_mean b im' I P' N' ltac:(unfold countable in *; rewrite <- Q; exact L) ltac:(rewrite <- (size_perm _ _ H2); exact B))).
    f_equal. unfold true_mean, values in *. rewrite !map_length, Q, (total_perm _ _ H2). reflexivity.
Qed.

(** ** Blank and infinite pixels *)
Theorem mean_needs_numbers b im : proper b im -> dfinite (pixel_mean b im) -> Forall (pixel_number b) (pixels im).
Proof.
  intros P F. unfold dfinite, pixel_mean in F. unfold proper in P. destruct (pixels im) as [|w l]; [constructor|]. unfold mean_doubles in F. cbn [map] in F. apply div_finite in F.
  unfold accumulate_d in F. apply fold_finite in F. destruct F as [_ F]. change (pixel_double b w :: map (pixel_double b) l) with (map (pixel_double b) (w :: l)) in F. rewrite Forall_map in F.
  rewrite Forall_forall in *. intros v V. apply (pixel_ok b v (P v V)). exact (F v V).
Qed.

Theorem std_dev_needs_numbers b im : proper b im -> dfinite (pixel_std_dev b im) -> Forall (pixel_number b) (pixels im).
Proof.
  intros P F. unfold dfinite, pixel_std_dev in F. unfold proper in P. assert (D : pixels im = [] \/ pixels im <> []) by (destruct (pixels im); [left; reflexivity|right; discriminate]). destruct D as [->|N]; [constructor|].
  rewrite std_dev_unfold in F by (apply map_not_nil, N). apply sqrt_finite, div_finite in F. unfold accumulate_d in F. apply fold_finite in F. destruct F as [_ F]. rewrite Forall_map, Forall_map in F.
  rewrite Forall_forall in *. intros v V. apply (pixel_ok b v (P v V)). specialize (F v V). cbn beta in F. apply square_finite, sub_finite in F. apply F.
Qed.

(** ** Standard deviation *)
Theorem image_std_dev b im : proper b im -> Forall (ordinary b) (pixels im) -> (2 <= size im)%nat -> countable im ->
  dfinite (pixel_std_dev b im) /\ 0 <= dval (pixel_std_dev b im) /\
  let v := squares_about (dval (pixel_mean b im)) (values b im) / INR (size im - 1) in
  (1 - eps) ^ (size im + 5) * v <= dval (pixel_std_dev b im) ^ 2 <= (1 + eps) ^ (size im + 5) * v.
Proof.
  intros P O N L. destruct (image_tame b (pixels im) P O) as [T V]. unfold pixel_std_dev, pixel_mean, values, dfinite, dval, countable in *.
  pose proof (tame_std_dev (map (pixel_double b) (pixels im))) as M. rewrite V in M. rewrite !map_length in M. destruct (M N T L) as (F & S & Q). split; [exact F|]. split; [exact S|].
  cbv zeta. unfold near_pos in Q. cbn [pow]. rewrite Rmult_1_r. exact Q.
Qed.

Lemma squares_shift a l : l <> [] -> squares_about a l = squares_about (true_mean l) l + INR (length l) * (a - true_mean l) ^ 2.
Proof.
  intros N. assert (K : forall c m, squares_about c m = squares_about 0 m - 2 * c * total m + INR (length m) * c ^ 2).
  { intros c m. unfold squares_about. induction m as [|x m IH]; [cbn; ring|]. cbn [map length]. rewrite !total_cons, S_INR, IH. ring. }
  rewrite (K a), (K (true_mean l)). unfold true_mean. assert (P : INR (length l) <> 0) by (apply not_0_INR; destruct l; [contradiction|discriminate]). field. exact P.
Qed.

Theorem image_std_dev_true b im : proper b im -> Forall (ordinary b) (pixels im) -> (2 <= size im)%nat -> countable im ->
  let n := INR (size im) in let e := ((1 + eps) ^ size im - 1) * (total_size (values b im) / n) in
  (1 - eps) ^ (size im + 5) * true_variance (values b im) <= dval (pixel_std_dev b im) ^ 2 <=
  (1 + eps) ^ (size im + 5) * (true_variance (values b im) + n / (n - 1) * e ^ 2).
Proof.
  intros P O N L. cbv zeta. assert (NE : pixels im <> []) by (destruct (pixels im); [cbn in N; lia|discriminate]). destruct (image_mean b im P O NE L) as [_ E]. destruct (image_std_dev b im P O N L) as (_ & _ & [A B]).
  set (e := ((1 + eps) ^ size im - 1) * (total_size (values b im) / INR (size im))) in *. clearbody e. set (a := dval (pixel_mean b im)) in *. clearbody a. unfold true_variance. unfold values in *. rewrite map_length.
  rewrite squares_shift in A, B by (apply map_not_nil, NE). rewrite map_length in A, B. set (l := map (pixel_value b) (pixels im)) in *. set (q := squares_about (true_mean l) l) in *. set (n := size im) in *.
  assert (M : INR (n - 1) = INR n - 1) by (rewrite minus_INR by lia; reflexivity). rewrite M in *. assert (N2 : 2 <= INR n) by (apply (le_INR 2), N). clear M.
  assert (I : 0 < / (INR n - 1)) by (apply Rinv_0_lt_compat; lra). assert (D : 0 <= (a - true_mean l) ^ 2 <= e ^ 2).
  { split; [apply pow2_ge_0|]. rewrite <- (pow2_abs (a - true_mean l)). apply pow_incr. split; [apply Rabs_pos|exact E]. }
  assert (Z : 0 <= INR n * (a - true_mean l) ^ 2 <= INR n * e ^ 2) by (split; [apply Rmult_le_pos; lra|apply Rmult_le_compat_l; lra]). clearbody q. set (z := INR n * (a - true_mean l) ^ 2) in *.
  split.
  - eapply Rle_trans; [|exact A]. apply Rmult_le_compat_l; [left; apply low_pow_pos|]. unfold Rdiv. apply Rmult_le_compat_r; lra.
  - eapply Rle_trans; [exact B|]. apply Rmult_le_compat_l; [pose proof (pow_ge_1 (n + 5)); unfold eps; change (bpow radix2 (-53)) with u53; lra|].
    unfold Rdiv. replace (q * / (INR n - 1) + INR n * / (INR n - 1) * e ^ 2) with ((q + INR n * e ^ 2) * / (INR n - 1)) by ring. apply Rmult_le_compat_r; lra.
Qed.

Lemma squares_zero a l : squares_about a l = 0 -> Forall (fun x => x = a) l.
Proof.
  induction l as [|x l IH]; intros H; [constructor|]. unfold squares_about in H. cbn [map] in H. rewrite total_cons in H. pose proof (squares_pos a l) as P. unfold squares_about in P.
  pose proof (Rle_0_sqr (x - a)) as Q. unfold Rsqr in Q. constructor; [|apply IH; unfold squares_about; lra]. assert (S : (x - a) * (x - a) = 0) by lra. apply Rmult_integral in S. lra.
Qed.

Theorem zero_std_dev b im v w : proper b im -> Forall (ordinary b) (pixels im) -> (2 <= size im)%nat -> countable im -> dval (pixel_std_dev b im) = 0 ->
  In v (pixels im) -> In w (pixels im) -> pixel_value b v = pixel_value b w.
Proof.
  intros P O N L Z V W. destruct (image_std_dev b im P O N L) as (_ & _ & [A _]). rewrite Z in A. replace (0 ^ 2) with 0 in A by ring.
  assert (M : 0 < INR (size im - 1)) by (apply (lt_INR 0); lia). assert (I : 0 < / INR (size im - 1)) by (apply Rinv_0_lt_compat; exact M).
  pose proof (squares_pos (dval (pixel_mean b im)) (values b im)) as S. pose proof (low_pow_pos (size im + 5)) as Q. change u53 with eps in Q.
  assert (E : squares_about (dval (pixel_mean b im)) (values b im) = 0).
  { destruct (Rle_lt_or_eq_dec _ _ S) as [G|G]; [|symmetry; exact G]. exfalso. assert (0 < squares_about (dval (pixel_mean b im)) (values b im) / INR (size im - 1)) by (apply Rmult_lt_0_compat; assumption).
    assert (0 < (1 - eps) ^ (size im + 5) * (squares_about (dval (pixel_mean b im)) (values b im) / INR (size im - 1))) by (apply Rmult_lt_0_compat; assumption). lra. }
  apply squares_zero in E. unfold values in E. rewrite Forall_map, Forall_forall in E. rewrite (E v V), (E w W). reflexivity.
Qed.

(** All pixels the same integer. *)
Theorem constant_std_dev b im c : integral b -> proper b im -> (2 <= size im)%nat -> countable im -> total_size (values b im) < bpow radix2 53 ->
  Forall (fun w => pixel_value b w = c) (pixels im) -> dval (pixel_mean b im) = c /\ dfinite (pixel_std_dev b im) /\ dval (pixel_std_dev b im) = 0.
Proof.
  intros I P N L B A. assert (NE : pixels im <> []) by (destruct (pixels im); [cbn in N; lia|discriminate]).
  destruct (integer_mean b im I P NE L B) as [Fm Vm]. assert (N2 : 2 <= INR (size im)) by (apply (le_INR 2), N).
  assert (M : dval (pixel_mean b im) = c).
  { destruct (pixels im) as [|w l] eqn:E; [contradiction|]. assert (Cw : pixel_value b w = c) by (inversion A; assumption). assert (Pw : pixel_pattern b w) by (unfold proper in P; rewrite E in P; inversion P; assumption).
    destruct (integer_mean_between b im w w I P ltac:(rewrite E; discriminate) L B Pw Pw) as [X Y]; [|rewrite Cw in *; lra]. rewrite E. eapply Forall_impl; [|exact A]. intros v V. cbn beta in V. lra. }
  split; [exact M|]. unfold dfinite, dval in *. unfold pixel_std_dev. rewrite std_dev_unfold by (apply map_not_nil, NE). rewrite map_length, map_map. fold (pixel_mean b im). set (a := pixel_mean b im) in *. clearbody a.
  assert (Q : Forall (fun y => fin y = true /\ val y = 0) (map (fun w => d_mul (d_sub (pixel_double b w) a) (d_sub (pixel_double b w) a)) (pixels im))).
  { apply Forall_map. rewrite Forall_forall in *. intros w W. unfold proper in P. rewrite Forall_forall in P. destruct (integral_ok b w I (P w W)) as (F & V & _). rewrite (A w W) in V.
    assert (Z : rnd 0 = 0) by apply rnd_id, generic_format_0.
    assert (Ds : val (pixel_double b w) - val a = 0) by lra. destruct (sub_ok (pixel_double b w) a F Fm) as [G H]; [rewrite Ds, Z, Rabs_R0; apply bpow_gt_0|]. rewrite Ds, Z in H.
    assert (Dm : val (d_sub (pixel_double b w) a) * val (d_sub (pixel_double b w) a) = 0) by (rewrite H; ring). destruct (mul_ok _ _ G G) as [G2 H2]; [rewrite Dm, Z, Rabs_R0; apply bpow_gt_0|]. rewrite Dm, Z in H2. auto. }
  set (q := map _ (pixels im)) in *. clearbody q. assert (T : total_size (vals q) = 0 /\ total (vals q) = 0).
  { clear - Q. induction Q as [|y q [_ V] Q [IH1 IH2]]; [split; reflexivity|]. cbn [map]. rewrite total_size_cons, total_cons, V, IH1, IH2, Rabs_R0. split; lra. }
  destruct (sum_exact q) as [F V]; [eapply Forall_impl; [|exact Q]; intros y [F V]; split; [exact F|exists 0%Z; exact V]|rewrite (proj1 T); apply bpow_gt_0|]. rewrite (proj2 T) in V.
  assert (N1 : (1 <= size im - 1)%nat) by lia. unfold countable in L. destruct (count_ok (size im - 1) ltac:(lia)) as [_ C]. pose proof (count_pos _ N1) as P1. assert (Z : rnd 0 = 0) by apply rnd_id, generic_format_0.
  assert (D : val (accumulate_d q) / val (count_d (size im - 1)) = 0) by (rewrite V; unfold Rdiv; ring).
  destruct (div_ok (accumulate_d q) (count_d (size im - 1)) F) as [G W]; [rewrite C; lra|rewrite D, Z, Rabs_R0; apply bpow_gt_0|]. rewrite D, Z in W.
  destruct (sqrt_ok _ G ltac:(rewrite W; lra)) as [G2 W2]. split; [exact G2|]. rewrite W2, W, sqrt_0. exact Z.
Qed.

Lemma div_zero x : fin (d_div x (count_d 0)) = false.
Proof. change (count_d 0) with (B754_zero 53 1024 false). destruct x as [s|s|s p H|s m e H]; reflexivity. Qed.

Theorem single_std_dev b im : size im = 1%nat -> ~ dfinite (pixel_std_dev b im).
Proof.
  intros N F. unfold dfinite, pixel_std_dev in F. rewrite std_dev_unfold in F by (destruct (pixels im); discriminate). apply sqrt_finite in F. rewrite map_length, N in F. change (1 - 1)%nat with 0%nat in F. rewrite div_zero in F. discriminate.
Qed.

Theorem empty_stats b im : pixels im = [] -> dfinite (pixel_mean b im) /\ dval (pixel_mean b im) = 0 /\ dfinite (pixel_std_dev b im) /\ dval (pixel_std_dev b im) = 0.
Proof. intros E. unfold pixel_mean, pixel_std_dev. rewrite E. cbn [map mean_doubles std_dev_doubles]. destruct (small_int_ok 0 eq_refl) as [F V]. unfold dfinite, dval. auto. Qed.
