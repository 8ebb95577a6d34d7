(** * Properties of the statistics of pixels, in doubles and with blank pixels. *)
From Coq Require Import ZArith NArith Reals List Lia Lra Permutation.
From Flocq Require Import Core IEEE754.Binary.
From Verif Require Import CppProofs ConvSpec ImageModel TextModel TextSpec TextProofs TextCard DoubleModel DoubleSpec DoubleProofs DoubleUnits VectorModel VectorSpec VectorProofs VectorProps PixelModel PixelSpec PixelProofs PixelSums PixelStats PixelImage PixelOrder.
Import ListNotations.
Local Open Scope R_scope.

(** Images for the examples and the counterexamples. *)
Definition row (l : list N) : image := mk_image l (Some (N.of_nat (length l))).
Definition tenths : image := row (repeat 4591870180066957722%N 10).                       (* double, 0.1 ten times *)
Definition large_first : image := row [1568669696; 1065353216; 3716153344]%N.              (* float, 2^60, 1, -2^60 *)
Definition large_together : image := row [1568669696; 3716153344; 1065353216]%N.           (* float, 2^60, -2^60, 1 *)
Definition two_huge : image := row [9214871658872686752; 9214871658872686752]%N.           (* double, 1e308 twice *)
Definition with_blank : image := row [1065353216; 2143289344; 1073741824]%N.               (* float, 1, NaN, 2 *)
Definition blank_first : image := row [2143289344; 1065353216; 1073741824]%N.              (* float, NaN, 1, 2 *)
Definition bytes : image := row [7; 250; 130; 0; 7]%N.                                     (* 8-bit, 7, -6, -126, 0, 7 *)

Lemma numbers_bytes : proper B8 bytes /\ Forall (ordinary B8) (pixels bytes).
Proof.
  assert (P : proper B8 bytes) by (unfold proper, bytes, row, pixel_pattern; cbn; repeat constructor). split; [exact P|]. unfold proper in P. rewrite Forall_forall in *. intros w W. apply number_ordinary; [discriminate|apply P, W|exact I].
Qed.

(** ** C103: mean *)
Theorem C103_ordinary b w : b <> F64 -> pixel_pattern b w -> pixel_number b w -> ordinary b w.
Proof. exact (number_ordinary b w). Qed.
Print Assumptions C103_ordinary.
Example C103_ordinary_ex : ordinary B8 250%N /\ pixel_value B8 250%N = -6.
Proof. split; [apply C103_ordinary; [discriminate|reflexivity|exact I]|reflexivity]. Qed.

Theorem C103_mean b im : proper b im -> Forall (ordinary b) (pixels im) -> pixels im <> [] -> countable im ->
  dfinite (pixel_mean b im) /\
  Rabs (dval (pixel_mean b im) - true_mean (values b im)) <= ((1 + eps) ^ size im - 1) * (total_size (values b im) / INR (size im)).
Proof. exact (image_mean b im). Qed.
Print Assumptions C103_mean.
Example C103_mean_ex : dfinite (pixel_mean B8 bytes) /\ true_mean (values B8 bytes) = -118 / 5.
Proof.
  destruct numbers_bytes as [P O]. split; [apply (C103_mean B8 bytes P O); [discriminate|reflexivity]|].
  unfold true_mean, values, bytes, row, pixels, total, map, pixel_value, fold_right, length. change (signed_of 1 7) with 7%Z. change (signed_of 1 250) with (-6)%Z. change (signed_of 1 130) with (-126)%Z. change (signed_of 1 0) with 0%Z. cbn [INR]. lra.
Qed.

Theorem C103_mean_doubles im : proper F64 im -> Forall (fun w => pixel_number F64 w /\ Rabs (pixel_value F64 w) <= bpow radix2 900) (pixels im) -> pixels im <> [] -> countable im ->
  dfinite (pixel_mean F64 im) /\
  Rabs (dval (pixel_mean F64 im) - true_mean (values F64 im)) <= ((1 + eps) ^ size im - 1) * (total_size (values F64 im) / INR (size im)) + bpow radix2 (-1075).
Proof. exact (image_mean_double im). Qed.
Print Assumptions C103_mean_doubles.

Lemma tenth_value : pixel_value F64 4591870180066957722%N = IZR 7205759403792794 * bpow radix2 (-56).
Proof. unfold pixel_value, fval. assert (E : float_of TextModel.binary64 4591870180066957722 = F754_finite false 7205759403792794 (-56)) by (vm_compute; reflexivity). rewrite E. reflexivity. Qed.
Lemma tenths_proper : proper F64 tenths.
Proof. unfold proper, tenths, row, pixel_pattern. cbn. repeat constructor. Qed.
Lemma tenths_numbers : Forall (fun w => pixel_number F64 w /\ Rabs (pixel_value F64 w) <= bpow radix2 900) (pixels tenths).
Proof.
  apply Forall_forall. intros w W. apply repeat_spec in W. subst w. split; [vm_compute; reflexivity|]. rewrite tenth_value. rewrite Rabs_pos_eq by (apply Rmult_le_pos; [lra|apply bpow_ge_0]).
  apply Rle_trans with (bpow radix2 53 * bpow radix2 (-56)); [apply Rmult_le_compat_r; [apply bpow_ge_0|change (bpow radix2 53) with 9007199254740992; lra]|]. rewrite <- bpow_plus. apply bpow_le. lia.
Qed.
Example C103_mean_doubles_ex : dfinite (pixel_mean F64 tenths).
Proof. apply (C103_mean_doubles tenths tenths_proper tenths_numbers); [discriminate|reflexivity]. Qed.

(** Integer pixels: the exact mean, rounded once. *)
Theorem C103_integer_mean b im : integral b -> proper b im -> pixels im <> [] -> countable im -> total_size (values b im) < bpow radix2 53 ->
  dfinite (pixel_mean b im) /\ dval (pixel_mean b im) = nearest_double (true_mean (values b im)).
Proof. exact (integer_mean b im). Qed.
Print Assumptions C103_integer_mean.
Theorem C103_integer_total b im k : integral b -> proper b im -> element_size b = N.of_nat k -> total_size (values b im) <= INR (size im) * bpow radix2 (8 * Z.of_nat k - 1).
Proof. exact (integer_total b im k). Qed.
Print Assumptions C103_integer_total.
Lemma bytes_total : total_size (values B8 bytes) < bpow radix2 53.
Proof. eapply Rle_lt_trans; [apply (C103_integer_total B8 bytes 1); [left; reflexivity|apply numbers_bytes|reflexivity]|]. change (INR (size bytes)) with (INR 5). change (bpow radix2 (8 * Z.of_nat 1 - 1)) with 128. change (bpow radix2 53) with 9007199254740992. cbn [INR]. lra. Qed.
Example C103_integer_mean_ex : dfinite (pixel_mean B8 bytes) /\ d_bits (pixel_mean B8 bytes) = 13850708063987276186%N.
Proof. split; [apply C103_integer_mean; [left; reflexivity|apply numbers_bytes|discriminate|reflexivity|apply bytes_total]|vm_compute; reflexivity]. Qed.

Theorem C103_integer_between b im lo hi : integral b -> proper b im -> pixels im <> [] -> countable im -> total_size (values b im) < bpow radix2 53 ->
  pixel_pattern b lo -> pixel_pattern b hi -> Forall (fun w => pixel_value b lo <= pixel_value b w <= pixel_value b hi) (pixels im) ->
  pixel_value b lo <= dval (pixel_mean b im) <= pixel_value b hi.
Proof. exact (integer_mean_between b im lo hi). Qed.
Print Assumptions C103_integer_between.
Example C103_integer_between_ex : -126 <= dval (pixel_mean B8 bytes) <= 7.
Proof.
  apply (C103_integer_between B8 bytes 130 7); [left; reflexivity|apply numbers_bytes|discriminate|reflexivity|apply bytes_total|reflexivity|reflexivity|].
  unfold pixel_value. change (signed_of 1 130) with (-126)%Z. change (signed_of 1 7) with 7%Z. unfold bytes, row, pixels. repeat constructor; try (change (signed_of 1 7) with 7%Z); try (change (signed_of 1 250) with (-6)%Z); try (change (signed_of 1 130) with (-126)%Z); try (change (signed_of 1 0) with 0%Z); lra.
Qed.

Theorem C103_integer_order b im im' : integral b -> proper b im -> countable im -> total_size (values b im) < bpow radix2 53 -> Permutation (pixels im) (pixels im') ->
  dval (pixel_mean b im) = dval (pixel_mean b im').
Proof. exact (integer_mean_order b im im'). Qed.
Print Assumptions C103_integer_order.
Example C103_integer_order_ex : dval (pixel_mean B8 bytes) = dval (pixel_mean B8 (row [130; 7; 250; 0; 7]%N)).
Proof. apply C103_integer_order; [left; reflexivity|apply numbers_bytes|reflexivity|apply bytes_total|]. cbn. apply Permutation_trans with [7; 130; 250; 0; 7]%N; [constructor; apply perm_swap|apply perm_swap]. Qed.

(** A blank or infinite pixel anywhere, or none at all. *)
Theorem C103_blank b im : proper b im -> Exists (fun w => ~ pixel_number b w) (pixels im) -> ~ dfinite (pixel_mean b im).
Proof. intros P E F. pose proof (mean_needs_numbers b im P F) as A. apply Exists_exists in E. destruct E as (w & W & N). rewrite Forall_forall in A. exact (N (A w W)). Qed.
Print Assumptions C103_blank.
Example C103_blank_ex : ~ dfinite (pixel_mean F32 with_blank).
Proof. apply C103_blank; [unfold proper, with_blank, row, pixel_pattern; cbn; repeat constructor|]. apply Exists_exists. exists 2143289344%N. split; [right; left; reflexivity|]. vm_compute. discriminate. Qed.
Theorem C103_empty b im : pixels im = [] -> dfinite (pixel_mean b im) /\ dval (pixel_mean b im) = 0 /\ dfinite (pixel_std_dev b im) /\ dval (pixel_std_dev b im) = 0.
Proof. exact (empty_stats b im). Qed.
Print Assumptions C103_empty.
Example C103_empty_ex : dval (pixel_mean F32 empty_image) = 0.
Proof. apply (C103_empty F32 empty_image). reflexivity. Qed.

(** What is not so in doubles. *)
Theorem C103_mean_below_refuted : exists im v, proper F64 im /\ Forall (fun w => w = v) (pixels im) /\ pixel_number F64 v /\ dval (pixel_mean F64 im) < pixel_value F64 v.
Proof.
  exists tenths, 4591870180066957722%N. split; [exact tenths_proper|]. split; [apply Forall_forall; intros w W; apply repeat_spec in W; exact W|]. split; [vm_compute; reflexivity|]. rewrite tenth_value.
  assert (E : float_of TextModel.binary64 (d_bits (pixel_mean F64 tenths)) = F754_finite false 7205759403792793 (-56)) by (vm_compute; reflexivity). rewrite (val_is _ _ _ _ E). apply Rmult_lt_compat_r; [apply bpow_gt_0|]. cbn [cond_Zopp]. lra.
Qed.
Print Assumptions C103_mean_below_refuted.
Theorem C103_order_refuted : exists im im', proper F32 im /\ Permutation (pixels im) (pixels im') /\ Forall (pixel_number F32) (pixels im) /\ dval (pixel_mean F32 im) = 0 /\ dval (pixel_mean F32 im') > 33 / 100.
Proof.
  exists large_first, large_together. split; [unfold proper, large_first, row, pixel_pattern; cbn; repeat constructor|]. split; [cbn; constructor; apply perm_swap|]. split; [repeat constructor|].
  assert (E : float_of TextModel.binary64 (d_bits (pixel_mean F32 large_first)) = F754_zero false) by (vm_compute; reflexivity). split; [exact (val_is_zero _ _ E)|].
  assert (E2 : float_of TextModel.binary64 (d_bits (pixel_mean F32 large_together)) = F754_finite false 6004799503160661 (-54)) by (vm_compute; reflexivity). rewrite (val_is _ _ _ _ E2). cbn [cond_Zopp].
  change (bpow radix2 (-54)) with (/ 18014398509481984). lra.
Qed.
Print Assumptions C103_order_refuted.
Theorem C103_overflow_refuted : exists im, proper F64 im /\ Forall (pixel_number F64) (pixels im) /\ ~ dfinite (pixel_mean F64 im).
Proof. exists two_huge. split; [unfold proper, two_huge, row, pixel_pattern; cbn; repeat constructor|]. split; [repeat constructor|]. unfold dfinite. vm_compute. discriminate. Qed.
Print Assumptions C103_overflow_refuted.

(** ** C104: standard deviation *)
Theorem C104_std_dev b im : proper b im -> Forall (ordinary b) (pixels im) -> (2 <= size im)%nat -> countable im ->
  dfinite (pixel_std_dev b im) /\ 0 <= dval (pixel_std_dev b im) /\
  let v := squares_about (dval (pixel_mean b im)) (values b im) / INR (size im - 1) in
  (1 - eps) ^ (size im + 5) * v <= dval (pixel_std_dev b im) ^ 2 <= (1 + eps) ^ (size im + 5) * v.
Proof. exact (image_std_dev b im). Qed.
Print Assumptions C104_std_dev.
Theorem C104_true_variance b im : proper b im -> Forall (ordinary b) (pixels im) -> (2 <= size im)%nat -> countable im ->
  let n := INR (size im) in let e := ((1 + eps) ^ size im - 1) * (total_size (values b im) / n) in
  (1 - eps) ^ (size im + 5) * true_variance (values b im) <= dval (pixel_std_dev b im) ^ 2 <=
  (1 + eps) ^ (size im + 5) * (true_variance (values b im) + n / (n - 1) * e ^ 2).
Proof. exact (image_std_dev_true b im). Qed.
Print Assumptions C104_true_variance.
Example C104_std_dev_ex : dfinite (pixel_std_dev B8 bytes) /\ d_bits (pixel_std_dev B8 bytes) = 4633289284079911741%N.
Proof. destruct numbers_bytes as [P O]. split; [apply (C104_std_dev B8 bytes P O); [cbn; lia|reflexivity]|vm_compute; reflexivity]. Qed.

Theorem C104_zero b im v w : proper b im -> Forall (ordinary b) (pixels im) -> (2 <= size im)%nat -> countable im -> dval (pixel_std_dev b im) = 0 ->
  In v (pixels im) -> In w (pixels im) -> pixel_value b v = pixel_value b w.
Proof. exact (zero_std_dev b im v w). Qed.
Print Assumptions C104_zero.
Theorem C104_constant b im c : integral b -> proper b im -> (2 <= size im)%nat -> countable im -> total_size (values b im) < bpow radix2 53 ->
  Forall (fun w => pixel_value b w = c) (pixels im) -> dval (pixel_mean b im) = c /\ dfinite (pixel_std_dev b im) /\ dval (pixel_std_dev b im) = 0.
Proof. exact (constant_std_dev b im c). Qed.
Print Assumptions C104_constant.
Example C104_constant_ex : dval (pixel_std_dev B8 (row [7; 7; 7]%N)) = 0 /\ dval (pixel_std_dev B8 bytes) <> 0.
Proof.
  split.
  - apply (C104_constant B8 (row [7; 7; 7]%N) 7); [left; reflexivity|unfold proper, row, pixel_pattern; cbn; repeat constructor|cbn; lia|reflexivity| |repeat constructor].
    eapply Rle_lt_trans; [apply (C103_integer_total B8 _ 1); [left; reflexivity|unfold proper, row, pixel_pattern; cbn; repeat constructor|reflexivity]|]. change (INR (size (row [7; 7; 7]%N))) with (INR 3). change (bpow radix2 (8 * Z.of_nat 1 - 1)) with 128. change (bpow radix2 53) with 9007199254740992. cbn [INR]. lra.
  - intros Z. destruct numbers_bytes as [P O]. pose proof (C104_zero B8 bytes 7 0 P O ltac:(cbn; lia) eq_refl Z ltac:(cbn; auto) ltac:(cbn; auto)) as E. unfold pixel_value in E. change (signed_of 1 7) with 7%Z in E. change (signed_of 1 0) with 0%Z in E. lra.
Qed.

Theorem C104_single b im : size im = 1%nat -> ~ dfinite (pixel_std_dev b im).
Proof. exact (single_std_dev b im). Qed.
Print Assumptions C104_single.
Example C104_single_ex : ~ dfinite (pixel_std_dev B8 (row [7]%N)). Proof. apply C104_single. reflexivity. Qed.
Theorem C104_blank b im : proper b im -> Exists (fun w => ~ pixel_number b w) (pixels im) -> ~ dfinite (pixel_std_dev b im).
Proof. intros P E F. pose proof (std_dev_needs_numbers b im P F) as A. apply Exists_exists in E. destruct E as (w & W & N). rewrite Forall_forall in A. exact (N (A w W)). Qed.
Print Assumptions C104_blank.
Example C104_blank_ex : ~ dfinite (pixel_std_dev F32 with_blank).
Proof. apply C104_blank; [unfold proper, with_blank, row, pixel_pattern; cbn; repeat constructor|]. apply Exists_exists. exists 2143289344%N. split; [right; left; reflexivity|]. vm_compute. discriminate. Qed.
(** Ten equal doubles have a standard deviation that is not zero. *)
Theorem C104_constant_refuted : exists im v, proper F64 im /\ Forall (fun w => w = v) (pixels im) /\ ordinary F64 v /\ (2 <= size im)%nat /\ 0 < dval (pixel_std_dev F64 im).
Proof.
  exists tenths, 4591870180066957722%N. split; [exact tenths_proper|]. split; [apply Forall_forall; intros w W; apply repeat_spec in W; exact W|]. split; [|split; [cbn; lia|]].
  - split; [vm_compute; reflexivity|right]. rewrite tenth_value, Rabs_pos_eq by (apply Rmult_le_pos; [lra|apply bpow_ge_0]). split.
    + apply Rle_trans with (1 * bpow radix2 (-56)); [rewrite Rmult_1_l; apply bpow_le; lia|]. apply Rmult_le_compat_r; [apply bpow_ge_0|lra].
    + apply Rle_trans with (bpow radix2 53 * bpow radix2 (-56)); [apply Rmult_le_compat_r; [apply bpow_ge_0|change (bpow radix2 53) with 9007199254740992; lra]|]. rewrite <- bpow_plus. apply bpow_le. lia.
  - assert (E : exists m e, float_of TextModel.binary64 (d_bits (pixel_std_dev F64 tenths)) = F754_finite false m e) by (eexists; eexists; vm_compute; reflexivity). destruct E as (m & e & E). rewrite (val_is _ _ _ _ E).
    apply Rmult_lt_0_compat; [apply IZR_lt; reflexivity|apply bpow_gt_0].
Qed.
Print Assumptions C104_constant_refuted.

(** ** C105: largest, smallest and middle pixel *)
Theorem C105_max b im x rest : proper b im -> pixels im = x :: rest -> ~ pixel_blank b x -> exists m before after,
  pixel_max b im = Ret m /\ pixels im = before ++ m :: after /\ ~ pixel_blank b m /\
  Forall (fun v => ~ pixel_blank b v -> pixel_le b v m /\ ~ pixel_le b m v) before /\ Forall (fun v => ~ pixel_blank b v -> pixel_le b v m) after.
Proof. exact (max_ok b im x rest). Qed.
Print Assumptions C105_max.
Theorem C105_min b im x rest : proper b im -> pixels im = x :: rest -> ~ pixel_blank b x -> exists m before after,
  pixel_min b im = Ret m /\ pixels im = before ++ m :: after /\ ~ pixel_blank b m /\
  Forall (fun v => ~ pixel_blank b v -> pixel_le b m v /\ ~ pixel_le b v m) before /\ Forall (fun v => ~ pixel_blank b v -> pixel_le b m v) after.
Proof. exact (min_ok b im x rest). Qed.
Print Assumptions C105_min.
Example C105_max_ex : pixel_max F32 with_blank = Ret 1073741824%N /\ pixel_min F32 with_blank = Ret 1065353216%N /\ ~ pixel_blank F32 1065353216 /\ pixel_max B8 bytes = Ret 7%N /\ pixel_min B8 bytes = Ret 130%N.
Proof.
  split; [vm_compute; reflexivity|]. split; [vm_compute; reflexivity|]. split; [|split; vm_compute; reflexivity]. intros (s & p & E).
  assert (E2 : float_of TextModel.binary32 1065353216 = F754_finite false 8388608 (-23)) by (vm_compute; reflexivity). rewrite E2 in E. discriminate.
Qed.
Theorem C105_first_blank b im x rest : proper b im -> pixels im = x :: rest -> pixel_blank b x -> pixel_max b im = Ret x /\ pixel_min b im = Ret x.
Proof. exact (first_blank b im x rest). Qed.
Print Assumptions C105_first_blank.
Lemma blank_pattern : pixel_blank F32 2143289344.
Proof. exists false, 4194304%positive. vm_compute. reflexivity. Qed.
Example C105_first_blank_ex : pixel_max F32 blank_first = Ret 2143289344%N.
Proof. apply (C105_first_blank F32 blank_first 2143289344%N [1065353216; 1073741824]%N); [unfold proper, blank_first, row, pixel_pattern; cbn; repeat constructor|reflexivity|exact blank_pattern]. Qed.

(** The order is one: reflexive, transitive and total on pixels that are not blank. *)
Theorem C105_order b u v w : pixel_pattern b u -> pixel_pattern b v -> pixel_pattern b w -> ~ pixel_blank b u -> ~ pixel_blank b v -> ~ pixel_blank b w ->
  pixel_le b u u /\ (pixel_le b u v \/ pixel_le b v u) /\ (pixel_le b u v -> pixel_le b v w -> pixel_le b u w).
Proof. intros U V W Nu Nv Nw. split; [apply le_refl; assumption|]. split; [apply le_total; assumption|]. apply le_trans; assumption. Qed.
Print Assumptions C105_order.
Example C105_order_ex : pixel_le B8 250 7 /\ ~ pixel_le B8 7 250.
Proof. split; [right; right; split; [exact I|split; [exact I|]]|intros [H|[H|(_ & _ & H)]]; [exact H|exact H|]]; [|revert H]; unfold pixel_value; change (signed_of 1 7) with 7%Z; change (signed_of 1 250) with (-6)%Z; lra. Qed.

Theorem C105_median b im : proper b im -> pixels im <> [] -> Forall (fun w => ~ pixel_blank b w) (pixels im) -> exists v, pixel_median b im = Ret v /\ middle b (pixels im) v.
Proof. exact (median_ok b im). Qed.
Print Assumptions C105_median.
Example C105_median_ex : pixel_median B8 bytes = Ret 0%N /\ pixel_median B8 (row [7; 250; 130; 0]%N) = Ret 0%N.
Proof. split; vm_compute; reflexivity. Qed.
Theorem C105_median_order b im im' v w : proper b im -> Permutation (pixels im) (pixels im') -> pixel_median b im = Ret v -> pixel_median b im' = Ret w -> pixel_le b v w /\ pixel_le b w v.
Proof. exact (median_order b im im' v w). Qed.
Print Assumptions C105_median_order.
Example C105_median_order_ex : proper B8 bytes /\ Permutation (pixels bytes) (pixels (row [250; 7; 130; 0; 7]%N)) /\ pixel_median B8 (row [250; 7; 130; 0; 7]%N) = Ret 0%N.
Proof. split; [apply numbers_bytes|]. split; [apply perm_swap|vm_compute; reflexivity]. Qed.
Theorem C105_median_undefined b im : proper b im -> (pixel_median b im = Undef <-> pixels im = [] \/ Exists (pixel_blank b) (pixels im)).
Proof. exact (median_undefined b im). Qed.
Print Assumptions C105_median_undefined.
Example C105_median_undefined_ex : pixel_median F32 with_blank = Undef.
Proof. apply C105_median_undefined; [unfold proper, with_blank, row, pixel_pattern; cbn; repeat constructor|right]. apply Exists_exists. exists 2143289344%N. split; [right; left; reflexivity|exact blank_pattern]. Qed.
Theorem C105_undefined b im : (pixel_max b im = Undef <-> pixels im = []) /\ (pixel_min b im = Undef <-> pixels im = []).
Proof. unfold pixel_max, pixel_min. destruct (pixels im); split; split; intros H; try reflexivity; discriminate. Qed.
Print Assumptions C105_undefined.
Example C105_undefined_ex : pixel_max F32 empty_image = Undef. Proof. apply C105_undefined. reflexivity. Qed.
(** The same pixels in another order have another maximum if one is blank. *)
Theorem C105_blank_order_refuted : exists im im' v w, proper F32 im /\ Permutation (pixels im) (pixels im') /\ pixel_max F32 im = Ret v /\ pixel_max F32 im' = Ret w /\ pixel_blank F32 v /\ ~ pixel_blank F32 w.
Proof.
  exists blank_first, with_blank, 2143289344%N, 1073741824%N. split; [unfold proper, blank_first, row, pixel_pattern; cbn; repeat constructor|]. split; [apply perm_swap|]. split; [vm_compute; reflexivity|]. split; [vm_compute; reflexivity|]. split; [exact blank_pattern|].
  intros (s & p & E). assert (E2 : float_of TextModel.binary32 1073741824 = F754_finite false 8388608 (-22)) by (vm_compute; reflexivity). rewrite E2 in E. discriminate.
Qed.
Print Assumptions C105_blank_order_refuted.
