(** * Property theorems about images (C26 - C28, C57). *)
From Coq Require Import Permutation Reals Lra.
From Verif Require Import HeaderProofs ImageProofs StatProofs.

(** ** C26 *)

Theorem C26_read_is_zero : forall buf im, buf <> [] ->
  exists im', read_image B8 buf im = Ret im' /\ image_size im' = length buf /\
    (forall i w, nth_error (pixels im') i = Some w -> w = 0%N) /\
    write_image B8 im' = repeat (ascii_of_N 0) (length buf).
Proof.
  intros buf im H. eexists. split; [exact (image_b8_zero buf im H)|]. cbn [pixels].
  split; [apply repeat_length|]. split; [|apply write_b8_zero].
  intros i w Hi. eapply repeat_spec, nth_error_In. exact Hi.
Qed.
Print Assumptions C26_read_is_zero.
Example C26_case : exists im', read_image B8 (lit "AZ") empty_image = Ret im' /\ pixels im' = [0; 0]%N.
Proof. eexists. split; reflexivity. Qed.

Theorem C26_write_back_refuted : exists buf im', buf <> [] /\ read_image B8 buf empty_image = Ret im' /\ write_image B8 im' <> buf.
Proof. exists (lit "A"), (mk_image [0%N] None). repeat split; discriminate. Qed.
Print Assumptions C26_write_back_refuted.

(** ** C27 *)

Theorem C27_pixels : forall b buf im, b <> B8 -> buf <> [] ->
  let k := N.to_nat (element_size b) in
  exists im', read_image b buf im = Ret im' /\ image_size im' = length buf / k /\
    (forall i w, nth_error (pixels im') i = Some w -> w = big_endian (firstn k (skipn (i * k) buf))).
Proof.
  intros b buf im Hb Hne k. destruct (read_image_spec b buf im Hb Hne) as (p & E & L & P & _).
  eexists. repeat split; [exact E|exact L|]. intros i w Hi. rewrite <- be_val_big_endian. exact (P i w Hi).
Qed.
Print Assumptions C27_pixels.

Theorem C27_write_back : forall b buf im, b <> B8 -> buf <> [] -> length buf mod N.to_nat (element_size b) = 0 ->
  exists im', read_image b buf im = Ret im' /\ write_image b im' = buf.
Proof. exact image_roundtrip. Qed.
Print Assumptions C27_write_back.

(** Bytes after the last whole pixel are dropped. *)
Theorem C27_remainder_dropped : forall b buf im, b <> B8 -> buf <> [] ->
  exists im', read_image b buf im = Ret im' /\
    write_image b im' = firstn (length buf - length buf mod N.to_nat (element_size b)) buf.
Proof.
  intros b buf im Hb Hne. destruct (read_image_spec b buf im Hb Hne) as (p & E & _ & _ & W).
  eexists. split; [exact E|]. rewrite W. f_equal.
  assert (N.to_nat (element_size b) <> 0) by (destruct b; discriminate).
  rewrite (Nat.mod_eq (length buf) (N.to_nat (element_size b)) H), (Nat.mul_comm (N.to_nat (element_size b))).
  pose proof (Nat.mul_div_le (length buf) (N.to_nat (element_size b)) H). rewrite Nat.mul_comm in H0.
  set (q := length buf / N.to_nat (element_size b) * N.to_nat (element_size b)) in *. clearbody q. lia.
Qed.
Print Assumptions C27_remainder_dropped.

Example C27_case : exists im', read_image B16 (map ascii_of_N [1; 2; 255; 254]%N) empty_image = Ret im' /\ pixels im' = [258; 65534]%N.
Proof. eexists. split; reflexivity. Qed.

(** ** C28 *)

Theorem C28_max : forall l m, image_max l = Ret m -> In m l /\ forall v, In v l -> (v <= m)%Z.
Proof.
  intros [|x l] m H; [discriminate|]. apply ret_inj in H. subst m.
  destruct (fold_max l x) as (A & B & C). cbv zeta in *. split.
  - destruct A as [->|A]; [left; reflexivity|right; exact A].
  - intros v [<-|Hv]; [exact B|exact (C v Hv)].
Qed.
Print Assumptions C28_max.

Theorem C28_min : forall l m, image_min l = Ret m -> In m l /\ forall v, In v l -> (m <= v)%Z.
Proof.
  intros [|x l] m H; [discriminate|]. apply ret_inj in H. subst m.
  destruct (fold_min l x) as (A & B & C). cbv zeta in *. split.
  - destruct A as [->|A]; [left; reflexivity|right; exact A].
  - intros v [<-|Hv]; [exact B|exact (C v Hv)].
Qed.
Print Assumptions C28_min.

(** The upper median: more than half of the pixels are at most it, at least half are at least it. *)
Theorem C28_median : forall l v, image_median l = Ret v ->
  In v l /\ length l / 2 + 1 <= count_le v l /\ length l - length l / 2 <= count_ge v l.
Proof. exact median_spec. Qed.
Print Assumptions C28_median.

Theorem C28_total_on_nonempty : forall l, l <> [] ->
  (exists m, image_max l = Ret m) /\ (exists m, image_min l = Ret m) /\ (exists v, image_median l = Ret v).
Proof.
  intros l H. split; [|split; [|exact (median_total l H)]]; destruct l; try contradiction; eexists; reflexivity.
Qed.
Print Assumptions C28_total_on_nonempty.

Theorem C28_median_order_free : forall l1 l2, Permutation l1 l2 -> image_median l1 = image_median l2.
Proof. exact median_perm. Qed.
Print Assumptions C28_median_order_free.

Theorem C28_empty : image_max [] = Undef /\ image_min [] = Undef /\ image_median [] = Undef /\
  image_mean [] = 0%R /\ image_std_dev [] = Some 0%R.
Proof. repeat split. Qed.
Print Assumptions C28_empty.

Theorem C28_mean : forall l, l <> [] ->
  (image_mean l * INR (length l) = fold_right Rplus 0 l)%R /\
  (forall lo hi, (forall x, In x l -> lo <= x <= hi)%R -> (lo <= image_mean l <= hi)%R).
Proof.
  intros l H. split.
  - rewrite (mean_sum l H). clear. induction l as [|x l IH]; [reflexivity|]. rewrite rsum_cons, IH. reflexivity.
  - intros lo hi. exact (mean_bounds lo hi l H).
Qed.
Print Assumptions C28_mean.

Theorem C28_std_dev : forall l, 2 <= length l -> exists s, image_std_dev l = Some s /\ (0 <= s)%R /\
  (s * s * INR (length l - 1) = fold_right Rplus 0 (map (fun v => (v - image_mean l) * (v - image_mean l)) l))%R.
Proof.
  intros l H. destruct (std_dev_value l H) as (s & A & B & C). exists s. repeat split; [exact A|exact B|].
  rewrite C. generalize (map (fun v => ((v - image_mean l) * (v - image_mean l))%R) l). clear.
  induction l as [|x l IH]; [reflexivity|]. rewrite rsum_cons, IH. reflexivity.
Qed.
Print Assumptions C28_std_dev.

Theorem C28_std_dev_zero : forall l, 2 <= length l ->
  (image_std_dev l = Some 0%R <-> forall x y, In x l -> In y l -> x = y).
Proof. exact std_dev_zero. Qed.
Print Assumptions C28_std_dev_zero.

(** A single pixel has no standard deviation: the result is NaN. *)
Theorem C28_std_dev_single : forall x, image_std_dev [x] = None.
Proof. reflexivity. Qed.
Print Assumptions C28_std_dev_single.

Example C28_case : image_median [5; -3; 9; 5]%Z = Ret 5%Z /\ count_le 5 [5; -3; 9; 5]%Z = 3 /\ image_max [5; -3; 9; 5]%Z = Ret 9%Z.
Proof. repeat split. Qed.

(** ** C57 *)

Theorem C57_access : forall im w x y v, width im = Some w -> (x * w + y < 2 ^ 64)%N ->
  (pixel_at im x y = Ret v <-> nth_error (pixels im) (N.to_nat (x * w + y)) = Some v).
Proof.
  intros im w x y v H1 H2. rewrite (pixel_at_nth im w x y H1 H2).
  destruct (nth_error _ _) as [u|]; split; intros H; try discriminate; congruence.
Qed.
Print Assumptions C57_access.

Theorem C57_inside_iff : forall w h, (0 < w)%N -> (0 < h)%N -> (w * h < 2 ^ 64)%N -> (w * w < 2 ^ 63)%N -> (h < 2 ^ 63)%N ->
  ((forall x y, (x < w)%N -> (y < h)%N -> pixel_at (sized_image w h) x y <> Undef) <-> (w <= h \/ w = 1)%N).
Proof. exact sized_access_all. Qed.
Print Assumptions C57_inside_iff.

(** Every position has its own pixel exactly for square images and single columns. *)
Theorem C57_own_pixel_iff : forall w h, (0 < w)%N -> (0 < h)%N -> (w * h < 2 ^ 64)%N -> (w * w < 2 ^ 63)%N -> (h < 2 ^ 63)%N ->
  ((forall ps, length ps = N.to_nat (w * h) -> NoDup ps -> let im := mk_image ps (Some w) in
      (forall x y, (x < w)%N -> (y < h)%N -> exists v, pixel_at im x y = Ret v) /\
      (forall x y x' y', (x < w)%N -> (y < h)%N -> (x' < w)%N -> (y' < h)%N ->
         pixel_at im x y = pixel_at im x' y' -> x = x' /\ y = y')) <-> (w = h \/ w = 1)%N).
Proof.
  intros w h Hw Hh Hm Hww Hh2. split.
  - intros H. apply (proj1 (sized_access_injective w h Hw Hh Hm Hww Hh2)).
    set (ps := map N.of_nat (seq 0 (N.to_nat (w * h)))).
    assert (Lps : length ps = N.to_nat (w * h)) by (unfold ps; rewrite map_length, seq_length; reflexivity).
    destruct (H ps Lps) as [A B].
    { unfold ps. apply FinFun.Injective_map_NoDup; [intros a b E; lia|apply seq_NoDup]. }
    cbv zeta in A, B.
    assert (In_range : forall x y, (x < w)%N -> (y < h)%N -> (x * w + y < w * h)%N).
    { intros x y Hx Hy. destruct (A x y Hx Hy) as [v E].
      rewrite (pixel_at_nth _ w) in E; [|reflexivity|nia]. cbn [pixels] in E.
      destruct (nth_error ps (N.to_nat (x * w + y))) eqn:K; [|discriminate].
      assert (N.to_nat (x * w + y) < length ps) by (apply nth_error_Some; congruence). lia. }
    split; [exact In_range|]. intros x y x' y' Hx Hy Hx' Hy' E. apply B; try assumption.
    rewrite !(pixel_at_nth _ w) by (try reflexivity; nia). rewrite E. reflexivity.
  - intros E ps Lps ND. cbv zeta.
    destruct (proj2 (sized_access_injective w h Hw Hh Hm Hww Hh2) E) as [A B].
    assert (G : forall x y, (x < w)%N -> (y < h)%N ->
      exists v, pixel_at (mk_image ps (Some w)) x y = Ret v /\ nth_error ps (N.to_nat (x * w + y)) = Some v).
    { intros x y Hx Hy. pose proof (A x y Hx Hy) as K.
      destruct (nth_error ps (N.to_nat (x * w + y))) as [v|] eqn:N1.
      - exists v. split; [|reflexivity]. rewrite (pixel_at_nth _ w) by (try reflexivity; lia). cbn [pixels]. rewrite N1. reflexivity.
      - apply nth_error_None in N1. lia. }
    split.
    + intros x y Hx Hy. destruct (G x y Hx Hy) as (v & P & _). exists v. exact P.
    + intros x y x' y' Hx Hy Hx' Hy' P.
      destruct (G x y Hx Hy) as (v & P1 & P2). destruct (G x' y' Hx' Hy') as (v' & P1' & P2').
      rewrite P1, P1' in P. apply ret_inj in P. subst v'. apply B; try assumption.
      apply N2Nat.inj. eapply NoDup_nth_error; [exact ND| |congruence].
      apply nth_error_Some. congruence.
Qed.
Print Assumptions C57_own_pixel_iff.

(** The width of an image read from a file is never set. *)
Theorem C57_read_image_unusable : forall b buf im' x y, read_image b buf empty_image = Ret im' -> pixel_at im' x y = Undef.
Proof.
  intros b buf im' x y H. unfold read_image in H. destruct buf as [|c buf].
  - apply ret_inj in H. subst im'. reflexivity.
  - destruct (read_pixels b _ (c :: buf)) as [p| | |]; try discriminate H. apply ret_inj in H. subst im'. reflexivity.
Qed.
Print Assumptions C57_read_image_unusable.

Example C57_case : pixel_at (sized_image 3 2) 2 1 = Undef /\ pixel_at (sized_image 3 2) 1 1 = Ret 0%N.
Proof. split; reflexivity. Qed.
