(** * Lemmas about images. *)
From Coq Require Import Permutation Sorted.
From Verif Require Export ConvProofs ImageModel ImageSpec.

Lemma pixel_size b : N.to_nat (element_size b) = word_size (pixel_type b).
Proof. destruct b; reflexivity. Qed.

(** Pixel i is the big-endian number at its position. *)
Lemma read_pixels_spec b n : forall buf, b <> B8 -> n * word_size (pixel_type b) <= length buf ->
  exists p, read_pixels b n buf = Ret p /\ length p = n /\
    (forall i w, nth_error p i = Some w ->
       w = be_val (firstn (word_size (pixel_type b)) (skipn (i * word_size (pixel_type b)) buf))) /\
    concat (map (fun w => bin_serialize (pixel_type b) (XNum w)) p) = firstn (n * word_size (pixel_type b)) buf.
Proof.
  intros buf Hb. set (k := word_size (pixel_type b)).
  revert buf; induction n as [|n IH]; intros buf Hl.
  - exists []. repeat split; try reflexivity. intros [|i] w; discriminate.
  - cbn [read_pixels]. rewrite pixel_size. fold k.
    replace (k <=? length buf) with true by (symmetry; apply Nat.leb_le; lia).
    assert (Hk : length (firstn k buf) = k) by (rewrite firstn_length; lia).
    destruct (numeric_decode (pixel_type b) (firstn k buf)) as [D1 D2];
      [destruct b; cbn; tauto || contradiction|exact Hk|].
    rewrite D1. cbn [bind].
    destruct (IH (skipn k buf)) as (p & E & L & P & Q); [rewrite skipn_length; lia|].
    rewrite E. cbn [bind]. eexists. split; [reflexivity|]. split; [cbn; lia|]. split.
    + intros [|i] w Hi; cbn in Hi.
      * injection Hi as <-. reflexivity.
      * rewrite (P i w Hi). f_equal. f_equal.
        assert (SS : forall a b (l : str), skipn a (skipn b l) = skipn (b + a) l).
        { clear. intros a b l. revert l; induction b as [|b IHb]; intros l; [reflexivity|].
          destruct l as [|x l]; [cbn; apply skipn_nil|]. apply IHb. }
        rewrite SS. f_equal.
    + cbn [map concat]. rewrite D2, Q.
      rewrite <- (firstn_skipn k (firstn (S n * k) buf)).
      rewrite firstn_firstn, skipn_firstn_comm. f_equal; f_equal; lia.
Qed.

Lemma read_pixels_b8 n : forall buf, n <= length buf -> read_pixels B8 n buf = Ret (repeat 0%N n).
Proof.
  induction n as [|n IH]; intros buf H; [reflexivity|].
  cbn [read_pixels]. change (N.to_nat (element_size B8)) with 1.
  replace (1 <=? length buf) with true by (symmetry; apply Nat.leb_le; lia).
  cbn [pixel_type bin_deserialize bind]. rewrite IH by (rewrite skipn_length; lia). reflexivity.
Qed.

Lemma word_size_pos b : 1 <= word_size (pixel_type b).
Proof. destruct b; cbn; lia. Qed.

Lemma read_image_spec b buf im : b <> B8 -> buf <> [] ->
  let k := N.to_nat (element_size b) in
  exists p, read_image b buf im = Ret (mk_image p (width im)) /\ length p = length buf / k /\
    (forall i w, nth_error p i = Some w -> w = be_val (firstn k (skipn (i * k) buf))) /\
    write_image b (mk_image p (width im)) = firstn (length buf / k * k) buf.
Proof.
  intros Hb Hne. cbv zeta. rewrite pixel_size. set (k := word_size (pixel_type b)).
  pose proof (word_size_pos b) as Hk. fold k in Hk.
  destruct (read_pixels_spec b (length buf / k) buf Hb) as (p & E & L & P & Q).
  - fold k. pose proof (Nat.mul_div_le (length buf) k). lia.
  - exists p. unfold read_image. destruct buf as [|c buf]; [contradiction|].
    rewrite pixel_size. fold k. rewrite E. cbn [bind]. repeat split; try assumption.
Qed.

Lemma image_roundtrip b buf im : b <> B8 -> buf <> [] ->
  length buf mod N.to_nat (element_size b) = 0 ->
  exists im', read_image b buf im = Ret im' /\ write_image b im' = buf.
Proof.
  intros Hb Hne Hm. destruct (read_image_spec b buf im Hb Hne) as (p & E & _ & _ & W).
  eexists. split; [exact E|]. rewrite W. apply firstn_all2.
  pose proof (Nat.div_mod (length buf) (N.to_nat (element_size b))).
  pose proof (word_size_pos b). rewrite <- pixel_size in H0. lia.
Qed.

Lemma image_b8_zero buf im : buf <> [] ->
  read_image B8 buf im = Ret (mk_image (repeat 0%N (length buf)) (width im)).
Proof.
  intros Hne. unfold read_image. destruct buf as [|c buf]; [contradiction|].
  change (N.to_nat (element_size B8)) with 1. rewrite Nat.div_1_r, read_pixels_b8 by lia. reflexivity.
Qed.

Lemma write_b8_zero n w : write_image B8 (mk_image (repeat 0%N n) w) = repeat zero n.
Proof. unfold write_image. cbn [pixels]. induction n as [|n IH]; [reflexivity|]. cbn [repeat map concat]. rewrite IH. reflexivity. Qed.

(** ** Statistics *)

Lemma fold_max l : forall x, let m := fold_left (fun m v => if (m <? v)%Z then v else m) l x in
  (m = x \/ In m l) /\ (x <= m)%Z /\ (forall v, In v l -> (v <= m)%Z).
Proof.
  induction l as [|y l IH]; intros x; cbn [fold_left].
  - split; [left; reflexivity|]. split; [lia|]. intros v [].
  - destruct (IH (if (x <? y)%Z then y else x)) as (H1 & H2 & H3). cbv zeta in *.
    destruct (Z.ltb_spec x y).
    + split; [right; destruct H1 as [->|H1]; [left; reflexivity|right; exact H1]|].
      split; [lia|]. intros v [<-|Hv]; [exact H2|exact (H3 v Hv)].
    + split; [destruct H1 as [->|H1]; [left; reflexivity|right; right; exact H1]|].
      split; [exact H2|]. intros v [<-|Hv]; [lia|exact (H3 v Hv)].
Qed.

Lemma fold_min l : forall x, let m := fold_left (fun m v => if (v <? m)%Z then v else m) l x in
  (m = x \/ In m l) /\ (m <= x)%Z /\ (forall v, In v l -> (m <= v)%Z).
Proof.
  induction l as [|y l IH]; intros x; cbn [fold_left].
  - split; [left; reflexivity|]. split; [lia|]. intros v [].
  - destruct (IH (if (y <? x)%Z then y else x)) as (H1 & H2 & H3). cbv zeta in *.
    destruct (Z.ltb_spec y x).
    + split; [right; destruct H1 as [->|H1]; [left; reflexivity|right; exact H1]|].
      split; [lia|]. intros v [<-|Hv]; [exact H2|exact (H3 v Hv)].
    + split; [destruct H1 as [->|H1]; [left; reflexivity|right; right; exact H1]|].
      split; [exact H2|]. intros v [<-|Hv]; [lia|exact (H3 v Hv)].
Qed.

Lemma insert_perm x l : Permutation (insert x l) (x :: l).
Proof.
  induction l as [|y l IH]; cbn [insert]; [reflexivity|].
  destruct (x <=? y)%Z; [reflexivity|]. rewrite IH. apply perm_swap.
Qed.

Lemma sort_perm l : Permutation (sort l) l.
Proof. induction l as [|x l IH]; [constructor|]. cbn [sort fold_right]. fold (sort l). rewrite insert_perm, IH. reflexivity. Qed.

Lemma insert_sorted x l : StronglySorted Z.le l -> StronglySorted Z.le (insert x l).
Proof.
  induction 1 as [|y l Hs IH Hf]; cbn [insert]; [repeat constructor|].
  destruct (Z.leb_spec x y).
  - constructor; [constructor; assumption|]. constructor; [assumption|].
    eapply Forall_impl; [|exact Hf]. intros a Ha. lia.
  - constructor; [exact IH|]. apply Forall_forall. intros a Ha.
    eapply Permutation_in in Ha; [|apply insert_perm]. destruct Ha as [<-|Ha]; [lia|].
    rewrite Forall_forall in Hf. apply Hf. exact Ha.
Qed.

Lemma sort_sorted l : StronglySorted Z.le (sort l).
Proof. induction l as [|x l IH]; [constructor|]. apply insert_sorted. exact IH. Qed.

Lemma sorted_unique l1 : forall l2, Permutation l1 l2 -> StronglySorted Z.le l1 -> StronglySorted Z.le l2 -> l1 = l2.
Proof.
  induction l1 as [|x l1 IH]; intros l2 P S1 S2.
  - apply Permutation_nil in P. congruence.
  - destruct l2 as [|y l2]; [apply Permutation_sym, Permutation_nil in P; discriminate|].
    inversion S1 as [|? ? S1' F1]; subst. inversion S2 as [|? ? S2' F2]; subst.
    rewrite Forall_forall in F1, F2.
    assert (x = y).
    { assert (Hx : In x (y :: l2)) by (eapply Permutation_in; [exact P|left; reflexivity]).
      assert (Hy : In y (x :: l1)) by (eapply Permutation_in; [apply Permutation_sym; exact P|left; reflexivity]).
      destruct Hx as [->|Hx]; [reflexivity|]. destruct Hy as [->|Hy]; [reflexivity|].
      specialize (F1 y Hy). specialize (F2 x Hx). lia. }
    subst y. f_equal. apply IH; try assumption. eapply Permutation_cons_inv. exact P.
Qed.

Lemma sort_invariant l1 l2 : Permutation l1 l2 -> sort l1 = sort l2.
Proof.
  intros P. apply sorted_unique; [|apply sort_sorted..].
  rewrite sort_perm, P. symmetry. apply sort_perm.
Qed.


Lemma filter_perm {A} (f : A -> bool) l1 l2 : Permutation l1 l2 -> Permutation (filter f l1) (filter f l2).
Proof.
  induction 1 as [|x l1 l2 _ IH|x y l|l1 l2 l3 _ IH1 _ IH2]; cbn [filter].
  - constructor.
  - destruct (f x); [constructor|]; exact IH.
  - destruct (f x), (f y); try apply perm_swap; reflexivity.
  - eapply Permutation_trans; eassumption.
Qed.

Lemma filter_all_true {A} (f : A -> bool) l : (forall x, In x l -> f x = true) -> filter f l = l.
Proof. induction l as [|x l IH]; intros H; [reflexivity|]. cbn [filter]. rewrite (H x (or_introl eq_refl)). f_equal. apply IH. intros y Hy. apply H. right. exact Hy. Qed.

Lemma sorted_nth_split l i v : StronglySorted Z.le l -> nth_error l i = Some v ->
  (forall x, In x (firstn (S i) l) -> (x <= v)%Z) /\ (forall x, In x (skipn i l) -> (v <= x)%Z).
Proof.
  intros S. revert i; induction S as [|y l S IH F]; intros [|i] H; cbn in H; try discriminate.
  - injection H as ->. rewrite Forall_forall in F. split.
    + intros x [->|[]]. lia.
    + intros x [->|Hx]; [lia|apply F; exact Hx].
  - destruct (IH i H) as [A B]. split.
    + intros x [->|Hx]; [|apply A; exact Hx]. rewrite Forall_forall in F. apply F. eapply nth_error_In. exact H.
    + exact B.
Qed.

(** At least half of the pixels on either side. *)
Lemma median_spec l v : image_median l = Ret v ->
  In v l /\ length l / 2 + 1 <= count_le v l /\ length l - length l / 2 <= count_ge v l.
Proof.
  unfold image_median. destruct (nth_error (sort l) (length l / 2)) as [w|] eqn:E; [|discriminate].
  intros H. injection H as <-. set (i := length l / 2) in *.
  pose proof (Permutation_length (sort_perm l)) as Hlen.
  assert (Hi : i < length (sort l)) by (apply nth_error_Some; congruence).
  destruct (sorted_nth_split _ _ _ (sort_sorted l) E) as [A B].
  split; [eapply Permutation_in; [apply sort_perm|eapply nth_error_In; exact E]|].
  assert (C1 : count_le w l = count_le w (sort l))
    by (apply Permutation_length, filter_perm, Permutation_sym, sort_perm).
  assert (C2 : count_ge w l = count_ge w (sort l))
    by (apply Permutation_length, filter_perm, Permutation_sym, sort_perm).
  rewrite C1, C2. unfold count_le, count_ge. split.
  - rewrite <- (firstn_skipn (S i) (sort l)), filter_app, app_length, filter_all_true.
    + rewrite firstn_length. lia.
    + intros x Hx. apply Z.leb_le, A, Hx.
  - rewrite <- (firstn_skipn i (sort l)), filter_app, app_length, (filter_all_true _ (skipn i (sort l))).
    + rewrite skipn_length. lia.
    + intros x Hx. apply Z.leb_le, B, Hx.
Qed.

Lemma median_total l : l <> [] -> exists v, image_median l = Ret v.
Proof.
  intros Hne. unfold image_median. destruct (nth_error (sort l) (length l / 2)) as [v|] eqn:E; [exists v; reflexivity|].
  apply nth_error_None in E. rewrite (Permutation_length (sort_perm l)) in E.
  destruct l as [|x l]; [contradiction|]. assert (length (x :: l) / 2 < length (x :: l)) by (apply Nat.div_lt; cbn; lia). lia.
Qed.

Lemma median_perm l1 l2 : Permutation l1 l2 -> image_median l1 = image_median l2.
Proof. intros P. unfold image_median. rewrite (sort_invariant _ _ P), (Permutation_length P). reflexivity. Qed.

(** ** Access by coordinates *)

Lemma sized_access w h x y : (w * h < 2 ^ 64)%N -> (x < w)%N -> (y < h)%N -> (x * w + y < 2 ^ 64)%N ->
  (pixel_at (sized_image w h) x y = Ret 0%N <-> (x * w + y < w * h)%N) /\
  (pixel_at (sized_image w h) x y = Undef <-> (w * h <= x * w + y)%N).
Proof.
  intros Hm Hx Hy Hs. unfold pixel_at, sized_image. cbn [width pixels]. unfold mul64, two64.
  rewrite !N.mod_small by assumption.
  destruct (nth_error (repeat 0%N (N.to_nat (w * h))) (N.to_nat (x * w + y))) as [v|] eqn:E.
  - assert (K : nth_error (repeat 0%N (N.to_nat (w * h))) (N.to_nat (x * w + y)) <> None) by congruence.
    apply nth_error_Some in K. rewrite repeat_length in K.
    apply nth_error_In, repeat_spec in E. subst v. split; split; intros; try discriminate; try reflexivity; lia.
  - apply nth_error_None in E. rewrite repeat_length in E. split; split; intros; try discriminate; try reflexivity; lia.
Qed.

(** Every documented position is inside exactly if the image is not wider than high. *)
Lemma sized_access_all w h : (0 < w)%N -> (0 < h)%N -> (w * h < 2 ^ 64)%N -> (w * w < 2 ^ 63)%N -> (h < 2 ^ 63)%N ->
  ((forall x y, (x < w)%N -> (y < h)%N -> pixel_at (sized_image w h) x y <> Undef) <-> (w <= h \/ w = 1)%N).
Proof.
  intros Hw Hh Hm Hww Hh2. split.
  - intros H. destruct (N.le_gt_cases w h) as [|Hlt]; [left; assumption|].
    destruct (N.eq_dec w 1) as [|Hw1]; [right; assumption|]. exfalso.
    apply (H (w - 1)%N (h - 1)%N); [lia..|].
    destruct (sized_access w h (w - 1) (h - 1)) as [_ A]; [assumption|lia|lia|nia|].
    apply A. nia.
  - intros H x y Hx Hy K.
    destruct (sized_access w h x y) as [_ A]; [assumption..|nia|]. apply A in K. nia.
Qed.

(** Distinct positions are distinct pixels exactly for square images (and single columns). *)
Lemma sized_access_injective w h : (0 < w)%N -> (0 < h)%N -> (w * h < 2 ^ 64)%N -> (w * w < 2 ^ 63)%N -> (h < 2 ^ 63)%N ->
  ((forall x y, (x < w)%N -> (y < h)%N -> (x * w + y < w * h)%N) /\
   (forall x y x' y', (x < w)%N -> (y < h)%N -> (x' < w)%N -> (y' < h)%N ->
      (x * w + y = x' * w + y')%N -> x = x' /\ y = y') <-> (w = h \/ w = 1)%N).
Proof.
  intros Hw Hh Hm Hww Hh2. split.
  - intros [A B]. destruct (N.eq_dec w 1) as [|Hw1]; [right; assumption|left].
    destruct (N.lt_trichotomy w h) as [Hlt|[E|Hlt]]; [|exact E|].
    + destruct (B 0 w 1 0)%N as [K _]; lia.
    + specialize (A (w - 1)%N (h - 1)%N). nia.
  - intros [->| ->]; (split; [nia|]); intros x y x' y' Hx Hy Hx' Hy' E.
    + assert (x = x') by nia. lia.
    + lia.
Qed.

Lemma pixel_at_nth im w x y : width im = Some w -> (x * w + y < 2 ^ 64)%N ->
  pixel_at im x y = match nth_error (pixels im) (N.to_nat (x * w + y)) with Some v => Ret v | None => Undef end.
Proof. intros H1 H2. unfold pixel_at. rewrite H1. unfold two64. rewrite N.mod_small by exact H2. reflexivity. Qed.
