(** * Pixels as doubles, and sums of them. *)
From Coq Require Import ZArith NArith Reals List Lia Lra Psatz Permutation ZifyBool ZifyN ZifyNat.
From Flocq Require Import Core Relative IEEE754.BinarySingleNaN IEEE754.Binary IEEE754.Bits.
From Verif Require Import ConvSpec ImageModel TextModel TextSpec TextRound TextScan TextFloat TextProofs TextLaws TextRead TextCard DoubleModel DoubleSpec DoubleProofs DoubleUnits VectorModel VectorSpec VectorProofs VectorArith PixelModel PixelSpec.
Import ListNotations.
Local Open Scope R_scope.

#[local] Instance prec53 : Prec_gt_0 53 := eq_refl.
#[local] Existing Instance near.

(** ** One pixel *)

Lemma word_signed k w : signed_word k w = signed_of k w.
Proof. unfold signed_word, signed_of. replace (2 ^ (8 * Z.of_nat k))%Z with (256 ^ Z.of_nat k)%Z; [reflexivity|]. rewrite Z.pow_mul_r by lia. reflexivity. Qed.

Lemma signed_range_ok k w : (1 <= k)%nat -> (w < 256 ^ N.of_nat k)%N -> (- 2 ^ (8 * Z.of_nat k - 1) <= signed_of k w < 2 ^ (8 * Z.of_nat k - 1))%Z.
Proof.
  intros K W. unfold signed_of.
  assert (E : (256 ^ Z.of_nat k = 2 * 2 ^ (8 * Z.of_nat k - 1))%Z).
  { change 256%Z with (2 ^ 8)%Z. rewrite <- Z.pow_mul_r by lia. rewrite <- Z.pow_succ_r by lia. f_equal. lia. }
  assert (W' : (Z.of_N w < 256 ^ Z.of_nat k)%Z).
  { apply N2Z.inj_lt in W. rewrite N2Z.inj_pow, nat_N_Z in W. exact W. }
  destruct (Z.ltb_spec (Z.of_N w) (2 ^ (8 * Z.of_nat k - 1))); lia.
Qed.

Lemma b64_float w : B2FF 53 1024 (b64_of_bits (Z.of_N w)) = float_of TextModel.binary64 w.
Proof. unfold b64_of_bits, binary_float_of_bits. rewrite B2FF_FF2B. reflexivity. Qed.

(** The double of a float pixel, by cases. *)
Lemma float_cases w :
  match decode TextModel.binary32 w with
  | FFin neg q e => finite TextModel.binary32 w /\ (0 <= q < 2 ^ 24)%Z /\ (-149 <= e)%Z /\ fval TextModel.binary32 w = (if neg then - (IZR q * bpow radix2 e) else IZR q * bpow radix2 e) /\
      Rabs (fval TextModel.binary32 w) < bpow radix2 128
  | FInf neg => float_of TextModel.binary32 w = F754_infinity neg
  | FNan neg => exists p, float_of TextModel.binary32 w = F754_nan neg p
  end.
Proof.
  destruct (float_of_spec TextModel.binary32 ltac:(cbn; lia) ltac:(cbn; lia) w) as (Fi & _ & V & I & N).
  unfold decode. fold (neg_bit TextModel.binary32 w). fold (mag_bits TextModel.binary32 w).
  pose proof (mag_bits_range TextModel.binary32 ltac:(cbn; lia) ltac:(cbn; lia) w) as R.
  destruct (Z.eqb_spec (mag_bits TextModel.binary32 w) (inf_bits TextModel.binary32)) as [E|E]; [apply I; exact E|].
  destruct (Z.ltb_spec (inf_bits TextModel.binary32) (mag_bits TextModel.binary32 w)) as [L|L].
  - specialize (N L). unfold negative in N. assert (NF : ~ finite TextModel.binary32 w) by (rewrite Fi; lia).
    assert (NI : float_of TextModel.binary32 w <> F754_infinity (neg_bit TextModel.binary32 w)) by (rewrite I; exact E).
    unfold finite in NF. destruct (float_of TextModel.binary32 w) as [s|s|s p|s m e]; cbn in *; try (exfalso; apply NF; reflexivity); subst s; [contradiction|]. exists p. reflexivity.
  - assert (F : finite TextModel.binary32 w) by (apply Fi; lia). split; [exact F|]. specialize (V F).
    pose proof (decode_abs_ok TextModel.binary32 ltac:(cbn; lia) ltac:(cbn; lia) (mag_bits TextModel.binary32 w) ltac:(lia)) as K.
    pose proof (rv_lt TextModel.binary32 ltac:(cbn; lia) ltac:(cbn; lia) (mag_bits TextModel.binary32 w) (inf_bits TextModel.binary32) ltac:(lia)) as B. rewrite rv_inf in B by (cbn; lia).
    assert (P : 0 <= rv TextModel.binary32 (mag_bits TextModel.binary32 w)).
    { destruct (Z.eq_dec (mag_bits TextModel.binary32 w) 0) as [->|Z]; [rewrite rv_0 by (cbn; lia); lra|]. left. apply rv_pos; (cbn; lia). }
    unfold rv in *. destruct (decode_abs TextModel.binary32 (mag_bits TextModel.binary32 w)) as [q e]. cbn [fst snd] in *. destruct K as (K1 & K2 & _).
    split; [cbn in K1; lia|]. split; [cbn in K2; lia|]. rewrite V. unfold signed. split; [reflexivity|].
    change (beyond TextModel.binary32) with (bpow radix2 128) in B.
    destruct (neg_bit TextModel.binary32 w); [rewrite Rabs_Ropp|]; rewrite Rabs_pos_eq by exact P; exact B.
Qed.

Lemma normalize_small q e s : (Z.abs q < 2 ^ 53)%Z -> (-1074 <= e)%Z -> Rabs (IZR q * bpow radix2 e) < bpow radix2 1024 ->
  fin (binary_normalize 53 1024 eq_refl eq_refl mode_NE q e s) = true /\ val (binary_normalize 53 1024 eq_refl eq_refl mode_NE q e s) = IZR q * bpow radix2 e.
Proof.
  intros Q E B. pose proof (binary_normalize_correct 53 1024 eq_refl eq_refl mode_NE q e s) as C. unfold F2R in C. cbn [Fnum Fexp] in C.
  change (round radix2 (SpecFloat.fexp 53 1024) (round_mode mode_NE) (IZR q * bpow radix2 e)) with (rnd (IZR q * bpow radix2 e)) in C.
  rewrite rnd_id in C by (apply fmt_intro; assumption). rewrite Rlt_bool_true in C by exact B. destruct C as (C1 & C2 & _). auto.
Qed.

Lemma float_double w : (dfinite (double_of_float w) <-> finite TextModel.binary32 w) /\
  (finite TextModel.binary32 w -> val (double_of_float w) = fval TextModel.binary32 w) /\
  (forall s, B2FF 53 1024 (double_of_float w) = F754_infinity s <-> float_of TextModel.binary32 w = F754_infinity s) /\
  (is_nan 53 1024 (double_of_float w) = true <-> exists s p, float_of TextModel.binary32 w = F754_nan s p).
Proof.
  pose proof (float_cases w) as C. unfold double_of_float. destruct (decode TextModel.binary32 w) as [neg|neg|neg q e].
  - destruct C as [p C]. unfold dfinite, finite. rewrite C. cbn. split; [split; discriminate|]. split; [discriminate|]. split; [split; discriminate|].
    split; [intros _; exists neg, p; reflexivity|reflexivity].
  - unfold dfinite, finite. rewrite C. cbn. split; [split; discriminate|]. split; [discriminate|]. split; [intros s; split; intros H; exact H|].
    split; [discriminate|intros (s & p & H); discriminate].
  - destruct C as (F & Q & E & V & B).
    set (q' := (if neg then - q else q)%Z).
    assert (V' : fval TextModel.binary32 w = IZR q' * bpow radix2 e).
    { rewrite V. unfold q'. destruct neg; [rewrite opp_IZR; ring|reflexivity]. }
    destruct (normalize_small q' e neg) as [G W]; [unfold q'; destruct neg; lia|lia|rewrite <- V'; eapply Rlt_trans; [exact B|apply bpow_lt; lia]|].
    unfold dfinite. fold q'. split; [split; [intros _; exact F|intros _; exact G]|]. split; [intros _; rewrite W, V'; reflexivity|].
    unfold finite in F. split.
    + intros s. split; intros H; [|rewrite H in F; discriminate]. destruct (binary_normalize _ _ _ _ _ _ _ _); cbn in *; discriminate.
    + split; intros H; [destruct (binary_normalize _ _ _ _ _ _ _ _); cbn in *; discriminate|]. destruct H as (s & p & H). rewrite H in F. discriminate.
Qed.

(** All there is to know about the double of a pixel. *)
Lemma pixel_ok b w : pixel_pattern b w ->
  (dfinite (pixel_double b w) <-> pixel_number b w) /\
  (pixel_number b w -> val (pixel_double b w) = pixel_value b w) /\
  (forall s, B2FF 53 1024 (pixel_double b w) = F754_infinity s <-> pixel_infinite b s w) /\
  (is_nan 53 1024 (pixel_double b w) = true <-> pixel_blank b w).
Proof.
  assert (K : forall z, (Z.abs z < 2 ^ 53)%Z -> (dfinite (d_of_Z z) <-> True) /\ (True -> val (d_of_Z z) = IZR z) /\
    (forall s, B2FF 53 1024 (d_of_Z z) = F754_infinity s <-> False) /\ (is_nan 53 1024 (d_of_Z z) = true <-> False)).
  { intros z Z. destruct (small_int_ok z Z) as [F V]. unfold dfinite. split; [split; auto|]. split; [intros _; exact V|].
    split; [intros s|]; split; try contradiction; intros H; destruct (d_of_Z z); cbn in *; discriminate. }
  intros P. unfold pixel_pattern in P. destruct b; cbn [pixel_double pixel_number pixel_value pixel_infinite pixel_blank].
  - rewrite word_signed. apply K. pose proof (signed_range_ok 1 w ltac:(lia) P) as R. change (2 ^ (8 * Z.of_nat 1 - 1))%Z with 128%Z in R. lia.
  - rewrite word_signed. apply K. pose proof (signed_range_ok 2 w ltac:(lia) P) as R. change (2 ^ (8 * Z.of_nat 2 - 1))%Z with 32768%Z in R. lia.
  - rewrite word_signed. apply K. pose proof (signed_range_ok 4 w ltac:(lia) P) as R. change (2 ^ (8 * Z.of_nat 4 - 1))%Z with 2147483648%Z in R. lia.
  - apply float_double.
  - pose proof (b64_float w) as B. unfold dfinite, finite, fval. rewrite <- B. split; [destruct (b64_of_bits (Z.of_N w)); cbn; split; auto|]. split; [intros _; symmetry; apply FF2R_B2FF|].
    split; [intros s; reflexivity|]. destruct (b64_of_bits (Z.of_N w)) as [s|s|s p e|s m e H]; cbn; (split; [try discriminate; intros _; exists s, p; reflexivity|intros (s' & p' & H'); try discriminate H'; reflexivity]).
Qed.

(** ** Numbers on a grid *)

Definition on_grid (g : Z) (x : R) : Prop := exists k : Z, x = IZR k * bpow radix2 g.

Lemma grid_add g x y : on_grid g x -> on_grid g y -> on_grid g (x + y).
Proof. intros [k ->] [l ->]. exists (k + l)%Z. rewrite plus_IZR. ring. Qed.
Lemma grid_sub g x y : on_grid g x -> on_grid g y -> on_grid g (x - y).
Proof. intros [k ->] [l ->]. exists (k - l)%Z. rewrite minus_IZR. ring. Qed.
Lemma grid_finer g h x : (h <= g)%Z -> on_grid g x -> on_grid h x.
Proof. intros L [k ->]. exists (k * 2 ^ (g - h))%Z. rewrite mult_IZR. change 2%Z with (radix_val radix2) at 1. rewrite IZR_Zpower by lia. rewrite Rmult_assoc, <- bpow_plus. do 2 f_equal. lia. Qed.
Lemma grid_zero g : on_grid g 0. Proof. exists 0%Z. ring. Qed.
Lemma grid_low g x : on_grid g x -> x = 0 \/ bpow radix2 g <= Rabs x.
Proof.
  intros [k ->]. destruct (Z.eq_dec k 0) as [->|N]; [left; ring|right]. rewrite Rabs_mult, (Rabs_pos_eq (bpow radix2 g)) by apply bpow_ge_0.
  rewrite <- (Rmult_1_l (bpow radix2 g)) at 1. apply Rmult_le_compat_r; [apply bpow_ge_0|]. rewrite <- abs_IZR. apply IZR_le. lia.
Qed.

(** Rounding stays on a grid. *)
Lemma grid_rnd g x : (-1074 <= g)%Z -> on_grid g x -> on_grid g (rnd x).
Proof.
  intros G [k E]. destruct (Z.le_gt_cases g (cexp radix2 (FLT_exp (-1074) 53) x)) as [L|L].
  - apply (grid_finer (cexp radix2 (FLT_exp (-1074) 53) x)); [exact L|]. exists (ZnearestE (scaled_mantissa radix2 (FLT_exp (-1074) 53) x)). reflexivity.
  - rewrite rnd_id; [exists k; exact E|]. rewrite E. apply generic_format_F2R' with (Float radix2 k g); [unfold F2R; reflexivity|]. intros _. rewrite <- E. cbn [Fexp]. exact (Z.lt_le_incl _ _ L).
Qed.

(** A double that is not small is on a grid. *)
Lemma fmt_grid k x : (-1021 <= k)%Z -> fmt x -> x = 0 \/ bpow radix2 k <= Rabs x -> on_grid (k - 53) x.
Proof.
  intros K F [->|L]; [apply grid_zero|]. apply (grid_finer (cexp radix2 (FLT_exp (-1074) 53) x)).
  - unfold cexp, FLT_exp. assert (M : (k < mag radix2 x)%Z) by (apply mag_gt_bpow; exact L). lia.
  - exists (Ztrunc (scaled_mantissa radix2 (FLT_exp (-1074) 53) x)). exact F.
Qed.
