(** * What a written float or double reads back as: rounding to six digits and to the format. *)
From Coq Require Import ZArith Reals Lia Lra Psatz ZifyBool ZifyN.
From Flocq Require Import Core Relative IEEE754.Binary IEEE754.Bits.
From Verif Require Import CppProofs CardSpec CardProofs TextModel TextSpec TextRound TextScan TextFloat.
Local Open Scope R_scope.

Lemma std_man f : standard f -> (1 <= f_man f)%Z. Proof. intros [->| ->]; cbn; lia. Qed.
Lemma std_exp f : standard f -> (2 <= f_exp f)%Z. Proof. intros [->| ->]; cbn; lia. Qed.

#[local] Instance prec6 : Prec_gt_0 6 := eq_refl.
#[local] Instance near : Valid_rnd ZnearestE := valid_rnd_N _.
Lemma prec_f f : standard f -> Prec_gt_0 (f_man f + 1).
Proof. intros S. pose proof (std_man f S). unfold Prec_gt_0. lia. Qed.
#[local] Hint Resolve std_man std_exp prec_f : core.

Lemma valid_f f : standard f -> Valid_exp (FLT_exp (f_emin f) (f_man f + 1)).
Proof. intros S. pose proof (prec_f f S). apply FLT_exp_valid. assumption. Qed.

(** ** Laws of the two roundings *)

Lemma decimal6_le x y : x <= y -> decimal6 x <= decimal6 y.
Proof. apply round_le; typeclasses eauto. Qed.
Lemma nearest_le f x y : standard f -> x <= y -> nearest f x <= nearest f y.
Proof. intros S. apply round_le; [apply valid_f, S|typeclasses eauto]. Qed.
Lemma decimal6_opp x : decimal6 (- x) = - decimal6 x.
Proof. apply round_NE_opp. Qed.
Lemma nearest_opp f x : nearest f (- x) = - nearest f x.
Proof. apply round_NE_opp. Qed.
Lemma decimal6_0 : decimal6 0 = 0. Proof. apply round_0. typeclasses eauto. Qed.
Lemma nearest_0 f : nearest f 0 = 0. Proof. apply round_0. typeclasses eauto. Qed.
Lemma decimal6_signed b x : decimal6 (signed b x) = signed b (decimal6 x).
Proof. destruct b; [apply decimal6_opp|reflexivity]. Qed.
Lemma nearest_signed f b x : nearest f (signed b x) = signed b (nearest f x).
Proof. destruct b; [apply nearest_opp|reflexivity]. Qed.

Lemma nearest_rv f b : standard f -> (0 <= b)%Z -> nearest f (rv f b) = rv f b.
Proof. intros S B. apply round_generic; [typeclasses eauto|]. apply rv_format; auto. Qed.

(** The largest number of a format is not rounded up by six digits. *)
Lemma decimal6_max f : standard f -> decimal6 (rv f (inf_bits f - 1)) <= rv f (inf_bits f - 1).
Proof.
  intros S. unfold rv.
  assert (K : exists q e, decode_abs f (inf_bits f - 1) = (q, e) /\ (0 < q)%Z /\ (0 <= e)%Z /\
              let (a, x) := round_ratio radix10 (fun k => (k - 6)%Z) (q * 2 ^ e) 1 in (0 <= x)%Z /\ (a * 10 ^ x <= q * 2 ^ e)%Z).
  { destruct S as [->| ->]; eexists; eexists; (split; [vm_compute; reflexivity|]); (split; [vm_compute; reflexivity|]);
      (split; [vm_compute; discriminate|]); vm_compute; split; discriminate. }
  destruct K as (q & e & -> & Q & E & K). cbn [fst snd].
  assert (P : (0 < q * 2 ^ e)%Z) by (pose proof (Z.pow_pos_nonneg 2 e); nia).
  pose proof (round_ratio_correct radix10 (fun k => (k - 6)%Z) (q * 2 ^ e) 1 P ltac:(lia)) as R.
  destruct (round_ratio radix10 (fun k => (k - 6)%Z) (q * 2 ^ e) 1) as [a x]. destruct R as [_ R]. destruct K as [X K].
  assert (V : IZR (q * 2 ^ e) / 1 = IZR q * bpow radix2 e).
  { rewrite mult_IZR. change 2%Z with (radix_val radix2) at 1. rewrite IZR_Zpower by exact E. field. }
  rewrite V in R. change (decimal6 (IZR q * bpow radix2 e) <= IZR q * bpow radix2 e). unfold decimal6, FLX_exp. rewrite <- R.
  rewrite <- IZR_Zpower by exact X. rewrite <- mult_IZR. rewrite <- V. unfold Rdiv. rewrite Rinv_1, Rmult_1_r. apply IZR_le. exact K.
Qed.

Lemma no_overflow f b : standard f -> (0 <= b < inf_bits f)%Z -> nearest f (decimal6 (rv f b)) < beyond f.
Proof.
  intros S B. apply Rle_lt_trans with (rv f (inf_bits f - 1)).
  - rewrite <- (nearest_rv f (inf_bits f - 1)) by (auto; lia). apply nearest_le; [exact S|].
    eapply Rle_trans; [apply decimal6_le|apply decimal6_max, S].
    destruct (Z.eq_dec b (inf_bits f - 1)) as [->|]; [lra|]. apply Rlt_le, rv_lt; auto. lia.
  - rewrite <- rv_inf by auto. apply rv_lt; auto. lia.
Qed.

Lemma finite_mag f w : standard f -> finite f w -> (0 <= mag_bits f w < inf_bits f)%Z.
Proof.
  intros S H. apply (proj1 (float_of_spec f (std_man f S) (std_exp f S) w)) in H. pose proof (mag_bits_range f (std_man f S) (std_exp f S) w). lia.
Qed.
Lemma finite_neg f w : standard f -> finite f w -> negative f w = neg_bit f w.
Proof.
  intros S H. pose proof (finite_mag f w S H). destruct (float_of_spec f (std_man f S) (std_exp f S) w) as (_ & E & _).
  rewrite E. destruct (Z.ltb_spec (inf_bits f) (mag_bits f w)); [lia|reflexivity].
Qed.
Lemma finite_val f w : standard f -> finite f w -> fval f w = signed (neg_bit f w) (rv f (mag_bits f w)).
Proof. intros S H. destruct (float_of_spec f (std_man f S) (std_exp f S) w) as (_ & _ & V & _). apply V, H. Qed.

Lemma with_sign_finite f neg b : standard f -> (0 <= b < inf_bits f)%Z ->
  let w := with_sign f neg b in pattern f w /\ finite f w /\ negative f w = neg /\ fval f w = signed neg (rv f b).
Proof.
  intros S B w. pose proof (inf_lt_sign f (std_man f S) (std_exp f S)) as I.
  destruct (split_with_sign f (std_man f S) (std_exp f S) neg b ltac:(lia)) as (P & Ng & Mg). fold w in P, Ng, Mg.
  assert (F : finite f w) by (apply (proj1 (float_of_spec f (std_man f S) (std_exp f S) w)); rewrite Mg; lia).
  split; [exact P|]. split; [exact F|]. rewrite finite_neg, finite_val, Ng, Mg by assumption. auto.
Qed.

(** A pattern of a finite number is determined by its sign and its value. *)
Lemma finite_determined f w v : standard f -> pattern f w -> pattern f v -> finite f w -> finite f v ->
  negative f w = negative f v -> fval f w = fval f v -> w = v.
Proof.
  intros S Pw Pv Fw Fv N V. rewrite !finite_neg in N by assumption. rewrite !finite_val in V by assumption.
  pose proof (finite_mag f w S Fw). pose proof (finite_mag f v S Fv).
  rewrite <- (with_sign_split f (std_man f S) (std_exp f S) w Pw), <- (with_sign_split f (std_man f S) (std_exp f S) v Pv). rewrite N in *. f_equal.
  apply rv_inj with f; auto; try lia. unfold signed in V. destruct (neg_bit f v); lra.
Qed.

Lemma read_show f w : standard f -> pattern f w -> finite f w ->
  exists v, read_float f (show_float f w) = Some v /\ pattern f v /\ finite f v /\ negative f v = negative f w /\
            fval f v = nearest f (decimal6 (fval f w)).
Proof.
  intros S P F. pose proof (finite_mag f w S F) as B. rewrite finite_neg, finite_val by assumption.
  destruct (Z.eq_dec (mag_bits f w) 0) as [Z0|NZ].
  - exists (with_sign f (neg_bit f w) 0). split; [apply read_show_zero; auto|].
    pose proof (inf_lt_sign f (std_man f S) (std_exp f S)) as I.
    destruct (with_sign_finite f (neg_bit f w) 0 S ltac:(lia)) as (A1 & A2 & A3 & A4). rewrite Z0, decimal6_signed, nearest_signed, rv_0 by auto.
    rewrite decimal6_0, nearest_0. rewrite A4, rv_0 by auto. tauto.
  - destruct (read_show_pos f (std_man f S) (std_exp f S) w ltac:(lia)) as [R _].
    destruct R as (b & R & Rb & V); [apply no_overflow; assumption|].
    exists (with_sign f (neg_bit f w) b). split; [exact R|].
    destruct (with_sign_finite f (neg_bit f w) b S Rb) as (A1 & A2 & A3 & A4). rewrite decimal6_signed, nearest_signed, A4, V. tauto.
Qed.

(** ** Exactness *)

Lemma decimal6_id m k : (Z.abs m < 10 ^ 6)%Z -> decimal6 (IZR m * bpow radix10 k) = IZR m * bpow radix10 k.
Proof.
  intros H. apply round_generic; [typeclasses eauto|]. apply generic_format_FLX.
  exists (Float radix10 m k); [reflexivity|]. exact H.
Qed.

Lemma show_exact f w m k : standard f -> pattern f w -> finite f w -> (Z.abs m < 10 ^ 6)%Z -> fval f w = nearest f (IZR m * bpow radix10 k) ->
  decimal6 (fval f w) = IZR m * bpow radix10 k -> read_float f (show_float f w) = Some w.
Proof.
  intros S P F H E D. destruct (read_show f w S P F) as (v & R & Pv & Fv & Nv & V). rewrite R. f_equal.
  symmetry. apply (finite_determined f); auto. rewrite V, D. exact E.
Qed.
