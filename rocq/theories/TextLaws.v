(** * Accuracy, stability and exactness of written floating point values. *)
From Coq Require Import ZArith Reals Lia Lra Psatz ZifyBool ZifyN.
From Flocq Require Import Core Relative IEEE754.Binary IEEE754.Bits.
From Verif Require Import CppProofs CardSpec CardProofs TextModel TextSpec TextRound TextScan TextFloat TextProofs.
Local Open Scope R_scope.

#[local] Existing Instance prec6.
#[local] Existing Instance near.
#[local] Hint Resolve std_man std_exp prec_f : core.

(** ** Bounds on one rounding *)

Lemma bpow10_m6 : bpow radix10 (-6) = / 1000000. Proof. cbn. reflexivity. Qed.
Lemma bpow2_m23 : bpow radix2 (-23) = / 8388608. Proof. cbn. reflexivity. Qed.

Lemma decimal6_err x : Rabs (decimal6 x - x) <= 5 / 1000000 * Rabs x.
Proof.
  pose proof (relative_error_N_FLX radix10 6 prec6 (fun t => negb (Z.even t)) x) as H.
  change (- (6) + 1)%Z with (-5)%Z in H. change (bpow radix10 (-5)) with (/ 100000) in H.
  unfold decimal6. eapply Rle_trans; [exact H|]. apply Req_le. field.
Qed.

Lemma nearest_err f d : standard f -> Rabs (nearest f d - d) <= / 2 * (/ 8388608 * Rabs d + tiny f).
Proof.
  intros S. pose proof (prec_f f S) as P. unfold nearest.
  pose proof (error_le_half_ulp radix2 (FLT_exp (f_emin f) (f_man f + 1)) (fun t => negb (Z.even t)) d) as H.
  eapply Rle_trans; [exact H|]. apply Rmult_le_compat_l; [lra|].
  pose proof (bpow_gt_0 radix2 (f_emin f)) as T. pose proof (Rabs_pos d) as A. fold (tiny f) in T.
  destruct (Rlt_le_dec (Rabs d) (bpow radix2 (f_emin f + (f_man f + 1)))) as [L|G].
  - rewrite ulp_FLT_small by assumption. fold (tiny f). lra.
  - assert (U : ulp radix2 (FLT_exp (f_emin f) (f_man f + 1)) d <= Rabs d * bpow radix2 (1 - (f_man f + 1))).
    { apply ulp_FLT_le. eapply Rle_trans; [|exact G]. apply bpow_le. lia. }
    assert (B : bpow radix2 (1 - (f_man f + 1)) <= / 8388608).
    { rewrite <- bpow2_m23. apply bpow_le. destruct S as [->| ->]; cbn; lia. }
    pose proof (Rmult_le_compat_l _ _ _ A B). lra.
Qed.

(** Reading a written number back is close to it. *)
Lemma both_err f x : standard f -> Rabs (nearest f (decimal6 x) - x) <= 51 / 10000000 * Rabs x + / 2 * tiny f.
Proof.
  intros S. pose proof (decimal6_err x) as A. pose proof (nearest_err f (decimal6 x) S) as B.
  assert (C : Rabs (decimal6 x) <= Rabs x + 5 / 1000000 * Rabs x).
  { replace (decimal6 x) with (x + (decimal6 x - x)) by ring. eapply Rle_trans; [apply Rabs_triang|]. lra. }
  replace (nearest f (decimal6 x) - x) with ((nearest f (decimal6 x) - decimal6 x) + (decimal6 x - x)) by ring.
  eapply Rle_trans; [apply Rabs_triang|]. pose proof (Rabs_pos x). lra.
Qed.

(** ** Six digits survive the format when it is fine enough there *)

Definition fine (f : ffmt) : R := 2097152 * tiny f.

Lemma tiny_pos f : 0 < tiny f. Proof. apply bpow_gt_0. Qed.

Lemma six_stable f d : standard f -> fine f < Rabs d -> generic_format radix10 (FLX_exp 6) d -> decimal6 (nearest f d) = d.
Proof.
  intros S.
  assert (G : forall d, fine f < d -> generic_format radix10 (FLX_exp 6) d -> decimal6 (nearest f d) = d).
  { clear d. intros d D F. pose proof (tiny_pos f) as T. unfold fine in D.
    assert (P : 0 < d) by lra.
    pose proof (nearest_err f d S) as E. rewrite (Rabs_pos_eq d) in E by lra.
    assert (E2 : Rabs (nearest f d - d) < / 2 * (/ 1000000 * d)) by (eapply Rle_lt_trans; [exact E|]; lra).
    apply Rabs_lt_inv in E2.
    assert (V : Valid_exp (FLX_exp 6)) by typeclasses eauto.
    pose proof (ulp_FLX_ge radix10 6 d) as U. rewrite Rabs_pos_eq in U by lra.
    change (- (6))%Z with (-6)%Z in U. rewrite bpow10_m6 in U.
    apply Rle_antisym.
    - apply round_N_le_midp; [exact V|exact F|]. rewrite succ_eq_pos by lra. lra.
    - apply round_N_ge_midp; [exact V|exact F|]. rewrite pred_eq_pos by lra. unfold pred_pos.
      destruct (Req_bool_spec d (bpow radix10 (mag radix10 d - 1))) as [Q|Q]; [|lra].
      assert (W : bpow radix10 (FLX_exp 6 (mag radix10 d - 1)) = / 1000000 * d).
      { unfold FLX_exp. replace (mag radix10 d - 1 - 6)%Z with (-6 + (mag radix10 d - 1))%Z by lia.
        rewrite bpow_plus, <- Q, bpow10_m6. reflexivity. }
      rewrite W. lra. }
  intros D F. destruct (Rle_lt_dec 0 d) as [P|P].
  - rewrite Rabs_pos_eq in D by exact P. apply G; assumption.
  - rewrite Rabs_left in D by exact P. rewrite <- (Ropp_involutive d) at 1. rewrite nearest_opp, decimal6_opp, G; [ring|exact D|].
    apply generic_format_opp, F.
Qed.

Lemma decimal6_format x : generic_format radix10 (FLX_exp 6) (decimal6 x).
Proof. apply generic_format_round; typeclasses eauto. Qed.

Lemma decimal6_fine f x : 2 * fine f <= Rabs x -> fine f < Rabs (decimal6 x).
Proof.
  intros H. pose proof (decimal6_err x) as E. pose proof (tiny_pos f) as T. unfold fine in *.
  assert (C : Rabs x <= Rabs (decimal6 x) + 5 / 1000000 * Rabs x).
  { replace x with (decimal6 x + - (decimal6 x - x)) at 1 by ring. eapply Rle_trans; [apply Rabs_triang|]. rewrite Rabs_Ropp. lra. }
  lra.
Qed.

Lemma stable f x : standard f -> 2 * fine f <= Rabs x -> decimal6 (nearest f (decimal6 x)) = decimal6 x.
Proof. intros S H. apply six_stable; [exact S|apply decimal6_fine, H|apply decimal6_format]. Qed.

(** ** The text is determined by the sign and the six digits *)

Lemma digits_unique d x d' x' : (10 ^ 5 <= d < 10 ^ 6)%Z -> (10 ^ 5 <= d' < 10 ^ 6)%Z ->
  IZR d * bpow radix10 (x - 5) = IZR d' * bpow radix10 (x' - 5) -> d = d' /\ x = x'.
Proof.
  intros D D' H.
  assert (X : forall d x, (10 ^ 5 <= d < 10 ^ 6)%Z -> mag radix10 (IZR d * bpow radix10 (x - 5)) = (x + 1)%Z :> Z).
  { clear. intros d x D. rewrite mag_mult_bpow by (apply not_0_IZR; lia).
    rewrite (mag_unique radix10 (IZR d) 6); [lia|].
    rewrite Rabs_pos_eq by (apply IZR_le; lia). split; [apply (IZR_le (10 ^ 5)); lia|apply (IZR_lt _ (10 ^ 6)); lia]. }
  assert (E : x = x') by (pose proof (X d x D) as A; pose proof (X d' x' D') as B; rewrite H in A; lia).
  subst x'. split; [|reflexivity]. apply eq_IZR. eapply Rmult_eq_reg_r; [exact H|]. apply Rgt_not_eq, bpow_gt_0.
Qed.

Lemma same_text f w v : standard f -> finite f w -> finite f v -> negative f w = negative f v ->
  decimal6 (fval f w) = decimal6 (fval f v) -> fval f w <> 0 -> fval f v <> 0 -> show_float f w = show_float f v.
Proof.
  intros S Fw Fv N D Zw Zv. pose proof (finite_mag f w S Fw) as Bw. pose proof (finite_mag f v S Fv) as Bv.
  rewrite !finite_neg in N by assumption. rewrite !finite_val, !decimal6_signed in D by assumption.
  rewrite finite_val in Zw by assumption. rewrite finite_val in Zv by assumption.
  assert (Pw : (0 < mag_bits f w)%Z).
  { destruct (Z.eq_dec (mag_bits f w) 0) as [E|]; [|lia]. rewrite E, rv_0 in Zw by auto. exfalso. apply Zw. destruct (neg_bit f w); cbn; ring. }
  assert (Pv : (0 < mag_bits f v)%Z).
  { destruct (Z.eq_dec (mag_bits f v) 0) as [E|]; [|lia]. rewrite E, rv_0 in Zv by auto. exfalso. apply Zv. destruct (neg_bit f v); cbn; ring. }
  destruct (show_finite f (std_man f S) (std_exp f S) w ltac:(lia)) as (d & x & -> & H1 & H2 & _).
  destruct (show_finite f (std_man f S) (std_exp f S) v ltac:(lia)) as (d' & x' & -> & H1' & H2' & _).
  rewrite N in *. destruct (digits_unique d x d' x' H1 H1') as [-> ->]; [|reflexivity].
  rewrite H2, H2'. destruct (neg_bit f v); cbn in D; lra.
Qed.

Lemma decimal6_nonzero x : x <> 0 -> decimal6 x <> 0.
Proof.
  intros H E. pose proof (decimal6_err x) as A. rewrite E in A. replace (0 - x) with (- x) in A by ring. rewrite Rabs_Ropp in A.
  pose proof (Rabs_pos_lt x H). lra.
Qed.

Lemma rewrite_text f w : standard f -> pattern f w -> finite f w -> 2 * fine f <= Rabs (fval f w) ->
  exists v, read_float f (show_float f w) = Some v /\ show_float f v = show_float f w /\ read_float f (show_float f v) = Some v.
Proof.
  intros S P F H. destruct (read_show f w S P F) as (v & R & Pv & Fv & Nv & V). exists v. split; [exact R|].
  assert (Zw : fval f w <> 0). { intros E. rewrite E, Rabs_R0 in H. unfold fine in H. pose proof (tiny_pos f). lra. }
  assert (D : decimal6 (fval f v) = decimal6 (fval f w)) by (rewrite V; apply stable; assumption).
  assert (T : show_float f v = show_float f w).
  { apply same_text; auto. intros E. apply (decimal6_nonzero _ Zw). rewrite <- D, E. apply decimal6_0. }
  split; [exact T|]. rewrite T. exact R.
Qed.

(** ** Exactly which values survive *)

Lemma survives_iff f w : standard f -> pattern f w -> finite f w ->
  (read_float f (show_float f w) = Some w <-> fval f w = nearest f (decimal6 (fval f w))).
Proof.
  intros S P F. destruct (read_show f w S P F) as (v & R & Pv & Fv & Nv & V). rewrite R. split.
  - intros E. injection E as ->. exact V.
  - intros E. f_equal. symmetry. apply (finite_determined f); auto. congruence.
Qed.

Lemma six_digit_number x : generic_format radix10 (FLX_exp 6) x -> exists m k, (Z.abs m < 10 ^ 6)%Z /\ x = IZR m * bpow radix10 k.
Proof. intros F. apply FLX_format_generic in F; [|exact prec6]. destruct F as [[m k] E B]. exists m, k. split; [exact B|exact E]. Qed.

Lemma fine_fixed f : standard f -> nearest f (fine f) = fine f.
Proof.
  intros S. unfold fine, tiny. replace (2097152 * bpow radix2 (f_emin f)) with (bpow radix2 (21 + f_emin f)) by (rewrite bpow_plus; reflexivity).
  apply round_generic; [typeclasses eauto|]. apply generic_format_bpow. unfold FLT_exp. destruct S as [->| ->]; cbn; lia.
Qed.

Lemma survives_six f w : standard f -> pattern f w -> finite f w -> 2 * fine f <= Rabs (fval f w) ->
  (read_float f (show_float f w) = Some w <->
   exists m k, (Z.abs m < 10 ^ 6)%Z /\ fval f w = nearest f (IZR m * bpow radix10 k)).
Proof.
  intros S P F H. rewrite survives_iff by assumption. split.
  - intros E. destruct (six_digit_number _ (decimal6_format (fval f w))) as (m & k & B & D). exists m, k. rewrite <- D. auto.
  - intros (m & k & B & E). set (d := IZR m * bpow radix10 k) in *.
    assert (Fd : generic_format radix10 (FLX_exp 6) d) by (apply generic_format_FLX; exists (Float radix10 m k); [reflexivity|exact B]).
    assert (L : fine f < Rabs d).
    { destruct (Rlt_le_dec (fine f) (Rabs d)) as [L|L]; [exact L|]. exfalso.
      assert (A : Rabs (nearest f d) <= fine f).
      { apply Rabs_le_inv in L. rewrite <- (fine_fixed f S). apply Rabs_le. rewrite <- nearest_opp. split; apply nearest_le; auto; lra. }
      rewrite <- E in A. unfold fine in *. pose proof (tiny_pos f). lra. }
    rewrite E at 2. rewrite (six_stable f d S L Fd). exact E.
Qed.

(** A value that has at most six significant digits survives, however small. *)
Lemma survives_exact f w m k : standard f -> pattern f w -> finite f w -> (Z.abs m < 10 ^ 6)%Z -> fval f w = IZR m * bpow radix10 k ->
  read_float f (show_float f w) = Some w.
Proof.
  intros S P F B E. apply survives_iff; auto. rewrite E, decimal6_id, <- E by exact B.
  symmetry. pose proof (finite_mag f w S F) as R. rewrite finite_val by assumption. rewrite nearest_signed, nearest_rv by (auto; lia). reflexivity.
Qed.

(** ** Order *)

Lemma order_kept f w1 w2 : standard f -> pattern f w1 -> pattern f w2 -> finite f w1 -> finite f w2 -> fval f w1 <= fval f w2 ->
  exists v1 v2, read_float f (show_float f w1) = Some v1 /\ read_float f (show_float f w2) = Some v2 /\ fval f v1 <= fval f v2.
Proof.
  intros S P1 P2 F1 F2 L. destruct (read_show f w1 S P1 F1) as (v1 & R1 & _ & _ & _ & V1). destruct (read_show f w2 S P2 F2) as (v2 & R2 & _ & _ & _ & V2).
  exists v1, v2. rewrite V1, V2. split; [exact R1|]. split; [exact R2|]. apply nearest_le, decimal6_le, L. exact S.
Qed.

(** ** Infinities and NaN *)

Lemma show_inf f w : standard f -> mag_bits f w = inf_bits f -> show_float f w = sign_text (neg_bit f w) ++ lit "inf".
Proof. intros S H. unfold show_float, decode. fold (mag_bits f w). fold (neg_bit f w). rewrite H, Z.eqb_refl. reflexivity. Qed.
Lemma show_nan f w : standard f -> (inf_bits f < mag_bits f w)%Z -> show_float f w = sign_text (neg_bit f w) ++ lit "nan".
Proof.
  intros S H. unfold show_float, decode. fold (mag_bits f w). fold (neg_bit f w).
  destruct (Z.eqb_spec (mag_bits f w) (inf_bits f)); [lia|]. destruct (Z.ltb_spec (inf_bits f) (mag_bits f w)); [reflexivity|lia].
Qed.

Lemma read_special f w : standard f -> pattern f w -> ~ finite f w ->
  read_float f (show_float f w) = Some (if (mag_bits f w =? inf_bits f)%Z then w else quiet_nan f (neg_bit f w)).
Proof.
  intros S P F. pose proof (proj1 (float_of_spec f (std_man f S) (std_exp f S) w)) as I.
  destruct (Z.eqb_spec (mag_bits f w) (inf_bits f)) as [E|E].
  - rewrite show_inf by assumption. rewrite <- (with_sign_split f (std_man f S) (std_exp f S) w P) at 2. rewrite E.
    destruct (neg_bit f w); reflexivity.
  - assert (G : (inf_bits f < mag_bits f w)%Z) by (destruct (Z.lt_trichotomy (mag_bits f w) (inf_bits f)) as [?|[?|?]]; [tauto|contradiction|assumption]).
    rewrite show_nan by assumption. destruct (neg_bit f w); reflexivity.
Qed.

Lemma quiet_nan_float f neg : standard f -> pattern f (quiet_nan f neg) /\ exists p, float_of f (quiet_nan f neg) = F754_nan neg p.
Proof. intros [->| ->]; destruct neg; (split; [reflexivity|eexists; reflexivity]). Qed.

Lemma read_infinity f w neg : standard f -> pattern f w -> float_of f w = F754_infinity neg -> read_float f (show_float f w) = Some w.
Proof.
  intros S P E. destruct (float_of_spec f (std_man f S) (std_exp f S) w) as (I & _ & _ & J & _).
  assert (F : ~ finite f w) by (unfold finite; rewrite E; discriminate).
  rewrite read_special by assumption.
  destruct (Z.eqb_spec (mag_bits f w) (inf_bits f)) as [Q|Q]; [reflexivity|].
  exfalso. assert (G : (inf_bits f < mag_bits f w)%Z) by (destruct (Z.lt_trichotomy (mag_bits f w) (inf_bits f)) as [?|[?|?]]; [tauto|contradiction|assumption]).
  apply Q, J. rewrite E. f_equal.
  destruct (float_of_spec f (std_man f S) (std_exp f S) w) as (_ & _ & _ & _ & N). specialize (N G). unfold negative in N. rewrite E in N. exact N.
Qed.

Lemma read_nan f w neg p : standard f -> pattern f w -> float_of f w = F754_nan neg p ->
  exists v q, read_float f (show_float f w) = Some v /\ pattern f v /\ float_of f v = F754_nan neg q.
Proof.
  intros S P E. destruct (float_of_spec f (std_man f S) (std_exp f S) w) as (I & _ & _ & J & N).
  assert (F : ~ finite f w) by (unfold finite; rewrite E; discriminate).
  assert (Q : mag_bits f w <> inf_bits f) by (intros Q; apply J in Q; rewrite E in Q; discriminate).
  assert (G : (inf_bits f < mag_bits f w)%Z) by (destruct (Z.lt_trichotomy (mag_bits f w) (inf_bits f)) as [?|[?|?]]; [tauto|contradiction|assumption]).
  specialize (N G). unfold negative in N. rewrite E in N. cbn in N.
  rewrite read_special by assumption. destruct (Z.eqb_spec (mag_bits f w) (inf_bits f)); [contradiction|].
  rewrite <- N. destruct (quiet_nan_float f neg S) as (A & q & B). exists (quiet_nan f neg), q. auto.
Qed.

(** ** Width *)

Lemma rv_one f : standard f -> rv f 1 = tiny f.
Proof.
  intros S. assert (E : decode_abs f 1 = (1, f_emin f)%Z) by (destruct S as [->| ->]; reflexivity).
  unfold rv, tiny. rewrite E. cbn [fst snd]. apply Rmult_1_l.
Qed.

Lemma mag10_bounds f b : standard f -> (0 < b < inf_bits f)%Z -> (-400 < mag radix10 (rv f b) <= 400)%Z.
Proof.
  intros S B. pose proof (rv_pos f (std_man f S) (std_exp f S) b ltac:(lia)) as P. split.
  - apply mag_gt_bpow. rewrite Rabs_pos_eq by lra.
    apply Rle_trans with (tiny f).
    + unfold tiny. apply Rle_trans with (bpow radix2 (-1100)); [|apply bpow_le; destruct S as [->| ->]; cbn; lia].
      replace (-400)%Z with (-(400))%Z by lia. replace (-1100)%Z with (-(1100))%Z by lia. rewrite !bpow_opp.
      apply Rinv_le; [apply bpow_gt_0|]. rewrite <- !IZR_Zpower by lia. apply IZR_le. vm_compute. discriminate.
    + rewrite <- rv_one by exact S. destruct (Z.eq_dec b 1) as [->|]; [lra|]. apply Rlt_le, rv_lt; auto. lia.
  - apply mag_le_bpow; [lra|]. rewrite Rabs_pos_eq by lra. apply Rlt_le_trans with (beyond f).
    + rewrite <- rv_inf by auto. apply rv_lt; auto. lia.
    + unfold beyond. apply Rle_trans with (bpow radix2 1024); [apply bpow_le; destruct S as [->| ->]; cbn; lia|].
      rewrite <- !IZR_Zpower by lia. apply IZR_le. vm_compute. discriminate.
Qed.

Lemma sign_text_length b : (length (sign_text b) <= 1)%nat. Proof. destruct b; cbn; lia. Qed.

Lemma show_width f w : standard f -> (length (show_float f w) <= 13)%nat.
Proof.
  intros S. pose proof (mag_bits_range f (std_man f S) (std_exp f S) w) as R. pose proof (sign_text_length (neg_bit f w)) as L.
  destruct (Z.lt_trichotomy (mag_bits f w) (inf_bits f)) as [H|[H|H]].
  - destruct (Z.eq_dec (mag_bits f w) 0) as [E|E].
    + rewrite show_zero by auto. rewrite app_length. cbn [lit list_ascii_of_string length]. lia.
    + destruct (show_finite f (std_man f S) (std_exp f S) w ltac:(lia)) as (d & x & -> & D & _ & X).
      pose proof (mag10_bounds f (mag_bits f w) S ltac:(lia)). rewrite app_length. pose proof (render_length d x D ltac:(lia)). lia.
  - rewrite show_inf by assumption. rewrite app_length. cbn [lit list_ascii_of_string length]. lia.
  - rewrite show_nan by assumption. rewrite app_length. cbn [lit list_ascii_of_string length]. lia.
Qed.

Lemma sign_chars b c : In c (sign_text b) -> float_char c.
Proof. destruct b; [|intros []]. intros [<-|[]]. right. cbn. tauto. Qed.

Lemma show_chars f w c : standard f -> In c (show_float f w) -> float_char c.
Proof.
  intros S. pose proof (mag_bits_range f (std_man f S) (std_exp f S) w) as R.
  destruct (Z.lt_trichotomy (mag_bits f w) (inf_bits f)) as [H|[H|H]].
  - destruct (Z.eq_dec (mag_bits f w) 0) as [E|E].
    + rewrite show_zero by auto. intros I. apply in_app_or in I. destruct I as [I|I]; [apply sign_chars in I; exact I|].
      destruct I as [<-|[]]. left. exists 0%N. split; [lia|reflexivity].
    + destruct (show_finite f (std_man f S) (std_exp f S) w ltac:(lia)) as (d & x & -> & D & _ & X).
      intros I. apply in_app_or in I. destruct I as [I|I]; [apply sign_chars in I; exact I|]. apply render_chars in I. exact I.
  - rewrite show_inf by assumption. intros I. apply in_app_or in I. destruct I as [I|I]; [apply sign_chars in I; exact I|].
    right. cbn in *. tauto.
  - rewrite show_nan by assumption. intros I. apply in_app_or in I. destruct I as [I|I]; [apply sign_chars in I; exact I|].
    right. cbn in *. tauto.
Qed.

Lemma show_nonempty f w : standard f -> show_float f w <> [].
Proof.
  intros S. pose proof (mag_bits_range f (std_man f S) (std_exp f S) w) as R. intros N. apply (f_equal (@length ascii)) in N. revert N.
  destruct (Z.lt_trichotomy (mag_bits f w) (inf_bits f)) as [H|[H|H]].
  - destruct (Z.eq_dec (mag_bits f w) 0) as [E|E].
    + rewrite show_zero by auto. rewrite app_length. cbn. lia.
    + destruct (show_finite f (std_man f S) (std_exp f S) w ltac:(lia)) as (d & x & -> & D & _ & X).
      destruct (render_head d x D) as (c & r & -> & _). rewrite app_length. cbn. lia.
  - rewrite show_inf by assumption. rewrite app_length. cbn. lia.
  - rewrite show_nan by assumption. rewrite app_length. cbn. lia.
Qed.
