(** * The integer rounding of TextModel is rounding to nearest even of the real number. *)
From Coq Require Import ZArith Reals Lia Lra Psatz ZifyBool.
From Flocq Require Import Core.
From Verif Require Import TextModel.
Local Open Scope R_scope.

Lemma Rle_div_r a b c : 0 < c -> a * c <= b <-> a <= b / c.
Proof.
  intros C. assert (E : b / c * c = b) by (field; lra). split; intros H.
  - apply Rmult_le_reg_r with c; lra.
  - rewrite <- E. apply Rmult_le_compat_r; lra.
Qed.
Lemma Rle_div_l a b c : 0 < c -> a <= b * c <-> a / c <= b.
Proof.
  intros C. assert (E : a / c * c = a) by (field; lra). split; intros H.
  - apply Rmult_le_reg_r with c; lra.
  - rewrite <- E. apply Rmult_le_compat_r; lra.
Qed.
Lemma Rlt_div_l a b c : 0 < c -> a < b * c <-> a / c < b.
Proof.
  intros C. assert (E : a / c * c = a) by (field; lra). split; intros H.
  - apply Rmult_lt_reg_r with c; lra.
  - rewrite <- E. apply Rmult_lt_compat_r; lra.
Qed.

Lemma rne_correct a b : (0 < b)%Z -> ZnearestE (IZR a / IZR b) = rne a b.
Proof.
  intros B. unfold Znearest, rne. rewrite Zfloor_div by lia.
  assert (Hb : 0 < IZR b) by (apply (IZR_lt 0); lia).
  assert (E : IZR a / IZR b - IZR (a / b) = IZR (a mod b) / IZR b).
  { rewrite (Z_div_mod_eq_full a b) at 1. rewrite plus_IZR, mult_IZR. field. lra. }
  rewrite E.
  pose proof (Z.mod_pos_bound a b B) as M.
  destruct (Z.eq_dec (a mod b) 0) as [Z0|NZ].
  - rewrite Z0. replace (0 / IZR b) with 0 by (field; lra). rewrite Rcompare_Lt by lra.
    destruct (Z.ltb_spec (2 * 0) b); [reflexivity|lia].
  - assert (Cl : Zceil (IZR a / IZR b) = (a / b + 1)%Z).
    { apply Zceil_imp. replace (a / b + 1 - 1)%Z with (a / b)%Z by lia. rewrite plus_IZR.
      assert (0 < IZR (a mod b) / IZR b <= 1).
      { split. apply Rdiv_lt_0_compat; [apply (IZR_lt 0); lia|exact Hb].
        apply Rle_div_l; [exact Hb|]. rewrite Rmult_1_l. apply IZR_le. lia. }
      lra. }
    assert (C : forall c, Rcompare (IZR (a mod b) / IZR b) (/ 2) = c -> (2 * (a mod b) ?= b)%Z = c).
    { intros c <-. symmetry.
      rewrite <- (Rcompare_mult_r (2 * IZR b)) by lra.
      replace (IZR (a mod b) / IZR b * (2 * IZR b)) with (IZR (2 * (a mod b))) by (rewrite mult_IZR; field; lra).
      replace (/ 2 * (2 * IZR b)) with (IZR b) by field. apply Rcompare_IZR. }
    specialize (C _ eq_refl).
    destruct (Rcompare (IZR (a mod b) / IZR b) (/ 2)); rewrite ?Cl.
    + apply Z.compare_eq in C. destruct (Z.ltb_spec (2 * (a mod b)) b); [lia|].
      destruct (Z.ltb_spec b (2 * (a mod b))); [lia|]. destruct (Z.even (a / b)); reflexivity.
    + rewrite Z.compare_lt_iff in C. destruct (Z.ltb_spec (2 * (a mod b)) b); [reflexivity|lia].
    + rewrite Z.compare_gt_iff in C. destruct (Z.ltb_spec (2 * (a mod b)) b); [lia|].
      destruct (Z.ltb_spec b (2 * (a mod b))); [reflexivity|lia].
Qed.

Lemma ratio_mag_correct beta num den : (0 < num)%Z -> (0 < den)%Z ->
  mag beta (IZR num / IZR den) = ratio_mag beta num den :> Z.
Proof.
  intros N D. unfold ratio_mag.
  assert (Hn : 0 < IZR num) by (apply (IZR_lt 0); lia).
  assert (Hd : 0 < IZR den) by (apply (IZR_lt 0); lia).
  set (a := Zdigits beta num). set (b := Zdigits beta den).
  assert (A : bpow beta (a - 1) <= IZR num < bpow beta a).
  { subst a. rewrite Zdigits_mag by lia. destruct (mag beta (IZR num)) as [x H]. cbn.
    rewrite Rabs_pos_eq in H by lra. apply H. lra. }
  assert (B : bpow beta (b - 1) <= IZR den < bpow beta b).
  { subst b. rewrite Zdigits_mag by lia. destruct (mag beta (IZR den)) as [x H]. cbn.
    rewrite Rabs_pos_eq in H by lra. apply H. lra. }
  clearbody a b.
  assert (Lo : bpow beta (a - b - 1) <= IZR num / IZR den).
  { apply Rle_div_r; [exact Hd|]. apply Rle_trans with (bpow beta (a - b - 1) * bpow beta b).
    - apply Rmult_le_compat_l; [apply bpow_ge_0|lra].
    - rewrite <- bpow_plus. replace (a - b - 1 + b)%Z with (a - 1)%Z by lia. lra. }
  assert (Hi : IZR num / IZR den < bpow beta (a - b + 1)).
  { apply Rlt_div_l; [exact Hd|]. apply Rlt_le_trans with (bpow beta (a - b + 1) * bpow beta (b - 1)).
    - rewrite <- bpow_plus. replace (a - b + 1 + (b - 1))%Z with a by lia. lra.
    - apply Rmult_le_compat_l; [apply bpow_ge_0|lra]. }
  set (k := (a - b)%Z) in *. clearbody k.
  assert (G : (if (0 <=? k)%Z then (den * beta ^ k <=? num)%Z else (den <=? num * beta ^ (- k))%Z) = true <->
              bpow beta k <= IZR num / IZR den).
  { destruct (Z.leb_spec 0 k) as [K|K]; rewrite Z.leb_le.
    - rewrite <- Rle_div_r by exact Hd. rewrite <- IZR_Zpower by exact K. rewrite <- mult_IZR.
      split; intros H; [apply IZR_le; lia|apply le_IZR in H; lia].
    - rewrite <- Rle_div_r by exact Hd.
      assert (E : IZR (beta ^ (- k)) * bpow beta k = 1).
      { rewrite IZR_Zpower by lia. rewrite <- bpow_plus. replace (- k + k)%Z with 0%Z by lia. reflexivity. }
      pose proof (bpow_gt_0 beta k) as P.
      assert (P2 : 0 < IZR (beta ^ (- k))) by (rewrite IZR_Zpower by lia; apply bpow_gt_0).
      split; intros H.
      + apply IZR_le in H. rewrite mult_IZR in H. nra.
      + apply le_IZR. rewrite mult_IZR. nra. }
  destruct (if (0 <=? k)%Z then _ else _).
  - apply mag_unique_pos. replace (k + 1 - 1)%Z with k by lia. split; [apply G; reflexivity|exact Hi].
  - apply mag_unique_pos. split; [exact Lo|]. apply Rnot_le_lt. intros H. apply G in H. discriminate.
Qed.

Lemma round_ratio_correct beta expo num den : (0 < num)%Z -> (0 < den)%Z ->
  let (q, e) := round_ratio beta expo num den in
  e = expo (mag beta (IZR num / IZR den)) /\
  IZR q * bpow beta e = round beta expo ZnearestE (IZR num / IZR den).
Proof.
  intros N D. unfold round_ratio. rewrite ratio_mag_correct by assumption.
  split; [reflexivity|].
  unfold round, F2R, scaled_mantissa, cexp. cbn [Fnum Fexp]. rewrite ratio_mag_correct by assumption.
  set (e := expo (ratio_mag beta num den)). f_equal. f_equal.
  assert (Hd : 0 < IZR den) by (apply (IZR_lt 0); lia).
  destruct (Z.leb_spec 0 e) as [E|E].
  - assert (P : (0 < beta ^ e)%Z) by (apply Zpower_gt_0; lia).
    rewrite <- rne_correct by nia. f_equal. rewrite mult_IZR, bpow_opp, IZR_Zpower by lia.
    pose proof (bpow_gt_0 beta e). field. lra.
  - rewrite <- rne_correct by lia. f_equal. rewrite mult_IZR, IZR_Zpower by lia. field. lra.
Qed.
