(** * Spherical and Cartesian coordinates in doubles, and the positional angle. *)
From Coq Require Import ZArith Reals Lia Lra Psatz.
From Flocq Require Import Core Relative IEEE754.BinarySingleNaN IEEE754.Binary IEEE754.Bits.
From Verif Require Import TextModel TextSpec TextRound TextScan TextFloat TextProofs TextLaws TextRead TextCard DoubleModel DoubleSpec DoubleProofs DoubleUnits VectorModel VectorSpec VectorProofs VectorArith VectorProducts VectorLength VectorUnit SkyModel SkySpec SkyAngles SkyProofs SkyConvert SkySeparation.
Local Open Scope R_scope.

#[local] Instance prec53 : Prec_gt_0 53 := eq_refl.
#[local] Existing Instance near.

(** ** The length *)

Lemma length_val k p : (0 <= k <= 505)%Z -> bd k (dx p) -> bd k (dy p) -> bd k (dz p) ->
  let m := length_d p in
  fin m = true /\ 0 <= val m /\ val m = rnd (sqrt (rnd (rnd (rnd (val (dx p) * val (dx p)) + rnd (val (dy p) * val (dy p))) + rnd (val (dz p) * val (dz p))))).
Proof.
  intros K B1 B2 B3 m. destruct p as [x y z]. unfold m, length_d. cbn [dx dy dz] in *. clear m.
  destruct (mul_bd k _ _ ltac:(lia) B1 B1) as [M1 V1]. destruct (mul_bd k _ _ ltac:(lia) B2 B2) as [M2 V2]. destruct (mul_bd k _ _ ltac:(lia) B3 B3) as [M3 V3].
  destruct (add_bd (k + k) _ _ ltac:(lia) M1 M2) as [M4 V4]. apply (bd_weaken (k + k) (k + k + 1) _ ltac:(lia)) in M3.
  destruct (add_bd (k + k + 1) _ _ ltac:(lia) M4 M3) as [M5 V5].
  set (t := d_add (d_add (d_mul x x) (d_mul y y)) (d_mul z z)) in *.
  assert (N : forall r, 0 <= r -> 0 <= rnd r) by exact rnd_pos.
  assert (Q : forall r, 0 <= r * r) by exact Rle_0_sqr.
  assert (Pt : 0 <= val t).
  { rewrite V5. apply N. rewrite V4, V3. apply Rplus_le_le_0_compat; [|apply N, Q]. apply N. rewrite V1, V2. apply Rplus_le_le_0_compat; apply N, Q. }
  destruct (sqrt_ok t (proj1 M5) Pt) as [F7 V7]. split; [exact F7|]. split; [rewrite V7; apply rnd_pos, sqrt_pos|]. rewrite V7, V5, V4, V1, V2, V3. reflexivity.
Qed.

Lemma abs_sum a b x y : Rabs a <= x -> Rabs b <= y -> Rabs (a + b) <= x + y.
Proof. intros A B. eapply Rle_trans; [apply Rabs_triang|]. lra. Qed.

(** The square of a coordinate. *)
Lemma square_close r c a A : bpow radix2 (-400) <= r <= bpow radix2 400 -> 0 <= c <= 5 -> sent r c a A ->
  0 <= rnd (val a * val a) <= 101 / 100 * (r * r) /\ Rabs (rnd (val a * val a) - r * r * (A * A)) <= (2 * c + 11 / 10) * u53 * (r * r).
Proof.
  intros [Lr Ur] C (F & S & E & B). pose proof (bpow_gt_0 radix2 (-400)) as P0. pose proof u53_pos as U0. pose proof u53_eq as Ue.
  assert (R2 : bpow radix2 (-800) <= r * r) by (change (-800)%Z with (-400 + -400)%Z; rewrite bpow_plus; apply Rmult_le_compat; lra).
  pose proof (tiny_le _ (-800) ltac:(lia) R2) as T. pose proof (rnd_err (val a * val a)) as X. pose proof (bpow_gt_0 radix2 (-800)) as P8.
  assert (Q : Rabs (val a * val a) <= r * r) by (rewrite Rabs_mult; apply Rmult_le_compat; try apply Rabs_pos; assumption).
  assert (Z : Rabs (rnd (val a * val a) - val a * val a) <= (1 + / 1000) * u53 * (r * r)) by (assert (u53 * Rabs (val a * val a) <= u53 * (r * r)) by (apply Rmult_le_compat_l; lra); lra).
  split; [split; [apply rnd_pos, Rle_0_sqr|]|].
  - assert ((1 + / 1000) * u53 * (r * r) <= / 100 * (r * r)) by (apply Rmult_le_compat_r; [lra|rewrite Ue; lra]). apply Rabs_le_inv in Z, Q. lra.
  - replace (rnd (val a * val a) - r * r * (A * A)) with ((rnd (val a * val a) - val a * val a) + (val a - r * A) * (val a + r * A)) by ring.
    assert (W : Rabs ((val a - r * A) * (val a + r * A)) <= 2 * c * u53 * (r * r)).
    { rewrite Rabs_mult. replace (2 * c * u53 * (r * r)) with (c * u53 * r * (2 * r)) by ring. apply Rmult_le_compat; try apply Rabs_pos; [exact E|].
      eapply Rle_trans; [apply Rabs_triang|]. rewrite Rabs_mult, (Rabs_pos_eq r) by lra. pose proof (Rabs_pos A). nra. }
    pose proof (abs_sum _ _ _ _ Z W) as V. assert (0 < u53 * (r * r)) by (apply Rmult_lt_0_compat; lra). lra.
Qed.

Lemma length_close r c p n : bpow radix2 (-400) <= r <= bpow radix2 400 -> 0 <= c <= 5 -> runit n -> sent3 r c p n ->
  fin (length_d p) = true /\ rel 21 (val (length_d p)) r /\ Rabs (val (dz p)) <= val (length_d p).
Proof.
  intros Hr C U (S0 & S1 & S2). pose proof (bpow_gt_0 radix2 (-400)) as P0. pose proof u53_pos as U0. pose proof u53_eq as Ue.
  assert (BD : forall a A, sent r c a A -> bd 400 a) by (intros a A (F & B & _); split; [exact F|lra]).
  destruct (length_val 400 p ltac:(lia) (BD _ _ S0) (BD _ _ S1) (BD _ _ S2)) as (F & P & V).
  destruct (square_close _ _ _ _ Hr C S0) as [B0 E0]. destruct (square_close _ _ _ _ Hr C S1) as [B1 E1]. destruct (square_close _ _ _ _ Hr C S2) as [B2 E2].
  set (x := rnd (val (dx p) * val (dx p))) in *. set (y := rnd (val (dy p) * val (dy p))) in *. set (z := rnd (val (dz p) * val (dz p))) in *.
  assert (Fx : fmt x) by apply rnd_fmt. assert (Fy : fmt y) by apply rnd_fmt. assert (Fz : fmt z) by apply rnd_fmt.
  assert (R2 : 0 < r * r) by nra.
  pose proof (add_rel' x y Fx Fy) as X1. unfold rel in X1. rewrite Rmult_1_l, (Rabs_pos_eq (x + y)) in X1 by lra.
  assert (Fs : fmt (rnd (x + y))) by apply rnd_fmt. assert (Ps : 0 <= rnd (x + y)) by (apply rnd_pos; lra). set (s := rnd (x + y)) in *.
  assert (X1' : Rabs (s - (x + y)) <= u53 * (202 / 100 * (r * r))) by (eapply Rle_trans; [exact X1|apply Rmult_le_compat_l; lra]).
  assert (Ss : s <= 203 / 100 * (r * r)) by (assert (u53 * (202 / 100 * (r * r)) <= / 100 * (r * r)) by (rewrite Ue; lra); apply Rabs_le_inv in X1'; lra).
  pose proof (add_rel' s z Fs Fz) as X2. unfold rel in X2. rewrite Rmult_1_l, (Rabs_pos_eq (s + z)) in X2 by lra. set (t := rnd (s + z)) in *.
  assert (X2' : Rabs (t - (s + z)) <= u53 * (304 / 100 * (r * r))) by (eapply Rle_trans; [exact X2|apply Rmult_le_compat_l; lra]).
  assert (Et : Rabs (t - r * r) <= 386 / 10 * u53 * (r * r)).
  { replace (t - r * r) with ((t - (s + z)) + ((s - (x + y)) + ((x - r * r * (rx n * rx n)) + ((y - r * r * (ry n * ry n)) + (z - r * r * (rz n * rz n)))))).
    - pose proof (abs_sum _ _ _ _ X2' (abs_sum _ _ _ _ X1' (abs_sum _ _ _ _ E0 (abs_sum _ _ _ _ E1 E2)))) as A. eapply Rle_trans; [exact A|].
      replace (386 / 10 * u53 * (r * r)) with (386 / 10 * (u53 * (r * r))) by ring. assert (0 < u53 * (r * r)) by (apply Rmult_lt_0_compat; assumption). nra.
    - unfold runit in U. assert (W : r * r * (rx n * rx n) + r * r * (ry n * ry n) + r * r * (rz n * rz n) = r * r) by (rewrite <- !Rmult_plus_distr_l, U; ring). lra. }
  assert (Rt : rel (386 / 10) t (r * r)) by (unfold rel; rewrite (Rabs_pos_eq (r * r)) by lra; exact Et).
  destruct (rel_sqrt (386 / 10) t (r * r) ltac:(lra) ltac:(lra) Rt) as [Pt Rq]. rewrite (R_sqrt.sqrt_square r) in Rq by lra.
  assert (Rl : rel 21 (val (length_d p)) r).
  { rewrite V. eapply rel_weaken; [|apply (rel_round (386 / 10 / 2 + / 1000000)); [lra|exact Rq|]]; [lra|]. right.
    destruct (rel_abs (386 / 10 / 2 + / 1000000) _ _ ltac:(lra) Rq) as [Lo _]. rewrite (Rabs_pos_eq r) in Lo by lra. eapply Rle_trans; [|exact Lo].
    apply Rle_trans with (bpow radix2 (-401)); [apply bpow_le; lia|]. assert (bpow radix2 (-400) = 2 * bpow radix2 (-401)) by (change (-400)%Z with (-401 + 1)%Z; apply bpow_double). lra. }
  split; [exact F|]. split; [exact Rl|].
  destruct (rel_abs 21 _ _ ltac:(lra) Rl) as [Lo _]. rewrite (Rabs_pos_eq r), (Rabs_pos_eq (val (length_d p))) in Lo by lra.
  destruct (Rle_dec (bpow radix2 (-500)) (Rabs (val (dz p)))) as [Z|Z].
  - assert (Mo : forall a b, a <= b -> rnd a <= rnd b) by (intros a b; apply nearest_le, std64).
    rewrite <- (sqrt_square (val (dz p)) (val_fmt (dz p))).
    + fold z. rewrite V. apply Mo, sqrt_le_1_alt. rewrite <- (rnd_id z Fz). apply Mo. lra.
    + right. split; [exact Z|]. destruct S2 as (_ & B & _). eapply Rle_trans; [exact B|]. eapply Rle_trans; [apply Hr|]. apply bpow_le. lia.
  - apply Rle_trans with (bpow radix2 (-500)); [lra|]. eapply Rle_trans; [|exact Lo].
    assert (bpow radix2 (-400) = 2 * bpow radix2 (-401)) by (change (-400)%Z with (-401 + 1)%Z; apply bpow_double). assert (bpow radix2 (-500) <= bpow radix2 (-401)) by (apply bpow_le; lia). lra.
Qed.

Lemma positive_ok x : fin x = true -> 0 < val x -> positive_d x = true.
Proof.
  intros F P. unfold positive_d, b64_compare. destruct zero_ok as [F0 V0]. rewrite Bcompare_correct by assumption. rewrite V0, Rcompare_Lt by exact P. reflexivity.
Qed.

(** ** From Cartesian coordinates *)

Definition lat_of (s : angular) (b : R) : R := match s with Polar => PI / 2 - b | Equat => b end.

Lemma sph_as_direction s a b : sph_direction s a b = direction a (lat_of s b).
Proof.
  destruct s; unfold direction, sph_direction, lat_of; [|f_equal; ring].
  rewrite cos_shift, sin_shift. f_equal; ring.
Qed.

Lemma angle_scale y x t r : 0 < r -> angle_of y x t -> angle_of (y / r) (x / r) t.
Proof.
  intros P (B & C & S). split; [exact B|]. change (sqrt (x * x + y * y)) with (hyp x y) in C, S.
  assert (H : sqrt (x / r * (x / r) + y / r * (y / r)) = hyp x y / r).
  { unfold hyp. replace (x / r * (x / r) + y / r * (y / r)) with ((x * x + y * y) / (r * r)) by (field; lra).
    rewrite sqrt_div_alt by nra. rewrite R_sqrt.sqrt_square by lra. reflexivity. }
  rewrite H. set (h := hyp x y) in *. clearbody h. split; [rewrite C; field; lra|rewrite S; field; lra].
Qed.

Section Library.
Context (L : libm) (G : good_libm L).

Lemma from_close s old r c p n : bpow radix2 (-400) <= r <= bpow radix2 400 -> 0 <= c <= 5 -> runit n -> sent3 r c p n ->
  let o := from_cartesian_d L s old p in
  dfinite (s1 o) /\ dfinite (s2 o) /\ dfinite (s3 o) /\ rel 21 (dval (s3 o)) r /\
  within (bpow radix2 (-21)) (sph_direction s (dval (s1 o)) (dval (s2 o))) n /\
  (Rabs (rz n) <= 9 / 10 -> within (bpow radix2 (-44)) (sph_direction s (dval (s1 o)) (dval (s2 o))) n).
Proof.
  intros Hr C U S o. destruct (length_close r c p n Hr C U S) as (Fl & Rl & Zl). pose proof (bpow_gt_0 radix2 (-400)) as P0. pose proof u53_pos as U0. pose proof u53_eq as Ue.
  destruct (rel_abs 21 _ _ ltac:(lra) Rl) as [Lo Hi]. rewrite (Rabs_pos_eq r) in Lo, Hi by lra.
  assert (Pl : 0 < val (length_d p)) by (pose proof (Rabs_pos (val (dz p))); rewrite Rabs_pos_eq in Lo; lra).
  unfold o, from_cartesian_d. cbn [s1 s2 s3]. rewrite (positive_ok _ Fl Pl). clear o.
  destruct S as (S0 & S1 & S2). destruct S0 as (F0 & B0 & E0 & N0), S1 as (F1 & B1 & E1 & N1), S2 as (F2 & B2 & E2 & N2).
  destruct (atan2_good L G (dy p) (dx p) F1 F0) as (Ft & t & A & E).
  destruct (part_unit (dz p) (length_d p) F2 Fl Pl Zl) as (Fq & Vq & Bq).
  (* the quotient *)
  assert (Dq : Rabs (val (d_div (dz p) (length_d p)) - rz n) <= 32 * u53).
  { assert (Bd : Rabs (r * rz n) <= r) by (rewrite Rabs_mult, (Rabs_pos_eq r) by lra; pose proof (Rabs_pos (rz n)); nra).
    destruct (quotient_abs (val (dz p)) (val (length_d p)) (r * rz n) r c 21 ltac:(lra) ltac:(lra) ltac:(lra) Bd E2 Rl) as (_ & I & _).
    replace (r * rz n / r) with (rz n) in I by (field; lra).
    assert (Y : Rabs (val (dz p) / val (length_d p)) <= bpow radix2 0).
    { cbn [bpow]. unfold Rdiv. rewrite Rabs_mult, Rabs_inv, (Rabs_pos_eq (val (length_d p))) by lra. apply (Rmult_le_reg_r (val (length_d p))); [exact Pl|]. rewrite Rmult_assoc, Rinv_l by lra. lra. }
    pose proof (rnd_abs 0 _ ltac:(lia) Y) as X. change (0 - 54)%Z with (-54)%Z in X. rewrite u53_half in X. rewrite Vq.
    replace (rnd (val (dz p) / val (length_d p)) - rz n) with ((rnd (val (dz p) / val (length_d p)) - val (dz p) / val (length_d p)) + (val (dz p) / val (length_d p) - rz n)) by ring.
    pose proof (abs_sum _ _ _ _ X I). nra. }
  set (q := d_div (dz p) (length_d p)) in *. clearbody q. assert (Uq : in_unit q) by (apply unit_abs; split; assumption). pose proof (runit_z n U) as Zn.
  assert (An : exists b, (match s with Polar => m_acos L q | Equat => m_asin L q end) = b /\ dfinite b /\ Rabs (lat_of s (dval b) - asin (val q)) <= 4 * u53).
  { destruct s; eexists; (split; [reflexivity|]); cbn [lat_of].
    - destruct (acos_good L G q Uq) as [Fb Eb]. split; [exact Fb|]. unfold dval in *. rewrite p51 in Eb. rewrite acos_asin in Eb by apply Uq. rewrite Rabs_minus_sym in Eb. replace (PI / 2 - val (m_acos L q) - asin (val q)) with (PI / 2 - asin (val q) - val (m_acos L q)) by ring. exact Eb.
    - destruct (asin_good L G q Uq) as [Fb Eb]. split; [exact Fb|]. rewrite p52 in Eb. unfold dval in *. lra. }
  destruct An as (b & -> & Fb & Eb). split; [exact Ft|]. split; [exact Fb|]. split; [exact Fl|]. split; [exact Rl|].
  rewrite sph_as_direction. pose proof (angle_scale _ _ t r ltac:(lra) A) as As.
  assert (Sc : forall w m, Rabs (w - r * m) <= c * u53 * r -> Rabs (w / r - m) <= 32 * u53).
  { intros w m H. replace (w / r - m) with ((w - r * m) / r) by (field; lra). unfold Rdiv. rewrite Rabs_mult, Rabs_inv, (Rabs_pos_eq r) by lra.
    apply (Rmult_le_reg_r r); [lra|]. rewrite Rmult_assoc, Rinv_l by lra. rewrite Rmult_1_r. eapply Rle_trans; [exact H|]. apply Rmult_le_compat_r; [lra|]. apply Rmult_le_compat_r; lra. }
  pose proof (Sc _ _ E0) as X0. pose proof (Sc _ _ E1) as X1. rewrite p51 in E.
  assert (Main : forall g, Rabs (asin (val q) - asin (rz n)) <= g -> within (g + 2 * (4 * u53) + 3 * (32 * u53)) (direction (dval (m_atan2 L (dy p) (dx p))) (lat_of s (dval b))) n).
  { intros g Hg. apply (direction_close n (dval (dx p) / r) (dval (dy p) / r) (val q) t _ _ _ _ _ U As (proj2 Uq) X0 X1 Dq E Eb Hg). }
  split.
  - assert (Hg : Rabs (asin (val q) - asin (rz n)) <= 5 * bpow radix2 (-24)).
    { apply sq_le; [pose proof (bpow_gt_0 radix2 (-24)); lra|]. eapply Rle_trans; [apply (asin_close _ _ _ (proj2 Uq) Zn Dq)|].
      replace (5 * bpow radix2 (-24) * (5 * bpow radix2 (-24))) with (25 * bpow radix2 (-24 + -24)) by (rewrite bpow_plus; ring). change (-24 + -24)%Z with (-48)%Z. rewrite p48. lra. }
    specialize (Main _ Hg). assert (P24 : bpow radix2 (-24) = 536870912 * u53) by (change (-24)%Z with (29 + -53)%Z; rewrite bpow_plus; reflexivity). rewrite P24 in Main.
    change (-21)%Z with (-22 + 1)%Z. rewrite bpow_double, p22. destruct Main as (M1 & M2 & M3). unfold within, each_r. lra.
  - intros B. assert (Hg : Rabs (asin (val q) - asin (rz n)) <= 8 * (32 * u53)).
    { apply asin_close_mid; [|lra|exact Dq]. rewrite Ue in Dq. apply Rabs_le_inv in Dq, B. apply Rabs_le. lra. }
    specialize (Main _ Hg). rewrite p44. destruct Main as (M1 & M2 & M3). unfold within, each_r. lra.
Qed.

(** Twice, as the constructor does. *)
Lemma make_close s old r c p n : bpow radix2 (-390) <= r <= bpow radix2 390 -> 0 <= c <= 5 -> runit n -> sent3 r c p n ->
  let o := make_angular_d L s old p in
  dfinite (s1 o) /\ dfinite (s2 o) /\ dfinite (s3 o) /\ Rabs (dval (s3 o) - r) <= bpow radix2 (-47) * r /\
  within (bpow radix2 (-20)) (sph_direction s (dval (s1 o)) (dval (s2 o))) n /\
  (Rabs (rz n) <= 8 / 9 -> within (bpow radix2 (-43)) (sph_direction s (dval (s1 o)) (dval (s2 o))) n).
Proof.
  intros Hr C U S o. unfold make_angular_d in o. pose proof u53_pos as U0. pose proof u53_eq as Ue.
  assert (Hr' : bpow radix2 (-400) <= r <= bpow radix2 400) by (split; [eapply Rle_trans; [|apply Hr]; apply bpow_le; lia|eapply Rle_trans; [apply Hr|]; apply bpow_le; lia]).
  destruct (from_close s (d_of_Z 0) r c p n Hr' C U S) as (A1 & A2 & A3 & A4 & A5 & A6). set (i := from_cartesian_d L s (d_of_Z 0) p) in *. clearbody i.
  pose proof (bpow_gt_0 radix2 (-390)) as P0. destruct (rel_abs 21 _ _ ltac:(lra) A4) as [Lo Hi]. rewrite (Rabs_pos_eq r) in Lo, Hi by lra.
  assert (Ps : 0 < dval (s3 i)). { unfold rel in A4. rewrite (Rabs_pos_eq r), Ue in A4 by lra. apply Rabs_le_inv in A4. lra. }
  rewrite (Rabs_pos_eq (dval (s3 i))) in Lo, Hi by lra.
  assert (Hs : bpow radix2 (-400) <= dval (s3 i) <= bpow radix2 400).
  { split; [apply Rle_trans with (bpow radix2 (-391)); [apply bpow_le; lia|]|apply Rle_trans with (bpow radix2 391); [|apply bpow_le; lia]].
    - assert (bpow radix2 (-390) = 2 * bpow radix2 (-391)) by (change (-390)%Z with (-391 + 1)%Z; apply bpow_double). lra.
    - change 391%Z with (390 + 1)%Z. rewrite bpow_double. lra. }
  assert (Hs' : bpow radix2 (-500) <= dval (s3 i) <= bpow radix2 500) by (split; [eapply Rle_trans; [|apply Hs]; apply bpow_le; lia|eapply Rle_trans; [apply Hs|]; apply bpow_le; lia]).
  pose proof (to_cartesian_sent L G s i A1 A2 A3 Hs') as St.
  destruct (from_close s old (dval (s3 i)) (42 / 10) _ _ Hs ltac:(lra) (sph_unit s (dval (s1 i)) (dval (s2 i))) St) as (D1 & D2 & D3 & D4 & D5 & D6). fold o in D1, D2, D3, D4, D5, D6.
  split; [exact D1|]. split; [exact D2|]. split; [exact D3|]. split; [|split].
  - unfold rel in A4, D4. rewrite (Rabs_pos_eq (dval (s3 i))) in D4 by lra. rewrite (Rabs_pos_eq r) in A4 by lra. rewrite p47.
    replace (dval (s3 o) - r) with ((dval (s3 o) - dval (s3 i)) + (dval (s3 i) - r)) by ring. pose proof (abs_sum _ _ _ _ D4 A4) as X. eapply Rle_trans; [exact X|].
    apply Rle_trans with (21 * u53 * (2 * r) + 21 * u53 * r); [|nra]. apply Rplus_le_compat_r. apply Rmult_le_compat_l; lra.
  - pose proof (within_trans _ _ _ _ _ D5 A5) as W. change (-20)%Z with (-21 + 1)%Z. rewrite bpow_double. destruct W as (W1 & W2 & W3). unfold within, each_r. lra.
  - intros B. specialize (A6 ltac:(lra)). assert (B' : Rabs (rz (sph_direction s (dval (s1 i)) (dval (s2 i)))) <= 9 / 10).
    { destruct A6 as (_ & _ & A6). rewrite p44, Ue in A6. apply Rabs_le_inv in A6, B. apply Rabs_le. lra. }
    specialize (D6 B'). pose proof (within_trans _ _ _ _ _ D6 A6) as W. change (-43)%Z with (-44 + 1)%Z. rewrite bpow_double. destruct W as (W1 & W2 & W3). unfold within, each_r. lra.
Qed.

(** ** The theorems *)

Lemma unit_of_unit p : 0 < rlength p -> runit (unit_of p).
Proof.
  intros P. unfold runit, unit_of, scale. cbn [rx ry rz].
  replace (/ rlength p * rx p * (/ rlength p * rx p) + / rlength p * ry p * (/ rlength p * ry p) + / rlength p * rz p * (/ rlength p * rz p))
    with ((rx p * rx p + ry p * ry p + rz p * rz p) / (rlength p * rlength p)) by (field; lra).
  assert (E : rlength p * rlength p = rx p * rx p + ry p * ry p + rz p * rz p).
  { unfold rlength. apply sqrt_sqrt. assert (0 <= rx p * rx p) by apply Rle_0_sqr. assert (0 <= ry p * ry p) by apply Rle_0_sqr. assert (0 <= rz p * rz p) by apply Rle_0_sqr. lra. }
  rewrite <- E. field. lra.
Qed.

Lemma part_le_length p : Rabs (rx p) <= rlength p /\ Rabs (ry p) <= rlength p /\ Rabs (rz p) <= rlength p.
Proof.
  assert (0 <= rx p * rx p) by apply Rle_0_sqr. assert (0 <= ry p * ry p) by apply Rle_0_sqr. assert (0 <= rz p * rz p) by apply Rle_0_sqr.
  unfold rlength. split; [|split]; rewrite <- sqrt_Rsqr_abs; apply sqrt_le_1_alt; unfold Rsqr; lra.
Qed.

Lemma exact_sent p : vfinite p -> 0 < rlength (vval p) -> sent3 (rlength (vval p)) 0 p (unit_of (vval p)).
Proof.
  intros (F0 & F1 & F2) P. destruct (part_le_length (vval p)) as (B0 & B1 & B2). set (r := rlength (vval p)) in *.
  assert (One : forall a, fin a = true -> Rabs (val a) <= r -> sent r 0 a (/ r * val a)).
  { intros a F B. split; [exact F|]. split; [exact B|]. split.
    - replace (val a - r * (/ r * val a)) with 0 by (field; lra). rewrite Rabs_R0. pose proof u53_pos. lra.
    - rewrite Rabs_mult, Rabs_inv, (Rabs_pos_eq r) by lra. apply (Rmult_le_reg_l r); [exact P|]. rewrite <- Rmult_assoc, Rinv_r by lra. lra. }
  unfold sent3, unit_of, scale. cbn [rx ry rz vval]. change (rlength (RV (dval (dx p)) (dval (dy p)) (dval (dz p)))) with r.
  split; [|split]; (apply One; assumption).
Qed.

Theorem spherical_of_cartesian s old p : vec_ok p ->
  let o := make_angular_d L s old p in let r := rlength (vval p) in let n := unit_of (vval p) in
  dfinite (s1 o) /\ dfinite (s2 o) /\ dfinite (s3 o) /\ Rabs (dval (s3 o) - r) <= bpow radix2 (-47) * r /\
  within (bpow radix2 (-20)) (sph_direction s (dval (s1 o)) (dval (s2 o))) n /\
  (Rabs (rz n) <= 8 / 9 -> within (bpow radix2 (-43)) (sph_direction s (dval (s1 o)) (dval (s2 o))) n).
Proof.
  intros [F B]. pose proof (bpow_gt_0 radix2 (-200)) as P0. assert (P : 0 < rlength (vval p)) by lra.
  apply (make_close s old (rlength (vval p)) 0 p); [split; [eapply Rle_trans; [|apply B]; apply bpow_le; lia|eapply Rle_trans; [apply B|]; apply bpow_le; lia]|lra|apply unit_of_unit, P|apply exact_sent; assumption].
Qed.

Lemma ok_wide p : sph_ok p -> dfinite (s1 p) /\ dfinite (s2 p) /\ dfinite (s3 p) /\ bpow radix2 (-500) <= dval (s3 p) <= bpow radix2 500.
Proof. intros H. apply ok_range in H. destruct H as (A & B & C & D). split; [exact A|]. split; [exact B|]. split; [exact C|]. apply wider, D. Qed.

Theorem cartesian_of_spherical s p : sph_ok p ->
  vfinite (to_cartesian_d L s p) /\ within (bpow radix2 (-50) * dval (s3 p)) (vval (to_cartesian_d L s p)) (sph_vector s p).
Proof.
  intros H. apply ok_wide in H. destruct H as (A & B & C & D). pose proof (bpow_gt_0 radix2 (-500)) as P0. pose proof u53_pos.
  destruct (to_cartesian_sent L G s p A B C D) as ((F0 & _ & E0 & _) & (F1 & _ & E1 & _) & (F2 & _ & E2 & _)). split; [split; [|split]; assumption|].
  rewrite p50. unfold within, each_r, vval, sph_vector, scale. cbn [rx ry rz]. unfold dval in *.
  assert (K : 42 / 10 * u53 * val (s3 p) <= 8 * u53 * val (s3 p)) by (apply Rmult_le_compat_r; lra). split; [|split]; (eapply Rle_trans; [|exact K]; assumption).
Qed.

Theorem spherical_round_trip s old p : sph_ok p ->
  let o := make_angular_d L s old (to_cartesian_d L s p) in let n := sph_direction s (dval (s1 p)) (dval (s2 p)) in
  dfinite (s1 o) /\ dfinite (s2 o) /\ dfinite (s3 o) /\ Rabs (dval (s3 o) - dval (s3 p)) <= bpow radix2 (-47) * dval (s3 p) /\
  within (bpow radix2 (-20)) (sph_direction s (dval (s1 o)) (dval (s2 o))) n /\
  (Rabs (rz n) <= 8 / 9 -> within (bpow radix2 (-43)) (sph_direction s (dval (s1 o)) (dval (s2 o))) n).
Proof.
  intros H. pose proof H as (_ & _ & _ & R). apply ok_wide in H. destruct H as (A & B & C & D).
  apply (make_close s old (dval (s3 p)) (42 / 10)); [split; [eapply Rle_trans; [|apply R]; apply bpow_le; lia|eapply Rle_trans; [apply R|]; apply bpow_le; lia]|lra|apply sph_unit|apply (to_cartesian_sent L G); assumption].
Qed.

Theorem cartesian_round_trip s old p : vec_ok p ->
  within (bpow radix2 (-19) * rlength (vval p)) (vval (to_cartesian_d L s (make_angular_d L s old p))) (vval p).
Proof.
  intros H. pose proof H as [F B]. pose proof (bpow_gt_0 radix2 (-200)) as P0. assert (P : 0 < rlength (vval p)) by lra.
  destruct (spherical_of_cartesian s old p H) as (O1 & O2 & O3 & O4 & O5 & _). set (o := make_angular_d L s old p) in *. clearbody o. set (r := rlength (vval p)) in *.
  pose proof u53_pos as U0. pose proof u53_eq as Ue. rewrite p47 in O4.
  assert (B3 : r / 2 <= dval (s3 o) <= 2 * r) by (rewrite Ue in O4; apply Rabs_le_inv in O4; lra).
  assert (W : bpow radix2 (-500) <= dval (s3 o) <= bpow radix2 500).
  { split; [apply Rle_trans with (bpow radix2 (-201)); [apply bpow_le; lia|]|apply Rle_trans with (bpow radix2 201); [|apply bpow_le; lia]].
    - assert (bpow radix2 (-200) = 2 * bpow radix2 (-201)) by (change (-200)%Z with (-201 + 1)%Z; apply bpow_double). lra.
    - change 201%Z with (200 + 1)%Z. rewrite bpow_double. lra. }
  destruct (to_cartesian_sent L G s o O1 O2 O3 W) as ((_ & _ & E0 & N0) & (_ & _ & E1 & N1) & (_ & _ & E2 & N2)).
  set (d := sph_direction s (dval (s1 o)) (dval (s2 o))) in *. clearbody d. destruct O5 as (D0 & D1 & D2).
  assert (K : bpow radix2 (-19) = 2 * bpow radix2 (-20)) by (change (-19)%Z with (-20 + 1)%Z; apply bpow_double).
  assert (K2 : bpow radix2 (-20) = 8589934592 * u53) by (change (-20)%Z with (33 + -53)%Z; rewrite bpow_plus; reflexivity).
  assert (One : forall a A x, Rabs (a - dval (s3 o) * A) <= 42 / 10 * u53 * dval (s3 o) -> Rabs A <= 1 -> Rabs (A - / r * x) <= bpow radix2 (-20) -> Rabs (a - x) <= bpow radix2 (-19) * r).
  { intros a A x Ha HA Hx. replace (a - x) with ((a - dval (s3 o) * A) + (A * (dval (s3 o) - r) + r * (A - / r * x))) by (field; lra).
    assert (Y : Rabs (A * (dval (s3 o) - r)) <= 64 * u53 * r) by (apply abs_le_mul; assumption).
    assert (Z : Rabs (r * (A - / r * x)) <= r * bpow radix2 (-20)) by (rewrite Rabs_mult, (Rabs_pos_eq r) by lra; apply Rmult_le_compat_l; lra).
    pose proof (abs_sum _ _ _ _ Ha (abs_sum _ _ _ _ Y Z)) as X. eapply Rle_trans; [exact X|]. rewrite K, K2.
    assert (Q : 42 / 10 * u53 * dval (s3 o) <= 42 / 10 * u53 * (2 * r)) by (apply Rmult_le_compat_l; lra). assert (0 < u53 * r) by (apply Rmult_lt_0_compat; lra). nra. }
  unfold unit_of, scale in D0, D1, D2. cbn [rx ry rz vval] in D0, D1, D2. change (rlength (RV (dval (dx p)) (dval (dy p)) (dval (dz p)))) with r in D0, D1, D2.
  unfold within, each_r, vval. cbn [rx ry rz]. split; [apply (One _ _ _ E0 N0 D0)|split; [apply (One _ _ _ E1 N1 D1)|apply (One _ _ _ E2 N2 D2)]].
Qed.

(** ** Positional angle *)

Lemma bearing_north lat1 lon1 lat2 lon2 :
  rdot (direction lon2 lat2) (north lat1 lon1) = sin lat2 * cos lat1 - cos lat2 * sin lat1 * cos (lon2 - lon1) /\
  rdot (direction lon2 lat2) (east lon1) = sin (lon2 - lon1) * cos lat2.
Proof. rewrite cos_minus, sin_minus. unfold rdot, direction, north, east. cbn [rx ry rz]. split; ring. Qed.

Lemma north_unit lat lon : runit (north lat lon).
Proof.
  unfold runit, north. cbn [rx ry rz]. pose proof (sin2_cos2 lon) as A. pose proof (sin2_cos2 lat) as B. unfold Rsqr in *.
  replace (- (sin lat * cos lon) * - (sin lat * cos lon) + - (sin lat * sin lon) * - (sin lat * sin lon) + cos lat * cos lat) with ((sin lon * sin lon + cos lon * cos lon) * (sin lat * sin lat) + cos lat * cos lat) by ring. rewrite A. lra.
Qed.

Theorem positional_close p q : dfinite (s1 p) -> dfinite (s2 p) -> dfinite (s1 q) -> dfinite (s2 q) -> Rabs (dval (s2 p)) <= 8 -> Rabs (dval (s2 q)) <= 8 ->
  let a := positional_angle_d L p q in let d := direction (dval (s2 q)) (dval (s1 q)) in
  let n := rdot d (north (dval (s1 p)) (dval (s2 p))) in let e := rdot d (east (dval (s2 p))) in let r := sqrt (n * n + e * e) in
  dfinite a /\ Rabs (r * cos (dval a) - n) <= bpow radix2 (-47) /\ Rabs (r * sin (dval a) - e) <= bpow radix2 (-47).
Proof.
  intros P1 P2 Q1 Q2 Bp Bq a d n e r. unfold dval in *. destruct (bearing_north (val (s1 p)) (val (s2 p)) (val (s1 q)) (val (s2 q))) as [En Ee]. fold d in En, Ee. fold n in En. fold e in Ee.
  pose proof u53_pos as U0. assert (Bd : Rabs (val (s2 q) - val (s2 p)) <= bpow radix2 4).
  { change (bpow radix2 4) with 16. unfold Rminus. eapply Rle_trans; [apply Rabs_triang|]. rewrite Rabs_Ropp. lra. }
  pose proof (rnd_bound _ 4 ltac:(lia) Bd) as Rd. destruct (sub_ok (s2 q) (s2 p) Q2 P2 (fits 4 _ ltac:(lia) Rd)) as [Fd Vd]. pose proof (rnd_abs 4 _ ltac:(lia) Bd) as Xd. rewrite <- Vd in Xd. change (4 - 54)%Z with (-50)%Z in Xd. rewrite p50 in Xd.
  unfold a, positional_angle_d in *. clear a. set (diff := d_sub (s2 q) (s2 p)) in *. clearbody diff. set (delta := val (s2 q) - val (s2 p)) in *.
  assert (Cd : ent 9 (m_cos L diff) (cos delta)).
  { destruct (ent_cos L G diff Fd) as (U & E & _). split; [exact U|]. split; [|apply cos_abs_1]. replace (val (m_cos L diff) - cos delta) with ((val (m_cos L diff) - cos (val diff)) + (cos (val diff) - cos delta)) by ring.
    pose proof (cos_lipschitz (val diff) delta) as Q. pose proof (abs_sum _ _ _ _ E (Rle_trans _ _ _ Q Xd)). lra. }
  assert (Sd : ent 9 (m_sin L diff) (sin delta)).
  { destruct (ent_sin L G diff Fd) as (U & E & _). split; [exact U|]. split; [|apply sin_abs_1]. replace (val (m_sin L diff) - sin delta) with ((val (m_sin L diff) - sin (val diff)) + (sin (val diff) - sin delta)) by ring.
    pose proof (sin_lipschitz (val diff) delta) as Q. pose proof (abs_sum _ _ _ _ E (Rle_trans _ _ _ Q Xd)). lra. }
  pose proof (ent_mul _ _ _ _ _ _ (ent_sin L G _ Q1) (ent_cos L G _ P1)) as T1. pose proof (ent_mul _ _ _ _ _ _ (ent_mul _ _ _ _ _ _ (ent_cos L G _ Q1) (ent_sin L G _ P1)) Cd) as T2.
  pose proof (ent_mul _ _ _ _ _ _ Sd (ent_cos L G _ Q1)) as T3.
  set (f := d_mul (m_sin L (s1 q)) (m_cos L (s1 p))) in *. set (g := d_mul (d_mul (m_cos L (s1 q)) (m_sin L (s1 p))) (m_cos L diff)) in *. set (y := d_mul (m_sin L diff) (m_cos L (s1 q))) in *.
  destruct T1 as (Uf & Ef & _), T2 as (Ug & Eg & _), T3 as (Uy & Ey & Ny). apply unit_abs in Uf, Ug, Uy. destruct Uf as [Ff Uf], Ug as [Fg Ug], Uy as [Fy Uy].
  assert (Bx : Rabs (val f - val g) <= bpow radix2 1). { rewrite bpow_1. unfold Rminus. eapply Rle_trans; [apply Rabs_triang|]. rewrite Rabs_Ropp. lra. }
  pose proof (rnd_bound _ 1 ltac:(lia) Bx) as Rx. destruct (sub_ok f g Ff Fg (fits 1 _ ltac:(lia) Rx)) as [Fx Vx]. pose proof (rnd_abs 1 _ ltac:(lia) Bx) as Xx. rewrite <- Vx in Xx. change (bpow radix2 (1 - 54)) with u53 in Xx.
  set (x := d_sub f g) in *. clearbody x f g y.
  assert (Dx : Rabs (val x - n) <= bpow radix2 (-49)).
  { rewrite p49, En. change (val (s2 q) - val (s2 p)) with delta.
    replace (val x - (sin (val (s1 q)) * cos (val (s1 p)) - cos (val (s1 q)) * sin (val (s1 p)) * cos delta)) with
      ((val x - (val f - val g)) + ((val f - sin (val (s1 q)) * cos (val (s1 p))) + - (val g - cos (val (s1 q)) * sin (val (s1 p)) * cos delta))) by ring.
    rewrite <- (Rabs_Ropp (val g - _)) in Eg. pose proof (abs_sum _ _ _ _ Xx (abs_sum _ _ _ _ Ef Eg)). lra. }
  assert (Dy : Rabs (val y - e) <= bpow radix2 (-49)) by (rewrite p49, Ee; change (val (s2 q) - val (s2 p)) with delta; lra).
  assert (Nr : r <= 2).
  { pose proof (unit_dot d (north (val (s1 p)) (val (s2 p))) (direction_unit _ _) (north_unit _ _)) as N1. change (rdot d (north (val (s1 p)) (val (s2 p)))) with n in N1.
    change (val (s2 q) - val (s2 p)) with delta in Ee. rewrite <- Ee in Ny. apply Rabs_le_inv in Ny. unfold r. rewrite <- (R_sqrt.sqrt_square 2) by lra. apply sqrt_le_1_alt. nra. }
  split; [apply (atan2_good L G); assumption|].
  apply (longitude_close L G (DV x y (d_of_Z 0)) (RV n e 0)); [split; [exact Fx|split; [exact Fy|apply zero_ok]]| |exact Nr].
  unfold within, each_r, vval, dval. cbn [dx dy dz rx ry rz]. split; [exact Dx|]. split; [exact Dy|]. rewrite (proj2 zero_ok), Rminus_0_r, Rabs_R0. apply bpow_ge_0.
Qed.

(** ** The null vector *)

Lemma null_length p : vfinite p -> rnull (vval p) -> fin (length_d p) = true /\ val (length_d p) = 0.
Proof.
  intros (F0 & F1 & F2) (Z0 & Z1 & Z2). cbn [rx ry rz vval] in Z0, Z1, Z2. unfold dval, dfinite in *.
  assert (B : forall a, fin a = true -> val a = 0 -> bd 0 a) by (intros a F E; split; [exact F|rewrite E, Rabs_R0; apply bpow_ge_0]).
  destruct (length_val 0 p ltac:(lia) (B _ F0 Z0) (B _ F1 Z1) (B _ F2 Z2)) as (F & _ & V). split; [exact F|].
  rewrite V, Z0, Z1, Z2, !Rmult_0_l, !nearest_0, Rplus_0_l, nearest_0, Rplus_0_l, nearest_0, sqrt_0. apply nearest_0.
Qed.

Lemma not_positive x : fin x = true -> val x = 0 -> positive_d x = false.
Proof.
  intros F V. unfold positive_d, b64_compare. destruct zero_ok as [F0 V0]. rewrite Bcompare_correct by assumption. rewrite V0, V, Rcompare_Eq by reflexivity. reflexivity.
Qed.

Theorem null_angle s old p : vfinite p -> rnull (vval p) ->
  let o := make_angular_d L s old p in dfinite (s1 o) /\ s2 o = old /\ dfinite (s3 o) /\ dval (s3 o) = 0.
Proof.
  intros F Z o. destruct (null_length p F Z) as [Fl Vl].
  set (i := from_cartesian_d L s (d_of_Z 0) p) in *. assert (I1 : fin (s1 i) = true) by (apply (atan2_good L G); apply F).
  assert (I2 : s2 i = d_of_Z 0) by (unfold i, from_cartesian_d; cbn [s2]; rewrite (not_positive _ Fl Vl); reflexivity).
  assert (I3 : fin (s3 i) = true /\ val (s3 i) = 0) by (split; assumption). destruct I3 as [I3 V3]. destruct zero_ok as [F0 _].
  assert (M : forall a b, fin a = true -> val a = 0 -> fin b = true -> fin (d_mul a b) = true /\ val (d_mul a b) = 0).
  { intros a b Fa Va Fb. destruct (mul_ok a b Fa Fb) as [Fm Vm]; [rewrite Va, Rmult_0_l, nearest_0, Rabs_R0; apply bpow_gt_0|]. split; [exact Fm|]. rewrite Vm, Va, Rmult_0_l. apply nearest_0. }
  assert (S : forall x, fin x = true -> fin (m_sin L x) = true) by (intros x Hx; apply (sin_good L G x Hx)). assert (C : forall x, fin x = true -> fin (m_cos L x) = true) by (intros x Hx; apply (cos_good L G x Hx)).
  set (w := to_cartesian_d L s i) in *.
  assert (W : vfinite w /\ rnull (vval w)).
  { unfold w, to_cartesian_d, vfinite, rnull, vval, dfinite, dval. destruct s; cbn [dx dy dz rx ry rz]; rewrite I2.
    - destruct (M _ _ I3 V3 (S _ F0)) as [A1 A2]. destruct (M _ _ I3 V3 (C _ F0)) as [B1 B2]. destruct (M _ _ A1 A2 (C _ I1)) as [D1 D2]. destruct (M _ _ A1 A2 (S _ I1)) as [E1 E2]. split; (split; [assumption|split; assumption]).
    - destruct (M _ _ I3 V3 (C _ F0)) as [A1 A2]. destruct (M _ _ I3 V3 (S _ F0)) as [B1 B2]. destruct (M _ _ A1 A2 (C _ I1)) as [D1 D2]. destruct (M _ _ A1 A2 (S _ I1)) as [E1 E2]. split; (split; [assumption|split; assumption]). }
  destruct W as [Fw Zw]. destruct (null_length w Fw Zw) as [Fwl Vwl]. unfold o, make_angular_d. fold i. fold w. clearbody w. unfold from_cartesian_d. cbn [s1 s2 s3]. rewrite (not_positive _ Fwl Vwl).
  split; [apply (atan2_good L G); apply Fw|]. split; [reflexivity|]. split; [exact Fwl|exact Vwl].
Qed.

End Library.
