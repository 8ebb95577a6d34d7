(** * Proofs about sidereal clocks. *)
From Coq Require Import ZArith Reals Lia Lra Psatz.
From Flocq Require Import Core IEEE754.Binary.
From Verif Require Import CppModel TextModel TextSpec DoubleModel DoubleSpec DoubleProofs DoubleText DoubleUnits DoubleProps TimeModel TimeSpec TimeProofs TimeFloat TimeProps
  SkyLibrary ClockSpec.
Local Open Scope R_scope.

Lemma fits_day d : dfinite d -> 0 <= dval d <= 24 -> fits_long d.
Proof.
  intros F V. split; [exact F|]. assert ((2 : R) ^ 63 = 9223372036854775808) as -> by (cbn; lra). lra.
Qed.

(** A clock set to a time of day shows that time to a microsecond. *)
Theorem clock_reading d : dfinite d -> 0 <= dval d <= 24 ->
  exists x h m s, hms_of_double d = Ret x /\ clock_shows (print_hms x) h m s /\
    (0 <= h <= 24)%Z /\ (dval d < 24 -> (h <= 23)%Z) /\ (0 <= m < 60)%Z /\ 0 <= s <= 60 /\
    Rabs (reading h m s - dval d) <= / 2 * microsecond + bpow radix2 (-53).
Proof.
  intros F V. destruct (proj1 (C93_defined d) (fits_day d F V)) as [x X].
  destruct (C93_fields d x X) as (_ & Hh & Fs & Pos & _ & Err). destruct (Pos (proj1 V)) as (H0 & M & S).
  destruct (C94_text d x X) as (sec & neg & n & T & Nu & Sg).
  exists x, (hms_hours x), (hms_minutes x), (places6 (dval (hms_seconds x))).
  split; [exact X|]. split; [exists sec, neg, n; auto|].
  assert (B : (hms_hours x <= 24)%Z /\ (dval d < 24 -> (hms_hours x <= 23)%Z)).
  { rewrite Hh. rewrite Ztrunc_floor by apply V. split.
    - apply Z.le_trans with (Zfloor 24); [apply Zfloor_le; apply V|]. rewrite (Zfloor_IZR 24). lia.
    - intros L. assert (Zfloor (dval d) < 24)%Z; [|lia]. apply lt_IZR. eapply Rle_lt_trans; [apply Zfloor_lb|exact L]. }
  split; [split; [exact H0|apply B]|]. split; [apply B|]. split; [exact M|].
  destruct (C94_sixty_seconds d x X (proj1 V)) as [S6 _]. split; [exact S6|].
  pose proof (places6_err (dval (hms_seconds x))) as E6. unfold hours_of in Err. unfold reading, microsecond.
  apply Rabs_le_inv in E6. apply Rabs_le_inv in Err. apply Rabs_le. lra.
Qed.

Lemma tiny53 : 0 < bpow radix2 (-53) <= / 9007199254740992.
Proof. split; [apply bpow_gt_0|]. change (bpow radix2 (-53)) with (/ 9007199254740992). lra. Qed.

(** The double the computation ends with. *)
Lemma held r : TimeFloat.double r -> 0 <= r <= 24 -> exists d, dfinite d /\ dval d = r.
Proof.
  intros D R. exists (of_R r). destruct (of_R_ok r) as [F V].
  - change (bpow radix2 10) with 1024. apply Rabs_le. lra.
  - split; [exact F|]. unfold dval. rewrite V. exact (TimeFloat.rnd_id r D).
Qed.

Lemma gst_double t : TimeFloat.double (gst_hours_fp t).
Proof. unfold gst_hours_fp, reduce24_fp. apply rnd_double. Qed.
Lemma lst_double l dir t : TimeFloat.double (lst_hours_fp l dir t).
Proof. unfold lst_hours_fp. destruct (Req_EM_T l 0); [apply gst_double|]. unfold reduce24_fp. apply rnd_double. Qed.

Lemma clock_shifts a b e : same_hour a (b + e) -> forall c, same_hour (a + c) (b + (e + c)).
Proof. intros H c. apply (same_add _ _ c) in H. now rewrite Rplus_assoc in H. Qed.

Theorem greenwich_clock t d : valid_time t -> dfinite d -> dval d = gst_hours_fp t ->
  exists x h m s, hms_of_double d = Ret x /\ clock_shows (print_hms x) h m s /\
    (0 <= h < 24)%Z /\ (0 <= m < 60)%Z /\ 0 <= s <= 60 /\
    exists e, Rabs e <= 2 * microsecond /\
      same_hour (reading h m s) (sidereal_formula (julian_date t) (hours_of_day t) + e).
Proof.
  intros V F E. destruct (C36_greenwich_double t V) as (R & e & Be & Se). rewrite <- E in R, Se.
  destruct (clock_reading d F) as (x & h & m & s & X & C & H & H' & M & S & Err); [lra|].
  exists x, h, m, s. split; [exact X|]. split; [exact C|]. split; [specialize (H' ltac:(lra)); lia|]. split; [exact M|]. split; [exact S|].
  exists (e + (reading h m s - dval d)). split.
  - unfold microsecond in *. apply Rabs_le_inv in Be. apply Rabs_le_inv in Err. pose proof tiny53. apply Rabs_le. lra.
  -
    replace (reading h m s) with (dval d + (reading h m s - dval d)) at 1 by ring. apply clock_shifts. exact Se.
Qed.

Theorem local_clock l dir t d : valid_time t -> TimeFloat.double l -> (l = 0 \/ bpow radix2 (-900) <= Rabs l <= 360) ->
  dfinite d -> dval d = lst_hours_fp l dir t ->
  exists x h m s, hms_of_double d = Ret x /\ clock_shows (print_hms x) h m s /\
    (0 <= h <= 24)%Z /\ (0 <= m < 60)%Z /\ 0 <= s <= 60 /\
    exists e, Rabs e <= 2 * microsecond /\
      same_hour (reading h m s) (sidereal_formula (julian_date t) (hours_of_day t) + TimeProps.eastward dir l / 15 + e).
Proof.
  intros V D L F E. destruct (C36_local_double l dir t V D L) as (R & e & Be & Se). rewrite <- E in R, Se.
  destruct (clock_reading d F R) as (x & h & m & s & X & C & H & H' & M & S & Err).
  exists x, h, m, s. split; [exact X|]. split; [exact C|]. split; [exact H|]. split; [exact M|]. split; [exact S|].
  exists (e + (reading h m s - dval d)). split.
  - unfold microsecond in *. apply Rabs_le_inv in Be. apply Rabs_le_inv in Err. pose proof tiny53. apply Rabs_le. lra.
  - replace (reading h m s) with (dval d + (reading h m s - dval d)) at 1 by ring. apply clock_shifts. exact Se.
Qed.

(** ** Twenty-four hours *)

Lemma below_day x : TimeFloat.double x -> - bpow radix2 (-57) <= x <= - bpow radix2 (-59) -> reduce24_fp x = 24.
Proof.
  intros Dx [X1 X2].
  assert (P : 0 < bpow radix2 (-57) < 1) by (split; [apply bpow_gt_0|change 1 with (bpow radix2 0); apply bpow_lt; lia]).
  pose proof (bpow_gt_0 radix2 (-59)) as P2.
  assert (M : TimeFloat.moderate x).
  { split; [exact Dx|]. split.
    - rewrite Rabs_left by lra. apply Rle_lt_trans with (bpow radix2 (-57)); [lra|]. apply bpow_lt. lia.
    - right. apply Rle_trans with (- bpow radix2 (-59)); [exact X2|]. apply Ropp_le_contravar. apply Rle_trans with (bpow radix2 5 * bpow radix2 (-1074)).
      + pose proof (bpow_gt_0 radix2 (-1074)). change (bpow radix2 5) with 32. lra.
      + rewrite <- bpow_plus. apply bpow_le. lia. }
  destruct (reduce_fp _ M) as [E _]. rewrite E. unfold reduce24.
  replace (floorR (x / 24)) with (-1)%Z by (symmetry; apply floor_unique; lra).
  replace (x - 24 * -1) with (24 + x) by ring.
  apply Rle_antisym.
  - apply Rle_trans with (TimeFloat.rnd 24); [apply TimeFloat.rnd_le; lra|rewrite (rnd_int 24 eq_refl); lra].
  - assert (Q : 24 <= TimeFloat.rnd (24 + x)); [|exact Q].
    apply round_N_ge_midp; [exact TimeFloat.valid|exact (double_int 24 eq_refl)|].
    assert (Ulp.pred radix2 TimeFloat.fexp 24 <= 24 - bpow radix2 (-48)).
    { assert (G : grid (-48) (Ulp.pred radix2 TimeFloat.fexp 24)).
      { apply double_grid; [apply generic_format_pred; [exact TimeFloat.valid|exact (double_int 24 eq_refl)]|].
        assert (16 <= Ulp.pred radix2 TimeFloat.fexp 24) by (apply pred_ge_gt; [exact TimeFloat.valid|exact (double_int 16 eq_refl)|exact (double_int 24 eq_refl)|lra]).
        rewrite Rabs_pos_eq by lra. exact H. }
      pose proof (grid_gap _ _ _ G (grid_int (-48) 24 ltac:(lia)) (pred_lt_id radix2 TimeFloat.fexp 24 ltac:(lra))). lra. }
    assert (bpow radix2 (-57) < bpow radix2 (-49)) by (apply bpow_lt; lia).
    assert (bpow radix2 (-48) = 2 * bpow radix2 (-49)) by (change (-48)%Z with (1 + -49)%Z; rewrite bpow_plus; reflexivity). lra.
Qed.

(** Just after sidereal midnight in Greenwich there is a place in the west where it is all but midnight. *)
Lemma western_midnight t : bpow radix2 (-12) <= gst_hours_fp t <= bpow radix2 (-11) - / 1000000 ->
  exists l, TimeFloat.double l /\ bpow radix2 (-900) <= Rabs l <= 360 /\ lst_hours_fp l WEST t = 24.
Proof.
  intros G. set (g := gst_hours_fp t) in *. set (l0 := 15 * (g + bpow radix2 (-58))). exists (TimeFloat.rnd l0).
  set (l := TimeFloat.rnd l0).
  assert (E12 : bpow radix2 (-12) = / 4096) by (cbn; lra). assert (E11 : bpow radix2 (-11) = / 2048) by (cbn; lra).
  assert (E7 : bpow radix2 (-7) = / 128) by (cbn; lra).
  assert (Q57 : bpow radix2 (-57) = 32 * bpow radix2 (-62)) by (change (-57)%Z with (5 + -62)%Z; rewrite bpow_plus; reflexivity).
  assert (Q58 : bpow radix2 (-58) = 16 * bpow radix2 (-62)) by (change (-58)%Z with (4 + -62)%Z; rewrite bpow_plus; reflexivity).
  assert (Q59 : bpow radix2 (-59) = 8 * bpow radix2 (-62)) by (change (-59)%Z with (3 + -62)%Z; rewrite bpow_plus; reflexivity).
  assert (Q61 : bpow radix2 (-61) = 2 * bpow radix2 (-62)) by (change (-61)%Z with (1 + -62)%Z; rewrite bpow_plus; reflexivity).
  assert (Q62 : bpow radix2 (-62) = 8 * bpow radix2 (-65)) by (change (-62)%Z with (3 + -65)%Z; rewrite bpow_plus; reflexivity).
  assert (S62 : 0 < bpow radix2 (-62) < / 1000000000).
  { split; [apply bpow_gt_0|]. apply Rlt_le_trans with (bpow radix2 (-40)); [apply bpow_lt; lia|]. assert (bpow radix2 (-40) = / 1099511627776) by (cbn; lra). lra. }
  assert (E1 : - bpow radix2 (-61) <= l - l0 <= bpow radix2 (-61)).
  { pose proof (rnd_close (-7) l0) as C. change (-7 - 54)%Z with (-61)%Z in C. apply C; [lia|]. unfold l0. lra. }
  assert (L : / 4096 <= l <= / 128) by (unfold l0 in *; lra).
  assert (E2 : - bpow radix2 (-65) <= TimeFloat.rnd (l / 15) - l / 15 <= bpow radix2 (-65)).
  { pose proof (rnd_close (-11) (l / 15)) as C. change (-11 - 54)%Z with (-65)%Z in C. apply C; [lia|]. unfold l0 in *. lra. }
  split; [apply rnd_double|]. split.
  { rewrite Rabs_pos_eq by lra. split; [|lra]. apply Rle_trans with (bpow radix2 (-12)); [apply bpow_le; lia|lra]. }
  unfold lst_hours_fp. fold l. destruct (Req_EM_T l 0) as [?|N]; [lra|]. cbv zeta. fold g. unfold TimeProofs.signed.
  apply below_day; [apply rnd_double|].
  apply rnd_between.
  - replace (- bpow radix2 (-57)) with (IZR (-1) * bpow radix2 (-57)) by ring. apply rnd_dyadic; lia.
  - replace (- bpow radix2 (-59)) with (IZR (-1) * bpow radix2 (-59)) by ring. apply rnd_dyadic; lia.
  - unfold l0 in *. lra.
Qed.

Definition midnight : ptime := mk_ptime (mk_date 2019 6 1) 7 22 2 0.
Lemma midnight_valid : valid_time midnight.
Proof. vm_compute. repeat split; discriminate. Qed.

Lemma midnight_greenwich : bpow radix2 (-12) <= gst_hours_fp midnight <= bpow radix2 (-11) - / 1000000.
Proof.
  destruct (C36_greenwich_double midnight midnight_valid) as (R & e & Be & k & K).
  assert (J : julian_date midnight = 24586355 / 10).
  { unfold julian_date. change (julian_day midnight) with 2458635%Z || idtac. vm_compute julian_day. lra. }
  rewrite J in K. unfold sidereal_formula, hours_of_day in K. cbn [p_hours p_minutes p_seconds midnight] in K.
  apply Rabs_le_inv in Be. set (g := gst_hours_fp midnight) in *.
  assert (Kk : k = (-20)%Z).
  { assert (A : IZR k < -19) by lra. assert (B : -21 < IZR k) by lra. apply (lt_IZR k (-19)) in A. apply (lt_IZR (-21) k) in B. lia. }
  subst k. assert (E12 : bpow radix2 (-12) = / 4096) by (cbn; lra). assert (E11 : bpow radix2 (-11) = / 2048) by (cbn; lra).
  rewrite E11, E12. lra.
Qed.

Lemma clock_24 d : dfinite d -> dval d = 24 -> exists x, hms_of_double d = Ret x /\ print_hms x = lit "Hours: 24h 0m 0.000000s ".
Proof.
  intros F V. assert (d = d_of_Z 24) as ->.
  { destruct (small_int_ok 24 ltac:(lia)) as [F' V'].
    apply (B2R_inj 53 1024).
    - destruct d; try discriminate F; [|reflexivity]. unfold dval in V. cbn in V. lra.
    - reflexivity.
    - unfold dval in V. rewrite V. symmetry. exact V'. }
  assert (H : match hms_of_double (d_of_Z 24) with Ret t => print_hms t = lit "Hours: 24h 0m 0.000000s " | _ => False end) by (vm_compute; reflexivity).
  destruct (hms_of_double (d_of_Z 24)) as [x| | |]; try contradiction. eauto.
Qed.
