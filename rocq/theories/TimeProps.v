(** * Properties of time/. *)
From Coq Require Import ZArith Reals Lia Lra List.
From Flocq Require Import Core.
From Verif Require Import CppModel TimeModel TimeSpec TimeProofs CalendarProofs TimeFloat.
Local Open Scope R_scope.

(** ** C35 *)

(** From 1582-10-02 on, [n] calendar days later is [n] more, at any time of day. *)
Theorem C35_one_per_day : forall n t t', gregorian (p_date t) -> later (p_date t) reform = true ->
  p_date t' = days_later n (p_date t) -> julian_date t' = julian_date t + INR n.
Proof.
  intros n t t' G L E. unfold julian_date. rewrite (julian_after n t t' G L E), plus_IZR, <- INR_IZR_INZ. ring.
Qed.
Print Assumptions C35_one_per_day.

(** The value: half past 2451544 on 2000-01-01, and one more per day; between any two dates lies one number of days. *)
Theorem C35_value : forall n t, gregorian (p_date t) -> later (p_date t) reform = true ->
  days_from (mk_date 2000 1 1) (p_date t) n -> julian_date t = 2451544.5 + IZR n.
Proof.
  intros n t G L D. unfold julian_date. rewrite (julian_value n t G L D), plus_IZR. lra.
Qed.
Print Assumptions C35_value.

Theorem C35_days_between : forall a b, gregorian a -> gregorian b ->
  exists n, days_from a b n /\ forall n', days_from a b n' -> n' = n.
Proof.
  intros a b Ga Gb. exists (day_number true b - day_number true a)%Z.
  split; [apply (days_from_number a b _ Ga Gb); reflexivity|]. intros n' D. apply (days_from_number a b _ Ga Gb) in D. exact D.
Qed.
Print Assumptions C35_days_between.

(** Up to 1582-10-01 it is off by the days the two calendars differ, the year counted from March. *)
Theorem C35_value_before_reform : forall n t, gregorian (p_date t) -> (0 < d_year (p_date t))%Z -> later (p_date t) reform = false ->
  days_from (mk_date 2000 1 1) (p_date t) n ->
  let y := if (d_month (p_date t) <=? 2)%Z then (d_year (p_date t) - 1)%Z else d_year (p_date t) in
  julian_date t = 2451544.5 + IZR n + IZR (y / 100 - y / 400 - 2).
Proof.
  intros n t G Y L D. cbv zeta. unfold julian_date. rewrite (julian_value_before n t G Y L D).
  replace (fst (shifted (p_date t))) with (if (d_month (p_date t) <=? 2)%Z then (d_year (p_date t) - 1)%Z else d_year (p_date t)).
  - set (y := if (_ <=? _)%Z then _ else _). unfold century. rewrite Z.div_div by lia. change (100 * 4)%Z with 400%Z.
    rewrite ?minus_IZR, ?plus_IZR, ?minus_IZR. lra.
  - destruct G as [[M1 M2] _]. unfold shifted.
    destruct (Z.leb_spec (d_month (p_date t)) 2), (Z.eqb_spec (d_month (p_date t)) 1), (Z.eqb_spec (d_month (p_date t)) 2); cbn; lia.
Qed.
Print Assumptions C35_value_before_reform.

Example C35_value_case : days_from (mk_date 2000 1 1) (mk_date 1999 10 23) (-70) /\ later (mk_date 1999 10 23) reform = true /\
  gregorian (mk_date 1999 10 23) /\ gregorian (mk_date 1500 2 28) /\ later (mk_date 1500 2 28) reform = false.
Proof. split; [right; split; [lia|reflexivity]|]. vm_compute. repeat split; discriminate. Qed.
Example C35_case : gregorian (mk_date 1999 12 28) /\ later (mk_date 1999 12 28) reform = true /\
  days_later 70 (mk_date 1999 12 28) = mk_date 2000 3 7.
Proof. vm_compute. repeat split; discriminate. Qed.

Theorem C35_time_of_day_ignored : forall t t', p_date t = p_date t' -> julian_date t = julian_date t'.
Proof. exact julian_same_date. Qed.
Print Assumptions C35_time_of_day_ignored.

(** The first date that is converted as Gregorian is 1582-10-02, not 1582-10-15. *)
Theorem C35_drop_at_reform : forall t t', p_date t = mk_date 1582 10 1 -> p_date t' = mk_date 1582 10 2 ->
  julian_date t' = julian_date t - 9.
Proof.
  intros [d1 h1 m1 s1 k1] [d2 h2 m2 s2 k2] E E'. cbn in E, E'. subst. unfold julian_date.
  change (julian_day (mk_ptime (mk_date 1582 10 1) h1 m1 s1 k1)) with 2299156%Z.
  change (julian_day (mk_ptime (mk_date 1582 10 2) h2 m2 s2 k2)) with 2299147%Z. lra.
Qed.
Print Assumptions C35_drop_at_reform.

(** Earlier dates count days of the Julian calendar, while Boost's dates are Gregorian: one day too many is counted
    at each 28 February of a century that is not leap. *)
Theorem C35_before_reform : forall t t', gregorian (p_date t) -> (0 < d_year (p_date t))%Z ->
  later (p_date t') reform = false -> p_date t' = next_day (p_date t) ->
  julian_day t' = (julian_day t + 1 +
    (if (d_month (p_date t) =? 2) && (d_day (p_date t) =? 28) && (d_year (p_date t) mod 100 =? 0) && negb (d_year (p_date t) mod 400 =? 0)
     then 1 else 0))%Z%bool.
Proof. exact julian_before. Qed.
Print Assumptions C35_before_reform.

Theorem C35_one_per_day_refuted : exists t t', valid_date (p_date t) /\ p_date t' = next_day (p_date t) /\
  later (p_date t') reform = false /\ julian_date t' <> julian_date t + 1.
Proof.
  exists (mk_ptime (mk_date 1500 2 28) 0 0 0 0), (mk_ptime (mk_date 1500 3 1) 0 0 0 0).
  split; [vm_compute; repeat split; discriminate|]. split; [reflexivity|]. split; [reflexivity|].
  unfold julian_date. change (julian_day _) with 2268992%Z at 1. change (julian_day _) with 2268990%Z at 1. lra.
Qed.
Print Assumptions C35_one_per_day_refuted.

Theorem C35_julian_calendar_before_reform : forall t t', (1 <= d_month (p_date t) <= 12)%Z ->
  (1 <= d_day (p_date t) <= month_days_julian (d_year (p_date t)) (d_month (p_date t)))%Z ->
  (0 < d_year (p_date t))%Z -> later (p_date t') reform = false -> later (p_date t) reform = false ->
  p_date t' = next_day_julian (p_date t) -> julian_day t' = (julian_day t + 1)%Z.
Proof. exact julian_old_style. Qed.
Print Assumptions C35_julian_calendar_before_reform.

(** Computing in doubles changes nothing. *)
Theorem C35_double_exact : forall t, valid_date (p_date t) -> julian_date_fp t = julian_date t.
Proof. exact julian_fp. Qed.
Print Assumptions C35_double_exact.

Example C35_double_case : valid_date (mk_date 9999 12 31) /\ valid_date (mk_date 1400 1 1) /\ valid_date (mk_date 2024 2 29).
Proof. vm_compute. repeat split; discriminate. Qed.

(** ** C36 *)

Lemma formula t : sidereal t = sidereal_formula (julian_date t) (hours_of_day t).
Proof. unfold sidereal, sidereal_formula, gst0, ut_hours, hours_of_day. field. Qed.

Theorem C36_greenwich : forall t, exists x, GST t = Ret x /\ 0 <= dh x < 24 /\
  same_hour (dh x) (sidereal_formula (julian_date t) (hours_of_day t)).
Proof. intros t. rewrite <- formula. apply gst_spec. Qed.
Print Assumptions C36_greenwich.

Definition eastward (dir : direction) (l : R) : R := match dir with WEST => - l | EAST => l end.

Theorem C36_local : forall l dir t, exists x, LST l dir t = Ret x /\ 0 <= dh x < 24 /\
  same_hour (dh x) (sidereal_formula (julian_date t) (hours_of_day t) + eastward dir l / 15).
Proof.
  intros l dir t. destruct (lst_spec l dir t) as (g & x & G & L & Rx & Sx). exists x. split; [exact L|]. split; [exact Rx|].
  destruct (gst_spec t) as (g' & G' & _ & Sg). assert (g' = g) as -> by congruence. rewrite <- formula.
  eapply same_trans; [exact Sx|]. apply (same_add _ _ (eastward dir l / 15)) in Sg. exact Sg.
Qed.
Print Assumptions C36_local.

(** In double precision: the Greenwich time of every date Boost can hold is in [0, 24) and the formula's value
    within a microsecond; *)
Theorem C36_greenwich_double : forall t, valid_time t -> 0 <= gst_hours_fp t < 24 /\
  exists e, Rabs e <= / 3600000000 /\ same_hour (gst_hours_fp t) (sidereal_formula (julian_date t) (hours_of_day t) + e).
Proof. intros t V. rewrite <- formula. exact (proj2 (gst_fp t V)). Qed.
Print Assumptions C36_greenwich_double.

(** the local time is in [0, 24], *)
Theorem C36_local_double : forall l dir t, valid_time t -> double l -> (l = 0 \/ bpow radix2 (-900) <= Rabs l <= 360) ->
  0 <= lst_hours_fp l dir t <= 24 /\
  exists e, Rabs e <= / 3000000000 /\
  same_hour (lst_hours_fp l dir t) (sidereal_formula (julian_date t) (hours_of_day t) + eastward dir l / 15 + e).
Proof. intros l dir t. rewrite <- formula. exact (lst_fp l dir t). Qed.
Print Assumptions C36_local_double.

(** and the reduction on which it ends does reach 24. *)
Theorem C36_reduction_double_refuted : exists x, moderate x /\ ~ 0 <= reduce24_fp x < 24.
Proof. exists (- bpow radix2 (-60)). destruct reduce_fp_24 as [E M]. split; [exact M|]. rewrite E. lra. Qed.
Print Assumptions C36_reduction_double_refuted.

Example C36_case : valid_time (mk_ptime (mk_date 2024 2 29) 23 59 59 0) /\ double 271 /\ bpow radix2 (-900) <= Rabs 271 <= 360.
Proof.
  split; [vm_compute; repeat split; discriminate|]. split; [exact (double_int 271 eq_refl)|].
  rewrite Rabs_pos_eq by lra. split; [|lra]. apply Rle_trans with 1; [|lra]. change 1 with (bpow radix2 0). apply bpow_le. lia.
Qed.

(** ** C37 *)

Theorem C37_period : forall l dir t x x' k, LST l dir t = Ret x -> LST (l + 360 * IZR k) dir t = Ret x' -> dh x = dh x'.
Proof. exact lst_periodic. Qed.
Print Assumptions C37_period.

Theorem C37_opposite : forall l t x x', LST l WEST t = Ret x -> LST (- l) EAST t = Ret x' -> dh x = dh x'.
Proof. exact lst_opposite. Qed.
Print Assumptions C37_opposite.

Theorem C37_average : forall l t e w g, LST l EAST t = Ret e -> LST l WEST t = Ret w -> GST t = Ret g ->
  same_hour (dh e + dh w) (2 * dh g).
Proof. exact lst_average. Qed.
Print Assumptions C37_average.

Theorem C37_zero : forall dir t g x, GST t = Ret g -> LST 0 dir t = Ret x -> dh x = dh g.
Proof.
  intros dir t g x G L. unfold LST in L. rewrite G in L. cbn [bind] in L. destruct (Req_EM_T 0 0) as [_|N]; [|contradiction].
  exact (hour_ret _ _ L).
Qed.
Print Assumptions C37_zero.

(** All of these are defined (C36). *)
Example C37_case : exists e w g, let t := mk_ptime (mk_date 2024 2 29) 13 5 7 0 in
  LST 100 EAST t = Ret e /\ LST 100 WEST t = Ret w /\ GST t = Ret g.
Proof.
  destruct (C36_local 100 EAST (mk_ptime (mk_date 2024 2 29) 13 5 7 0)) as (e & E & _).
  destruct (C36_local 100 WEST (mk_ptime (mk_date 2024 2 29) 13 5 7 0)) as (w & W & _).
  destruct (C36_greenwich (mk_ptime (mk_date 2024 2 29) 13 5 7 0)) as (g & G & _).
  exists e, w, g. repeat split; assumption.
Qed.

(** ** C38 *)

Theorem C38_decomposition : forall d, - IZR (2 ^ 63) - 1 < d < IZR (2 ^ 63) ->
  exists h m s, hour_of d = Ret (mk_hour d h m s) /\
  IZR h + IZR m / 60 + s / 3600 = d /\
  (0 <= d -> 0 <= IZR h <= d /\ (0 <= m <= 59)%Z /\ 0 <= s < 60) /\
  (d <= 0 -> d <= IZR h <= 0 /\ (-59 <= m <= 0)%Z /\ -60 < s <= 0).
Proof. exact hour_spec. Qed.
Print Assumptions C38_decomposition.

Theorem C38_undefined_outside_long : forall d, IZR (2 ^ 63) <= d \/ d <= - IZR (2 ^ 63) - 1 -> hour_of d = Undef.
Proof. exact hour_undefined. Qed.
Print Assumptions C38_undefined_outside_long.

Theorem C38_from_components : forall h m s, let x := hour_of_hms h m s in
  dh x = h + m / 60 + s / 3600 /\ dh_hours x = 0%Z /\ dh_minutes x = 0%Z /\ dh_seconds x = 0.
Proof. intros h m s. cbn. split; [field|]. split; [reflexivity|]. split; reflexivity. Qed.
Print Assumptions C38_from_components.

Example C38_case : exists h m s, hour_of (-(7/2)) = Ret (mk_hour (-(7/2)) h m s) /\ (h = -3)%Z /\ (m = -30)%Z /\ s = 0.
Proof.
  destruct (hour_spec (-(7/2))) as (h & m & s & E & D & _ & N).
  { change (IZR (2 ^ 63)) with 9223372036854775808. lra. }
  destruct N as ((H1 & H2) & (M1 & M2) & (S1 & S2)); [lra|]. exists h, m, s. split; [exact E|].
  apply IZR_le in M1, M2.
  assert (Hh : h = (-3)%Z).
  { assert (H3 : IZR h < IZR (-2)) by (change (IZR (-2)) with (-2); lra). apply lt_IZR in H3.
    assert (H4 : IZR (-4) < IZR h) by (change (IZR (-4)) with (-4); lra). apply lt_IZR in H4. lia. }
  subst h. assert (Hm : m = (-30)%Z).
  { change (IZR (-3)) with (-3) in D.
    assert (M3 : IZR m < IZR (-29)) by (change (IZR (-29)) with (-29); lra). apply lt_IZR in M3.
    assert (M4 : IZR (-31) < IZR m) by (change (IZR (-31)) with (-31); lra). apply lt_IZR in M4. lia. }
  subst m. split; [reflexivity|]. split; [reflexivity|]. change (IZR (-3)) with (-3) in D. change (IZR (-30)) with (-30) in D. lra.
Qed.

(** ** C69 *)

(** Between two times the sidereal time advances by the elapsed hours times 1.002737909, up to 0.2 microhours
    (0.72 ms) per day. *)
Theorem C69_sidereal_rate : forall n t t' g g', valid_date (p_date t) -> valid_date (p_date t') -> later (p_date t) reform = true ->
  p_date t' = days_later n (p_date t) -> GST t = Ret g -> GST t' = Ret g' ->
  exists e, same_hour (dh g') (dh g + (24 * INR n + hours_of_day t' - hours_of_day t) * (1002737909 / 1000000000) + e) /\
    - (INR n * (2 / 10000000)) <= e <= INR n * (2 / 10000000).
Proof.
  intros n t t' g g' V V' L E G G'. destruct (gst_rate n t t' g g' V V' L E G G') as (e & H & B). exists e. split; [|exact B].
  replace (24 * INR n + hours_of_day t' - hours_of_day t) with (elapsed n t t') by (unfold elapsed, hours_of_day, ut_hours; field). exact H.
Qed.
Print Assumptions C69_sidereal_rate.

Example C69_case : valid_date (mk_date 1999 12 28) /\ valid_date (mk_date 2000 3 7) /\ later (mk_date 1999 12 28) reform = true /\
  mk_date 2000 3 7 = days_later 70 (mk_date 1999 12 28).
Proof. vm_compute. repeat split; discriminate. Qed.
