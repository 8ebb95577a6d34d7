(** * Counting days of the Gregorian calendar. *)
From Coq Require Export ZArith Reals Lia Lra List.
From Coq Require Import ZifyBool.
From Verif Require Export CppModel TimeModel TimeSpec TimeProofs.
Local Open Scope Z_scope.
Ltac Zify.zify_post_hook ::= Z.to_euclidean_division_equations.

Definition year_start (y : Z) : Z := day_number true (mk_date y 1 1).

(** Days before the month, in a year that is not leap and in one that is. *)
Definition before_month (y m : Z) : Z :=
  if m =? 1 then 0 else if m =? 2 then 31
  else (306001 * (m + 1)) / 10000 - 63 + (if leap y then 1 else 0).

Lemma leap_bool y : (leap y = true /\ (if leap y then 1 else 0) = 1) \/ (leap y = false /\ (if leap y then 1 else 0) = 0).
Proof. destruct (leap y); auto. Qed.

Lemma day_number_split y m d : 1 <= m <= 12 ->
  day_number true (mk_date y m d) = year_start y + before_month y m + d - 1.
Proof.
  intros Hm. unfold year_start, day_number, shifted, before_month. cbn [d_year d_month d_day].
  pose proof (base_step y) as Bs. pose proof (century_step y) as Cs. pose proof (leap_number y) as Ls.
  change ((1 =? 1) || (1 =? 2)) with true. cbv iota.
  set (L := if leap y then 1 else 0) in *. set (L4 := if y mod 4 =? 0 then 1 else 0) in *.
  set (L1 := if y mod 100 =? 0 then 1 else 0) in *. set (L0 := if y mod 400 =? 0 then 1 else 0) in *.
  clearbody L L4 L1 L0.
  destruct (months m Hm) as [->|[->|[->|[->|[->|[->|[->|[->|[->|[->|[->| ->]]]]]]]]]]];
    cbn [Z.eqb Pos.eqb orb]; lia.
Qed.

Lemma before_next y m : 1 <= m < 12 -> before_month y (m + 1) = before_month y m + month_days y m.
Proof.
  intros Hm. destruct (months m ltac:(lia)) as [->|[->|[->|[->|[->|[->|[->|[->|[->|[->|[->| ->]]]]]]]]]]]; try lia;
    unfold before_month, month_days; destruct (leap y); reflexivity.
Qed.

Lemma before_mono y k : forall m, 1 <= m -> m + Z.of_nat k <= 12 -> before_month y m <= before_month y (m + Z.of_nat k).
Proof.
  induction k as [|k IH]; intros m H1 H2; [rewrite Z.add_0_r; lia|].
  pose proof (before_next y m ltac:(lia)) as B. pose proof (IH (m + 1) ltac:(lia) ltac:(lia)) as I.
  replace (m + Z.of_nat (S k)) with (m + 1 + Z.of_nat k) by lia.
  assert (0 <= month_days y m) by (unfold month_days; destruct (m =? 2), (leap y), ((m =? 4) || (m =? 6) || (m =? 9) || (m =? 11)); lia).
  lia.
Qed.

Lemma year_next y : year_start (y + 1) = year_start y + before_month y 12 + 31.
Proof.
  pose proof (day_number_split y 12 31 ltac:(lia)) as B.
  assert (G : gregorian (mk_date y 12 31)) by (unfold gregorian; cbn [d_year d_month d_day]; change (month_days y 12) with 31; lia).
  pose proof (day_number_next (mk_date y 12 31) G) as N. change (next_day (mk_date y 12 31)) with (mk_date (y + 1) 1 1) in N.
  unfold year_start at 1. lia.
Qed.

Lemma years_next n y : year_start y <= year_start (y + Z.of_nat n).
Proof.
  revert y; induction n as [|n IH]; intros y; [rewrite Z.add_0_r; lia|].
  replace (y + Z.of_nat (S n)) with (y + 1 + Z.of_nat n) by lia. pose proof (IH (y + 1)). rewrite year_next in H.
  assert (0 <= before_month y 12) by (unfold before_month; destruct (leap y); cbn; lia). lia.
Qed.

Lemma in_month y m d : gregorian (mk_date y m d) -> before_month y m + d <= before_month y 12 + 31 /\
  (forall m', m < m' <= 12 -> before_month y m + d <= before_month y m').
Proof.
  intros [Hm Hd]. cbn [d_year d_month d_day] in *.
  assert (F : forall m', m < m' <= 12 -> before_month y m + d <= before_month y m').
  { intros m' H. pose proof (before_next y m ltac:(lia)).
    pose proof (before_mono y (Z.to_nat (m' - (m + 1))) (m + 1) ltac:(lia) ltac:(lia)) as K.
    replace (m + 1 + Z.of_nat (Z.to_nat (m' - (m + 1)))) with m' in K by lia. lia. }
  split; [|exact F]. destruct (Z.eq_dec m 12) as [->|N]; [|pose proof (F 12 ltac:(lia)); lia].
  change (month_days y 12) with 31 in Hd. lia.
Qed.

Lemma day_number_later a b : gregorian a -> gregorian b -> later a b = true -> day_number true b < day_number true a.
Proof.
  destruct a as [y m d], b as [y' m' d']. intros Ga Gb L. apply later_spec in L. cbn [d_year d_month d_day] in L.
  pose proof (in_month _ _ _ Ga) as [_ A]. pose proof (in_month _ _ _ Gb) as [B1 B2].
  destruct Ga as [Hm Hd], Gb as [Hm' Hd']. cbn [d_year d_month d_day] in *.
  rewrite !day_number_split by assumption.
  destruct L as [L|[<- [L|[<- L]]]].
  - pose proof (years_next (Z.to_nat (y - (y' + 1))) (y' + 1)) as K.
    replace (y' + 1 + Z.of_nat (Z.to_nat (y - (y' + 1)))) with y in K by lia. rewrite year_next in K.
    assert (0 <= before_month y m).
    { pose proof (before_mono y (Z.to_nat (m - 1)) 1 ltac:(lia) ltac:(lia)) as M.
      replace (1 + Z.of_nat (Z.to_nat (m - 1))) with m in M by lia. exact M. }
    lia.
  - pose proof (B2 m ltac:(lia)). lia.
  - lia.
Qed.

Lemma date_order a b : a = b \/ later a b = true \/ later b a = true.
Proof.
  destruct a as [y m d], b as [y' m' d']. rewrite !later_spec. cbn [d_year d_month d_day].
  destruct (Z.lt_trichotomy y y') as [H|[->|H]]; [tauto| |tauto].
  destruct (Z.lt_trichotomy m m') as [H|[->|H]]; [tauto| |tauto].
  destruct (Z.lt_trichotomy d d') as [H|[->|H]]; tauto.
Qed.

Lemma day_number_inj a b : gregorian a -> gregorian b -> day_number true a = day_number true b -> a = b.
Proof.
  intros Ga Gb E. destruct (date_order a b) as [H|[H|H]]; [exact H| |];
    apply day_number_later in H; try assumption; lia.
Qed.

Lemma days_later_number n : forall d, gregorian d ->
  gregorian (days_later n d) /\ day_number true (days_later n d) = day_number true d + Z.of_nat n.
Proof.
  induction n as [|n IH]; intros d G; [split; [exact G|cbn; lia]|]. cbn [days_later].
  destruct (IH (next_day d) (next_day_gregorian _ G)) as [I1 I2]. split; [exact I1|].
  rewrite I2, day_number_next by exact G. lia.
Qed.

(** The signed number of days from one date to another is the difference of the day numbers. *)
Theorem days_from_number a b n : gregorian a -> gregorian b ->
  (days_from a b n <-> n = day_number true b - day_number true a).
Proof.
  intros Ga Gb. split.
  - intros [[H ->]|[H ->]].
    + destruct (days_later_number (Z.to_nat n) a Ga) as [_ E]. rewrite E. lia.
    + destruct (days_later_number (Z.to_nat (- n)) b Gb) as [_ E]. rewrite E. lia.
  - intros ->. destruct (Z.le_ge_cases (day_number true a) (day_number true b)) as [H|H]; [left|right]; (split; [lia|]).
    + destruct (days_later_number (Z.to_nat (day_number true b - day_number true a)) a Ga) as [G E].
      apply day_number_inj; [assumption..|]. lia.
    + destruct (days_later_number (Z.to_nat (- (day_number true b - day_number true a))) b Gb) as [G E].
      apply day_number_inj; [assumption..|]. lia.
Qed.

Lemma julian_number t : later (p_date t) reform = true -> julian_day t = day_number true (p_date t).
Proof.
  intros L. rewrite julian_day_number; fold reform; [rewrite L; reflexivity|]. apply later_spec in L. cbn in L. lia.
Qed.

Theorem julian_value n t : gregorian (p_date t) -> later (p_date t) reform = true ->
  days_from (mk_date 2000 1 1) (p_date t) n -> julian_day t = 2451544 + n.
Proof.
  intros G L D. apply days_from_number in D; [|split; cbn; lia|exact G]. rewrite julian_number by exact L.
  change (day_number true (mk_date 2000 1 1)) with 2451544 in D. lia.
Qed.

(** Before the reform the Gregorian date is read as one of the Julian calendar: too late by the difference between the
    two calendars. *)
Theorem julian_value_before n t : gregorian (p_date t) -> 0 < d_year (p_date t) -> later (p_date t) reform = false ->
  days_from (mk_date 2000 1 1) (p_date t) n ->
  julian_day t = 2451544 + n - century (fst (shifted (p_date t))).
Proof.
  intros G Y L D. apply days_from_number in D; [|split; cbn; lia|exact G]. rewrite julian_day_number by exact Y.
  fold reform. rewrite L. change (day_number true (mk_date 2000 1 1)) with 2451544 in D.
  unfold day_number in *. destruct (shifted (p_date t)). cbn [fst]. lia.
Qed.
