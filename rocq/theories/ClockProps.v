(** * Property theorems about sidereal clocks (C130). *)
From Coq Require Import String Ascii List NArith ZArith Reals Lia Lra.
Import ListNotations.
From Flocq Require Import Core IEEE754.Binary.
From Verif Require Import CppModel CardModel TextSpec DoubleModel DoubleSpec TimeModel TimeSpec TimeProofs TimeFloat TimeProps ClockSpec ClockProofs.
Local Open Scope R_scope.

(** ** C130: the sidereal time that is printed *)

(** Printing GST(t), computed in doubles: hours below 24 and minutes below 60, and the time shown is the sidereal time to two
    microseconds. *)
Theorem C130_greenwich : forall t d, valid_time t -> dfinite d -> dval d = gst_hours_fp t ->
  exists x h m s, hms_of_double d = Ret x /\ clock_shows (print_hms x) h m s /\
    (0 <= h < 24)%Z /\ (0 <= m < 60)%Z /\ 0 <= s <= 60 /\
    exists e, Rabs e <= 2 * microsecond /\
      same_hour (reading h m s) (sidereal_formula (julian_date t) (hours_of_day t) + e).
Proof. exact greenwich_clock. Qed.
Print Assumptions C130_greenwich.

(** The same for LST(l, dir, t), the hours up to 24. *)
Theorem C130_local : forall l dir t d, valid_time t -> TimeFloat.double l -> (l = 0 \/ bpow radix2 (-900) <= Rabs l <= 360) ->
  dfinite d -> dval d = lst_hours_fp l dir t ->
  exists x h m s, hms_of_double d = Ret x /\ clock_shows (print_hms x) h m s /\
    (0 <= h <= 24)%Z /\ (0 <= m < 60)%Z /\ 0 <= s <= 60 /\
    exists e, Rabs e <= 2 * microsecond /\
      same_hour (reading h m s) (sidereal_formula (julian_date t) (hours_of_day t) + TimeProps.eastward dir l / 15 + e).
Proof. exact local_clock. Qed.
Print Assumptions C130_local.

(** The computation ends with a double. *)
Theorem C130_held : forall l dir t, valid_time t -> TimeFloat.double l -> (l = 0 \/ bpow radix2 (-900) <= Rabs l <= 360) ->
  exists d, dfinite d /\ dval d = lst_hours_fp l dir t.
Proof. intros l dir t V D L. apply held; [apply lst_double|]. exact (proj1 (C36_local_double l dir t V D L)). Qed.
Print Assumptions C130_held.

(** Two clocks at one moment: they differ by the longitudes. *)
Theorem C130_apart : forall l dir l' dir' t d d', valid_time t ->
  TimeFloat.double l -> (l = 0 \/ bpow radix2 (-900) <= Rabs l <= 360) -> dfinite d -> dval d = lst_hours_fp l dir t ->
  TimeFloat.double l' -> (l' = 0 \/ bpow radix2 (-900) <= Rabs l' <= 360) -> dfinite d' -> dval d' = lst_hours_fp l' dir' t ->
  exists x h m s x' h' m' s', hms_of_double d = Ret x /\ clock_shows (print_hms x) h m s /\
    hms_of_double d' = Ret x' /\ clock_shows (print_hms x') h' m' s' /\
    exists e, Rabs e <= 4 * microsecond /\
      same_hour (reading h' m' s') (reading h m s + (TimeProps.eastward dir' l' - TimeProps.eastward dir l) / 15 + e).
Proof.
  intros l dir l' dir' t d d' V D L F E D' L' F' E'.
  destruct (local_clock l dir t d V D L F E) as (x & h & m & s & X & C & _ & _ & _ & e & B & k & K).
  destruct (local_clock l' dir' t d' V D' L' F' E') as (x' & h' & m' & s' & X' & C' & _ & _ & _ & e' & B' & k' & K').
  exists x, h, m, s, x', h', m', s'. repeat (split; [assumption|]). exists (e' - e). split.
  - apply Rabs_le_inv in B. apply Rabs_le_inv in B'. apply Rabs_le. lra.
  - exists (k' - k)%Z. rewrite minus_IZR. lra.
Qed.
Print Assumptions C130_apart.

(** The Greenwich clock some days and hours later: it gains on the sun by 1.002737909, up to the drift of C69. *)
Theorem C130_rate : forall n t t' d d', valid_time t -> valid_time t' -> later (p_date t) reform = true -> p_date t' = days_later n (p_date t) ->
  dfinite d -> dval d = gst_hours_fp t -> dfinite d' -> dval d' = gst_hours_fp t' ->
  exists x h m s x' h' m' s', hms_of_double d = Ret x /\ clock_shows (print_hms x) h m s /\
    hms_of_double d' = Ret x' /\ clock_shows (print_hms x') h' m' s' /\
    exists e, Rabs e <= 4 * microsecond + INR n * (2 / 10000000) /\
      same_hour (reading h' m' s') (reading h m s + (24 * INR n + hours_of_day t' - hours_of_day t) * (1002737909 / 1000000000) + e).
Proof.
  intros n t t' d d' V V' L En F E F' E'.
  destruct (greenwich_clock t d V F E) as (x & h & m & s & X & C & _ & _ & _ & e & B & k & K).
  destruct (greenwich_clock t' d' V' F' E') as (x' & h' & m' & s' & X' & C' & _ & _ & _ & e' & B' & k' & K').
  destruct (C36_greenwich t) as (g & G & _ & j & J). destruct (C36_greenwich t') as (g' & G' & _ & j' & J').
  destruct (C69_sidereal_rate n t t' g g' (proj1 V) (proj1 V') L En G G') as (q & [i I] & Bq).
  exists x, h, m, s, x', h', m', s'. repeat (split; [assumption|]). exists (q + e' - e). split.
  - apply Rabs_le_inv in B. apply Rabs_le_inv in B'. apply Rabs_le. lra.
  - exists (k' - k + j - j' + i)%Z. rewrite ?plus_IZR, ?minus_IZR, ?plus_IZR, ?minus_IZR. lra.
Qed.
Print Assumptions C130_rate.

(** Local clocks do show twenty-four hours. *)
Theorem C130_below_24_refuted : exists l t d x, valid_time t /\ TimeFloat.double l /\ bpow radix2 (-900) <= Rabs l <= 360 /\
  dfinite d /\ dval d = lst_hours_fp l WEST t /\ hms_of_double d = Ret x /\ print_hms x = lit "Hours: 24h 0m 0.000000s ".
Proof.
  destruct (western_midnight midnight midnight_greenwich) as (l & D & L & E).
  destruct (C130_held l WEST midnight midnight_valid D (or_intror L)) as (d & F & V).
  destruct (clock_24 d F) as (x & X & P); [lra|].
  exists l, midnight, d, x. repeat (split; [assumption || exact midnight_valid|]). exact P.
Qed.
Print Assumptions C130_below_24_refuted.

Example C130_case : exists d, valid_time (mk_ptime (mk_date 2024 2 29) 23 59 59 0) /\ TimeFloat.double 271 /\
  bpow radix2 (-900) <= Rabs 271 <= 360 /\ dfinite d /\ dval d = lst_hours_fp 271 EAST (mk_ptime (mk_date 2024 2 29) 23 59 59 0).
Proof.
  destruct C36_case as (V & D & L). destruct (C130_held 271 EAST _ V D (or_intror L)) as (d & H). exists d. tauto.
Qed.

Example C130_rate_case : exists d d', let t := mk_ptime (mk_date 1999 12 28) 6 0 0 0 in let t' := mk_ptime (mk_date 2000 1 1) 7 30 0 0 in
  valid_time t /\ valid_time t' /\ later (p_date t) reform = true /\ p_date t' = days_later 4 (p_date t) /\
  dfinite d /\ dval d = gst_hours_fp t /\ dfinite d' /\ dval d' = gst_hours_fp t'.
Proof.
  assert (V : valid_time (mk_ptime (mk_date 1999 12 28) 6 0 0 0)) by (vm_compute; repeat split; discriminate).
  assert (V' : valid_time (mk_ptime (mk_date 2000 1 1) 7 30 0 0)) by (vm_compute; repeat split; discriminate).
  destruct (held _ (gst_double (mk_ptime (mk_date 1999 12 28) 6 0 0 0))) as (d & F & E);
    [destruct (C36_greenwich_double _ V) as [[? ?] _]; lra|].
  destruct (held _ (gst_double (mk_ptime (mk_date 2000 1 1) 7 30 0 0))) as (d' & F' & E');
    [destruct (C36_greenwich_double _ V') as [[? ?] _]; lra|].
  exists d, d'. cbv zeta. split; [exact V|]. split; [exact V'|]. split; [reflexivity|]. split; [reflexivity|]. tauto.
Qed.

(** The text of a time. *)
Example C130_text_case : clock_shows (lit "Hours: 7h 5m 9.250000s ") 7 5 (37 / 4).
Proof.
  exists (lit "9.250000"), false, 9250000%N. split; [reflexivity|]. split; [|cbn; lra].
  apply (Numeral [] false (lit "9") (lit ".") (lit "250000") [] 0 9250000).
  - left. auto.
  - intros c H. cbn in H.
    destruct H as [<-|[<-|[<-|[<-|[<-|[<-|[<-|[]]]]]]]];
      [exists 9%N|exists 2%N|exists 5%N|exists 0%N|exists 0%N|exists 0%N|exists 0%N]; split; reflexivity.
  - right. reflexivity.
  - reflexivity.
  - left. auto.
Qed.
