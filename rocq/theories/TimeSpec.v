(** * What a user of time/ relies on. *)
From Coq Require Import ZArith Reals.
From Verif Require Import CppModel TimeModel.
Local Open Scope Z_scope.

(** The Gregorian calendar. *)
Definition leap (y : Z) : bool := (y mod 4 =? 0) && (negb (y mod 100 =? 0) || (y mod 400 =? 0)).
Definition month_days (y m : Z) : Z :=
  if m =? 2 then (if leap y then 29 else 28)
  else if (m =? 4) || (m =? 6) || (m =? 9) || (m =? 11) then 30 else 31.
(** A date of the Gregorian calendar; and one Boost can hold. *)
Definition gregorian (d : date) : Prop := 1 <= d_month d <= 12 /\ 1 <= d_day d <= month_days (d_year d) (d_month d).
Definition valid_date (d : date) : Prop := 1400 <= d_year d <= 9999 /\ gregorian d.

(** The day after. *)
Definition next_day (d : date) : date :=
  if d_day d <? month_days (d_year d) (d_month d) then mk_date (d_year d) (d_month d) (d_day d + 1)
  else if d_month d <? 12 then mk_date (d_year d) (d_month d + 1) 1
  else mk_date (d_year d + 1) 1 1.
Fixpoint days_later (n : nat) (d : date) : date := match n with O => d | S k => days_later k (next_day d) end.

(** [n] days lie from [a] to [b], counted negatively if [b] comes first. *)
Definition days_from (a b : date) (n : Z) : Prop :=
  (0 <= n /\ b = days_later (Z.to_nat n) a) \/ (n <= 0 /\ a = days_later (Z.to_nat (- n)) b).

(** The same for the calendar of Julius Caesar. *)
Definition month_days_julian (y m : Z) : Z :=
  if m =? 2 then (if y mod 4 =? 0 then 29 else 28)
  else if (m =? 4) || (m =? 6) || (m =? 9) || (m =? 11) then 30 else 31.
Definition next_day_julian (d : date) : date :=
  if d_day d <? month_days_julian (d_year d) (d_month d) then mk_date (d_year d) (d_month d) (d_day d + 1)
  else if d_month d <? 12 then mk_date (d_year d) (d_month d + 1) 1
  else mk_date (d_year d + 1) 1 1.

(** A time of day. *)
Definition valid_time (t : ptime) : Prop :=
  valid_date (p_date t) /\ 0 <= p_hours t < 24 /\ 0 <= p_minutes t < 60 /\ 0 <= p_seconds t < 60.

Local Open Scope R_scope.

(** Equal up to multiples of 24 hours. *)
Definition same_hour (a b : R) : Prop := exists k : Z, a = b + 24 * IZR k.

(** Sidereal hours for a Julian date and hours of universal time, before reduction. *)
Definition sidereal_formula (jd ut : R) : R :=
  let T := (jd - 2451545) / 36525 in
  6697374558 / 1000000000 + 2400051336 / 1000000 * T + 25862 / 1000000000 * T ^ 2 + 1002737909 / 1000000000 * ut.
Definition hours_of_day (t : ptime) : R := IZR (p_hours t) + IZR (p_minutes t) / 60 + IZR (p_seconds t) / 3600.
