(** * time/: Julian date, sidereal times, decimal hours. *)
From Coq Require Import ZArith Reals.
From Verif Require Import CppModel.
Local Open Scope Z_scope.

(** boost::gregorian::date: year 1400 - 9999, proleptic Gregorian calendar (the constructor
    of Boost rejects anything else, see [valid_date] in TimeSpec.v). *)
Record date : Type := mk_date { d_year : Z; d_month : Z; d_day : Z }.

(** boost::posix_time::ptime, with the fraction of a second in ticks. *)
Record ptime : Type := mk_ptime { p_date : date; p_hours : Z; p_minutes : Z; p_seconds : Z; p_ticks : Z }.

(** date::operator>. *)
Definition later (a b : date) : bool :=
  (d_year b <? d_year a) ||
  ((d_year a =? d_year b) && ((d_month b <? d_month a) || ((d_month a =? d_month b) && (d_day b <? d_day a)))).

(** time_conversions.hpp:46-55: yprime and mprime. *)
Definition shifted (dt : date) : Z * Z :=
  if (d_month dt =? 1) || (d_month dt =? 2) then (d_year dt - 1, d_month dt + 12) else (d_year dt, d_month dt).

(** time_conversions.hpp:57-68. *)
Definition jd_B (dt : date) : Z :=
  let (y, _) := shifted dt in
  if later dt (mk_date 1582 10 1) then let A := y / 100 in 2 - A + A / 4 else 0.

(** time_conversions.hpp:70-79; 365.25 y is 1461 y / 4. *)
Definition jd_C (dt : date) : Z :=
  let (y, _) := shifted dt in
  if y <? 0 then (1461 * y - 3) / 4 else (1461 * y) / 4.

(** time_conversions.hpp:81-83. *)
Definition jd_D (dt : date) : Z := let (_, m) := shifted dt in (306001 * (m + 1)) / 10000.

(** time_conversions.hpp:33-90: the integer part of the result, which is this plus 1/2 (line 87 adds
    1720994.5). All other quantities are whole numbers. Simplified: exact arithmetic (the double
    computation is treated in TimeFloat.v). *)
Definition julian_day (t : ptime) : Z :=
  let dt := p_date t in jd_B dt + jd_C dt + jd_D dt + d_day dt + 1720994.

Local Open Scope R_scope.

Definition julian_date (t : ptime) : R := IZR (julian_day t) + 5 / 10.

(** std::floor and the conversion of a double to long (towards zero). *)
Definition floorR (x : R) : Z := Int_part x.
Definition truncR (x : R) : Z := if Rle_dec 0 x then Int_part x else (- Int_part (- x))%Z.

(** parser.hpp:16-25. *)
Record decimal_hour : Type := mk_hour { dh : R; dh_hours : Z; dh_minutes : Z; dh_seconds : R }.

(** Conversion to long: undefined if the whole part does not fit. *)
Definition to_long (x : R) : outcome Z :=
  if Rlt_dec (- IZR (2 ^ 63) - 1) x then if Rlt_dec x (IZR (2 ^ 63)) then Ret (truncR x) else Undef else Undef.

(** parser.hpp:28-37. *)
Definition hour_of (d : R) : outcome decimal_hour :=
  let! h := to_long d in
  let mr := (d - IZR h) * 60 in
  let! m := to_long mr in
  Ret (mk_hour d h m ((mr - IZR m) * 60)).

(** parser.hpp:39-41. *)
Definition hour_of_hms (h m s : R) : decimal_hour := mk_hour (h + m / 60 + s / (60 * 60)) 0 0 0.

(** time_conversions.hpp:104, 115, 150. *)
Definition reduce24 (x : R) : R := x - 24 * IZR (floorR (x / 24)).

(** time_conversions.hpp:94-101. *)
Definition gst0 (jd : R) : R :=
  let T := (jd - 2451545) / 36525 in
  6697374558 / 1000000000 + 2400051336 / 1000000 * T + 25862 / 1000000000 * T * T.

(** time_conversions.hpp:107. *)
Definition ut_hours (t : ptime) : R := (IZR (p_seconds t) / 60 + IZR (p_minutes t)) / 60 + IZR (p_hours t).

(** time_conversions.hpp:92-119. *)
Definition gst_hours (t : ptime) : R :=
  reduce24 (reduce24 (gst0 (julian_date t)) + ut_hours t * (1002737909 / 1000000000)).
Definition GST (t : ptime) : outcome decimal_hour := hour_of (gst_hours t).

(** time_conversions.hpp:121. *)
Inductive direction : Type := WEST | EAST.

(** time_conversions.hpp:124-153. *)
Definition LST (longitude : R) (dir : direction) (t : ptime) : outcome decimal_hour :=
  let! g := GST t in
  let gst := dh g in
  if Req_EM_T longitude 0 then hour_of gst
  else
    let long_hours := longitude / 15 in
    let long_hours := match dir with WEST => -1 * long_hours | EAST => 1 * long_hours end in
    hour_of (reduce24 (long_hours + gst)).
