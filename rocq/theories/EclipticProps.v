(** * Property theorems about the obliquity of the ecliptic in doubles (C113). *)
From Coq Require Import ZArith Reals Lia Lra.
From Flocq Require Import Core IEEE754.BinarySingleNaN IEEE754.Binary IEEE754.Bits.
From Verif Require Import TextModel TextSpec TextFloat DoubleModel DoubleSpec VectorModel VectorSpec SkyModel SkySpec SkyLibrary UtilModel EclipticModel EclipticSpec EclipticProofs.
Local Open Scope R_scope.

(** The obliquity of every date Boost has (1400 to 9999) is the value of the formula (C51) to 2^-51 radians. *)
Theorem C113_close f d : good_radians f -> TimeSpec.valid_date d ->
  dfinite (obliquity_d f d) /\ Rabs (dval (obliquity_d f d) - obliquity_of_ecliptic d) <= bpow radix2 (-51).
Proof. exact (obliquity_close f d). Qed.
Print Assumptions C113_close.

(** The doubles of two dates differ, the later one being smaller. *)
Theorem C113_falls f a b : good_radians f -> TimeSpec.valid_date a -> TimeSpec.valid_date b -> TimeModel.later a b = true ->
  dval (obliquity_d f a) < dval (obliquity_d f b).
Proof. exact (obliquity_falls f a b). Qed.
Print Assumptions C113_falls.

(** Where long double is double, the step from degrees to radians is as good as these theorems ask. *)
Theorem C113_plain : good_radians plain_radians.
Proof. exact plain_good. Qed.
Print Assumptions C113_plain.

(** Converting between ecliptic and equatorial coordinates of a date: the position is that of the true rotation. *)
Theorem C113_from_ecliptic L f d u v : good_libm L -> good_radians f -> TimeSpec.valid_date d -> dfinite u -> dfinite v ->
  let q := ecliptic_at_d L f d (u, v) in let p := true_from_ecliptic (obliquity_of_ecliptic d) (direction (dval u) (dval v)) in
  dfinite (fst q) /\
  (dfinite (snd q) -> Rabs (sin (dval (snd q)) - rz p) <= bpow radix2 (-47) /\ within (bpow radix2 (-21)) (direction (dval (fst q)) (dval (snd q))) p) /\
  (Rabs (rz p) <= 1 - bpow radix2 (-48) -> dfinite (snd q)) /\
  (Rabs (rz p) <= 8 / 9 -> within (bpow radix2 (-44)) (direction (dval (fst q)) (dval (snd q))) p).
Proof. intros GL GR D Fu Fv. apply (date_angles L f d _ _ u v GL GR D Fu Fv). left. split; reflexivity. Qed.
Print Assumptions C113_from_ecliptic.

Theorem C113_to_ecliptic L f d u v : good_libm L -> good_radians f -> TimeSpec.valid_date d -> dfinite u -> dfinite v ->
  let q := to_ecliptic_at_d L f d (u, v) in let p := true_to_ecliptic (obliquity_of_ecliptic d) (direction (dval u) (dval v)) in
  dfinite (fst q) /\
  (dfinite (snd q) -> Rabs (sin (dval (snd q)) - rz p) <= bpow radix2 (-47) /\ within (bpow radix2 (-21)) (direction (dval (fst q)) (dval (snd q))) p) /\
  (Rabs (rz p) <= 1 - bpow radix2 (-48) -> dfinite (snd q)) /\
  (Rabs (rz p) <= 8 / 9 -> within (bpow radix2 (-44)) (direction (dval (fst q)) (dval (snd q))) p).
Proof. intros GL GR D Fu Fv. apply (date_angles L f d _ _ u v GL GR D Fu Fv). right. split; reflexivity. Qed.
Print Assumptions C113_to_ecliptic.

(** The date of the library's test: 23.438055134 degrees. *)
Example C113_case : TimeSpec.valid_date (TimeModel.mk_date 2009 7 6) /\
  d_bits (obliquity_d plain_radians (TimeModel.mk_date 2009 7 6)) = 4601040792116405450%N /\
  (exists L, good_libm L) /\ good_radians plain_radians.
Proof.
  split; [vm_compute; repeat split; discriminate|]. split; [vm_compute; reflexivity|]. split; [|exact plain_good].
  exists best_libm. apply rounded_good, best_rounded.
Qed.
