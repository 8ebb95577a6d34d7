(** * Where a star stands above a place at a time. *)
From Coq Require Import ZArith Reals Lia Lra.
From Flocq Require Import Core IEEE754.Binary IEEE754.Bits.
From Verif Require Import CppModel TimeModel TimeSpec UtilModel UtilSpec UtilProofs DoubleModel DoubleSpec VectorModel VectorSpec SkyModel SkySpec SkyProofs SkyLibrary StarModel StarSpec StarProofs StarDouble.
From Verif Require TimeFloat TimeProps SkyTransform.
Local Open Scope R_scope.

(** ** C127 *)

(** Azimuth and altitude solve the astronomical triangle, with the hour angle of the moment, poles included. *)
Theorem C127_place : forall l dir t phi ra dec, exists a, star_on_horizon l dir t phi (ra, dec) = Ret a /\
  (- PI < fst a <= PI /\ - (PI / 2) <= snd a <= PI / 2) /\ stands_at phi (turned l dir t - ra) dec a.
Proof. exact place. Qed.
Print Assumptions C127_place.

(** The way back gives the star. *)
Theorem C127_back : forall l dir t phi star a, sky_angles star -> star_on_horizon l dir t phi star = Ret a ->
  star_from_horizon l dir t phi a = Ret star.
Proof. exact back. Qed.
Print Assumptions C127_back.

(** At every time a star is between the altitudes of its two transits, *)
Theorem C127_altitudes : forall l dir t phi ra dec a, quarter phi -> quarter dec -> star_on_horizon l dir t phi (ra, dec) = Ret a ->
  Rabs (phi + dec) - PI / 2 <= snd a <= PI / 2 - Rabs (phi - dec).
Proof. intros l dir t phi ra dec a P D E. destruct (place_is _ _ _ _ _ _ _ E) as [[_ A] S]. exact (altitudes _ _ _ _ P D A S). Qed.
Print Assumptions C127_altitudes.

(** which it has when the sidereal time is its right ascension, or half a turn from it. *)
Theorem C127_transits : forall l dir t phi ra dec a k, quarter phi -> quarter dec -> star_on_horizon l dir t phi (ra, dec) = Ret a ->
  (turned l dir t = ra + 2 * PI * IZR k -> snd a = PI / 2 - Rabs (phi - dec)) /\
  (turned l dir t = ra + PI + 2 * PI * IZR k -> snd a = Rabs (phi + dec) - PI / 2).
Proof.
  intros l dir t phi ra dec a k P D E. destruct (place_is _ _ _ _ _ _ _ E) as [[_ A] S]. split; intros T.
  - apply (upper _ _ _ _ P D A S). replace (turned l dir t - ra) with (0 + 2 * PI * IZR k) by lra. rewrite (proj1 (whole_turns 0 k)). apply cos_0.
  - apply (lower _ _ _ _ P D A S). replace (turned l dir t - ra) with (PI + 2 * PI * IZR k) by lra. rewrite (proj1 (whole_turns PI k)). apply cos_PI.
Qed.
Print Assumptions C127_transits.

(** So some stars never set and some never rise, *)
Theorem C127_always : forall l dir t phi ra dec a, quarter phi -> quarter dec -> star_on_horizon l dir t phi (ra, dec) = Ret a ->
  (PI / 2 < Rabs (phi + dec) -> 0 < snd a) /\ (PI / 2 < Rabs (phi - dec) -> snd a < 0).
Proof. intros l dir t phi ra dec a P D E. destruct (C127_altitudes _ _ _ _ _ _ _ P D E). split; intros; lra. Qed.
Print Assumptions C127_always.

(** and the pole of the sky stands still, at the height of the latitude. *)
Theorem C127_pole : forall l dir t phi ra a, quarter phi -> star_on_horizon l dir t phi (ra, PI / 2) = Ret a -> snd a = phi.
Proof. exact pole_star. Qed.
Print Assumptions C127_pole.

(** In doubles, with the library's sidereal time in radians: every star but one at a pole of the sky is where it should be. *)
Theorem C127_double : forall L l dir t st phi ra dec, good_libm L ->
  valid_time t -> TimeFloat.double l -> (l = 0 \/ bpow radix2 (-900) <= Rabs l <= 360) ->
  dfinite st -> Rabs (dval st - TimeFloat.lst_hours_fp l dir t * (PI / 12)) <= bpow radix2 (-45) ->
  dfinite phi -> dfinite ra -> dfinite dec -> Rabs (sin (dval dec)) <= 1 - bpow radix2 (-49) ->
  let q := star_on_horizon_d L st phi (ra, dec) in
  let p := star_direction (dval phi) (turned l dir t - dval ra) (dval dec) in
  dfinite (fst q) /\
  (dfinite (snd q) -> within (bpow radix2 (-20)) (SkySpec.direction (dval (fst q)) (dval (snd q))) p) /\
  (Rabs (rz p) <= 1 - bpow radix2 (-20) -> dfinite (snd q)) /\
  (Rabs (rz p) <= 8 / 9 -> Rabs (sin (dval dec)) <= 9 / 10 -> within (bpow radix2 (-30)) (SkySpec.direction (dval (fst q)) (dval (snd q))) p).
Proof. exact star_double. Qed.
Print Assumptions C127_double.

(** 52 degrees north: a star at 45 degrees never sets, one at -45 degrees never rises. *)
Example C127_case : quarter (52 / 180 * PI) /\ quarter (PI / 4) /\ PI / 2 < Rabs (52 / 180 * PI + PI / 4) /\ PI / 2 < Rabs (52 / 180 * PI - - (PI / 4)) /\ sky_angles (2, PI / 4).
Proof.
  pose proof PI_RGT_0. pose proof PI2_3_2 as P. unfold PI2 in P. unfold quarter, sky_angles. cbn [fst snd]. rewrite !Rabs_pos_eq by lra. repeat split; lra.
Qed.

(** Every sidereal time has a double as near as is asked. *)
Example C127_double_case : forall dir, let t := mk_ptime (mk_date 2024 2 29) 23 59 59 0 in
  valid_time t /\ TimeFloat.double 271 /\ (271 = 0 \/ bpow radix2 (-900) <= Rabs 271 <= 360) /\
  exists st, dfinite st /\ Rabs (dval st - TimeFloat.lst_hours_fp 271 dir t * (PI / 12)) <= bpow radix2 (-45).
Proof.
  intros dir t. destruct TimeProps.C36_case as (V & D & B). split; [exact V|]. split; [exact D|]. split; [right; exact B|].
  destruct (TimeProps.C36_local_double 271 dir t V D (or_intror B)) as (R & _). set (x := TimeFloat.lst_hours_fp 271 dir t) in *.
  pose proof PI_4. pose proof PI_RGT_0. assert (X : Rabs (x * (PI / 12)) <= bpow radix2 3) by (change (bpow radix2 3) with 8; rewrite Rabs_pos_eq; nra).
  exists (of_R (x * (PI / 12))). destruct (of_R_ok (x * (PI / 12))) as [F E]; [eapply Rle_trans; [exact X|apply bpow_le; lia]|].
  split; [exact F|]. change (dval (of_R (x * (PI / 12)))) with (B2R 53 1024 (of_R (x * (PI / 12)))). rewrite E. eapply Rle_trans; [exact (TimeFloat.rnd_err 3 _ ltac:(lia) X)|]. apply bpow_le; lia.
Qed.
