(** * What it means that a conversion moves the sky as a whole. *)
From Coq Require Import Reals.
From Verif Require Import CoordModel CoordSpec UtilModel UtilSpec.
Local Open Scope R_scope.

(** The point of the unit sphere two angles stand for: longitude, then latitude. *)
Definition on_sphere (a : R * R) : vec := V (cos (fst a) * cos (snd a)) (sin (fst a) * cos (snd a)) (sin (snd a)).

(** The angle between two positions. *)
Definition apart (a b : R * R) : R := acos (vdot (on_sphere a) (on_sphere b)).

(** The volume three positions span: positive if they follow one another counterclockwise seen from outside, negative if
    clockwise, null if they lie on a great circle. *)
Definition volume (a b c : vec) : R :=
  c0 a * (c1 b * c2 c - c2 b * c1 c) + c1 a * (c2 b * c0 c - c0 b * c2 c) + c2 a * (c0 b * c1 c - c1 b * c0 c).
Definition span (a b c : R * R) : R := volume (on_sphere a) (on_sphere b) (on_sphere c).

(** The conversions that depend on an angle: those between systems counted the same way round, and the one between systems
    counted opposite ways (hour angle and azimuth grow with time, right ascension is counted against that). *)
Inductive same_way (x : R) : mat -> Prop :=
  | Hour_horizon : same_way x (ha_dec_horizon x)
  | From_ecliptic : same_way x (ecliptic_to_ra_dec x)
  | To_ecliptic : same_way x (ra_dec_to_ecliptic x).
Inductive other_way (x : R) : mat -> Prop :=
  | Hour_ascension : other_way x (ha_dec_ra_dec x).
