(** * What is meant by the place of a star in the sky. *)
From Coq Require Import Reals.
From Verif Require Import CppModel TimeModel TimeSpec.
From Verif Require VectorSpec.
Local Open Scope R_scope.

(** Longitude counted eastward. *)
Definition eastward (dir : direction) (l : R) : R := match dir with WEST => - l | EAST => l end.

(** The angle the sphere has turned through at a place, in radians: fifteen degrees for each sidereal hour. *)
Definition turned (l : R) (dir : direction) (t : ptime) : R :=
  (sidereal_formula (julian_date t) (hours_of_day t) + eastward dir l / 15) * (PI / 12).

(** Azimuth and altitude [a] of a star of declination [dec] and hour angle [h], for the latitude [phi]: the three formulas of
    the astronomical triangle. The azimuth is counted from the north. *)
Definition stands_at (phi h dec : R) (a : R * R) : Prop :=
  sin (snd a) = sin phi * sin dec + cos phi * cos dec * cos h /\
  cos (snd a) * cos (fst a) = cos phi * sin dec - sin phi * cos dec * cos h /\
  cos (snd a) * sin (fst a) = - (cos dec * sin h).

(** A latitude or a declination. *)
Definition quarter (x : R) : Prop := - (PI / 2) <= x <= PI / 2.

(** The same place as a vector: to the north, to the east, and up. *)
Definition star_direction (phi h dec : R) : VectorSpec.rvec :=
  VectorSpec.RV (cos phi * sin dec - sin phi * cos dec * cos h) (- (cos dec * sin h)) (sin phi * sin dec + cos phi * cos dec * cos h).
