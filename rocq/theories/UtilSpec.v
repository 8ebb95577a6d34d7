(** Specification vocabulary for the conversion matrices. *)

From Coq Require Import Reals.
From Verif Require Import CoordModel CoordSpec UtilModel.
Local Open Scope R_scope.

Definition identity : mat := M (V 1 0 0) (V 0 1 0) (V 0 0 1).
Definition transpose (m : mat) : mat :=
  M (V (c0 (row0 m)) (c0 (row1 m)) (c0 (row2 m)))
    (V (c1 (row0 m)) (c1 (row1 m)) (c1 (row2 m)))
    (V (c2 (row0 m)) (c2 (row1 m)) (c2 (row2 m))).
Definition mat_mul (a b : mat) : mat :=
  let t := transpose b in
  M (V (vdot (row0 a) (row0 t)) (vdot (row0 a) (row1 t)) (vdot (row0 a) (row2 t)))
    (V (vdot (row1 a) (row0 t)) (vdot (row1 a) (row1 t)) (vdot (row1 a) (row2 t)))
    (V (vdot (row2 a) (row0 t)) (vdot (row2 a) (row1 t)) (vdot (row2 a) (row2 t))).

Definition orthogonal (m : mat) : Prop := mat_mul (transpose m) m = identity.
Definition inverse (a b : mat) : Prop := mat_mul a b = identity /\ mat_mul b a = identity.

(** Angles of a direction in their principal ranges, poles excluded. *)
Definition sky_angles (a : R * R) : Prop :=
  - PI < fst a <= PI /\ - (PI / 2) < snd a < PI / 2.

(** Two angles that name the same direction of rotation. *)
Definition same_angle (a b : R) : Prop := cos a = cos b /\ sin a = sin b.
