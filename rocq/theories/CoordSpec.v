(** Specification vocabulary for the coordinate properties: the physical
    vector a representation stands for, and vector algebra, independent of
    the code. *)

From Coq Require Import Reals.
From Verif Require Import CoordModel.
Local Open Scope R_scope.

(** Unit factors are positive. *)
Definition proper (r : rep) : Prop := 0 < r_u1 r /\ 0 < r_u2 r /\ 0 < r_u3 r.
Definition proper_type (t : rtype) : Prop := 0 < t_u1 t /\ 0 < t_u2 t /\ 0 < t_u3 t.

(** The physical vector, in base units.  Spherical: azimuth in the first
    component, polar angle in the second.  Equatorial: azimuth, elevation. *)
Definition position (r : rep) : vec :=
  match r_sys r with
  | Cartesian => V (c0 (r_pt r) * r_u1 r) (c1 (r_pt r) * r_u2 r) (c2 (r_pt r) * r_u3 r)
  | Spherical =>
      let d := c2 (r_pt r) * r_u3 r in
      V (d * (sin (c1 (r_pt r)) * cos (c0 (r_pt r))))
        (d * (sin (c1 (r_pt r)) * sin (c0 (r_pt r))))
        (d * cos (c1 (r_pt r)))
  | Equatorial =>
      let d := c2 (r_pt r) * r_u3 r in
      V (d * (cos (c1 (r_pt r)) * cos (c0 (r_pt r))))
        (d * (cos (c1 (r_pt r)) * sin (c0 (r_pt r))))
        (d * sin (c1 (r_pt r)))
  end.

Definition physical (q : quantity) : R := q_value q * q_unit q.

(** Vector algebra. *)
Definition vzero := V 0 0 0.
Definition vadd (a b : vec) := V (c0 a + c0 b) (c1 a + c1 b) (c2 a + c2 b).
Definition vscale (k : R) (a : vec) := V (k * c0 a) (k * c1 a) (k * c2 a).
Definition vdot (a b : vec) : R := c0 a * c0 b + c1 a * c1 b + c2 a * c2 b.
Definition vcross (a b : vec) : vec :=
  V (c1 a * c2 b - c2 a * c1 b) (c2 a * c0 b - c0 a * c2 b) (c0 a * c1 b - c1 a * c0 b).
Definition vnorm (a : vec) : R := sqrt (vdot a a).

(** Principal ranges of the stored coordinates of an angular kind. *)
Definition principal (s : system) (p : vec) : Prop :=
  match s with
  | Cartesian => True
  | Spherical => 0 <= c2 p /\ - PI < c0 p <= PI /\ 0 <= c1 p <= PI
  | Equatorial => 0 <= c2 p /\ - PI < c0 p <= PI /\ - (PI / 2) <= c1 p <= PI / 2
  end.

(** Away from the poles and the origin, where the angles are determined by
    the point. *)
Definition regular (s : system) (p : vec) : Prop :=
  match s with
  | Cartesian => True
  | Spherical => 0 < c2 p /\ - PI < c0 p <= PI /\ 0 < c1 p < PI
  | Equatorial => 0 < c2 p /\ - PI < c0 p <= PI /\ - (PI / 2) < c1 p < PI / 2
  end.
