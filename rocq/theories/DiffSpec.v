(** What a differential stands for. *)

From Coq Require Import Reals.
From Verif Require Import CoordModel CoordSpec DiffModel.
Local Open Scope R_scope.

Definition dproper (d : differential) : Prop := 0 < d_u1 d /\ 0 < d_u2 d /\ 0 < d_u3 d.
Definition dproper_type (t : dtype) : Prop := 0 < dt_u1 t /\ 0 < dt_u2 t /\ 0 < dt_u3 t.

(** A direction given by azimuth and polar angle, times a length. *)
Definition polar (d azimuth angle : R) : vec :=
  V (d * (sin angle * cos azimuth)) (d * (sin angle * sin azimuth)) (d * cos angle).

(** The physical velocity, in base units.  The second component of the coslat
    kind includes a factor: the cosine of the first. *)
Definition velocity (d : differential) : vec :=
  let p := d_pt d in
  match d_kind d with
  | DCartesian => V (c0 p * d_u1 d) (c1 p * d_u2 d) (c2 p * d_u3 d)
  | DSpherical => polar (c2 p * d_u3 d) (c0 p) (c1 p)
  | DEquatorial =>
      V (c2 p * d_u3 d * (cos (c1 p) * cos (c0 p)))
        (c2 p * d_u3 d * (cos (c1 p) * sin (c0 p)))
        (c2 p * d_u3 d * sin (c1 p))
  | DCoslat => polar (c2 p * d_u3 d) (c0 p) (c1 p / cos (c0 p))
  end.
