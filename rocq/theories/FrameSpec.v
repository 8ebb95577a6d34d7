(** Specification vocabulary for frames. *)

From Coq Require Import Reals List.
From Verif Require Import CoordModel CoordSpec DiffModel DiffSpec FrameModel.
Import ListNotations.
Local Open Scope R_scope.

(** A frame of the library: spherical data, coslat motion, positive units. *)
Definition good_frame (f : frame) : Prop :=
  r_sys (f_data f) = Spherical /\ proper (f_data f) /\
  d_kind (f_motion f) = DCoslat /\ dproper (f_motion f).

(** Two frames of one C++ type. *)
Definition same_type (f g : frame) : Prop :=
  type_of (f_data f) = type_of (f_data g) /\ dtype_of (f_motion f) = dtype_of (f_motion g).

(** The direction given by azimuth and polar angle; by azimuth and
    elevation. *)
Definition direction (azimuth angle : R) : vec :=
  V (sin angle * cos azimuth) (sin angle * sin azimuth) (cos angle).
Definition sky_direction (azimuth elevation : R) : vec :=
  V (cos elevation * cos azimuth) (cos elevation * sin azimuth) (sin elevation).
(** The tangent vectors towards north and east at a point of the sky. *)
Definition north (azimuth elevation : R) : vec :=
  V (- (sin elevation * cos azimuth)) (- (sin elevation * sin azimuth)) (cos elevation).
Definition east (azimuth : R) : vec := V (- sin azimuth) (cos azimuth) 0.

(** The two angles of a frame in radians, from its accessors. *)
Definition first_radians (f : frame) : R := get_first f * r_u1 (f_data f).
Definition second_radians (f : frame) : R := get_second f * r_u2 (f_data f).

(** The components of a frame. *)
Inductive component := First | Second | Distance | PmFirst | PmSecond | Radial.

Definition read (c : component) (f : frame) : R :=
  match c with
  | First => get_first f
  | Second => get_second f
  | Distance => get_distance f
  | PmFirst => get_pm_first f
  | PmSecond => get_pm_second f
  | Radial => get_radial f
  end.

(** The calls that change a frame. *)
Inductive call :=
| CallFirst (x : R) | CallSecond (x : R) | CallDistance (x : R) | CallAll (x y z : R)
| CallPmFirst (x : R) | CallPmSecond (x : R) | CallRadial (x : R) | CallPmAll (x y z : R)
| CallDifferential (x y z : R) (* with a differential of the frame's type and these quantities *).

Definition perform (f : frame) (c : call) : frame :=
  match c with
  | CallFirst x => set_first f x
  | CallSecond x => set_second f x
  | CallDistance x => set_distance f x
  | CallAll x y z => set_all f x y z
  | CallPmFirst x => set_pm_first f x
  | CallPmSecond x => set_pm_second f x
  | CallRadial x => set_radial f x
  | CallPmAll x y z => set_pm_all f x y z
  | CallDifferential x y z => set_differential f (dbuild (dtype_of (f_motion f)) x y z)
  end.

(** What a call writes into a component, if anything. *)
Definition writes (c : call) (k : component) : option R :=
  match c, k with
  | CallFirst x, First => Some x
  | CallSecond x, Second => Some x
  | CallDistance x, Distance => Some x
  | CallAll x _ _, First => Some x
  | CallAll _ y _, Second => Some y
  | CallAll _ _ z, Distance => Some z
  | CallPmFirst x, PmFirst => Some x
  | CallPmSecond x, PmSecond => Some x
  | CallRadial x, Radial => Some x
  | CallPmAll x _ _, PmFirst => Some x
  | CallPmAll _ y _, PmSecond => Some y
  | CallPmAll _ _ z, Radial => Some z
  | CallDifferential x _ _, PmFirst => Some x
  | CallDifferential _ y _, PmSecond => Some y
  | CallDifferential _ _ z, Radial => Some z
  | _, _ => None
  end.

(** The value last written to a component by a history of calls, oldest
    first, over an initial value. *)
Fixpoint last_written (k : component) (initial : R) (h : list call) : R :=
  match h with
  | [] => initial
  | c :: t => last_written k (match writes c k with Some x => x | None => initial end) t
  end.

(** The same for the two-angle coordinates. *)
Inductive kcall := KFirst (x : R) | KSecond (x : R) | KBoth (x y : R).
Definition kperform (k : coord) (c : kcall) : coord :=
  match c with
  | KFirst x => kset1 k x
  | KSecond x => kset2 k x
  | KBoth x y => kset12 k x y
  end.
Fixpoint klast (second : bool) (initial : R) (h : list kcall) : R :=
  match h with
  | [] => initial
  | KFirst x :: t => klast second (if second then initial else x) t
  | KSecond x :: t => klast second (if second then x else initial) t
  | KBoth x y :: t => klast second (if second then y else x) t
  end.
