(** Model of the differentials (velocities), include/boost/astronomy/
    coordinate/diff.  Same conventions as CoordModel.v: mathematical reals,
    units as positive factors, Boost.Geometry and Boost.Units by contract. *)

From Coq Require Import Reals Bool.
From Verif Require Import CoordModel.
Local Open Scope R_scope.

(** cartesian_differential, spherical_differential,
    spherical_equatorial_differential, spherical_coslat_differential. *)
Inductive dkind := DCartesian | DSpherical | DEquatorial | DCoslat.

(** The coordinate system of the [diff] member
    (cartesian 44-46, spherical 46-47, equatorial 46-47, coslat 48-49). *)
Definition dsystem (k : dkind) : system :=
  match k with
  | DCartesian => Cartesian
  | DSpherical | DCoslat => Spherical
  | DEquatorial => Equatorial
  end.

(** A differential object: kind, numbers of the [diff] member, units of its
    three quantity types (diff/base_differential.hpp:43). *)
Record differential := Diff {
  d_kind : dkind;
  d_pt : vec;
  d_u1 : R;
  d_u2 : R;
  d_u3 : R
}.

Record dtype := DType { dt_kind : dkind; dt_u1 : R; dt_u2 : R; dt_u3 : R }.
Definition dtype_of (d : differential) : dtype := DType (d_kind d) (d_u1 d) (d_u2 d) (d_u3 d).
Definition of_dtype (t : dtype) (p : vec) : differential :=
  Diff (dt_kind t) p (dt_u1 t) (dt_u2 t) (dt_u3 t).

(** get_dx/get_dy/get_dz (cartesian_differential.hpp:137-158) and
    get_dlat/get_dlon/get_ddist (spherical_differential.hpp:157-186,
    spherical_coslat_differential.hpp:160-190). *)
Definition dget1 (d : differential) : R :=
  match d_kind d with DCartesian => c0 (d_pt d) | _ => convert 1 (d_u1 d) (c0 (d_pt d)) end.
Definition dget2 (d : differential) : R :=
  match d_kind d with DCartesian => c1 (d_pt d) | _ => convert 1 (d_u2 d) (c1 (d_pt d)) end.
Definition dget3 (d : differential) : R := c2 (d_pt d).

(** The setters (cartesian 160-183, spherical 188-225, coslat 193-230). *)
Definition dset_pt (d : differential) (p : vec) : differential :=
  Diff (d_kind d) p (d_u1 d) (d_u2 d) (d_u3 d).
Definition dset1 (d : differential) (x : R) : differential :=
  dset_pt d (V (match d_kind d with DCartesian => x | _ => convert (d_u1 d) 1 x end)
               (c1 (d_pt d)) (c2 (d_pt d))).
Definition dset2 (d : differential) (x : R) : differential :=
  dset_pt d (V (c0 (d_pt d))
               (match d_kind d with DCartesian => x | _ => convert (d_u2 d) 1 x end)
               (c2 (d_pt d))).
Definition dset3 (d : differential) (x : R) : differential :=
  dset_pt d (V (c0 (d_pt d)) (c1 (d_pt d)) x).
Definition dset123 (d : differential) (x y z : R) : differential := dset3 (dset2 (dset1 d x) y) z.

(** Constructor from three quantities (cartesian 63-66, spherical 69-77,
    coslat 72-80). *)
Definition dbuild (t : dtype) (x y z : R) : differential := dset123 (of_dtype t (V 0 0 0)) x y z.

(** Constructor from a Boost.Geometry point (cartesian 75-86; spherical 86-99,
    coslat 89-102: through cartesian, hence normalised; second coordinate of
    the fresh member is [old]). *)
Definition dfrom_point (t : dtype) (old : R) (s : system) (p : vec) : differential :=
  of_dtype t (from_cartesian (dsystem (dt_kind t)) old (to_cartesian s p)).

(** make_cartesian_differential(differential): cartesian 357-375 copy,
    416-435 other kinds; the overload of spherical_coslat_differential.hpp:
    465-508 divides the second coordinate by the cosine of the first. *)
Definition make_cartesian_diff (d : differential) : differential :=
  match d_kind d with
  | DCartesian => d
  | DCoslat =>
      let p := d_pt d in
      Diff DCartesian (to_cartesian Spherical (V (c0 p) (c1 p / cos (c0 p)) (c2 p)))
           (d_u3 d) (d_u3 d) (d_u3 d)
  | k => Diff DCartesian (to_cartesian (dsystem k) (d_pt d)) (d_u3 d) (d_u3 d) (d_u3 d)
  end.

(** make_spherical_differential / make_spherical_equatorial_differential of a
    differential (spherical 378-396 copy, 436-471 other kinds). *)
Definition make_angular_diff (k : dkind) (old : R) (d : differential) : differential :=
  match k, d_kind d with
  | DSpherical, DSpherical => d
  | DEquatorial, DEquatorial => d
  | _, _ =>
      let t := make_cartesian_diff d in
      let p := V (dget1 t) (convert (d_u2 t) (d_u1 t) (dget2 t))
                 (convert (d_u3 t) (d_u1 t) (dget3 t)) in
      dfrom_point (DType k 1 1 (d_u1 t)) old (dsystem k) (from_cartesian (dsystem k) 0 p)
  end.

(** make_spherical_coslat_differential of a differential (coslat 378-396
    copy; 437-462 other kinds: the second angle of the spherical form times
    the cosine of the first, then the constructor from a point). *)
Definition make_coslat_diff (old : R) (d : differential) : differential :=
  match d_kind d with
  | DCoslat => d
  | _ =>
      let t := make_angular_diff DSpherical old d in
      let t' := dset2 t (dget2 t * cos (convert (d_u1 t) 1 (dget1 t))) in
      dfrom_point (DType DCoslat 1 1 (d_u3 t)) old Spherical (d_pt t')
  end.

(** The made differential of a kind. *)
Definition make_diff (k : dkind) (old : R) (d : differential) : differential :=
  match k with
  | DCartesian => make_cartesian_diff d
  | DCoslat => make_coslat_diff old d
  | _ => make_angular_diff k old d
  end.

(** Converting constructors (cartesian 104-134, spherical 117-154, coslat
    120-157). *)
Definition dconstruct (t : dtype) (old : R) (d : differential) : differential :=
  let m := make_diff (dt_kind t) old d in
  match dt_kind t with
  | DCartesian =>
      of_dtype t (V (convert (d_u1 m) (dt_u1 t) (dget1 m))
                    (convert (d_u2 m) (dt_u2 t) (dget2 m))
                    (convert (d_u3 m) (dt_u3 t) (dget3 m)))
  | _ =>
      of_dtype t (V (convert (d_u1 m) 1 (dget1 m))
                    (convert (d_u2 m) 1 (dget2 m))
                    (convert (d_u3 m) (dt_u3 t) (dget3 m)))
  end.

(** operator+ of cartesian_differential, 186-228. *)
Definition dplus_cartesian (a b : differential) : differential :=
  let m := make_cartesian_diff b in
  dfrom_point (dtype_of a) 0 Cartesian
    (V (dget1 a + convert (d_u1 m) (d_u1 a) (dget1 m))
       (dget2 a + convert (d_u2 m) (d_u2 a) (dget2 m))
       (dget3 a + convert (d_u3 m) (d_u3 a) (dget3 m))).

(** operator+ of the other kinds (spherical 228-256, coslat 233-261): the
    numbers of the left operand are made cartesian as plain spherical
    coordinates, for the coslat kind too. *)
Definition dplus (old : R) (a b : differential) : differential :=
  match d_kind a with
  | DCartesian => dplus_cartesian a b
  | k =>
      let m := dfrom_point (DType DCartesian (d_u3 a) (d_u3 a) (d_u3 a)) 0 (dsystem k) (d_pt a) in
      dconstruct (dtype_of a) old (make_diff k old (dplus_cartesian m (make_cartesian_diff b)))
  end.

(** operator* by a quantity [dt] (value and unit): cartesian 231-267 multiplies
    the three components; spherical 259-288 and coslat 264-293 rebuild the
    differential from its own point and multiply the third. *)
Definition dtimes (old : R) (d : differential) (dt : quantity) : differential :=
  match d_kind d with
  | DCartesian =>
      dbuild (DType DCartesian (d_u1 d * q_unit dt) (d_u2 d * q_unit dt) (d_u3 d * q_unit dt))
             (dget1 d * q_value dt) (dget2 d * q_value dt) (dget3 d * q_value dt)
  | k =>
      let temp := dfrom_point (dtype_of d) old (dsystem k) (d_pt d) in
      dbuild (DType k (d_u1 d) (d_u2 d) (d_u3 d * q_unit dt))
             (dget1 temp) (dget2 temp) (dget3 temp * q_value dt)
  end.

(** base_differential::magnitude, diff/base_differential.hpp:77-100 (all kinds
    have three dimensions): a plain number. *)
Definition dmagnitude (d : differential) : R :=
  length_of (to_cartesian (dsystem (d_kind d)) (d_pt d)).

(** base_differential::unit_vector, diff/base_differential.hpp:50-75. *)
Definition dunit_vector (t : dtype) (old : R) (d : differential) : differential :=
  let p := to_cartesian (dsystem (d_kind d)) (d_pt d) in
  let m := dmagnitude d in
  dfrom_point t old Cartesian (V (c0 p / m) (c1 p / m) (c2 p / m)).

(** base_differential::to_differential, diff/base_differential.hpp:102-113. *)
Definition to_differential (t : dtype) (old : R) (d : differential) : differential :=
  dfrom_point t old (dsystem (d_kind d)) (d_pt d).

(** base_differential::operator==, diff/base_differential.hpp:127-161. *)
Definition diff_eq (a b : differential) : bool :=
  let p := to_cartesian (dsystem (d_kind a)) (d_pt a) in
  let q := to_cartesian (dsystem (d_kind b)) (d_pt b) in
  (if Req_EM_T (c0 p) (c0 q) then true else false) &&
  (if Req_EM_T (c1 p) (c1 q) then true else false) &&
  (if Req_EM_T (c2 p) (c2 q) then true else false).
