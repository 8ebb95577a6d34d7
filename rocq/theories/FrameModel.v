(** Model of the reference frames, the two-angle coordinate classes and
    sky_point (include/boost/astronomy/coordinate/ref_frame, coord_sys,
    sky_point.hpp).  Same conventions as CoordModel.v and DiffModel.v. *)

From Coq Require Import Reals.
From Verif Require Import CoordModel DiffModel.
Local Open Scope R_scope.

(** ** Frames *)

(** base_frame, ref_frame/base_frame.hpp:47-48.  All concrete frames require
    a spherical representation and a spherical_coslat differential
    (base_equatorial_frame.hpp:28-37, base_ecliptic_frame.hpp:30-39,
    galactic.hpp:22-31, supergalactic.hpp:21-30, alt_az.hpp:40-49). *)
Record frame := Frame { f_data : rep; f_motion : differential }.

(** Constructors from the three and the six quantities
    (base_equatorial_frame.hpp:68-92, base_ecliptic_frame.hpp:71-94,
    galactic.hpp:62-86, supergalactic.hpp:62-86, alt_az.hpp:91-112; icrs,
    cirs, geocentric, heliocentric forward to their base).  With three
    quantities the motion is left uninitialised: [m0]. *)
Definition frame3 (t : rtype) (m0 : differential) (a b c : R) : frame :=
  Frame (build t a b c) m0.
Definition frame6 (t : rtype) (k : dtype) (a b c x y z : R) : frame :=
  Frame (build t a b c) (dbuild k x y z).

(** Constructor from a representation and a differential of the frame's
    kinds (base_equatorial_frame.hpp:95-135, base_ecliptic_frame.hpp:97-137,
    galactic.hpp:91-131, alt_az.hpp:115-153): change of units. *)
Definition dchange_units (u1 u2 u3 : R) (d : differential) : differential :=
  dbuild (DType (d_kind d) u1 u2 u3)
         (convert (d_u1 d) u1 (dget1 d)) (convert (d_u2 d) u2 (dget2 d))
         (convert (d_u3 d) u3 (dget3 d)).
Definition frame_of (t : rtype) (k : dtype) (r : rep) (d : differential) : frame :=
  Frame (change_units (t_u1 t) (t_u2 t) (t_u3 t) r)
        (dchange_units (dt_u1 k) (dt_u2 k) (dt_u3 k) d).

(** get_dec/get_lat/get_b/get_sgb/get_alt, get_ra/get_lon/get_l/get_sgl/get_az,
    get_distance (base_equatorial_frame.hpp:138-153,
    base_ecliptic_frame.hpp:140-155, galactic.hpp:141-156,
    supergalactic.hpp:141-156, alt_az.hpp:168-183). *)
Definition get_first (f : frame) : R := get1 (f_data f).
Definition get_second (f : frame) : R := get2 (f_data f).
Definition get_distance (f : frame) : R := get3 (f_data f).

(** get_pm_dec/..., get_pm_ra_cosdec/..., get_radial_velocity
    (base_equatorial_frame.hpp:167-182, base_ecliptic_frame.hpp:169-184,
    galactic.hpp:170-185, alt_az.hpp:197-212). *)
Definition get_pm_first (f : frame) : R := dget1 (f_motion f).
Definition get_pm_second (f : frame) : R := dget2 (f_motion f).
Definition get_radial (f : frame) : R := dget3 (f_motion f).

(** The setters (base_equatorial_frame.hpp:196-253,
    base_ecliptic_frame.hpp:198-253, galactic.hpp:199-254,
    supergalactic.hpp, alt_az.hpp:226-280).  supergalactic::set_sgl is
    declared const and alt_az::set_az takes a distance: neither can be
    instantiated; the other classes' members are modelled. *)
Definition set_first (f : frame) (x : R) : frame := Frame (set1 (f_data f) x) (f_motion f).
Definition set_second (f : frame) (x : R) : frame := Frame (set2 (f_data f) x) (f_motion f).
Definition set_distance (f : frame) (x : R) : frame := Frame (set3 (f_data f) x) (f_motion f).
Definition set_all (f : frame) (x y z : R) : frame := Frame (set123 (f_data f) x y z) (f_motion f).
Definition set_pm_first (f : frame) (x : R) : frame := Frame (f_data f) (dset1 (f_motion f) x).
Definition set_pm_second (f : frame) (x : R) : frame := Frame (f_data f) (dset2 (f_motion f) x).
Definition set_radial (f : frame) (x : R) : frame := Frame (f_data f) (dset3 (f_motion f) x).
Definition set_pm_all (f : frame) (x y z : R) : frame :=
  Frame (f_data f) (dset123 (f_motion f) x y z).

(** set_differential, ref_frame/base_frame.hpp:82-85. *)
Definition set_differential (f : frame) (d : differential) : frame := Frame (f_data f) d.

(** get_proper_motion, ref_frame/base_frame.hpp:55-66: the stored numbers
    (radians) relabelled with the quantities' units. *)
Definition get_proper_motion (f : frame) : R * R :=
  (c0 (d_pt (f_motion f)), c1 (d_pt (f_motion f))).

(** base_frame::get_radial_velocity, ref_frame/base_frame.hpp:69-72. *)
Definition base_radial_velocity (f : frame) : R := c2 (d_pt (f_motion f)).

(** get_angular_separation, ref_frame/base_frame.hpp:106-112, in radians.
    Both operands have the same type, hence the same units. *)
Definition separation (f g : frame) : R :=
  let a := f_data f in
  let b := f_data g in
  acos (q_value (dot a b) / (q_value (magnitude a) * q_value (magnitude b))).

(** ** sky_point *)

(** sky_point::positional_angle, sky_point.hpp:114-136, in radians
    (make_spherical_representation of a spherical representation is a copy). *)
Definition positional_angle (f g : frame) : R :=
  let p1 := f_data f in
  let p2 := f_data g in
  let diff := get2 p2 - get2 p1 in
  let lat1 := convert (r_u1 p1) 1 (get1 p1) in
  let lat2 := convert (r_u1 p2) 1 (get1 p2) in
  let d := convert (r_u2 p2) 1 diff in
  let coslat := cos lat2 in
  let x := sin lat2 * cos lat1 - coslat * sin lat1 * cos d in
  let y := sin d * coslat in
  atan2 y x.

(** ** Frame parameters *)

(** base_ecliptic_frame: the equinox, 43, 256-265.  [T] is the time type. *)
Record ecliptic (T : Type) := Ecliptic { e_frame : frame; e_equinox : T }.
Arguments Ecliptic {T}.
Arguments e_frame {T}.
Arguments e_equinox {T}.
Definition get_equinox {T} (e : ecliptic T) : T := e_equinox e.
Definition set_equinox {T} (e : ecliptic T) (t : T) : ecliptic T := Ecliptic (e_frame e) t.
Definition on_ecliptic {T} (k : frame -> frame) (e : ecliptic T) : ecliptic T :=
  Ecliptic (k (e_frame e)) (e_equinox e).

(** alt_az: earth_location, pressure, temperature, obs_time,
    relative_humidity, coord_sys/alt_az.hpp:53-63. *)
Record alt_az (T : Type) := AltAz {
  a_frame : frame;
  a_location : rep;
  a_pressure : R;
  a_temperature : R;
  a_obs_time : T;
  a_humidity : R
}.
Arguments AltAz {T}.
Arguments a_frame {T}.
Arguments a_location {T}.
Arguments a_pressure {T}.
Arguments a_temperature {T}.
Arguments a_obs_time {T}.
Arguments a_humidity {T}.

(** Setters 283-304, 341-352, 361-364, 373-376, 385-388, 397-400. *)
Definition set_location {T} (a : alt_az T) (l : rep) : alt_az T :=
  AltAz (a_frame a) l (a_pressure a) (a_temperature a) (a_obs_time a) (a_humidity a).
Definition set_pressure {T} (a : alt_az T) (x : R) : alt_az T :=
  AltAz (a_frame a) (a_location a) x (a_temperature a) (a_obs_time a) (a_humidity a).
Definition set_temperature {T} (a : alt_az T) (x : R) : alt_az T :=
  AltAz (a_frame a) (a_location a) (a_pressure a) x (a_obs_time a) (a_humidity a).
Definition set_obs_time {T} (a : alt_az T) (t : T) : alt_az T :=
  AltAz (a_frame a) (a_location a) (a_pressure a) (a_temperature a) t (a_humidity a).
Definition set_humidity {T} (a : alt_az T) (x : R) : alt_az T :=
  AltAz (a_frame a) (a_location a) (a_pressure a) (a_temperature a) (a_obs_time a) x.
Definition set_frame_parameters {T} (a : alt_az T) (l : rep) (p t : R) (o : T) (h : R) : alt_az T :=
  AltAz (a_frame a) l p t o h.
Definition on_alt_az {T} (k : frame -> frame) (a : alt_az T) : alt_az T :=
  AltAz (k (a_frame a)) (a_location a) (a_pressure a) (a_temperature a) (a_obs_time a)
        (a_humidity a).

(** get_frame_parameters, 307-330. *)
Definition get_frame_parameters {T} (a : alt_az T) : rep * R * R * T * R :=
  (a_location a, a_pressure a, a_temperature a, a_obs_time a, a_humidity a).

(** Copy constructor, 156-165: member by member through the getters. *)
Definition copy_alt_az {T} (o : alt_az T) : alt_az T :=
  AltAz (Frame (f_data (a_frame o)) (f_motion (a_frame o)))
        (a_location o) (a_pressure o) (a_temperature o) (a_obs_time o) (a_humidity o).

(** ** Two-angle coordinates *)

(** horizon_coord, equatorial_ra_coord, equatorial_ha_coord, galactic_coord,
    ecliptic_coord (coord_sys/coord_sys.hpp:44): two numbers in radians and
    the units of the two quantity types. *)
Record coord := Coord { k_0 : R; k_1 : R; k_u1 : R; k_u2 : R }.

(** Getters and setters (horizon_coord.hpp:78-131,
    equatorial_ra_coord.hpp:90-138, equatorial_ha_coord.hpp:86-134,
    galactic_coord.hpp:93-141, ecliptic_coord.hpp:94-142). *)
Definition kget1 (k : coord) : R := convert 1 (k_u1 k) (k_0 k).
Definition kget2 (k : coord) : R := convert 1 (k_u2 k) (k_1 k).
Definition kset1 (k : coord) (x : R) : coord := Coord (convert (k_u1 k) 1 x) (k_1 k) (k_u1 k) (k_u2 k).
Definition kset2 (k : coord) (x : R) : coord := Coord (k_0 k) (convert (k_u2 k) 1 x) (k_u1 k) (k_u2 k).
Definition kset12 (k : coord) (x y : R) : coord := kset2 (kset1 k x) y.

(** Constructor and make_*_coord (horizon_coord.hpp:67-74, 136-159; the same
    in the others; make_equatorial_ha_coord declares its result with the two
    quantity types exchanged and only compiles when they are equal). *)
Definition kbuild (u1 u2 x y : R) : coord := kset12 (Coord 0 0 u1 u2) x y.
