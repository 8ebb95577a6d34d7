(** * Model of double arithmetic and of printing in time/ and coordinate/.

    include/boost/astronomy/time/parser.hpp
    include/boost/astronomy/coordinate/io/io.hpp
    include/boost/astronomy/coordinate/coord_sys/*_coord.hpp

    A double is Flocq's [binary64]; the operations round to nearest, ties to even (the default mode of C++).
    [CoordModel] and [TimeModel] describe the same members over the real numbers. *)
From Coq Require Import ZArith.
From Flocq Require Import IEEE754.BinarySingleNaN IEEE754.Binary IEEE754.Bits.
From Verif Require Export TextModel.
Local Open Scope Z_scope.

Definition double : Type := Bits.binary64.
Definition d_add (x y : double) : double := b64_plus mode_NE x y.
Definition d_sub (x y : double) : double := b64_minus mode_NE x y.
Definition d_mul (x y : double) : double := b64_mult mode_NE x y.
Definition d_div (x y : double) : double := b64_div mode_NE x y.

(** Conversion of a long int (or of an integer literal). *)
Definition d_of_Z (z : Z) : double := binary_normalize 53 1024 eq_refl eq_refl mode_NE z 0 false.

(** Conversion to long int: truncation; undefined behaviour for NaN, infinities and values that do not fit. *)
Definition d_to_long (x : double) : outcome Z :=
  if is_finite 53 1024 x && (- 2 ^ 63 <=? Btrunc 53 1024 x) && (Btrunc 53 1024 x <? 2 ^ 63)
  then Ret (Btrunc 53 1024 x) else Undef.

(** The bit pattern. *)
Definition d_bits (x : double) : N := Z.to_N (bits_of_b64 x).

(** ostream << x. *)
Definition show_double (x : double) : str := show_float TextModel.binary64 (d_bits x).

(** std::to_string(x): printf "%f". *)
Definition fixed_digits (q : Z) : str :=
  let r := show_N (Z.to_N (q mod 10 ^ 6)) in
  show_N (Z.to_N (q / 10 ^ 6)) ++ lit "." ++ repeat "0"%char (6 - length r) ++ r.
Definition show_fixed (x : double) : str :=
  match decode TextModel.binary64 (d_bits x) with
  | FNan neg => sign_text neg ++ lit "nan"
  | FInf neg => sign_text neg ++ lit "inf"
  | FFin neg q e => sign_text neg ++ fixed_digits (rne (num_of q e * 10 ^ 6) (den_of e))
  end.

(** ** time/parser.hpp *)

(** parser.hpp:16-25. *)
Record hms : Type := mk_hms {
  hms_dh : double; hms_time : double; hms_hours : Z; hms_minutes_rest : double;
  hms_minutes : Z; hms_seconds_rest : double; hms_seconds : double }.

(** parser.hpp:28-37. *)
Definition hms_of_double (d : double) : outcome hms :=
  let! h := d_to_long d in
  let mr := d_mul (d_sub d (d_of_Z h)) (d_of_Z 60) in
  let! m := d_to_long mr in
  let s := d_mul (d_sub mr (d_of_Z m)) (d_of_Z 60) in
  Ret (mk_hms d d h mr m s s).

(** parser.hpp:39-41. *)
Definition hms_of_three (h m s : double) : hms :=
  mk_hms (d_add (d_add h (d_div m (d_of_Z 60))) (d_div s (d_of_Z 3600))) (d_of_Z 0) 0 (d_of_Z 0) 0 (d_of_Z 0) (d_of_Z 0).

(** parser.hpp:60-64. *)
Definition print_hms (t : hms) : str :=
  lit "Hours: " ++ show_Z (hms_hours t) ++ lit "h " ++ show_Z (hms_minutes t) ++ lit "m " ++ show_fixed (hms_seconds t) ++ lit "s ".

(** ** Quantities *)

(** A quantity: the number and its unit, given by the symbol and the factor to the unit the library stores
    (radian for angles), which Boost.Units has as a double; [None] if it is that unit itself. *)
Record unit_d : Type := mk_unit { u_symbol : str; u_factor : option double }.

(** static_cast to the stored unit and back (Boost.Units: multiplication by the factor or by its inverse). *)
Definition to_stored (u : unit_d) (x : double) : double :=
  match u_factor u with Some c => d_mul x c | None => x end.
Definition from_stored (u : unit_d) (y : double) : double :=
  match u_factor u with Some c => d_mul y (d_div (d_of_Z 1) c) | None => y end.

(** Boost.Units: ostream << quantity. *)
Definition print_quantity (u : unit_d) (x : double) : str := show_double x ++ lit " " ++ u_symbol u.

(** ** Printing of coordinates *)

(** io.hpp:24-79, coord_sys/horizon_coord.hpp:170-177, galactic_coord.hpp:180-187, ecliptic_coord.hpp:181-188,
    equatorial_ra_coord.hpp:177-184, equatorial_ha_coord.hpp:179-186. *)
Inductive printed : Type :=
| PCartesian | PSpherical | PSphericalEquatorial | PHorizon | PGalactic | PEcliptic | PEquatorialRa | PEquatorialHa.

Definition label (k : printed) : str :=
  match k with
  | PCartesian => lit "Cartesian Representation ( "
  | PSphericalEquatorial => lit "Spherical Equatorial Representation ( "
  | PSpherical => lit "Spherical Representation ( "
  | PHorizon => lit "Horizon Coordinate (Altitude: "
  | PGalactic => lit "Galactic Coordinate (Galactic Latitude: "
  | PEcliptic => lit "Ecliptic Coordinate (Ecliptic Latitude: "
  | PEquatorialRa => lit "Equatorial Coordinate (Right Ascension: "
  | PEquatorialHa => lit "Equatorial Coordinate (Hour Angle: "
  end.
Definition separator (k : printed) : str :=
  match k with
  | PCartesian | PSpherical | PSphericalEquatorial => lit " , "
  | PHorizon => lit ", Azimuth: "
  | PGalactic => lit ", Galactic Longitude: "
  | PEcliptic => lit ", Ecliptic Longitude: "
  | PEquatorialRa | PEquatorialHa => lit ", Declination: "
  end.
Definition closing (k : printed) : str :=
  match k with PCartesian | PSpherical | PSphericalEquatorial => lit " )" | _ => lit ")" end.
(** The number of quantities of the type. *)
Definition arity (k : printed) : nat :=
  match k with PCartesian | PSpherical | PSphericalEquatorial => 3%nat | _ => 2%nat end.

(** An object: its kind and, for each component, the unit of the quantity and the stored number. The getters convert
    (Cartesian components are stored in the unit of the quantity). *)
Record printable : Type := mk_printable { pr_kind : printed; pr_parts : list (unit_d * double) }.

Fixpoint join (sep : str) (l : list str) : str :=
  match l with
  | [] => []
  | [a] => a
  | a :: r => a ++ sep ++ join sep r
  end.

Definition print_object (p : printable) : str :=
  label (pr_kind p) ++
  join (separator (pr_kind p)) (map (fun q => print_quantity (fst q) (from_stored (fst q) (snd q))) (pr_parts p)) ++
  closing (pr_kind p).

(** The constructors from quantities and the setters of all components (e.g. spherical_representation.hpp:86-94
    with 198-238, equatorial_ra_coord.hpp:74-81 with 109-140). *)
Definition make_printable (k : printed) (l : list (unit_d * double)) : printable :=
  mk_printable k (map (fun q => (fst q, to_stored (fst q) (snd q))) l).
