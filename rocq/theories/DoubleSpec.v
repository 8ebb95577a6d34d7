(** * What decimal hours, unit conversions and printed coordinates should be, in terms of real numbers. *)
From Coq Require Import ZArith Reals.
From Flocq Require Import Core IEEE754.Binary.
From Verif Require Import TextModel TextSpec DoubleModel.
Local Open Scope R_scope.

(** The real number of a double; whether it is one. *)
Definition dval (x : double) : R := B2R 53 1024 x.
Definition dfinite (x : double) : Prop := is_finite 53 1024 x = true.
Definition dnegative (x : double) : bool := Bsign 53 1024 x.

(** The whole part fits a long int. *)
Definition fits_long (x : double) : Prop := dfinite x /\ - 2 ^ 63 - 1 < dval x < 2 ^ 63.

(** The time of day that three fields stand for. *)
Definition hours_of (h m : Z) (s : R) : R := IZR h + IZR m / 60 + s / 3600.

(** A number to six decimal places, ties to even. *)
Definition places6 (x : R) : R := IZR (ZnearestE (x * 1000000)) / 1000000.

(** Neither near overflow nor near underflow. *)
Definition moderate (x : double) : Prop := dfinite x /\ bpow radix2 (-500) <= Rabs (dval x) <= bpow radix2 500.

(** A unit of the stored kind or with a moderate factor. *)
Definition usable (u : unit_d) : Prop := match u_factor u with None => True | Some c => moderate c end.

(** The double nearest to a number of at most six significant digits, as one gets by writing that number in a program. *)
Definition six_digit (x : double) : Prop := exists m k, (Z.abs m < 10 ^ 6)%Z /\ dval x = nearest TextModel.binary64 (IZR m * bpow radix10 k).

(** A quantity that can be given: zero or moderate. *)
Definition givable (x : double) : Prop := (dfinite x /\ dval x = 0) \/ moderate x.

(** A symbol without a comma. *)
Definition plain_symbol (u : unit_d) : Prop := ~ In ","%char (u_symbol u).

(** What an object shows: for each component the text of its number and the symbol of its unit. *)
Definition shown (p : printable) : list (str * str) := map (fun q => (show_double (from_stored (fst q) (snd q)), u_symbol (fst q))) (pr_parts p).

(** As many components as its kind has, and unit symbols without commas. *)
Definition well_formed (p : printable) : Prop := length (pr_parts p) = arity (pr_kind p) /\ Forall (fun q => plain_symbol (fst q)) (pr_parts p).
