(** * What the arithmetic of Cartesian vectors in doubles should be, in terms of real numbers. *)
From Coq Require Import ZArith Reals.
From Flocq Require Import Core IEEE754.Binary.
From Verif Require Import TextModel TextSpec DoubleModel DoubleSpec VectorModel.
Local Open Scope R_scope.

(** A statement about each of the three components. *)
Definition each (P : (dvec -> double) -> Prop) : Prop := P dx /\ P dy /\ P dz.

(** The double nearest to a real number. *)
Definition nearest_double (r : R) : R := nearest TextModel.binary64 r.

(** The largest double, and what rounds to it or less. *)
Definition no_overflow (r : R) : Prop := Rabs (nearest_double r) < bpow radix2 1024.

(** All components are numbers. *)
Definition vfinite (a : dvec) : Prop := each (fun c => dfinite (c a)).

(** Numbers whose products do not overflow. *)
Definition vbounded (a : dvec) : Prop := each (fun c => dfinite (c a) /\ Rabs (dval (c a)) <= bpow radix2 500).

(** Zero, or of a size whose squares are far from overflow and underflow, also after a change of units. *)
Definition in_range (x : double) : Prop := dfinite x /\ (dval x = 0 \/ bpow radix2 (-250) <= Rabs (dval x) <= bpow radix2 250).
Definition vrange (a : dvec) : Prop := each (fun c => in_range (c a)).

(** A change of units, and the real number it stands for. *)
Definition factor_ok (c : double) : Prop := dfinite c /\ bpow radix2 (-250) <= dval c <= bpow radix2 250.
Definition cast_ok (f : option double) : Prop := match f with Some c => factor_ok c | None => True end.
Definition ratio (f : option double) : R := match f with Some c => dval c | None => 1 end.

(** The real numbers of a vector, and those with y and z in the unit of x. *)
Record rvec : Type := RV { rx : R; ry : R; rz : R }.
Definition vval (a : dvec) : rvec := RV (dval (dx a)) (dval (dy a)) (dval (dz a)).
Definition in_x (gy gz : option double) (a : dvec) : rvec := RV (dval (dx a)) (dval (dy a) * ratio gy) (dval (dz a) * ratio gz).

(** Euclidean geometry. *)
Definition rdot (p q : rvec) : R := rx p * rx q + ry p * ry q + rz p * rz q.
Definition rdot_size (p q : rvec) : R := Rabs (rx p * rx q) + Rabs (ry p * ry q) + Rabs (rz p * rz q).
Definition rlength (p : rvec) : R := sqrt (rx p * rx p + ry p * ry p + rz p * rz p).
Definition rnull (p : rvec) : Prop := rx p = 0 /\ ry p = 0 /\ rz p = 0.

(** Exactly parallel. *)
Definition parallel (p q : rvec) : Prop := ry p * rz q = rz p * ry q /\ rz p * rx q = rx p * rz q /\ rx p * ry q = ry p * rx q.

(** The same numbers (+0 and -0 are), and opposite ones. *)
Definition vsame (a b : dvec) : Prop := vfinite a /\ vfinite b /\ each (fun c => dval (c a) = dval (c b)).
Definition opposite (a b : dvec) : Prop := vfinite a /\ vfinite b /\ each (fun c => dval (c a) = - dval (c b)).
