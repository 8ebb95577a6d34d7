(** * What a sidereal clock shows. *)
From Coq Require Import String Ascii List ZArith NArith Reals.
From Verif Require Import CppModel CardModel TextSpec.
Import ListNotations.
Open Scope list_scope.
Local Open Scope R_scope.

(** The text says [h] hours, [m] minutes and [s] seconds, the seconds to six decimal places. *)
Definition clock_shows (text : str) (h m : Z) (s : R) : Prop :=
  exists sec neg n,
    text = lit "Hours: " ++ show_Z h ++ lit "h " ++ show_Z m ++ lit "m " ++ sec ++ lit "s " /\
    numeral sec neg n (-6) /\ s = signed neg (IZR (Z.of_N n) / 1000000).

(** The hour a clock stands for. *)
Definition reading (h m : Z) (s : R) : R := IZR h + IZR m / 60 + s / 3600.

(** A microsecond, in hours. *)
Definition microsecond : R := / 3600000000.
