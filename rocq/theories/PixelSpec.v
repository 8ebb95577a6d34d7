(** * What the statistics of the pixels should be. *)
From Coq Require Import ZArith Reals List Permutation.
From Flocq Require Import Core IEEE754.Binary.
From Verif Require Import ConvSpec ImageModel TextModel TextSpec DoubleModel DoubleSpec.
Import ListNotations.
Local Open Scope R_scope.

(** The number in a pixel. *)
Definition pixel_value (b : bitpix) (w : N) : R :=
  match b with
  | B8 => IZR (signed_of 1 w)
  | B16 => IZR (signed_of 2 w)
  | B32 => IZR (signed_of 4 w)
  | F32 => fval TextModel.binary32 w
  | F64 => fval TextModel.binary64 w
  end.

(** What a pixel is: a number, an infinity or not a number (blank). Integers are always numbers. *)
Definition pixel_number (b : bitpix) (w : N) : Prop :=
  match b with F32 => finite TextModel.binary32 w | F64 => finite TextModel.binary64 w | _ => True end.
Definition pixel_infinite (b : bitpix) (neg : bool) (w : N) : Prop :=
  match b with F32 => float_of TextModel.binary32 w = F754_infinity neg | F64 => float_of TextModel.binary64 w = F754_infinity neg | _ => False end.
Definition pixel_blank (b : bitpix) (w : N) : Prop :=
  match b with F32 => exists s p, float_of TextModel.binary32 w = F754_nan s p | F64 => exists s p, float_of TextModel.binary64 w = F754_nan s p | _ => False end.

(** The patterns a pixel can have. *)
Definition pixel_pattern (b : bitpix) (w : N) : Prop := (w < 256 ^ element_size b)%N.
Definition proper (b : bitpix) (im : image) : Prop := Forall (pixel_pattern b) (pixels im).

(** Integer pixels. *)
Definition integral (b : bitpix) : Prop := b = B8 \/ b = B16 \/ b = B32.

(** Numbers for which nothing overflows or underflows; all numbers in pixels that are not doubles are such (C103_ordinary). *)
Definition ordinary (b : bitpix) (w : N) : Prop :=
  pixel_number b w /\ (pixel_value b w = 0 \/ bpow radix2 (-280) <= Rabs (pixel_value b w) <= bpow radix2 400).

(** One rounding to double: 2^-53. *)
Definition eps : R := bpow radix2 (-53).

(** The values of the pixels; sums, mean and variance (with n - 1). *)
Definition values (b : bitpix) (im : image) : list R := map (pixel_value b) (pixels im).
Definition total (l : list R) : R := fold_right Rplus 0 l.
Definition total_size (l : list R) : R := total (map Rabs l).
Definition true_mean (l : list R) : R := total l / INR (length l).
Definition squares_about (a : R) (l : list R) : R := total (map (fun x => (x - a) * (x - a)) l).
Definition true_variance (l : list R) : R := squares_about (true_mean l) l / INR (length l - 1).

(** The order of pixels that are not blank. *)
Definition pixel_le (b : bitpix) (v w : N) : Prop :=
  pixel_infinite b true v \/ pixel_infinite b false w \/ (pixel_number b v /\ pixel_number b w /\ pixel_value b v <= pixel_value b w).

(** A middle one of the pixels [l]: half of the others (rounded down to the position size / 2) are not larger, the rest not
    smaller. *)
Definition middle (b : bitpix) (l : list N) (v : N) : Prop := exists lows highs,
  Permutation l (lows ++ v :: highs) /\ length lows = (length l / 2)%nat /\ Forall (fun w => pixel_le b w v) lows /\ Forall (pixel_le b v) highs.

(** How many pixels; counts below 2^53 are exact doubles. *)
Notation size im := (length (pixels im)).
Definition countable (im : image) : Prop := (Z.of_nat (size im) < 2 ^ 53)%Z.
