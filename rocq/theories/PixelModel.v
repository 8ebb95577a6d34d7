(** * Model of the pixel statistics of include/boost/astronomy/io/image.hpp, on the bit patterns of the pixels.

    [ImageModel] and [StatModel] describe them over integers and real numbers; here sums are those of the code, in
    double, and float pixels can be infinities and NaNs (the blank pixels of FITS). *)
From Coq Require Import ZArith NArith List.
From Flocq Require Import IEEE754.BinarySingleNaN IEEE754.Binary IEEE754.Bits.
From Verif Require Export ImageModel TextModel DoubleModel VectorModel.
Import ListNotations.

(** The value of a two's complement pattern of [k] bytes. *)
Definition signed_word (k : nat) (w : N) : Z :=
  if (Z.of_N w <? 2 ^ (8 * Z.of_nat k - 1))%Z then Z.of_N w else (Z.of_N w - 2 ^ (8 * Z.of_nat k))%Z.

(** float to double: exact. *)
Definition double_of_float (w : N) : double :=
  match decode TextModel.binary32 w with
  | FFin neg q e => binary_normalize 53 1024 eq_refl eq_refl mode_NE (if neg then - q else q)%Z e neg
  | FInf neg => B754_infinity 53 1024 neg
  | FNan _ => proj1_sig default_nan_pl64
  end.

(** A pixel in an expression with doubles (bitpix.hpp:62-85 for the types). *)
Definition pixel_double (b : bitpix) (w : N) : double :=
  match b with
  | B8 => d_of_Z (signed_word 1 w)
  | B16 => d_of_Z (signed_word 2 w)
  | B32 => d_of_Z (signed_word 4 w)
  | F32 => double_of_float w
  | F64 => b64_of_bits (Z.of_N w)
  end.

(** std::accumulate(.., 0.0) and valarray<double>::sum(), from the first pixel to the last. *)
Definition accumulate_d (l : list double) : double := fold_left d_add l (d_of_Z 0).

(** size_t to double. *)
Definition count_d (n : nat) : double := d_of_Z (Z.of_nat n).

(** mean, image.hpp:92-101. *)
Definition mean_doubles (l : list double) : double :=
  match l with [] => d_of_Z 0 | _ => d_div (accumulate_d l) (count_d (length l)) end.
Definition pixel_mean (b : bitpix) (im : image) : double := mean_doubles (map (pixel_double b) (pixels im)).

(** std_dev, image.hpp:123-140; the size is at least 1 where 1 is subtracted. *)
Definition std_dev_doubles (l : list double) : double :=
  match l with
  | [] => d_of_Z 0
  | _ => let avg := mean_doubles l in
         let diff := map (fun v => d_sub v avg) l in
         let diff := map (fun v => d_mul v v) diff in
         d_sqrt (d_div (accumulate_d diff) (count_d (length l - 1)))
  end.
Definition pixel_std_dev (b : bitpix) (im : image) : double := std_dev_doubles (map (pixel_double b) (pixels im)).

(** operator< of doubles: false if one is NaN. *)
Definition d_lt (x y : double) : bool := match b64_compare x y with Some Lt => true | _ => false end.

(** operator< of pixels. *)
Definition pixel_lt (b : bitpix) (v w : N) : bool :=
  match b with
  | B8 => (signed_word 1 v <? signed_word 1 w)%Z
  | B16 => (signed_word 2 v <? signed_word 2 w)%Z
  | B32 => (signed_word 4 v <? signed_word 4 w)%Z
  | F32 | F64 => d_lt (pixel_double b v) (pixel_double b w)
  end.

(** image.hpp:73-76, 82-85: valarray::max and min, which are std::max_element and std::min_element; undefined on an
    empty image. *)
Definition pixel_max (b : bitpix) (im : image) : outcome N :=
  match pixels im with [] => Undef | x :: r => Ret (fold_left (fun m v => if pixel_lt b m v then v else m) r x) end.
Definition pixel_min (b : bitpix) (im : image) : outcome N :=
  match pixels im with [] => Undef | x :: r => Ret (fold_left (fun m v => if pixel_lt b v m then v else m) r x) end.

(** image.hpp:109-116: what std::nth_element puts at position size / 2. It is undefined with NaNs (operator< is then not
    a strict weak order) and on an empty image. Which one of several equal pixels it puts there is not specified: this
    matters for +0 and -0 only. *)
Fixpoint pixel_insert (b : bitpix) (x : N) (l : list N) : list N :=
  match l with [] => [x] | y :: r => if pixel_lt b y x then y :: pixel_insert b x r else x :: l end.
Definition pixel_sort (b : bitpix) (l : list N) : list N := fold_right (pixel_insert b) [] l.
Definition pixel_median (b : bitpix) (im : image) : outcome N :=
  if existsb (fun w => is_nan 53 1024 (pixel_double b w)) (pixels im) then Undef
  else match nth_error (pixel_sort b (pixels im)) (length (pixels im) / 2) with Some v => Ret v | None => Undef end.
