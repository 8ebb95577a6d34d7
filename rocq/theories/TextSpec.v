(** * What the text of a floating point value should be, in terms of real numbers. *)
From Coq Require Import ZArith Reals.
From Flocq Require Import Core IEEE754.Binary IEEE754.Bits.
From Verif Require Import TextModel.
Local Open Scope R_scope.

(** The two formats of the library. *)
Definition standard (f : ffmt) : Prop := f = TextModel.binary32 \/ f = TextModel.binary64.

(** The IEEE 754 number of a bit pattern, as Flocq defines it. *)
Definition float_of (f : ffmt) (w : N) : full_float := binary_float_of_bits_aux (f_man f) (f_exp f) (Z.of_N w).
Definition pattern (f : ffmt) (w : N) : Prop := (Z.of_N w < 2 * 2 ^ (f_man f + f_exp f))%Z.
Definition finite (f : ffmt) (w : N) : Prop := is_finite_FF (float_of f w) = true.
Definition negative (f : ffmt) (w : N) : bool := sign_FF (float_of f w).
Definition fval (f : ffmt) (w : N) : R := FF2R radix2 (float_of f w).

(** The nearest number with six significant decimal digits, and the nearest number of the format (ties to even). *)
Definition decimal6 (x : R) : R := round radix10 (FLX_exp 6) ZnearestE x.
Definition nearest (f : ffmt) (x : R) : R := round radix2 (FLT_exp (f_emin f) (f_man f + 1)) ZnearestE x.

(** The first number beyond the format, the smallest normal number, the smallest positive number. *)
Definition beyond (f : ffmt) : R := bpow radix2 (2 ^ (f_exp f - 1)).
Definition min_normal (f : ffmt) : R := bpow radix2 (f_emin f + f_man f).
Definition tiny (f : ffmt) : R := bpow radix2 (f_emin f).

Definition signed (neg : bool) (x : R) : R := if neg then - x else x.

(** A numeral: sign, digits, optional point and digits, optional exponent; it denotes m * 10^k. *)
Definition a_sign (s : str) (neg : bool) : Prop := (s = [] /\ neg = false) \/ (s = lit "+" /\ neg = false) \/ (s = lit "-" /\ neg = true).
Inductive numeral : str -> bool -> N -> Z -> Prop :=
  Numeral sg neg ip dot fp e k m :
    a_sign sg neg ->
    (forall c, In c (ip ++ fp) -> exists d, (d < 10)%N /\ c = digit_char d) ->
    (dot = [] /\ fp = [] \/ dot = lit ".") ->
    parse_digits (ip ++ fp) = Some m ->
    (e = [] /\ k = 0%Z \/
     exists c sg2 neg2 ed x, (c = "e"%char \/ c = "E"%char) /\ a_sign sg2 neg2 /\ e = c :: sg2 ++ ed /\
       parse_digits ed = Some x /\ k = (if neg2 then - Z.of_N x else Z.of_N x)%Z) ->
    numeral (sg ++ ip ++ dot ++ fp ++ e) neg m (k - Z.of_nat (length fp)).

(** The texts of infinity and NaN: an optional sign and "inf", "infinity", "nan" or "nan(..)" in any case. *)
Definition text_inf (s : str) (neg : bool) : Prop :=
  exists sg r, s = sg ++ r /\ a_sign sg neg /\ (lowers r = lit "inf" \/ lowers r = lit "infinity").
Definition text_nan (s : str) (neg : bool) : Prop :=
  exists sg r x, s = sg ++ r ++ x /\ a_sign sg neg /\ lowers r = lit "nan" /\ (x = [] \/ exists t, x = lit "(" ++ t ++ lit ")").

(** The quiet NaN with no other payload bit. *)
Definition quiet_nan (f : ffmt) (neg : bool) : N := with_sign f neg (inf_bits f + 2 ^ (f_man f - 1)).
