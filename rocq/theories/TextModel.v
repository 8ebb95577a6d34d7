(** * Model of the text of float and double values.

    include/boost/astronomy/io/default_card_policy.hpp
    include/boost/astronomy/io/string_conversion_utility.hpp

    The repository writes a floating point value with [stringstream << value] and reads it with
    [boost::lexical_cast<T>(text)]. Neither is defined in the repository: what follows is their
    contract (printf "%g" with precision 6; Boost's own texts for infinity and NaN; otherwise
    [istream >>], which is correctly rounded and fails on overflow). A value is its bit pattern. *)
From Coq Require Import Lia ZifyBool ZifyN ZifyNat.
From Flocq Require Import Core.Zaux Core.Digits.
From Verif Require Export CardModel.
Local Open Scope Z_scope.

(** ** Formats *)

(** A binary interchange format: [f_man] stored bits of the significand, [f_exp] bits of the exponent. *)
Record ffmt : Type := mk_ffmt { f_man : Z; f_exp : Z }.
Definition binary32 : ffmt := mk_ffmt 23 8.
Definition binary64 : ffmt := mk_ffmt 52 11.

(** The exponent of the last place of subnormal numbers. *)
Definition f_emin (f : ffmt) : Z := 2 - 2 ^ (f_exp f - 1) - f_man f.

(** The pattern of infinity, and the sign bit. *)
Definition inf_bits (f : ffmt) : Z := (2 ^ f_exp f - 1) * 2 ^ f_man f.
Definition sign_bit (f : ffmt) : Z := 2 ^ (f_man f + f_exp f).

(** What a pattern means: a number (+-) q * 2^e, an infinity or a NaN. *)
Inductive fnum : Type := FNan (neg : bool) | FInf (neg : bool) | FFin (neg : bool) (q e : Z).

Definition decode_abs (f : ffmt) (b : Z) : Z * Z :=
  let ef := b / 2 ^ f_man f in
  let m := b mod 2 ^ f_man f in
  if ef =? 0 then (m, f_emin f) else (m + 2 ^ f_man f, f_emin f + ef - 1).

Definition decode (f : ffmt) (w : N) : fnum :=
  let neg := sign_bit f <=? Z.of_N w in
  let b := Z.of_N w mod sign_bit f in
  if b =? inf_bits f then FInf neg
  else if inf_bits f <? b then FNan neg
  else FFin neg (fst (decode_abs f b)) (snd (decode_abs f b)).

Definition with_sign (f : ffmt) (neg : bool) (b : Z) : N := Z.to_N (if neg then sign_bit f + b else b).

(** The pattern of q * 2^e for 0 <= q <= 2^(f_man+1) and f_emin <= e; [None] if that is infinity or more. *)
Definition encode (f : ffmt) (neg : bool) (q e : Z) : option N :=
  let b := (e - f_emin f) * 2 ^ f_man f + q in
  if b <? inf_bits f then Some (with_sign f neg b) else None.

(** ** Rounding of a positive fraction to nearest, ties to even *)

Definition rne (a b : Z) : Z :=
  let q := a / b in
  let r := a mod b in
  if 2 * r <? b then q
  else if b <? 2 * r then q + 1
  else if Z.even q then q else q + 1.

(** The k with beta^(k-1) <= num/den < beta^k. *)
Definition ratio_mag (beta : radix) (num den : Z) : Z :=
  let k := Zdigits beta num - Zdigits beta den in
  let ge := if 0 <=? k then den * beta ^ k <=? num else den <=? num * beta ^ (- k) in
  if ge then k + 1 else k.

(** num/den rounded to a multiple of beta^e, where e is given by its magnitude. *)
Definition round_ratio (beta : radix) (expo : Z -> Z) (num den : Z) : Z * Z :=
  let e := expo (ratio_mag beta num den) in
  (if 0 <=? e then rne num (den * beta ^ e) else rne (num * beta ^ (- e)) den, e).

Definition radix10 : radix := Build_radix 10 eq_refl.

(** ** ostream << value: "%g" with precision 6 *)

Fixpoint drop_zeros (s : str) : str :=
  match s with
  | c :: r => if Ascii.eqb c "0"%char then drop_zeros r else s
  | [] => []
  end.
Definition strip_zeros (s : str) : str := rev (drop_zeros (rev s)).

Definition point (s : str) : str := match s with [] => [] | _ => "."%char :: s end.

(** At least two digits of the decimal exponent. *)
Definition exp_text (x : Z) : str :=
  (if x <? 0 then "-"%char else "+"%char) ::
  (if Z.abs x <? 10 then lit "0" else []) ++ show_N (Z.abs_N x).

(** The number with the six significant digits of [q], the first of weight 10^x. *)
Definition render (q x : Z) : str :=
  let d := show_N (Z.to_N q) in
  if (x <? -4) || (6 <=? x) then
    firstn 1 d ++ point (strip_zeros (skipn 1 d)) ++ lit "e" ++ exp_text x
  else if 0 <=? x then
    firstn (Z.to_nat (x + 1)) d ++ point (strip_zeros (skipn (Z.to_nat (x + 1)) d))
  else lit "0." ++ repeat "0"%char (Z.to_nat (- x - 1)) ++ strip_zeros d.

(** Six significant digits of num/den and the weight of the first. *)
Definition six_digits (num den : Z) : Z * Z :=
  let (q, e) := round_ratio radix10 (fun k => k - 6) num den in
  if q =? 10 ^ 6 then (10 ^ 5, e + 6) else (q, e + 5).

Definition sign_text (neg : bool) : str := if neg then lit "-" else [].

(** q * 2^e as a fraction. *)
Definition num_of (q e : Z) : Z := if 0 <=? e then q * 2 ^ e else q.
Definition den_of (e : Z) : Z := if 0 <=? e then 1 else 2 ^ (- e).

Definition show_float (f : ffmt) (w : N) : str :=
  match decode f w with
  | FNan neg => sign_text neg ++ lit "nan"
  | FInf neg => sign_text neg ++ lit "inf"
  | FFin neg q e =>
      sign_text neg ++
      (if q =? 0 then lit "0"
       else let (d, x) := six_digits (num_of q e) (den_of e) in render d x)
  end.

(** ** boost::lexical_cast<T>(text) *)

Definition lower (c : ascii) : ascii :=
  let n := N_of_ascii c in if ((65 <=? n) && (n <=? 90))%N then ascii_of_N (n + 32) else c.
Definition lowers (s : str) : str := map lower s.

(** detail/lcast: "inf", "infinity", "nan" and "nan(..)" in any case, with an optional sign. The NaN is quiet_NaN(). *)
Definition inf_or_nan (f : ffmt) (s : str) : option N :=
  let (neg, r) := split_sign s in
  if str_eqb (lowers r) (lit "inf") || str_eqb (lowers r) (lit "infinity") then
    Some (with_sign f neg (inf_bits f))
  else if str_eqb (lowers (firstn 3 r)) (lit "nan") &&
          match skipn 3 r with
          | [] => true
          | c :: t => Ascii.eqb c "("%char && match rev t with x :: _ => Ascii.eqb x ")"%char | [] => false end
          end
  then Some (with_sign f neg (inf_bits f + 2 ^ (f_man f - 1)))
  else None.

Definition is_digit_char (c : ascii) : bool := match digit_val c with Some _ => true | None => false end.

(** The longest run of digits in front, and what follows. *)
Fixpoint digit_run (s : str) : str * str :=
  match s with
  | c :: r => if is_digit_char c then let (a, b) := digit_run r in (c :: a, b) else ([], s)
  | [] => ([], [])
  end.

(** The digits after a decimal point in front, and what follows. *)
Definition fraction_run (s : str) : str * str :=
  match s with
  | c :: t => if Ascii.eqb c "."%char then digit_run t else ([], s)
  | [] => ([], [])
  end.

(** [sign] digits [. digits] [e [sign] digits] with a digit before the exponent, and nothing else: sign, digits, power of ten. *)
Definition scan_decimal (s : str) : option (bool * N * Z) :=
  let (neg, r) := split_sign s in
  let (ip, r1) := digit_run r in
  let (fp, r2) := fraction_run r1 in
  match parse_digits (ip ++ fp) with
  | None => None
  | Some m =>
      let k := - Z.of_nat (length fp) in
      match r2 with
      | [] => Some (neg, m, k)
      | c :: t =>
          if Ascii.eqb c "e"%char || Ascii.eqb c "E"%char then
            let (eneg, ed) := split_sign t in
            match parse_digits ed with
            | Some x => Some (neg, m, if eneg then k - Z.of_N x else k + Z.of_N x)
            | None => None
            end
          else None
      end
  end.

(** The exponent of the last place of a number of the format below 2^k. *)
Definition f_expo (f : ffmt) (k : Z) : Z := Z.max (k - (f_man f + 1)) (f_emin f).

(** m * 10^k as a fraction. *)
Definition dnum_of (m : N) (k : Z) : Z := if 0 <=? k then Z.of_N m * 10 ^ k else Z.of_N m.
Definition dden_of (k : Z) : Z := if 0 <=? k then 1 else 10 ^ (- k).

Definition nearest_float (f : ffmt) (neg : bool) (m : N) (k : Z) : option N :=
  if (m =? 0)%N then Some (with_sign f neg 0)
  else let (q, e) := round_ratio radix2 (f_expo f) (dnum_of m k) (dden_of k) in encode f neg q e.

Definition read_float (f : ffmt) (s : str) : option N :=
  match inf_or_nan f s with
  | Some w => Some w
  | None =>
      match scan_decimal s with
      | Some (neg, m, k) => nearest_float f neg m k
      | None => None
      end
  end.

(** default_card_policy.hpp:106-108, 144-154, string_conversion_utility.hpp:31-60: the codec the library uses. *)
Definition std_codec : fcodec := {|
  f32_show := show_float binary32; f32_read := read_float binary32;
  f64_show := show_float binary64; f64_read := read_float binary64 |}.
