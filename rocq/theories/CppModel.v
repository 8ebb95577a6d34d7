(** * C++ base layer: outcomes, std::string, size_t, trim, decimal text.

    Nothing here models a file of /repo by itself; these are the standard-library
    and Boost operations that the modelled code calls. Each definition says which
    operation it stands for. *)

From Coq Require Export String Ascii.
From Coq Require Export List Arith NArith ZArith Bool Lia.
Export ListNotations.
From Coq Require Export ZifyBool ZifyNat ZifyN.
Open Scope list_scope.

(** ** Outcomes of a C++ call *)

(** Exception classes that the modelled code can let escape.
    InvalidCard .. InvalidColumnFormat are the library's own
    (include/boost/astronomy/exception/fits_exception.hpp); OutOfRange, LengthError
    are std::out_of_range, std::length_error; BadGet is boost::bad_get and
    BadLexicalCast boost::bad_lexical_cast. *)
Inductive exn : Type :=
| InvalidCard | InvalidCast | FitsException | FileReading
| ColumnNotFound | InvalidColumnFormat
| OutOfRange | LengthError | BadGet | BadLexicalCast.

(** [Ret]: normal return; [Throw]: an exception escapes; [Undef]: undefined
    behaviour is reached; [NoFuel]: the loop bound given to the model was exhausted
    (a call that is [NoFuel] for every fuel does not terminate). *)
Inductive outcome (A : Type) : Type :=
| Ret (a : A) | Throw (e : exn) | Undef | NoFuel.
Arguments Ret {A} a.
Arguments Throw {A} e.
Arguments Undef {A}.
Arguments NoFuel {A}.

Definition bind {A B : Type} (m : outcome A) (f : A -> outcome B) : outcome B :=
  match m with
  | Ret a => f a
  | Throw e => Throw e
  | Undef => Undef
  | NoFuel => NoFuel
  end.

Notation "'let!' x ':=' m 'in' k" := (bind m (fun x => k))
  (at level 200, x name, m at level 100, k at level 200).

(** ** std::string *)

(** A std::string is a list of bytes. *)
Definition str := list ascii.

(** A string literal of the source. *)
Definition lit (s : string) : str := list_ascii_of_string s.

Definition sp : ascii := " "%char.

(** std::string(n, ' '). *)
Definition spaces (n : nat) : str := repeat sp n.

Fixpoint str_eqb (a b : str) : bool :=
  match a, b with
  | [], [] => true
  | x :: a', y :: b' => Ascii.eqb x y && str_eqb a' b'
  | _, _ => false
  end.

(** size_t arithmetic (64-bit). *)
Definition two64 : N := (2 ^ 64)%N.
Definition npos : N := (two64 - 1)%N.
Definition sub64 (a b : N) : N := ((a + two64 - b) mod two64)%N.
Definition mul64 (a b : N) : N := ((a * b) mod two64)%N.

(** std::string::max_size(): any count at or above it raises std::length_error.
    libstdc++'s value is 2^63-1; only counts produced by wrap-around reach it here. *)
Definition max_size : N := (2 ^ 63 - 1)%N.

(** std::string::find(char): index of the first occurrence, or npos. *)
Fixpoint find_idx (c : ascii) (s : str) : option nat :=
  match s with
  | [] => None
  | x :: r => if Ascii.eqb x c then Some 0
              else match find_idx c r with Some i => Some (S i) | None => None end
  end.

Definition str_find (c : ascii) (s : str) : N :=
  match find_idx c s with Some i => N.of_nat i | None => npos end.

(** std::string::substr(pos, n): out_of_range if pos > size, otherwise at most n
    characters from pos on. *)
Definition substr (s : str) (pos : nat) (n : N) : outcome str :=
  if length s <? pos then Throw OutOfRange
  else let r := skipn pos s in
       Ret (firstn (N.to_nat (N.min n (N.of_nat (length r)))) r).

(** std::string::append(n, ' '). *)
Definition append_spaces (s : str) (n : N) : outcome str :=
  if (max_size <? n)%N then Throw LengthError
  else Ret (s ++ spaces (N.to_nat n)).

(** std::string::insert(0, n, ' '). *)
Definition prepend_spaces (n : N) (s : str) : outcome str :=
  if (max_size <? n)%N then Throw LengthError
  else Ret (spaces (N.to_nat n) ++ s).

(** std::isspace in the classic locale: HT, LF, VT, FF, CR and blank. *)
Definition is_space (c : ascii) : bool :=
  let n := N_of_ascii c in
  ((9 <=? n) && (n <=? 13) || (n =? 32))%N.

Fixpoint trim_left (s : str) : str :=
  match s with
  | [] => []
  | c :: r => if is_space c then trim_left r else s
  end.

Definition trim_right (s : str) : str := rev (trim_left (rev s)).

(** boost::algorithm::trim_copy. *)
Definition trim (s : str) : str := trim_right (trim_left s).

(** ** Decimal text *)

Definition digit_char (d : N) : ascii := ascii_of_N (48 + d).

Definition digit_val (c : ascii) : option N :=
  let n := N_of_ascii c in
  if ((48 <=? n) && (n <=? 57))%N then Some (n - 48)%N else None.

Fixpoint dec_digits (fuel : nat) (n : N) : str :=
  match fuel with
  | O => []
  | S f => if (n <? 10)%N then [digit_char n]
           else dec_digits f (n / 10)%N ++ [digit_char (n mod 10)%N]
  end.

(** std::to_string / ostream << for an unsigned number. *)
Definition show_N (n : N) : str := dec_digits (S (N.to_nat (N.log2 n))) n.

(** std::to_string / ostream << for a signed number. *)
Definition show_Z (z : Z) : str :=
  if (z <? 0)%Z then "-"%char :: show_N (Z.to_N (- z)) else show_N (Z.to_N z).

Fixpoint parse_digits_from (acc : N) (s : str) : option N :=
  match s with
  | [] => Some acc
  | c :: r => match digit_val c with
              | Some d => parse_digits_from (10 * acc + d)%N r
              | None => None
              end
  end.

(** A non-empty run of decimal digits. *)
Definition parse_digits (s : str) : option N :=
  match s with [] => None | _ => parse_digits_from 0 s end.

(** The sign handling of boost::lexical_cast to integers: one optional '+' or '-'
    directly before the digits; no blanks. *)
Definition split_sign (s : str) : bool * str :=
  match s with
  | c :: r => if Ascii.eqb c "-"%char then (true, r)
              else if Ascii.eqb c "+"%char then (false, r)
              else (false, s)
  | [] => (false, [])
  end.

(** boost::lexical_cast<T>(string) for a signed T of [bits] bits; None is
    bad_lexical_cast. *)
Definition cast_signed (bits : Z) (s : str) : option Z :=
  let (neg, d) := split_sign s in
  match parse_digits d with
  | None => None
  | Some n =>
      let z := Z.of_N n in
      if neg then (if z <=? 2 ^ (bits - 1) then Some (- z) else None)%Z
      else (if z <? 2 ^ (bits - 1) then Some z else None)%Z
  end.

(** boost::lexical_cast<T>(string) for an unsigned T of [bits] bits. Boost accepts a
    minus sign here and negates modulo 2^bits. *)
Definition cast_unsigned (bits : N) (s : str) : option N :=
  let (neg, d) := split_sign s in
  match parse_digits d with
  | None => None
  | Some n =>
      if (n <? 2 ^ bits)%N then
        Some (if neg then (2 ^ bits - n) mod 2 ^ bits else n)%N
      else None
  end.

(** ** Association maps (std::unordered_map with operator[] assignment) *)

Fixpoint map_find {A : Type} (k : str) (m : list (str * A)) : option A :=
  match m with
  | [] => None
  | (k', a) :: r => if str_eqb k k' then Some a else map_find k r
  end.

(** m[k] = a : replaces an existing entry or adds one. *)
Fixpoint map_set {A : Type} (k : str) (a : A) (m : list (str * A)) : list (str * A) :=
  match m with
  | [] => [(k, a)]
  | (k', b) :: r => if str_eqb k k' then (k', a) :: r else (k', b) :: map_set k a r
  end.
