(** * What a user of the converter relies on. *)
From Coq Require Import String Ascii List Arith NArith ZArith.
Import ListNotations.
From Verif Require Import CppModel ConvModel.
Open Scope list_scope.

(** The element is a value of the type. *)
Definition has_type (t : ety) (x : elem) : Prop :=
  match t, x with
  | EBool, XBool _ => True
  | (EByte | EI8 | EI16 | EI32 | EF32 | EF64), XNum w => (w < 256 ^ N.of_nat (word_size t))%N
  | (EC32 | EC64 | EPair), XTwo a b =>
      (a < 256 ^ N.of_nat (word_size t))%N /\ (b < 256 ^ N.of_nat (word_size t))%N
  | _, _ => False
  end.

(** Bytes of one element in a FITS file. *)
Definition elem_size (t : ety) : nat :=
  match t with
  | EC32 | EC64 | EPair => 2 * word_size t
  | _ => word_size t
  end.

(** FITS byte order: byte number i (from the most significant) of the k-byte pattern w. *)
Definition be_byte (k i : nat) (w : N) : N := (w / 256 ^ N.of_nat (k - 1 - i) mod 256)%N.

(** The words of a list of two-part elements, in order. *)
Definition parts (l : list elem) : list N :=
  concat (map (fun x => match x with XTwo a b => [a; b] | _ => [] end) l).

(** A two's complement k-byte integer. *)
Definition signed_range (k : nat) (z : Z) : Prop :=
  (- 2 ^ (8 * Z.of_nat k - 1) <= z < 2 ^ (8 * Z.of_nat k - 1))%Z.
Definition pattern_of (k : nat) (z : Z) : N := Z.to_N (z mod 256 ^ Z.of_nat k).
Definition signed_of (k : nat) (w : N) : Z :=
  if (Z.of_N w <? 2 ^ (8 * Z.of_nat k - 1))%Z then Z.of_N w else (Z.of_N w - 256 ^ Z.of_nat k)%Z.

(** The number written by the bytes, most significant first. *)
Fixpoint big_endian (s : str) : N :=
  match s with
  | [] => 0
  | c :: r => (N_of_ascii c * 256 ^ N.of_nat (length r) + big_endian r)%N
  end.

(** The bytes [off] .. [off + k - 1], as a number. *)
Definition number_at (s : str) (off k : nat) : N := big_endian (firstn k (skipn off s)).

(** Element number [i] of a field of consecutive elements. *)
Definition element_of (t : ety) (s : str) (i : nat) : elem :=
  match t with
  | EBool => XBool (Ascii.eqb (nth i s " "%char) "T"%char)
  | EByte | EI8 => XNum (N_of_ascii (nth i s " "%char))
  | EI16 | EI32 | EF32 | EF64 => XNum (number_at s (i * elem_size t) (elem_size t))
  | EC32 | EC64 | EPair =>
      XTwo (number_at s (i * elem_size t) (word_size t)) (number_at s (i * elem_size t + word_size t) (word_size t))
  end.
