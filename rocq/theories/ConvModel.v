(** * Model of include/boost/astronomy/io/binary_data_converter.hpp.

    Numbers are bit patterns ([N]); a float or double is its IEEE bit pattern, which the code only
    copies with memcpy. boost::endian::big_to_native / native_to_big followed by memcpy are taken
    at their contract: the bytes are the big-endian digits of the pattern. The
    reinterpret_casts of c_str() are taken as reads of the bytes (alignment and strict aliasing are
    ignored); the terminating NUL of c_str() is readable, anything beyond it is undefined. *)
From Verif Require Export CppModel.

(** Element types with a conversion. [EI8] is int8_t, which has no specialisation. *)
Inductive ety : Type :=
| EBool | EByte | EI8 | EI16 | EI32 | EF32 | EF64 | EC32 | EC64 | EPair.

(** An element: a bool, one number, or two numbers (complex, descriptor). *)
Inductive elem : Type :=
| XBool (b : bool)
| XNum (w : N)
| XTwo (a b : N).

(** sizeof of the number type inside an element. *)
Definition word_size (t : ety) : nat :=
  match t with
  | EBool | EByte | EI8 => 1
  | EI16 => 2
  | EI32 | EF32 | EC32 | EPair => 4
  | EF64 | EC64 => 8
  end.

(** The big-endian digits of a pattern. *)
Fixpoint be_bytes (k : nat) (w : N) : str :=
  match k with
  | O => []
  | S j => be_bytes j (w / 256)%N ++ [ascii_of_N (w mod 256)%N]
  end.

Definition be_val (s : str) : N := fold_left (fun a c => (a * 256 + N_of_ascii c)%N) s 0%N.

(** The i-th k-byte word of the memory starting at s.c_str(). *)
Definition word_at (k i : nat) (s : str) : outcome N :=
  if (i * k + k <=? length s + 1) then
    Ret (be_val (firstn k (skipn (i * k) (s ++ [zero]))))
  else Undef.

(** binary_data_converter.hpp:66-73. *)
Definition element_to_numeric (k : nat) (s : str) : outcome N := word_at k 0 s.

Fixpoint seq_outcomes {A : Type} (l : list (outcome A)) : outcome (list A) :=
  match l with
  | [] => Ret []
  | m :: r => let! a := m in let! x := seq_outcomes r in Ret (a :: x)
  end.

(** binary_data_converter.hpp:83-103. *)
Definition numeric_collection (k : nat) (s : str) (n : nat) : outcome (list N) :=
  seq_outcomes (map (fun i => word_at k i s) (seq 0 n)).

(** binary_data_converter.hpp:112-125; also the descriptor pair, 314-320. *)
Definition element_to_two (k : nat) (s : str) : outcome elem :=
  let! a := word_at k 0 s in let! b := word_at k 1 s in Ret (XTwo a b).

(** binary_data_converter.hpp:135-152. *)
Definition complex_collection (k : nat) (s : str) (n : nat) : outcome (list elem) :=
  seq_outcomes (map (fun i => let! a := word_at k (2 * i) s in
                              let! b := word_at k (2 * i + 1) s in Ret (XTwo a b)) (seq 0 n)).

(** binary_data_converter.hpp:322-334: the words i and i + 1. *)
Definition pair_collection (s : str) (n : nat) : outcome (list elem) :=
  seq_outcomes (map (fun i => let! a := word_at 4 i s in
                              let! b := word_at 4 (i + 1) s in Ret (XTwo a b)) (seq 0 n)).

(** binary_data_converter.hpp:160-162: lexical_cast of a string to a character type accepts exactly
    the strings of length one. *)
Definition element_to_byte (s : str) : outcome N :=
  match s with [c] => Ret (N_of_ascii c) | _ => Throw BadLexicalCast end.

(** binary_data_converter.hpp:171-175. *)
Definition byte_collection (s : str) (n : nat) : outcome (list N) :=
  if n <=? length s then Ret (map N_of_ascii (firstn n s)) else Undef.

(** binary_data_converter.hpp:262-264: element[0] of the empty string is NUL. *)
Definition first_char (s : str) : ascii := match s with c :: _ => c | [] => zero end.

(** deserialize_to<T> for a single element: 196-198 (no specialisation: T()), 261-264, 275-277,
    286-288, 296-298, 305-307, 314-320, 336-338, 345-347, 354-356, 363-365. *)
Definition bin_deserialize (t : ety) (s : str) : outcome elem :=
  match t with
  | EBool => Ret (XBool (Ascii.eqb (first_char s) "T"%char))
  | EByte => let! w := element_to_byte s in Ret (XNum w)
  | EI8 => Ret (XNum 0)
  | EI16 | EI32 | EF32 | EF64 => let! w := element_to_numeric (word_size t) s in Ret (XNum w)
  | EC32 | EC64 | EPair => element_to_two (word_size t) s
  end.

(** deserialize_to<vector<T>>: 265-272 (bool: every character, the count is ignored), 279-283,
    289-293, 299-303, 308-312, 322-334, 339-343, 348-352, 357-361, 366-370. *)
Definition bin_deserialize_vec (t : ety) (s : str) (n : nat) : outcome (list elem) :=
  match t with
  | EBool => Ret (map (fun c => XBool (Ascii.eqb c "T"%char)) s)
  | EByte => let! l := byte_collection s n in Ret (map XNum l)
  | EI8 => Ret []
  | EI16 | EI32 | EF32 | EF64 =>
      let! l := numeric_collection (word_size t) s n in Ret (map XNum l)
  | EC32 | EC64 => complex_collection (word_size t) s n
  | EPair => pair_collection s n
  end.

(** bin_serialize: 206-218, 224-226, 232-236, 372-375. *)
Definition bin_serialize (t : ety) (x : elem) : str :=
  match x with
  | XBool b => if b then lit "T" else lit "F"
  | XNum w => be_bytes (word_size t) w
  | XTwo a b => be_bytes (word_size t) a ++ be_bytes (word_size t) b
  end.

(** bin_serialize(vector): 242-249, 377-384. *)
Definition bin_serialize_vec (t : ety) (l : list elem) : str := concat (map (bin_serialize t) l).
