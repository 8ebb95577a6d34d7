(** * What a user of streams and headers relies on. *)
From Coq Require Import String Ascii List Arith NArith ZArith.
Import ListNotations.
From Verif Require Import CppModel CardModel CardSpec StreamModel HeaderModel.
Open Scope list_scope.

(** The character a reader sees at offset i of a file: blank beyond the end. *)
Definition char_at (c : str) (i : nat) : ascii := nth i c sp.

(** The k-th 80-character record of a file, counted from offset p. *)
Definition record_at (c : str) (p k : nat) : str :=
  map (fun j => char_at c (p + 80 * k + j)) (seq 0 80).

(** The record that ends a header. *)
Definition is_end_record (r : str) : Prop := firstn 8 r = lit "END     ".

(** The header starting at offset p consists of records 0..n, the last being END. *)
Definition header_at (c : str) (p n : nat) : Prop :=
  (forall k, k <= n -> acceptable (record_at c p k)) /\
  (forall k, k < n -> ~ is_end_record (record_at c p k)) /\
  is_end_record (record_at c p n).

(** The texts of the records 0..n. *)
Definition records (c : str) (p n : nat) : list str := map (record_at c p) (seq 0 (S n)).

(** The last card carrying a keyword. *)
Definition last_with (key : str) (cs : list card) : option card :=
  fold_left (fun acc c => if str_eqb (keyword c) key then Some c else acc) cs None.

(** Next multiple of 2880 (strictly greater). *)
Definition next_unit (p e : N) : Prop :=
  (exists k, e = 2880 * k)%N /\ (p < e <= p + 2880)%N.

(** The FITS rule: pad to the next multiple of 2880, nothing if already there. *)
Definition fits_unit (p e : N) : Prop :=
  (exists k, e = 2880 * k)%N /\ (p <= e < p + 2880)%N.

Fixpoint product (l : list N) : N := match l with [] => 1 | n :: r => n * product r end.

(** value<T>() of a card newly made from the record text. *)
Definition text_value (fc : fcodec) (t : cty) (r : str) : outcome cval :=
  snd (value fc t (mk_card r None)).

(** The keyword of a record text: columns 1-8 without surrounding blanks. *)
Definition record_key (r : str) : str := trim (firstn 8 r).

(** The last record carrying a keyword. *)
Definition last_record (key : str) (rs : list str) : option str :=
  find (fun r => str_eqb (record_key r) key) (rev rs).

(** The record a mandatory keyword is taken from: the first record if there is none. *)
Definition mandatory_record (key : str) (rs : list str) : str :=
  match last_record key rs with Some r => r | None => nth 0 rs [] end.

(** The keywords read while a header with d axes is read. *)
Definition axis_key (i : nat) : str := lit "NAXIS" ++ show_N (N.of_nat i).
Definition mandatory_key (d : nat) (key : str) : Prop :=
  key = lit "BITPIX" \/ key = lit "NAXIS" \/ exists i, 1 <= i <= d /\ key = axis_key i.

(** The codes of FITS for BITPIX. *)
Definition bitpix_code (b : bitpix) : Z :=
  match b with B8 => 8 | B16 => 16 | B32 => 32 | F32 => -32 | F64 => -64 end.

(** The number of blanks the library appends at offset p. *)
Definition pad_len (p : nat) : nat := 2880 - p mod 2880.
