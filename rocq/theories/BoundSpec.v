(** * How much a file of a given size can be read as. *)
From Coq Require Import String Ascii List Arith NArith.
Import ListNotations.
From Verif Require Import CppModel CardModel HeaderModel HeaderSpec TableModel ImageModel ReaderModel.
Open Scope list_scope.

(** The characters of all cells of a table. *)
Definition cell_chars (t : table) : nat := length (concat (concat (t_data t))).

(** What there is of an object if it is made of [n] bytes of a file: its header, 80 characters for each card, and the
    pixels or cells, altogether no more than [n] bytes. A table has no more columns than cards, and each row has a cell
    for each column. The cells of an ASCII table may overlap in the file. *)
Definition within (n : nat) (x : hdu) : Prop :=
  match x with
  | HBlank => True
  | HPrimary p => 80 * length (h_cards (p_header p)) + N.to_nat (element_size (p_kind p)) * image_size (p_image p) <= n
  | HBinary t =>
      80 * length (h_cards (t_header t)) + cell_chars t <= n /\
      length (t_columns t) <= length (h_cards (t_header t)) /\
      Forall (fun row => length row = length (t_columns t)) (t_data t) /\
      (80 * length (h_cards (t_header t)) + length (t_data t) <= n \/
       cell_chars t = 0 /\ (2 ^ 61 <= product (h_naxis (t_header t)))%N)
  | HAscii t =>
      80 * length (h_cards (t_header t)) + length (t_data t) <= n /\
      length (t_columns t) <= length (h_cards (t_header t)) /\
      Forall (fun row => length row = length (t_columns t) /\
        Forall (fun cell => 80 * length (h_cards (t_header t)) + length cell <= n) row) (t_data t)
  end.
