(** * Reading a file, changing values and writing it, in terms of bytes. *)
From Coq Require Import String Ascii List Arith NArith ZArith.
Import ListNotations.
From Verif Require Import CppModel CardSpec ConvSpec HeaderModel TableModel TableSpec ImageModel ReaderModel ReaderSpec WholeSpec.
Open Scope list_scope.

(** ** Copying *)

(** The text of a field without the white space around it, moved to the right end of the field. *)
Definition to_the_right (c : text_col) (r : str) : str := rjust (tc_width c) (trim (slice r (tc_start c - 1) (tc_width c))).

(** The data of the copy: of an image the same; of a binary table the fields without the white space around them; of an
    ASCII table only the fields, one after the other. *)
Definition data_copied (x : contents) (d : str) : str :=
  match x with
  | Image _ _ _ => d
  | Cells _ rows => concat (map (fun row => concat (map trim row)) rows)
  | Lines cols _ rows => concat (map (fun r => concat (map (fun c => to_the_right c r) cols)) rows)
  end.

(** Header and data are each followed by blanks: up to the end of the block, and a whole block of them if that is
    where they end. *)
Definition blank_filled (s : str) : str := s ++ spaces (2880 - length s mod 2880).
Definition written_unit (rs : list str) (d : str) : str := blank_filled (concat rs) ++ blank_filled d.
Definition copied (u : stored) : str := written_unit (s_records u) (data_copied (s_content u) (s_data u)).

(** Columns that follow each other from the first character of the line to the last. *)
Definition gapless (cols : list text_col) (line : nat) : Prop :=
  line = total (map tc_width cols) /\ forall j c, nth_error cols j = Some c -> tc_start c = S (total (map tc_width (firstn j cols))).

(** Contents the copy preserves, and those it preserves byte by byte. *)
Definition copyable (x : contents) : Prop :=
  match x with
  | Image _ _ _ => True
  | Cells _ rows => Forall (Forall (fun s => ~ has_outer_space s)) rows
  | Lines cols line _ => gapless cols line
  end.
Definition justified_right (x : contents) : Prop :=
  match x with
  | Lines cols _ rows => Forall (fun r => Forall (fun c => slice r (tc_start c - 1) (tc_width c) = to_the_right c r) cols) rows
  | _ => True
  end.

(** ** Changing values *)

Inductive values : Type := Pixels (l : list N) | Rows (l : list (list str)).

(** The object with other pixels or other cells (assigned through get_data()). *)
Definition set_values (o : hdu) (v : values) : hdu :=
  match o, v with
  | HPrimary p, Pixels l => HPrimary (with_pixels p l)
  | HBinary t, Rows l => HBinary (with_cells t l)
  | HAscii t, Rows l => HAscii (with_cells t l)
  | _, _ => o
  end.
Definition with_values (xs : list hdu) (vs : list values) : list hdu := map (fun ov => set_values (fst ov) (snd ov)) (combine xs vs).
Definition has_values (o : hdu) (v : values) : Prop :=
  match o, v with
  | HPrimary p, Pixels l => pixels (p_image p) = l
  | HBinary t, Rows l | HAscii t, Rows l => t_data t = l
  | _, _ => False
  end.

(** Values for the place of those of a content: as many of them; of the size of the pixels, or without white space
    around them and as wide as the column (no wider in an ASCII table, which has to be without gaps). *)
Definition suit (x : contents) (v : values) : Prop :=
  match x, v with
  | Image b _ old, Pixels l => length l = length old /\ Forall (fun w => (w < 256 ^ element_size b)%N) l
  | Cells cols old, Rows l => length l = length old /\ Forall (Forall2 (fun c s => ~ has_outer_space s /\ length s = bc_width c) cols) l
  | Lines cols line old, Rows l => gapless cols line /\ length l = length old /\ Forall (Forall2 (fun c s => ~ has_outer_space s /\ length s <= tc_width c) cols) l
  | _, _ => False
  end.

(** The bytes of the values: numbers with the most significant byte first. *)
Definition laid_out (x : contents) (v : values) (d : str) : Prop :=
  match x, v with
  | Image b _ _, Pixels l => exists bytes, d = concat bytes /\
      Forall2 (fun w s => length s = N.to_nat (element_size b) /\ big_endian s = w) l bytes
  | Cells _ _, Rows l => d = concat (map (@concat ascii) l)
  | Lines cols _ _, Rows l => d = concat (map (justified (map tc_width cols)) l)
  | _, _ => False
  end.
