(** * What a user of tables relies on. *)
From Coq Require Import String Ascii List Arith NArith ZArith.
Import ListNotations.
From Verif Require Import CppModel CardModel StreamModel HeaderModel HeaderSpec TableModel.
Open Scope list_scope.

(** A header as the reader hands it out: read from a stream, then possibly queried. *)
Inductive reached (fc : fcodec) : header -> Prop :=
| reached_read fuel s s' h : good s = true -> read_header fc fuel s fresh_header = (s', h, Ret tt) -> reached fc h
| reached_value t key h : reached fc h -> reached fc (fst (value_of fc t key h))
| reached_name h : reached fc h -> reached fc (fst (get_hdu_name fc h)).

(** The last record with the keyword has that value. *)
Definition header_value (fc : fcodec) (t : cty) (h : header) (key : str) (v : cval) : Prop :=
  exists r, last_record key (map raw (h_cards h)) = Some r /\ text_value fc t r = Ret v.
Definition header_text (fc : fcodec) (h : header) (key s : str) : Prop := header_value fc TStr h key (VStr s).
Definition header_number (fc : fcodec) (h : header) (key : str) (n : N) : Prop := header_value fc TSize h key (VSize n).

(** "TFORM3". *)
Definition numbered (base : string) (i : nat) : str := lit base ++ show_N (N.of_nat i).

(** [w] characters of a buffer from an offset on. *)
Definition slice (buf : str) (off w : nat) : str := firstn w (skipn off buf).

Fixpoint total (l : list nat) : nat := match l with [] => 0 | x :: r => x + total r end.

(** Where column c of row r begins if rows are packed columns of the given widths. *)
Definition packed (ws : list nat) (r c : nat) : nat := r * total ws + total (firstn c ws).

(** FITS standard, table 18: bytes of one element of a binary table column. *)
Definition fits_type_bytes : list (string * nat) :=
  [("L", 1); ("B", 1); ("I", 2); ("J", 4); ("A", 1); ("E", 4); ("D", 8); ("C", 8); ("M", 16); ("P", 8)]%string.

(** The text begins or ends with a whitespace character. *)
Definition has_outer_space (s : str) : Prop :=
  (exists c r, s = c :: r /\ is_space c = true) \/ (exists c r, s = r ++ [c] /\ is_space c = true).

(** The value of a run of decimal digits. *)
Definition decimal (ds : str) : N := fold_left (fun a c => (10 * a + (N_of_ascii c - 48))%N) ds 0%N.
Definition all_digits (ds : str) : Prop := forall c, In c ds -> (48 <= N_of_ascii c <= 57)%N.

(** [core] surrounded by quotes and blanks. *)
Definition quoted (form core : str) : Prop :=
  exists pre post, form = pre ++ core ++ post /\
    forall c, In c (pre ++ post) -> c = "'"%char \/ c = " "%char.

(** A TFORM of a binary table: repeat count (1 if absent) and type letter; the width is their product. *)
Definition bin_form (form : str) (count : N) (letter : ascii) : Prop :=
  exists ds, all_digits ds /\ quoted form (ds ++ [letter]) /\
    count = match ds with [] => 1%N | _ => decimal ds end.

(** A TFORM of an ASCII table: Aw, Iw, Fw.d, Ew.d or Dw.d. *)
Definition ascii_form (form : str) (letter : ascii) (w : N) : Prop :=
  exists ds rest, all_digits ds /\ ds <> [] /\ w = decimal ds /\
    quoted form (letter :: ds ++ rest) /\
    (rest = [] \/ exists ps, rest = "."%char :: ps /\ ps <> [] /\ all_digits ps).

(** The fields of a packed buffer in file order. *)
Definition fields (ws : list nat) (rows : nat) (buf : str) : list str :=
  flat_map (fun r => map (fun c => slice buf (packed ws r c) (nth c ws 0)) (seq 0 (length ws))) (seq 0 rows).

(** [s] right-justified in [w] characters. *)
Definition rjust (w : nat) (s : str) : str := repeat " "%char (w - length s) ++ s.

(** The texts of a row, each right-justified in its width. *)
Fixpoint justified (ws : list nat) (row : list str) : str :=
  match ws, row with
  | w :: ws', x :: row' => rjust w x ++ justified ws' row'
  | _, _ => []
  end.

(** The widths of the columns according to the header. *)
Definition layout (size : str -> outcome N) (fc : fcodec) (h : header) (ws : list nat) : Prop :=
  header_number fc h (lit "TFIELDS") (N.of_nat (length ws)) /\
  forall c w, nth_error ws c = Some w ->
    exists f, header_text fc h (numbered "TFORM" (S c)) f /\ size f = Ret (N.of_nat w).

(** Cells that can be written: no wider than the column, no blanks around them. *)
Definition fitting (ws : list nat) (row : list str) : Prop :=
  Forall2 (fun w x => ~ has_outer_space x /\ length x <= w) ws row.

(** Size of what a HDU occupies up to its padding. *)
Definition before_padding (s : stream) (h : header) (data : str) : nat :=
  length (content s) + length (concat (map raw (h_cards h))) + 2880 + length data.

(** The table object with other cells (assigned through get_data()). *)
Definition with_cells (t : table) (data : list (list str)) : table :=
  mk_table (t_header t) (t_fields t) (t_columns t) data.

(** An optional entry of the header as text or number; blank (or no number) if there is no record. *)
Definition text_or_blank (fc : fcodec) (h : header) (key s : str) : Prop :=
  (last_record key (map raw (h_cards h)) = None -> s = []) /\ (forall v, header_text fc h key v -> s = v).
Definition number_or_none (fc : fcodec) (h : header) (key : str) (o : option N) : Prop :=
  (last_record key (map raw (h_cards h)) = None -> o = None) /\
  (forall v, header_value fc TDouble h key (VDouble v) -> o = Some v).

(** The metadata of column [i] is that of the header. *)
Definition described (fc : fcodec) (h : header) (i : nat) (c : column) : Prop :=
  c_index c = i /\ header_text fc h (numbered "TFORM" i) (c_format c) /\
  text_or_blank fc h (numbered "TTYPE" i) (c_name c) /\ text_or_blank fc h (numbered "TUNIT" i) (c_unit c) /\
  number_or_none fc h (numbered "TSCAL" i) (c_scale c) /\ number_or_none fc h (numbered "TZERO" i) (c_zero c).
