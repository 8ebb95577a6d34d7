(** * What a user of whole files relies on. *)
From Coq Require Import String Ascii List Arith NArith ZArith.
Import ListNotations.
From Verif Require Import CppModel CardModel StreamModel HeaderModel HeaderSpec TableModel TableSpec ImageModel ReaderModel.
Open Scope list_scope.

(** A file opened for reading, positioned at offset [p]. *)
Definition positioned (c : str) (p : nat) : stream := mk_stream c (N.of_nat p) false false.

(** The first multiple of 2880 after [p]. *)
Definition next_block (p : nat) : nat := p + pad_len p.

(** The bytes a header occupies. *)
Definition header_bytes (h : header) : nat := 80 * length (h_cards h).

(** read_header() succeeds at offset [p] with result [h], inside the file. *)
Definition readable (fc : fcodec) (c : str) (p : nat) (h : header) : Prop :=
  (exists fuel s, read_header fc fuel (positioned c p) fresh_header = (s, h, Ret tt)) /\
  p + header_bytes h <= length c.

(** A header and its data in a file. *)
Record file_unit : Type := mk_unit { u_at : nat; u_data_at : nat; u_header : header; u_data : str }.

(** A unit of a file: a header at an offset; from the next block on the data announced by the header. *)
Inductive unit_in (fc : fcodec) (c : str) : file_unit -> nat -> Prop :=
| unit_no_data p h :
    p < length c -> readable fc c p h -> data_size h = 0%N ->
    unit_in fc c (mk_unit p (next_block (p + header_bytes h)) h []) (next_block (p + header_bytes h))
| unit_with_data p h b n :
    p < length c -> readable fc c p h -> h_bitpix h = Some b ->
    data_size h <> 0%N -> N.of_nat n = (data_size h * element_size b)%N ->
    next_block (p + header_bytes h) + n <= length c ->
    unit_in fc c (mk_unit p (next_block (p + header_bytes h)) h (slice c (next_block (p + header_bytes h)) n))
      (next_block (next_block (p + header_bytes h) + n)).

(** Consecutive units from one offset to another: each begins in the block after the one before (a unit
    without data ends with its header block). *)
Inductive units_to (fc : fcodec) (c : str) : nat -> list file_unit -> nat -> Prop :=
| no_unit p : units_to fc c p [] p
| next_unit_at u us e e' : unit_in fc c u e -> units_to fc c e us e' -> units_to fc c (u_at u) (u :: us) e'.

(** All units of the file from offset [p] on. *)
Definition units (fc : fcodec) (c : str) (p : nat) (us : list file_unit) : Prop :=
  exists e, units_to fc c p us e /\ length c <= e.

(** The name and the HDU object of a header and its data. *)
Definition becomes (fc : fcodec) (h : header) (d : str) (name : str) (x : hdu) : Prop :=
  exists h1, get_hdu_name fc h = (h1, Ret name) /\ construct_hdu fc h1 d = Ret x.

(** The control block after the units: the last of a name wins. *)
Fixpoint catalogue (i : nat) (us : list file_unit) (names : list str) (m : list (str * hdu_info)) : list (str * hdu_info) :=
  match us, names with
  | u :: us', n :: names' =>
      catalogue (S i) us' names' (map_set n (mk_info (N.of_nat (u_at u)) (N.of_nat (u_data_at u)) i) m)
  | _, _ => m
  end.

(** Files the offsets of which fit a stream position. *)
Definition small (c : str) : Prop := (N.of_nat (length c) < 2 ^ 62)%N.

(** The text of a unit as the library writes it, from the beginning of a block. *)
Definition unit_text (rs : list str) (d : str) : str :=
  concat rs ++ spaces (pad_len (length (concat rs))) ++ d ++ spaces (pad_len (length d)).

(** Where units of the given headers and data lie if they are written one after the other from [p] on. *)
Fixpoint placed (p : nat) (l : list (header * str)) : list file_unit :=
  match l with
  | [] => []
  | (h, d) :: r =>
      let q := next_block (p + header_bytes h) in
      mk_unit p q h d :: placed (next_block (q + length d)) r
  end.

(** A header some stream can be read to, and data of the size it announces. *)
Definition matching (fc : fcodec) (h : header) (d : str) : Prop :=
  (exists c p, readable fc c p h) /\
  exists b, h_bitpix h = Some b /\ N.of_nat (length d) = (data_size h * element_size b)%N.

(** The records and the data an HDU object is written as. *)
Definition written_as (x : hdu) (rs : list str) (d : str) : Prop :=
  match x with
  | HBlank => False
  | HPrimary p => rs = map raw (h_cards (p_header p)) /\ d = write_image (p_kind p) (p_image p)
  | HBinary t => rs = map raw (h_cards (t_header t)) /\ d = concat (map bin_row_text (t_data t))
  | HAscii t => rs = map raw (h_cards (t_header t)) /\
      exists ts, Forall2 (fun row x => ascii_row_text (t_columns t) row = Ret x) (t_data t) ts /\ d = concat ts
  end.

(** The primary HDU with other pixels (assigned through get_data()). *)
Definition with_pixels (p : primary) (l : list N) : primary :=
  mk_primary (p_header p) (p_kind p) (mk_image l (width (p_image p))) (p_simple p) (p_extend p).

(** An ASCII table whose columns follow each other without gaps and fill the row. *)
Definition contiguous (fc : fcodec) (h : header) (ws : list nat) (rows : N) : Prop :=
  layout ascii_column_size fc h ws /\
  nth_error (h_naxis h) 0 = Some (N.of_nat (total ws)) /\ nth_error (h_naxis h) 1 = Some rows /\
  (forall c, c < length ws -> header_number fc h (numbered "TBCOL" (S c)) (1 + N.of_nat (total (firstn c ws)))) /\
  Forall (fun w => 0 < w) ws /\ ws <> [] /\ (0 < rows < 2 ^ 31)%N.

(** Cells that exactly fill their columns, without whitespace at their ends. *)
Definition filling (ws : list nat) (row : list str) : Prop :=
  Forall2 (fun w x => ~ has_outer_space x /\ length x = w) ws row.

(** An HDU object that belongs in the place of a unit: written with the same records and as much data,
    and the reader makes the same object of what is written. *)
Definition belongs (fc : fcodec) (u : file_unit) (name : str) (x : hdu) : Prop :=
  exists d, written_as x (map raw (h_cards (u_header u))) d /\ length d = length (u_data u) /\
    becomes fc (u_header u) d name x.

(** [i] is the last position of [x] in a list. *)
Definition last_position {A} (x : A) (l : list A) (i : nat) : Prop :=
  nth_error l i = Some x /\ forall j, i < j -> nth_error l j <> Some x.

(** The distinct elements of a list. *)
Definition distinct {A} (l d : list A) : Prop := NoDup d /\ forall x, In x d <-> In x l.

(** The buffer for [n] bytes at an offset when the file is too short: what there is, then blanks. *)
Definition filled (c : str) (q n : nat) : str := skipn q c ++ spaces (n - (length c - q)).

(** A unit whose data is announced to lie at [u_data_at]; the file may end before. [e] is the next block. *)
Inductive announced (fc : fcodec) (c : str) : file_unit -> nat -> Prop :=
| announced_none p h :
    p < length c -> readable fc c p h -> data_size h = 0%N ->
    announced fc c (mk_unit p (next_block (p + header_bytes h)) h []) (next_block (p + header_bytes h))
| announced_some p h b n :
    p < length c -> readable fc c p h -> h_bitpix h = Some b ->
    data_size h <> 0%N -> N.of_nat n = (data_size h * element_size b)%N -> (N.of_nat (next_block (p + header_bytes h) + n) < 2 ^ 62)%N ->
    announced fc c (mk_unit p (next_block (p + header_bytes h)) h [])
      (next_block (next_block (p + header_bytes h) + n)).
Inductive announced_units (fc : fcodec) (c : str) : nat -> list file_unit -> Prop :=
| announced_end p : length c <= p -> announced_units fc c p []
| announced_next u us e : announced fc c u e -> announced_units fc c e us -> announced_units fc c (u_at u) (u :: us).
