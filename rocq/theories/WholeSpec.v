(** * What a FITS file says, in terms of its bytes only. *)
From Coq Require Import String Ascii List Arith NArith ZArith.
Import ListNotations.
From Verif Require Import CppModel CardModel CardSpec ConvSpec HeaderModel HeaderSpec TableModel TableSpec ImageModel ReaderModel.
Open Scope list_scope.

(** The record KEY = TEXT, perhaps with blanks around the text and with a comment. *)
Definition entry (key text r : str) : Prop := exists a b comment,
  r = record key (spaces a ++ text ++ spaces b) comment /\ CardSpec.fits key (spaces a ++ text ++ spaces b) comment.

(** The last record of that keyword says KEY = TEXT. *)
Definition says (rs : list str) (key text : str) : Prop := exists r, last_record key rs = Some r /\ entry key text r.

(** Decimal digits, perhaps with a minus sign. *)
Definition number_text (n : N) (text : str) : Prop := text <> [] /\ all_digits text /\ decimal text = n.
Definition integer_text (z : Z) (text : str) : Prop :=
  number_text (Z.to_N z) text /\ (0 <= z)%Z \/
  exists t, text = "-"%char :: t /\ number_text (Z.to_N (- z)) t /\ (z <= 0)%Z.

(** Values of the records of a header: numbers, logicals, texts between quotes (with blanks after them). *)
Definition says_number (rs : list str) (key : str) (n : N) : Prop := exists t, number_text n t /\ says rs key t.
Definition says_integer (rs : list str) (key : str) (z : Z) : Prop := exists t, integer_text z t /\ says rs key t.
Definition says_logical (rs : list str) (key : str) (b : bool) : Prop := says rs key (if b then lit "T" else lit "F").
Definition says_text (rs : list str) (key s : str) : Prop :=
  slash_free s /\ no_outer_blanks s /\ exists n, says rs key ("'"%char :: (s ++ spaces n) ++ ["'"%char]).
Definition says_real (fc : fcodec) (rs : list str) (key : str) (w : N) : Prop :=
  exists t, slash_free t /\ no_outer_blanks t /\ f64_read fc t = Some w /\ says rs key t.

Definition missing (rs : list str) (key : str) : Prop := last_record key rs = None.
Definition text_if_any (rs : list str) (key : str) (o : option str) : Prop :=
  match o with None => missing rs key | Some s => says_text rs key s end.
Definition real_if_any (fc : fcodec) (rs : list str) (key : str) (o : option N) : Prop :=
  match o with None => missing rs key | Some w => says_real fc rs key w end.

(** The records of a header: each of 80 characters, END is the last and only the last. *)
Definition end_card : str := lit "END" ++ spaces 77.
Definition header_records (rs : list str) : Prop := exists body, rs = body ++ [end_card] /\
  Forall (fun r => length r = 80 /\ acceptable r /\ ~ is_end_record r) body.

(** BITPIX and the axes. *)
Definition shape (b : bitpix) (axes : list N) (rs : list str) : Prop :=
  says_integer rs (lit "BITPIX") (bitpix_code b) /\ says_number rs (lit "NAXIS") (N.of_nat (length axes)) /\
  forall i v, nth_error axes i = Some v -> says_number rs (axis_key (S i)) v.

(** Columns: name, TFORM, unit, scale and zero point, where the field lies; of binary tables also the number of elements
    in a field, the display format and the dimensions. *)
Record about : Type := mk_about { a_name : str; a_form : str; a_unit : option str; a_scale : option N; a_zero : option N }.
Record bin_col : Type := mk_bin_col { bc_about : about; bc_count : N; bc_width : nat; bc_display : option str; bc_dimension : option str }.
Record text_col : Type := mk_text_col { tc_about : about; tc_start : nat; tc_width : nat }.

(** A record of that keyword with a value that is a text, or anything else without quotes. *)
Definition says_anything (rs : list str) (key : str) : Prop :=
  (exists s, says_text rs key s) \/
  exists t, slash_free t /\ no_outer_blanks t /\ (forall r, t <> "'"%char :: r) /\ says rs key t.

(** The keywords that the library asks for as logicals or numbers. *)
Definition of_the_library (key : str) : Prop :=
  In key [lit "SIMPLE"; lit "EXTEND"; lit "BITPIX"; lit "GCOUNT"; lit "PCOUNT"; lit "TFIELDS"] \/
  exists base r, In base [lit "NAXIS"; lit "TBCOL"; lit "TSCAL"; lit "TZERO"] /\ key = base ++ r.

(** The name of a column, empty without TTYPE. The library looks the name up as a keyword: there is no such record, or
    it is a record of a keyword that the library does not use as a logical or number. *)
Definition column_name (rs : list str) (i : nat) (name : str) : Prop :=
  says_text rs (numbered "TTYPE" i) name /\ (missing rs name \/ says_anything rs name /\ slash_free name /\ ~ of_the_library name) \/
  missing rs (numbered "TTYPE" i) /\ name = [].

Definition column_records (fc : fcodec) (rs : list str) (i : nat) (a : about) : Prop :=
  column_name rs i (a_name a) /\ says_text rs (numbered "TFORM" i) (a_form a) /\
  text_if_any rs (numbered "TUNIT" i) (a_unit a) /\ real_if_any fc rs (numbered "TSCAL" i) (a_scale a) /\
  real_if_any fc rs (numbered "TZERO" i) (a_zero a).

Definition bin_col_ok (fc : fcodec) (rs : list str) (i : nat) (c : bin_col) : Prop :=
  column_records fc rs i (bc_about c) /\
  text_if_any rs (numbered "TDISP" i) (bc_display c) /\ text_if_any rs (numbered "TDIM" i) (bc_dimension c) /\
  exists letter k, bin_form (a_form (bc_about c)) (bc_count c) letter /\ In (String letter EmptyString, k) fits_type_bytes /\
    N.of_nat (bc_width c) = (bc_count c * N.of_nat k)%N /\ 0 < bc_width c.

Definition text_col_ok (fc : fcodec) (rs : list str) (line : nat) (i : nat) (c : text_col) : Prop :=
  column_records fc rs i (tc_about c) /\ says_number rs (numbered "TBCOL" i) (N.of_nat (tc_start c)) /\
  (exists letter, In letter (lit "AIFED") /\ ascii_form (a_form (tc_about c)) letter (N.of_nat (tc_width c))) /\
  1 <= tc_start c /\ 0 < tc_width c /\ tc_start c - 1 + tc_width c <= line.

(** The records every table has. *)
Definition table_records (kind : string) (width rows fields : nat) (rs : list str) : Prop :=
  header_records rs /\ missing rs (lit "SIMPLE") /\ says_text rs (lit "XTENSION") (lit kind) /\
  shape B8 [N.of_nat width; N.of_nat rows] rs /\
  (exists g, int_range 32 g /\ says_integer rs (lit "GCOUNT") g) /\
  (exists p, int_range 32 p /\ says_integer rs (lit "PCOUNT") p) /\
  (exists s, says_text rs (lit "EXTNAME") s) /\
  says_number rs (lit "TFIELDS") (N.of_nat fields) /\ 1 <= fields <= 999 /\ (N.of_nat width < 2 ^ 63)%N /\ (N.of_nat rows < 2 ^ 31)%N.

(** What an HDU contains. *)
Inductive contents : Type :=
| Image (b : bitpix) (axes : list N) (values : list N)
| Cells (cols : list bin_col) (rows : list (list str))
| Lines (cols : list text_col) (line : nat) (rows : list str).

(** The records and the data of an HDU with that content. A value is stored as the bytes of its pattern, the
    most significant first. *)
Definition encodes (fc : fcodec) (x : contents) (rs : list str) (d : str) : Prop :=
  match x with
  | Image b axes values =>
      header_records rs /\ missing rs (lit "XTENSION") /\ says_logical rs (lit "SIMPLE") true /\
      (exists e, says_logical rs (lit "EXTEND") e) /\ shape b axes rs /\
      Forall (fun v => (v < 2 ^ 64)%N) axes /\ (N.of_nat (length axes) < 2 ^ 60)%N /\ (b <> B8 \/ values = []) /\
      N.of_nat (length values) = (match axes with [] => 0 | _ => product axes end)%N /\
      exists bytes, d = concat bytes /\
        Forall2 (fun v s => length s = N.to_nat (element_size b) /\ big_endian s = v) values bytes
  | Cells cols rows =>
      table_records "BINTABLE" (total (map bc_width cols)) (length rows) (length cols) rs /\
      (forall j c, nth_error cols j = Some c -> bin_col_ok fc rs (S j) c) /\
      Forall (Forall2 (fun c cell => length cell = bc_width c) cols) rows /\ d = concat (map (@concat ascii) rows)
  | Lines cols line rows =>
      table_records "TABLE" line (length rows) (length cols) rs /\
      (forall j c, nth_error cols j = Some c -> text_col_ok fc rs line (S j) c) /\
      0 < line /\ Forall (fun r => length r = line) rows /\ d = concat rows
  end.

(** What the HDU object made of it contains: the columns are numbered from 1; a binary column starts where those
    before it end. *)
Definition or_empty (o : option str) : str := match o with Some s => s | None => [] end.
Definition is_about (j : nat) (a : about) (c : column) : Prop :=
  c_index c = S j /\ c_name c = a_name a /\ c_format c = a_form a /\ c_unit c = or_empty (a_unit a) /\
  c_scale c = a_scale a /\ c_zero c = a_zero a.
Definition is_bin_col (cols : list bin_col) (j : nat) (b : bin_col) (c : column) : Prop :=
  is_about j (bc_about b) c /\ c_start c = N.of_nat (total (map bc_width (firstn j cols))) /\ c_elements c = bc_count b /\
  c_display c = or_empty (bc_display b) /\ c_dimension c = or_empty (bc_dimension b).
Definition is_text_col (j : nat) (b : text_col) (c : column) : Prop :=
  is_about j (tc_about b) c /\ c_start c = N.of_nat (tc_start b).
Definition columns_are {C : Type} (is : nat -> C -> column -> Prop) (cols : list C) (made : list column) : Prop :=
  length made = length cols /\ forall j b c, nth_error cols j = Some b -> nth_error made j = Some c -> is j b c.

Definition contains (x : contents) (o : hdu) : Prop :=
  match x with
  | Image b axes values => exists p, o = HPrimary p /\ p_kind p = b /\ h_naxis (p_header p) = axes /\ pixels (p_image p) = values
  | Cells cols rows => exists t, o = HBinary t /\ columns_are (is_bin_col cols) cols (t_columns t) /\ t_data t = map (map trim) rows
  | Lines cols line rows => exists t, o = HAscii t /\ columns_are is_text_col cols (t_columns t) /\
      t_data t = map (fun r => map (fun c => trim (slice r (tc_start c - 1) (tc_width c))) cols) rows
  end.

(** The name the control block gives it. *)
Definition content_name (x : contents) : str :=
  match x with Image _ _ _ => lit "primary_hdu" | Cells _ _ => lit "BINTABLE" | Lines _ _ _ => lit "TABLE" end.

(** The FITS rule: header and data are each filled up to a whole number of blocks of 2880 bytes. *)
Definition blocked (fill : ascii) (s : str) : str := s ++ repeat fill ((2880 - length s mod 2880) mod 2880).
Record stored : Type := mk_stored { s_content : contents; s_records : list str; s_data : str; s_fill : ascii }.
Definition stored_bytes (u : stored) : str := blocked sp (concat (s_records u)) ++ blocked (s_fill u) (s_data u).

(** The header does not end with a block; nor does the data, if there is any. *)
Definition header_inside (u : stored) : Prop := length (concat (s_records u)) mod 2880 <> 0.
Definition data_inside (u : stored) : Prop := s_data u = [] \/ length (s_data u) mod 2880 <> 0.
Definition tidy (u : stored) : Prop := header_inside u /\ data_inside u.
