(** * Model of the table extensions.

    include/boost/astronomy/io/column.hpp
    include/boost/astronomy/io/extension_hdu.hpp
    include/boost/astronomy/io/table_extension.hpp
    include/boost/astronomy/io/binary_table.hpp
    include/boost/astronomy/io/ascii_table.hpp

    Of a constructor or set_data() that throws only the exception is described here; for the object that
    set_data() leaves behind see [RefillModel]. *)
From Verif Require Export HeaderModel ConvModel.

(** ** Computations on the header of a table

    value_of() is non-const: it fills the caches of the cards. *)
Definition hdo (A : Type) : Type := header -> header * outcome A.

Definition hret {A : Type} (a : A) : hdo A := fun h => (h, Ret a).
Definition hlift {A : Type} (o : outcome A) : hdo A := fun h => (h, o).
Definition hbind {A B : Type} (m : hdo A) (k : A -> hdo B) : hdo B := fun h =>
  match m h with
  | (h1, Ret a) => k a h1
  | (h1, Throw e) => (h1, Throw e)
  | (h1, Undef) => (h1, Undef)
  | (h1, NoFuel) => (h1, NoFuel)
  end.

Notation "'do' x '<-' m 'in' k" := (hbind m (fun x => k))
  (at level 200, x name, m at level 100, k at level 200).

(** try { .. } catch (std::out_of_range&) { }: [None] if that exception occurred. *)
Definition try_out_of_range {A : Type} (m : hdo A) : hdo (option A) := fun h =>
  match m h with
  | (h1, Ret a) => (h1, Ret (Some a))
  | (h1, Throw OutOfRange) => (h1, Ret None)
  | (h1, Throw e) => (h1, Throw e)
  | (h1, Undef) => (h1, Undef)
  | (h1, NoFuel) => (h1, NoFuel)
  end.

(** hdu_header.value_of<T>(key). *)
Definition of_str (v : cval) : outcome str := match v with VStr s => Ret s | _ => Undef end.
Definition of_size (v : cval) : outcome N := match v with VSize n => Ret n | _ => Undef end.
Definition of_double (v : cval) : outcome N := match v with VDouble w => Ret w | _ => Undef end.
Definition value_str (fc : fcodec) (key : str) : hdo str := do v <- value_of fc TStr key in hlift (of_str v).
Definition value_size (fc : fcodec) (key : str) : hdo N := do v <- value_of fc TSize key in hlift (of_size v).
Definition value_double (fc : fcodec) (key : str) : hdo N := do v <- value_of fc TDouble key in hlift (of_double v).

(** ** Columns *)

(** column.hpp:26-37; [None] is an uninitialised number. TSCAL and TZERO are bit patterns. *)
Record column : Type := mk_column {
  c_index : nat;
  c_name : str;
  c_start : N;
  c_format : str;
  c_unit : str;
  c_scale : option N;
  c_zero : option N;
  c_display : str;
  c_dimension : str;
  c_comment : str;
  c_elements : N
}.

(** "TFORM" + lexical_cast<string>(i). *)
Definition indexed (base : string) (i : nat) : str := lit base ++ show_N (N.of_nat i).

Definition or_blank (o : option str) : str := match o with Some s => s | None => [] end.

(** boost::trim_copy_if(format, c == quote || c == blank). *)
Definition is_form_blank (c : ascii) : bool := Ascii.eqb c "'"%char || Ascii.eqb c sp.
Fixpoint form_trim_left (s : str) : str :=
  match s with
  | [] => []
  | c :: r => if is_form_blank c then form_trim_left r else s
  end.
Definition form_trim (s : str) : str := rev (form_trim_left (rev (form_trim_left s))).

(** boost::lexical_cast<std::size_t>. *)
Definition lexical_size (s : str) : outcome N :=
  match cast_unsigned 64 s with Some n => Ret n | None => Throw BadLexicalCast end.

(** binary_table.hpp:171-180. *)
Definition bin_element_count (format : str) : outcome N :=
  let form := form_trim format in
  if 1 <? length form then lexical_size (removelast form) else Ret 1%N.

(** binary_table.hpp:187-194; form[form.length() - 1] of an empty form is out of range. *)
Definition bin_type (format : str) : outcome ascii :=
  match rev (form_trim format) with c :: _ => Ret c | [] => Undef end.

(** binary_table.hpp:201-230. *)
Definition bin_type_size (c : ascii) : outcome N :=
  if Ascii.eqb c "L" then Ret 1%N
  else if Ascii.eqb c "X" then Ret 1%N
  else if Ascii.eqb c "B" then Ret 1%N
  else if Ascii.eqb c "I" then Ret 2%N
  else if Ascii.eqb c "J" then Ret 4%N
  else if Ascii.eqb c "A" then Ret 1%N
  else if Ascii.eqb c "E" then Ret 4%N
  else if Ascii.eqb c "D" then Ret 8%N
  else if Ascii.eqb c "C" then Ret 8%N
  else if Ascii.eqb c "M" then Ret 16%N
  else if Ascii.eqb c "P" then Ret 8%N
  else Throw InvalidColumnFormat.

(** binary_table.hpp:155-163. *)
Definition bin_column_size (format : str) : outcome N :=
  let form := form_trim format in
  let! n := bin_element_count form in
  let! c := bin_type form in
  let! k := bin_type_size c in
  Ret (mul64 n k).

(** ascii_table.hpp:106-122: the text between the first character and the first '.'. For an empty
    format substr(1, ..) throws; for a format starting with '.' the count is (size_t)-1. *)
Definition ascii_column_size (format : str) : outcome N :=
  let form := form_trim format in
  let decimal := match find_idx "."%char form with Some i => i | None => length form end in
  let! w := substr form 1 (sub64 (N.of_nat decimal) 1) in
  lexical_size w.

(** ascii_table.hpp:129-136; form[0] of the empty string is NUL. *)
Definition ascii_type (format : str) : ascii := first_char (form_trim format).

(** ** Metadata *)

(** The try block for TTYPEn: the second lookup uses the column name as keyword
    (binary_table.hpp:255-263, ascii_table.hpp:187-195). *)
Definition name_and_comment (fc : fcodec) (i : nat) : hdo (str * str) :=
  do n <- try_out_of_range (value_str fc (indexed "TTYPE" i)) in
  match n with
  | None => hret ([], [])
  | Some name => do c <- try_out_of_range (value_str fc name) in hret (name, or_blank c)
  end.

(** binary_table.hpp:243-302: the metadata of column number [i] (from 1). *)
Definition bin_column (fc : fcodec) (i : nat) (start : N) : hdo column :=
  do form <- value_str fc (indexed "TFORM" i) in
  do w <- hlift (bin_column_size form) in
  do nc <- name_and_comment fc i in
  do unit <- try_out_of_range (value_str fc (indexed "TUNIT" i)) in
  do scal <- try_out_of_range (value_double fc (indexed "TSCAL" i)) in
  do zro <- try_out_of_range (value_double fc (indexed "TZERO" i)) in
  do disp <- try_out_of_range (value_str fc (indexed "TDISP" i)) in
  do dim <- try_out_of_range (value_str fc (indexed "TDIM" i)) in
  do n <- hlift (bin_element_count form) in
  hret (mk_column i (fst nc) start form (or_blank unit) scal zro (or_blank disp) (or_blank dim) (snd nc) n).

(** binary_table.hpp:241-304, for [k] more columns from number [i] on. [start] wraps. *)
Fixpoint bin_columns (fc : fcodec) (k i : nat) (start : N) : hdo (list column) :=
  match k with
  | O => hret []
  | S k' =>
      do c <- bin_column fc i start in
      do w <- hlift (bin_column_size (c_format c)) in
      do r <- bin_columns fc k' (S i) ((start + w) mod two64)%N in
      hret (c :: r)
  end.

(** ascii_table.hpp:175-220. *)
Definition ascii_column (fc : fcodec) (i : nat) : hdo column :=
  do form <- value_str fc (indexed "TFORM" i) in
  do start <- value_size fc (indexed "TBCOL" i) in
  do nc <- name_and_comment fc i in
  do unit <- try_out_of_range (value_str fc (indexed "TUNIT" i)) in
  do scal <- try_out_of_range (value_double fc (indexed "TSCAL" i)) in
  do zro <- try_out_of_range (value_double fc (indexed "TZERO" i)) in
  hret (mk_column i (fst nc) start form (or_blank unit) scal zro [] [] (snd nc) 0).

(** ascii_table.hpp:173-222. *)
Fixpoint ascii_columns (fc : fcodec) (k i : nat) : hdo (list column) :=
  match k with
  | O => hret []
  | S k' => do c <- ascii_column fc i in do r <- ascii_columns fc k' (S i) in hret (c :: r)
  end.

(** ** Tables *)

(** table_extension.hpp:28-33. [t_extname], [t_gcount], [t_pcount] have no accessor and are left out. *)
Record table : Type := mk_table {
  t_header : header;
  t_fields : N;
  t_columns : list column;
  t_data : list (list str)
}.

(** vector<column>::max_size() with sizeof(column) = 232, vector<vector<string>>::max_size() with
    24 bytes each, on a 64-bit libstdc++. *)
Definition max_columns : N := (max_size / 232)%N.
Definition max_rows : N := (max_size / 24)%N.

(** extension_hdu.hpp:58-62 and table_extension.hpp:101-104. *)
Definition table_info (fc : fcodec) : hdo N :=
  do g <- value_of fc TInt (lit "GCOUNT") in
  do p <- value_of fc TInt (lit "PCOUNT") in
  do e <- value_of fc TStr (lit "EXTNAME") in
  do n <- value_size fc (lit "TFIELDS") in
  if (max_columns <? n)%N then hlift (Throw LengthError) else hret n.

(** binary_table.hpp:337-349, one row: consecutive slices, each trimmed. *)
Fixpoint bin_read_row (cols : list column) (buf : str) : outcome (list str * str) :=
  match cols with
  | [] => Ret ([], buf)
  | c :: r =>
      let! w := bin_column_size (c_format c) in
      if (w <=? N.of_nat (length buf))%N then
        let! p := bin_read_row r (skipn (N.to_nat w) buf) in
        Ret (trim (firstn (N.to_nat w) buf) :: fst p, snd p)
      else Undef
  end.

Fixpoint bin_read_rows (n : nat) (cols : list column) (buf : str) : outcome (list (list str)) :=
  match n with
  | O => Ret []
  | S m =>
      let! p := bin_read_row cols buf in
      let! r := bin_read_rows m cols (snd p) in
      Ret (fst p :: r)
  end.

(** binary_table.hpp:322-350. The row counter is an int: 2^31 rows overflow it. Without columns
    col_metadata_[0] does not exist. *)
Definition bin_table_data (rows : N) (cols : list column) (buf : str) : outcome (list (list str)) :=
  if (max_rows <? rows)%N then Throw LengthError
  else if (rows =? 0)%N then Ret []
  else match cols with
       | [] => Undef
       | _ =>
           let! d := bin_read_rows (N.to_nat rows) cols buf in
           if (2 ^ 31 <=? rows)%N then Undef else Ret d
       end.

(** ascii_table.hpp:252-254, one field. The position is computed with iterator arithmetic, every step of
    which has to stay inside the buffer; only the product is unsigned and may wrap. *)
Definition ascii_field (row : nat) (width : N) (c : column) (buf : str) : outcome str :=
  let a := mul64 (N.of_nat row) width in
  let b := (a + c_start c)%N in
  if (N.of_nat (length buf) <? b)%N then Undef
  else if (b =? 0)%N then Undef
  else
    let! w := ascii_column_size (c_format c) in
    if (b - 1 + w <=? N.of_nat (length buf))%N then
      Ret (trim (firstn (N.to_nat w) (skipn (N.to_nat (b - 1)) buf)))
    else Undef.

Fixpoint ascii_read_row (row : nat) (width : N) (cols : list column) (buf : str) : outcome (list str) :=
  match cols with
  | [] => Ret []
  | c :: r =>
      let! x := ascii_field row width c buf in
      let! y := ascii_read_row row width r buf in
      Ret (x :: y)
  end.

Fixpoint ascii_read_rows (n row : nat) (width : N) (cols : list column) (buf : str) : outcome (list (list str)) :=
  match n with
  | O => Ret []
  | S m =>
      let! x := ascii_read_row row width cols buf in
      let! y := ascii_read_rows m (S row) width cols buf in
      Ret (x :: y)
  end.

(** ascii_table.hpp:240-264. *)
Definition ascii_table_data (rows width : N) (cols : list column) (buf : str) : outcome (list (list str)) :=
  if (max_rows <? rows)%N then Throw LengthError
  else if (rows =? 0)%N then Ret []
  else match cols with
       | [] => Undef
       | _ =>
           let! d := ascii_read_rows (N.to_nat rows) 0 width cols buf in
           if (2 ^ 31 <=? rows)%N then Undef else Ret d
       end.

(** binary_table.hpp:311-316 and 322-326: the columns and the data of an object whose data was [old]. *)
Definition bin_fill (fc : fcodec) (fields : N) (old : list (list str)) (buf : str) : hdo (list column * list (list str)) :=
  do cols <- bin_columns fc (N.to_nat fields) 1 0 in
  match buf with
  | [] => hret (cols, old)
  | _ => fun h =>
      (h, let! rows := naxis 2 h in
          let! width := naxis 1 h in
          let! d := bin_table_data rows cols buf in
          Ret (cols, d))
  end.

(** ascii_table.hpp:228-235 and 242-244. *)
Definition ascii_fill (fc : fcodec) (fields : N) (old : list (list str)) (buf : str) : hdo (list column * list (list str)) :=
  do cols <- ascii_columns fc (N.to_nat fields) 1 in
  match buf with
  | [] => hret (cols, old)
  | _ => fun h =>
      (h, let! rows := naxis 2 h in
          let! width := naxis 1 h in
          let! d := ascii_table_data rows width cols buf in
          Ret (cols, d))
  end.

(** binary_table.hpp:88-92 / ascii_table.hpp:65-67: construction from a header and a data buffer. *)
Definition make_table (fill : N -> list (list str) -> str -> hdo (list column * list (list str)))
  (fc : fcodec) (h : header) (buf : str) : outcome table :=
  match (do n <- table_info fc in do r <- fill n [] buf in hret (n, r)) h with
  | (h1, Ret (n, (cols, d))) => Ret (mk_table h1 n cols d)
  | (_, Throw e) => Throw e
  | (_, Undef) => Undef
  | (_, NoFuel) => NoFuel
  end.
Definition binary_table (fc : fcodec) : header -> str -> outcome table := make_table (bin_fill fc) fc.
Definition ascii_table (fc : fcodec) : header -> str -> outcome table := make_table (ascii_fill fc) fc.

(** binary_table.hpp:144-148 / ascii_table.hpp:73-77. *)
Definition set_data (fill : N -> list (list str) -> str -> hdo (list column * list (list str)))
  (buf : str) (t : table) : outcome table :=
  match fill (t_fields t) (t_data t) buf (t_header t) with
  | (h1, Ret (cols, d)) => Ret (mk_table h1 (t_fields t) cols d)
  | (_, Throw e) => Throw e
  | (_, Undef) => Undef
  | (_, NoFuel) => NoFuel
  end.
Definition bin_set_data (fc : fcodec) : str -> table -> outcome table := set_data (bin_fill fc).
Definition ascii_set_data (fc : fcodec) : str -> table -> outcome table := set_data (ascii_fill fc).

(** table_extension.hpp:67-73. *)
Definition get_column_metadata (name : str) (t : table) : outcome column :=
  match find (fun c => str_eqb name (c_name c)) (t_columns t) with
  | Some c => Ret c
  | None => Throw ColumnNotFound
  end.

(** ** Writing *)

(** binary_table.hpp:124-133: the text of one row. *)
Definition bin_row_text (row : list str) : str := concat row.

(** binary_table.hpp:120-138. *)
Definition bin_write (t : table) (s : stream) : stream :=
  write_padding (fold_left (fun s row => stream_write (bin_row_text row) s) (t_data t) (write_header (t_header t) s)).

(** ascii_table.hpp:152-156: each field is right-justified in its column; std::string(n, ' ') with a
    negative n throws length_error. *)
Fixpoint ascii_row_text (cols : list column) (row : list str) : outcome str :=
  match row with
  | [] => Ret []
  | cell :: row' =>
      match cols with
      | [] => Undef
      | c :: cols' =>
          let! w := ascii_column_size (c_format c) in
          let n := sub64 w (N.of_nat (length cell)) in
          if (max_size <? n)%N then Throw LengthError
          else
            let! r := ascii_row_text cols' row' in
            Ret (spaces (N.to_nat n) ++ cell ++ r)
      end
  end.

Fixpoint ascii_write_rows (cols : list column) (rows : list (list str)) (s : stream) : stream * outcome unit :=
  match rows with
  | [] => (s, Ret tt)
  | row :: rest =>
      match ascii_row_text cols row with
      | Ret x => ascii_write_rows cols rest (stream_write x s)
      | Throw e => (s, Throw e)
      | Undef => (s, Undef)
      | NoFuel => (s, NoFuel)
      end
  end.

(** ascii_table.hpp:144-163. *)
Definition ascii_write (t : table) (s : stream) : stream * outcome unit :=
  match ascii_write_rows (t_columns t) (t_data t) (write_header (t_header t) s) with
  | (s1, Ret _) => (write_padding s1, Ret tt)
  | (s1, r) => (s1, r)
  end.
