(** * Model of set_data() of the tables with the object it leaves behind when it throws.

    include/boost/astronomy/io/binary_table.hpp, include/boost/astronomy/io/ascii_table.hpp

    [TableModel.set_data] says what set_data() returns; here are also the cells that have been replaced by then. *)
From Verif Require Export TableModel.

(** The cells of one row in the order in which they are set, up to the first that fails (ascii_table.hpp:256-267). *)
Fixpoint fill_row (row : nat) (width : N) (cols : list column) (buf : str) : list str * outcome unit :=
  match cols with
  | [] => ([], Ret tt)
  | c :: r =>
      match ascii_field row width c buf with
      | Ret x => let (y, o) := fill_row row width r buf in (x :: y, o)
      | Throw e => ([], Throw e)
      | Undef => ([], Undef)
      | NoFuel => ([], NoFuel)
      end
  end.

(** The cells that are not reached stay as they were initialised, empty (ascii_table.hpp:250-251). *)
Definition blank_after (fields : nat) (cells : list str) : list str := cells ++ repeat [] (fields - length cells).

(** [n] rows from number [row] on. *)
Fixpoint fill_rows (n row : nat) (width : N) (cols : list column) (buf : str) : list (list str) * outcome unit :=
  match n with
  | O => ([], Ret tt)
  | S m =>
      match fill_row row width cols buf with
      | (x, Ret _) => let (y, o) := fill_rows m (S row) width cols buf in (x :: y, o)
      | (x, o) => (blank_after (length cols) x :: repeat (repeat [] (length cols)) m, o)
      end
  end.

(** ascii_table.hpp:244-269: the cells of an object whose cells were [old], and how it ends. The new matrix takes the place of
    the old one once it could be allocated. *)
Definition ascii_refill (rows width : N) (cols : list column) (old : list (list str)) (buf : str) : list (list str) * outcome unit :=
  if (max_rows <? rows)%N then (old, Throw LengthError)
  else if (rows =? 0)%N then ([], Ret tt)
  else match cols with
       | [] => (old, Undef)
       | _ => let (d, o) := fill_rows (N.to_nat rows) 0 width cols buf in
              match o with Ret _ => if (2 ^ 31 <=? rows)%N then (d, Undef) else (d, Ret tt) | _ => (d, o) end
       end.

(** binary_table.hpp:88-92: the same for a binary table. The widths of its columns have been computed with the metadata, so
    that reading a cell does not throw (shown in [RefillProofs]); no cells are given for one that did. *)
Definition bin_refill (rows : N) (cols : list column) (old : list (list str)) (buf : str) : list (list str) * outcome unit :=
  if (max_rows <? rows)%N then (old, Throw LengthError)
  else match bin_table_data rows cols buf with
       | Ret d => (d, Ret tt)
       | Throw e => (old, Throw e)
       | Undef => (old, Undef)
       | NoFuel => (old, NoFuel)
       end.

(** binary_table.hpp:144-148, ascii_table.hpp:73-77: the object afterwards and how the call ends. The metadata are read again
    first; that this cannot fail for an object that has been constructed is shown in [RefillProofs], and the object is given
    as it was if it did. *)
Definition set_data_state (columns : nat -> hdo (list column)) (refill : N -> N -> list column -> list (list str) -> str -> list (list str) * outcome unit)
  (buf : str) (t : table) : table * outcome unit :=
  match columns (N.to_nat (t_fields t)) (t_header t) with
  | (h1, Ret cols) =>
      match buf with
      | [] => (mk_table h1 (t_fields t) cols (t_data t), Ret tt)
      | _ =>
          match naxis 2 h1, naxis 1 h1 with
          | Ret rows, Ret width =>
              let (d, o) := refill rows width cols (t_data t) buf in (mk_table h1 (t_fields t) cols d, o)
          | _, _ => (t, Undef)
          end
      end
  | (_, Throw e) => (t, Throw e)
  | (_, Undef) => (t, Undef)
  | (_, NoFuel) => (t, NoFuel)
  end.
Definition bin_set_data_state (fc : fcodec) : str -> table -> table * outcome unit :=
  set_data_state (fun k => bin_columns fc k 1 0) (fun rows _ => bin_refill rows).
Definition ascii_set_data_state (fc : fcodec) : str -> table -> table * outcome unit :=
  set_data_state (fun k => ascii_columns fc k 1) ascii_refill.
