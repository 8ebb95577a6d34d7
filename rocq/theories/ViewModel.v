(** * Model of column views.

    include/boost/astronomy/io/column_data.hpp
    include/boost/astronomy/io/table_extension.hpp:81-94
    include/boost/astronomy/io/binary_table.hpp:40-70, 102-112
    include/boost/astronomy/io/ascii_table.hpp:40-50, 86-97

    Rows are natural numbers: a negative int row is undefined like any other row outside the table. A
    reference to a column is used immediately (get_column<T>(name)[i]), as an Proxy object is. *)
From Verif Require Export TableModel.

Section Views.

(** The values of a column, the data types a column can be asked for (the alternatives of the variant),
    and the converter policy: deserialize_to<T>(text, count) and serialize. *)
Variable V T : Type.
Variable teqb : T -> T -> bool.
Variable decode : T -> str -> N -> outcome V.
Variable encode : T -> V -> str.

(** ** Cells *)

Definition cells : Type := list (list str).

(** (ptr-to-table)[row][col]: a vector access outside is undefined. *)
Definition cell (d : cells) (row col : nat) : outcome str :=
  match nth_error d row with
  | Some r => match nth_error r col with Some s => Ret s | None => Undef end
  | None => Undef
  end.

Definition set_cell (d : cells) (row col : nat) (s : str) : outcome cells :=
  match nth_error d row with
  | Some r => if col <? length r then Ret (replace_nth row (replace_nth col s r) d) else Undef
  | None => Undef
  end.

(** ** One view *)

(** column_data.hpp:66-70: the metadata, the values seen so far, and which table table_ref points to. *)
Record view : Type := mk_view {
  v_table : nat;
  v_col : column;
  v_cache : list (nat * V)
}.

Fixpoint cache_find (i : nat) (l : list (nat * V)) : option V :=
  match l with
  | [] => None
  | (j, x) :: r => if Nat.eqb i j then Some x else cache_find i r
  end.

(** index() - 1. *)
Definition v_pos (v : view) : nat := c_index (v_col v) - 1.

(** column_data.hpp:156-167, operator[] read as a value. *)
Definition view_read (t : T) (i : nat) (d : cells) (v : view) : view * outcome V :=
  match cache_find i (v_cache v) with
  | Some x => (v, Ret x)
  | None =>
      match (let! s := cell d i (v_pos v) in decode t s (c_elements (v_col v))) with
      | Ret x => (mk_view (v_table v) (v_col v) ((i, x) :: v_cache v), Ret x)
      | Throw e => (v, Throw e)
      | Undef => (v, Undef)
      | NoFuel => (v, NoFuel)
      end
  end.

(** column_data.hpp:147-150. *)
Definition view_update (t : T) (i : nat) (x : V) (d : cells) (v : view) : view * cells * outcome unit :=
  let v' := mk_view (v_table v) (v_col v) ((i, x) :: v_cache v) in
  match set_cell d i (v_pos v) (encode t x) with
  | Ret d' => (v', d', Ret tt)
  | Throw e => (v', d, Throw e)
  | Undef => (v', d, Undef)
  | NoFuel => (v', d, NoFuel)
  end.

(** view[i] = x: operator[] makes the proxy first (column_data.hpp:52-55, 156-167). *)
Definition view_assign (t : T) (i : nat) (x : V) (d : cells) (v : view) : view * cells * outcome unit :=
  match view_read t i d v with
  | (v', Ret _) => view_update t i x d v'
  | (v', Throw e) => (v', d, Throw e)
  | (v', Undef) => (v', d, Undef)
  | (v', NoFuel) => (v', d, NoFuel)
  end.

(** column_data.hpp:88-142: the range-for loop over a view, reading every row from [i] on. *)
Fixpoint view_iterate (t : T) (n i : nat) (d : cells) (v : view) : view * outcome (list V) :=
  match n with
  | O => (v, Ret [])
  | S m =>
      match view_read t i d v with
      | (v1, Ret x) =>
          match view_iterate t m (S i) d v1 with
          | (v2, Ret l) => (v2, Ret (x :: l))
          | (v2, r) => (v2, r)
          end
      | (v1, Throw e) => (v1, Throw e)
      | (v1, Undef) => (v1, Undef)
      | (v1, NoFuel) => (v1, NoFuel)
      end
  end.
Definition view_all (t : T) (d : cells) (v : view) : view * outcome (list V) := view_iterate t (length d) 0 d v.

(** A use of a view: reading a row, assigning to a row, update_value(), or a change of the table behind
    it through get_data() or set_data(). *)
Inductive vop : Type :=
| VRead (i : nat)
| VAssign (i : nat) (x : V)
| VUpdate (i : nat) (x : V)
| VBehind (d : cells).

(** What a use of the view reports. *)
Inductive vres : Type :=
| RValue (o : outcome V)
| RDone (o : outcome unit).

Definition view_step (t : T) (op : vop) (st : view * cells) : (view * cells) * vres :=
  let (v, d) := st in
  match op with
  | VRead i => let (v', r) := view_read t i d v in ((v', d), RValue r)
  | VAssign i x => let '(v', d', r) := view_assign t i x d v in ((v', d'), RDone r)
  | VUpdate i x => let '(v', d', r) := view_update t i x d v in ((v', d'), RDone r)
  | VBehind d' => ((v, d'), RDone (Ret tt))
  end.

Fixpoint view_run (t : T) (ops : list vop) (st : view * cells) : (view * cells) * list vres :=
  match ops with
  | [] => (st, [])
  | op :: rest =>
      let (st1, r) := view_step t op st in
      let (st2, rs) := view_run t rest st1 in
      (st2, r :: rs)
  end.

(** ** Table objects

    A table with its cached views, in a store of objects: a view points to the cells of the object it
    was made for. [None] is a destroyed object. *)
Record tobj : Type := mk_tobj {
  o_table : table;
  o_views : list (str * (T * view))
}.
Definition store : Type := list (option tobj).

Definition obj_at (st : store) (k : nat) : outcome tobj :=
  match nth_error st k with Some (Some o) => Ret o | _ => Undef end.
Definition put (st : store) (k : nat) (o : tobj) : store := replace_nth k (Some o) st.

Definition with_data (t : table) (d : cells) : table := mk_table (t_header t) (t_fields t) (t_columns t) d.

(** binary_table.hpp:102-112: the view under that name, made on the first request; boost::get of
    another alternative throws bad_get. *)
Definition get_column (k : nat) (ty : T) (name : str) (st : store) : store * outcome view :=
  match obj_at st k with
  | Ret o =>
      match map_find name (o_views o) with
      | Some (ty', v) => (st, if teqb ty ty' then Ret v else Throw BadGet)
      | None =>
          match get_column_metadata name (o_table o) with
          | Ret c =>
              let v := mk_view k c [] in
              (put st k (mk_tobj (o_table o) (map_set name (ty, v) (o_views o))), Ret v)
          | Throw e => (st, Throw e)
          | Undef => (st, Undef)
          | NoFuel => (st, NoFuel)
          end
      end
  | _ => (st, Undef)
  end.

(** Storing back a view and the cells it points to. *)
Definition put_view (k : nat) (ty : T) (name : str) (v : view) (st : store) : store :=
  match obj_at st k with
  | Ret o => put st k (mk_tobj (o_table o) (map_set name (ty, v) (o_views o)))
  | _ => st
  end.
Definition put_cells (k : nat) (d : cells) (st : store) : store :=
  match obj_at st k with
  | Ret o => put st k (mk_tobj (with_data (o_table o) d) (o_views o))
  | _ => st
  end.

(** object.get_column<ty>(name)[i], read. *)
Definition column_read (k : nat) (ty : T) (name : str) (i : nat) (st : store) : store * outcome V :=
  match get_column k ty name st with
  | (st1, Ret v) =>
      match obj_at st1 (v_table v) with
      | Ret o => let (v', r) := view_read ty i (t_data (o_table o)) v in (put_view k ty name v' st1, r)
      | _ => (st1, Undef)
      end
  | (st1, Throw e) => (st1, Throw e)
  | (st1, Undef) => (st1, Undef)
  | (st1, NoFuel) => (st1, NoFuel)
  end.

(** object.get_column<ty>(name)[i] = x. *)
Definition column_assign (k : nat) (ty : T) (name : str) (i : nat) (x : V) (st : store) : store * outcome unit :=
  match get_column k ty name st with
  | (st1, Ret v) =>
      match obj_at st1 (v_table v) with
      | Ret o =>
          let '(v', d', r) := view_assign ty i x (t_data (o_table o)) v in
          (put_cells (v_table v) d' (put_view k ty name v' st1), r)
      | _ => (st1, Undef)
      end
  | (st1, Throw e) => (st1, Throw e)
  | (st1, Undef) => (st1, Undef)
  | (st1, NoFuel) => (st1, NoFuel)
  end.

(** What a program does with table objects. [OReplace] is set_data() (the cached views stay) or an
    assignment to the cells through get_data(); [OCopy] is the implicit copy constructor. *)
Inductive oop : Type :=
| OGet (k : nat) (ty : T) (name : str)
| ORead (k : nat) (ty : T) (name : str) (i : nat)
| OAssign (k : nat) (ty : T) (name : str) (i : nat) (x : V)
| OReplace (k : nat) (t : table)
| OCopy (k : nat)
| ODestroy (k : nat).

Definition obj_step (op : oop) (st : store) : store :=
  match op with
  | OGet k ty name => fst (get_column k ty name st)
  | ORead k ty name i => fst (column_read k ty name i st)
  | OAssign k ty name i x => fst (column_assign k ty name i x st)
  | OReplace k t => match obj_at st k with Ret o => put st k (mk_tobj t (o_views o)) | _ => st end
  | OCopy k => match obj_at st k with Ret o => st ++ [Some o] | _ => st end
  | ODestroy k => replace_nth k None st
  end.
Definition obj_run (ops : list oop) (st : store) : store := fold_left (fun s op => obj_step op s) ops st.

End Views.

Arguments view V : clear implicits.
Arguments mk_view {V}.
Arguments v_table {V}.
Arguments v_col {V}.
Arguments v_cache {V}.
Arguments v_pos {V}.
Arguments cache_find {V}.
Arguments VRead {V}.
Arguments VAssign {V}.
Arguments VUpdate {V}.
Arguments VBehind {V}.
Arguments RValue {V}.
Arguments RDone {V}.
Arguments view_read {V T}.
Arguments view_update {V T}.
Arguments view_assign {V T}.
Arguments view_iterate {V T}.
Arguments view_all {V T}.
Arguments view_step {V T}.
Arguments view_run {V T}.
Arguments mk_tobj {V T}.
Arguments o_table {V T}.
Arguments o_views {V T}.
Arguments obj_at {V T}.
Arguments put {V T}.
Arguments get_column {V T}.
Arguments put_view {V T}.
Arguments put_cells {V T}.
Arguments column_read {V T}.
Arguments column_assign {V T}.
Arguments OGet {V T}.
Arguments ORead {V T}.
Arguments OAssign {V T}.
Arguments OReplace {V T}.
Arguments OCopy {V T}.
Arguments ODestroy {V T}.
Arguments obj_step {V T}.
Arguments obj_run {V T}.

(** ** The two converter policies *)

(** The data types of a binary table column (binary_table.hpp:42-70): an element type, single or vector.
    char and uint8_t are one type here. *)
Definition bin_coltype : Type := (ety * bool)%type.
Definition ety_eqb (a b : ety) : bool :=
  match a, b with
  | EBool, EBool | EByte, EByte | EI8, EI8 | EI16, EI16 | EI32, EI32 | EF32, EF32 | EF64, EF64
  | EC32, EC32 | EC64, EC64 | EPair, EPair => true
  | _, _ => false
  end.
Definition bin_coltype_eqb (a b : bin_coltype) : bool := ety_eqb (fst a) (fst b) && Bool.eqb (snd a) (snd b).

(** deserialize_to<T>(text, int count): the repeat count is converted to int; a count of 2^31 or more
    becomes negative or small and is left undefined here. *)
Definition bin_decode (t : bin_coltype) (s : str) (n : N) : outcome (list elem) :=
  if snd t then (if (n <? 2 ^ 31)%N then bin_deserialize_vec (fst t) s (N.to_nat n) else Undef)
  else let! x := bin_deserialize (fst t) s in Ret [x].
Definition bin_encode (t : bin_coltype) (l : list elem) : str := bin_serialize_vec (fst t) l.

(** The data types of an ASCII table column (ascii_table.hpp:40-50) except std::string, whose
    serialize() does not compile. *)
Inductive ascii_coltype : Type := ALong | AFloat | ADouble.
Inductive ascii_value : Type := AVLong (z : Z) | AVFloat (w : N) | AVDouble (w : N).

(** string_conversion_utility.hpp:33-41. *)
Definition ascii_decode (fc : fcodec) (t : ascii_coltype) (s : str) (n : N) : outcome ascii_value :=
  match t with
  | ALong => match cast_signed 64 s with Some z => Ret (AVLong z) | None => Throw InvalidCast end
  | AFloat => match f32_read fc s with Some w => Ret (AVFloat w) | None => Throw InvalidCast end
  | ADouble => match f64_read fc s with Some w => Ret (AVDouble w) | None => Throw InvalidCast end
  end.
(** string_conversion_utility.hpp:48-60. *)
Definition ascii_encode (fc : fcodec) (t : ascii_coltype) (x : ascii_value) : str :=
  match x with
  | AVLong z => show_Z z
  | AVFloat w => f32_show fc w
  | AVDouble w => f64_show fc w
  end.
