(** * Values of the columns of a table, in terms of the bytes of the file. *)
From Coq Require Import String Ascii List Arith NArith ZArith.
Import ListNotations.
From Verif Require Import CppModel CardSpec HeaderModel TableModel TableSpec ReaderModel ViewModel WholeSpec.
Open Scope list_scope.

(** The first of the columns with that name is number [j] (from 0). *)
Definition first_named {C : Type} (name_of : C -> str) (cols : list C) (name : str) (j : nat) (c : C) : Prop :=
  nth_error cols j = Some c /\ name_of c = name /\
  forall i c', i < j -> nth_error cols i = Some c' -> name_of c' <> name.

(** [s] is the field of a binary table in row [i] (from 0) of that column, [t] the table object made of the file. *)
Definition binary_field (t : table) (name : str) (i : nat) (b : bin_col) (s : str) : Prop :=
  exists cols rows j row, contains (Cells cols rows) (HBinary t) /\
    first_named (fun c => a_name (bc_about c)) cols name j b /\
    nth_error rows i = Some row /\ nth_error row j = Some s /\ length s = bc_width b.

(** The same of an ASCII table. *)
Definition text_field (t : table) (name : str) (i : nat) (s : str) : Prop :=
  exists cols line rows j b r, contains (Lines cols line rows) (HAscii t) /\
    first_named (fun c => a_name (tc_about c)) cols name j b /\
    nth_error rows i = Some r /\ s = slice r (tc_start b - 1) (tc_width b).

(** Object number [k] is the table; the column has not been asked for. *)
Definition untouched {V T : Type} (st : store V T) (k : nat) (t : table) (name : str) : Prop :=
  exists o, obj_at st k = Ret o /\ o_table o = t /\ map_find name (o_views o) = None.
