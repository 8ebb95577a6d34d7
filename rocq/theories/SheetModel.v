(** * Model of a table object used through its columns.

    include/boost/astronomy/io/binary_table.hpp:102-112
    include/boost/astronomy/io/ascii_table.hpp:86-97
    include/boost/astronomy/io/column_data.hpp:147-167
    include/boost/astronomy/io/table_extension.hpp:86-94 *)
From Verif Require Export ViewModel.

Section Sheet.

Variable V T : Type.
Variable teqb : T -> T -> bool.
Variable decode : T -> str -> N -> outcome V.
Variable encode : T -> V -> str.

(** What a program does with one table: get_column<ty>(name), get_column<ty>(name)[i] read,
    get_column<ty>(name)[i] = x, and get_data()[i][j] read. *)
Inductive tuse : Type :=
| UAsk (ty : T) (name : str)
| ULook (ty : T) (name : str) (i : nat)
| UEnter (ty : T) (name : str) (i : nat) (x : V)
| URaw (i j : nat).

(** What it is told: the request was granted or not, a value, the assignment was done or not, a text. *)
Inductive tanswer : Type :=
| AAsk (o : outcome unit)
| ALook (o : outcome V)
| AEnter (o : outcome unit)
| ARaw (o : outcome str).

Definition granted {A : Type} (o : outcome A) : outcome unit := let! _ := o in Ret tt.

(** table_extension.hpp:86-94: get_data()[i][j]. *)
Definition raw_read (k i j : nat) (st : store V T) : outcome str :=
  let! o := obj_at st k in cell (t_data (o_table o)) i j.

Definition table_step (k : nat) (u : tuse) (st : store V T) : store V T * tanswer :=
  match u with
  | UAsk ty name => let (st', r) := get_column teqb k ty name st in (st', AAsk (granted r))
  | ULook ty name i => let (st', r) := column_read teqb decode k ty name i st in (st', ALook r)
  | UEnter ty name i x => let (st', r) := column_assign teqb decode encode k ty name i x st in (st', AEnter r)
  | URaw i j => (st, ARaw (raw_read k i j st))
  end.

Fixpoint table_run (k : nat) (us : list tuse) (st : store V T) : store V T * list tanswer :=
  match us with
  | [] => (st, [])
  | u :: rest =>
      let (st1, a) := table_step k u st in
      let (st2, l) := table_run k rest st1 in
      (st2, a :: l)
  end.

End Sheet.

Arguments UAsk {V T}.
Arguments ULook {V T}.
Arguments UEnter {V T}.
Arguments URaw {V T}.
Arguments AAsk {V}.
Arguments ALook {V}.
Arguments AEnter {V}.
Arguments ARaw {V}.
Arguments raw_read {V T}.
Arguments table_step {V T}.
Arguments table_run {V T}.
