(** * What a user of column views relies on. *)
From Coq Require Import String Ascii List Arith NArith ZArith.
Import ListNotations.
From Verif Require Import CppModel TableModel ViewModel.
Open Scope list_scope.

(** A column as an array: the value of every row (or what reading it does instead), and what was last
    written to it. *)
Record column_array (V : Type) : Type := mk_array {
  value_in : nat -> outcome V;
  written : nat -> option V
}.
Arguments mk_array {V}.
Arguments value_in {V}.
Arguments written {V}.

Definition at_row {A : Type} (i : nat) (x : A) (f : nat -> A) : nat -> A := fun j => if Nat.eqb j i then x else f j.
Definition store_row {V : Type} (i : nat) (x : V) (a : column_array V) : column_array V :=
  mk_array (at_row i (Ret x) (value_in a)) (at_row i (Some x) (written a)).

Definition array_step {V : Type} (op : vop V) (a : column_array V) : column_array V * vres V :=
  match op with
  | VRead i => (a, RValue (value_in a i))
  | VAssign i x =>
      match value_in a i with
      | Ret _ => (store_row i x a, RDone (Ret tt))
      | Throw e => (a, RDone (Throw e))
      | Undef => (a, RDone Undef)
      | NoFuel => (a, RDone NoFuel)
      end
  | VUpdate i x => (store_row i x a, RDone (Ret tt))
  | VBehind _ => (a, RDone (Ret tt))
  end.

Fixpoint array_run {V : Type} (ops : list (vop V)) (a : column_array V) : column_array V * list (vres V) :=
  match ops with
  | [] => (a, [])
  | op :: rest =>
      let (a1, r) := array_step op a in
      let (a2, rs) := array_run rest a1 in
      (a2, r :: rs)
  end.

(** The column of a table: the decoded cells, nothing written yet. *)
Definition column_of {V T : Type} (decode : T -> str -> N -> outcome V) (t : T) (d : cells) (pos : nat) (count : N)
  : column_array V :=
  mk_array (fun i => match cell d i pos with Ret s => decode t s count | Throw e => Throw e | Undef => Undef | NoFuel => NoFuel end)
    (fun _ => None).

(** Every row of the table has that column. *)
Definition has_column (d : cells) (pos : nat) : Prop := forall r, In r d -> pos < length r.

(** The use stays within the rows of the table, and the table is changed through the view only. *)
Definition within {V : Type} (n : nat) (op : vop V) : Prop :=
  match op with VRead i | VAssign i _ | VUpdate i _ => i < n | VBehind _ => False end.

(** The use does not write row [i] through the view. *)
Definition spares {V : Type} (i : nat) (op : vop V) : Prop :=
  match op with VAssign j _ | VUpdate j _ => j <> i | VRead _ | VBehind _ => True end.

(** The use touches row [i] through the view. *)
Definition avoids {V : Type} (i : nat) (op : vop V) : Prop :=
  match op with VRead j | VAssign j _ | VUpdate j _ => j <> i | VBehind _ => True end.

(** Columns numbered from 1 on. *)
Definition numbered_columns (t : table) : Prop :=
  forall j c, nth_error (t_columns t) j = Some c -> c_index c = S j.

(** The step does not end the life of object [k]. *)
Definition keeps {V T : Type} (k : nat) (op : oop V T) : Prop :=
  match op with ODestroy j => j <> k | _ => True end.

(** The cells of object [k]. *)
Definition cells_of {V T : Type} (st : store V T) (k : nat) : option cells :=
  match nth_error st k with Some (Some o) => Some (t_data (o_table o)) | _ => None end.

(** Every step concerns table [k] only, makes no copy, and leaves the column metadata alone. *)
Definition only {V T : Type} (k : nat) (t : table) (op : oop V T) : Prop :=
  match op with
  | OGet j _ _ | ORead j _ _ _ | OAssign j _ _ _ _ => j = k
  | OReplace j t' => j = k /\ t_columns t' = t_columns t
  | OCopy _ | ODestroy _ => False
  end.
