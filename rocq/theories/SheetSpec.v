(** * A table as a sheet of typed columns. *)
From Coq Require Import String Ascii List Arith NArith ZArith.
Import ListNotations.
From Verif Require Import CppModel TableModel ViewModel SheetModel.
Open Scope list_scope.

(** What has been done to a table since it was made: the type each column was first asked for under, and
    the value last entered in each row of each column. *)
Record sheet (V T : Type) : Type := mk_sheet {
  kind : str -> option T;
  entry : str -> nat -> option V
}.
Arguments mk_sheet {V T}.
Arguments kind {V T}.
Arguments entry {V T}.

Definition blank_sheet {V T : Type} : sheet V T := mk_sheet (fun _ => None) (fun _ _ => None).

Definition same_name (a b : str) : bool := if list_eq_dec ascii_dec a b then true else false.

(** The first column of that name. *)
Definition named (cols : list column) (name : str) : option column := find (fun c => same_name (c_name c) name) cols.

(** The place of a column in a row. *)
Definition place (c : column) : nat := c_index c - 1.

Section Sheet.

Variable V T : Type.
Variable teqb : T -> T -> bool.
Variable decode : T -> str -> N -> outcome V.
Variable encode : T -> V -> str.
(** The columns of the table and the cells it was made with. *)
Variable cols : list column.
Variable d0 : cells.

(** Asking for a column: there must be one, and once asked for it keeps its type. *)
Definition ask (ty : T) (name : str) (s : sheet V T) : sheet V T * outcome column :=
  match named cols name with
  | None => (s, Throw ColumnNotFound)
  | Some c =>
      match kind s name with
      | Some ty' => (s, if teqb ty ty' then Ret c else Throw BadGet)
      | None => (mk_sheet (fun n => if same_name n name then Some ty else kind s n) (entry s), Ret c)
      end
  end.

(** The value of a row: what was last entered there, else what the cell said in the beginning. *)
Definition value (ty : T) (name : str) (c : column) (i : nat) (s : sheet V T) : outcome V :=
  match entry s name i with
  | Some x => Ret x
  | None => let! t := cell d0 i (place c) in decode ty t (c_elements c)
  end.

Definition entered (name : str) (i : nat) (x : V) (s : sheet V T) : sheet V T :=
  mk_sheet (kind s) (fun n j => if same_name n name && Nat.eqb j i then Some x else entry s n j).

(** The text of a cell: that of the value last entered in the column there, else as in the beginning.
    Only the first column of a name can be entered. *)
Definition text_at (i j : nat) (s : sheet V T) : outcome str :=
  match find (fun c => Nat.eqb (place c) j) cols with
  | Some c =>
      match kind s (c_name c), entry s (c_name c) i with
      | Some ty, Some x =>
          match named cols (c_name c) with
          | Some c' => if Nat.eqb (place c') j then Ret (encode ty x) else cell d0 i j
          | None => cell d0 i j
          end
      | _, _ => cell d0 i j
      end
  | None => cell d0 i j
  end.

Definition sheet_step (u : tuse V T) (s : sheet V T) : sheet V T * tanswer V :=
  match u with
  | UAsk ty name =>
      let (s', r) := ask ty name s in (s', AAsk (let! _ := r in Ret tt))
  | ULook ty name i =>
      let (s', r) := ask ty name s in (s', ALook (let! c := r in value ty name c i s'))
  | UEnter ty name i x =>
      let (s', r) := ask ty name s in
      match (let! c := r in value ty name c i s') with
      | Ret _ => (entered name i x s', AEnter (Ret tt))
      | Throw e => (s', AEnter (Throw e))
      | Undef => (s', AEnter Undef)
      | NoFuel => (s', AEnter NoFuel)
      end
  | URaw i j => (s, ARaw (text_at i j s))
  end.

Fixpoint sheet_run (us : list (tuse V T)) (s : sheet V T) : sheet V T * list (tanswer V) :=
  match us with
  | [] => (s, [])
  | u :: rest =>
      let (s1, a) := sheet_step u s in
      let (s2, l) := sheet_run rest s1 in
      (s2, a :: l)
  end.

End Sheet.

Arguments ask {V T}.
Arguments value {V T}.
Arguments entered {V T}.
Arguments text_at {V T}.
Arguments sheet_step {V T}.
Arguments sheet_run {V T}.


(** The use does not enter anything in that row of that column. *)
Definition leaves {V T : Type} (name : str) (i : nat) (u : tuse V T) : Prop :=
  match u with UEnter _ n j _ => n <> name \/ j <> i | _ => True end.

(** The use enters nothing. *)
Definition looks {V T : Type} (u : tuse V T) : Prop :=
  match u with UEnter _ _ _ _ => False | _ => True end.

(** The use is of that column. *)
Definition of_column {V T : Type} (name : str) (u : tuse V T) : Prop :=
  match u with UAsk _ n | ULook _ n _ | UEnter _ n _ _ => n = name | URaw _ _ => False end.
