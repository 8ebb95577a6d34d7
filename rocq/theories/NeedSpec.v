(** * Which records of a FITS file the library cannot do without. *)
From Coq Require Import String Ascii List Arith NArith.
Import ListNotations.
From Verif Require Import CppModel HeaderSpec TableSpec WholeSpec.
Open Scope list_scope.

(** All records of a keyword taken out of a header. *)
Definition without (key : str) (rs : list str) : list str := filter (fun r => negb (str_eqb (record_key r) key)) rs.

(** The keywords asked for by every table, and by every column. *)
Definition table_needs (key : str) : Prop := In key [lit "XTENSION"; lit "GCOUNT"; lit "PCOUNT"; lit "EXTNAME"; lit "TFIELDS"].
Definition needs (x : contents) (key : str) : Prop :=
  match x with
  | Image _ _ _ => key = lit "SIMPLE" \/ key = lit "EXTEND"
  | Cells cols _ => table_needs key \/ exists i, 1 <= i <= length cols /\ key = numbered "TFORM" i
  | Lines cols _ _ => table_needs key \/ exists i, 1 <= i <= length cols /\ (key = numbered "TFORM" i \/ key = numbered "TBCOL" i)
  end.

(** Those that say how much data there is. *)
Definition axis_count (x : contents) : nat := match x with Image _ axes _ => length axes | _ => 2 end.
Definition sizes (x : contents) (key : str) : Prop :=
  key = lit "BITPIX" \/ key = lit "NAXIS" \/ exists i, 1 <= i <= axis_count x /\ key = axis_key i.

(** All other keywords. *)
Definition spare (x : contents) (key : str) : Prop := ~ needs x key /\ ~ sizes x key /\ key <> lit "END".

(** What is left of a content: a column without TTYPE has no name, without TUNIT no unit, and so on. *)
Definition unless {A : Type} (key k : str) (none a : A) : A := if str_eqb key k then none else a.
Definition forget_about (key : str) (i : nat) (a : about) : about :=
  mk_about (unless key (numbered "TTYPE" i) [] (a_name a)) (a_form a) (unless key (numbered "TUNIT" i) None (a_unit a))
    (unless key (numbered "TSCAL" i) None (a_scale a)) (unless key (numbered "TZERO" i) None (a_zero a)).
Definition forget_bin (key : str) (i : nat) (c : bin_col) : bin_col :=
  mk_bin_col (forget_about key i (bc_about c)) (bc_count c) (bc_width c)
    (unless key (numbered "TDISP" i) None (bc_display c)) (unless key (numbered "TDIM" i) None (bc_dimension c)).
Definition forget_text (key : str) (i : nat) (c : text_col) : text_col :=
  mk_text_col (forget_about key i (tc_about c)) (tc_start c) (tc_width c).
Fixpoint numbering {A B : Type} (f : nat -> A -> B) (i : nat) (l : list A) : list B :=
  match l with [] => [] | a :: r => f i a :: numbering f (S i) r end.
Definition forget (key : str) (x : contents) : contents :=
  match x with
  | Image _ _ _ => x
  | Cells cols rows => Cells (numbering (forget_bin key) 1 cols) rows
  | Lines cols line rows => Lines (numbering (forget_text key) 1 cols) line rows
  end.

(** The stored HDU without those records. *)
Definition deprived (key : str) (u : stored) : stored :=
  mk_stored (forget key (s_content u)) (without key (s_records u)) (s_data u) (s_fill u).
Definition less (u v : stored) : Prop := v = u \/ exists key, spare (s_content u) key /\ v = deprived key u.

(** FITS: SIMPLE or XTENSION is the first record (and there is one only). *)
Definition begins (x : contents) (rs : list str) : Prop :=
  nth_error rs 0 = last_record (match x with Image _ _ _ => lit "SIMPLE" | _ => lit "XTENSION" end) rs.
