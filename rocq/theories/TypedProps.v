(** * Property theorems about the column types of binary tables (C60, C129). *)
From Coq Require Import String Ascii List Arith NArith ZArith Bool Lia.
Import ListNotations.
From Verif Require Import CppModel CppProofs CardModel TableModel TableSpec TableProofs ViewModel ViewSpec ViewProofs ViewProps
  TableProps SheetModel SheetSpec SheetProofs SheetOrder SheetProps.
Open Scope list_scope.

(** A column of a binary table that was asked for under one of the types is granted under that type again and refused under each
    of the others with bad_get, whatever is done in between. *)
Theorem C60_binary_types : forall st k ty name st1 v ops,
  get_column bin_coltype_eqb k ty name st = (st1, Ret v) -> Forall (keeps k) ops ->
  let st2 := obj_run bin_coltype_eqb bin_decode bin_encode ops st1 in
  (exists v', snd (get_column bin_coltype_eqb k ty name st2) = Ret v') /\
  (forall ty', ty' <> ty -> get_column bin_coltype_eqb k ty' name st2 = (st2, Throw BadGet)).
Proof.
  intros st k ty name st1 v ops G K.
  exact (C60_first_request_fixes_type _ _ bin_coltype_eqb bin_decode bin_encode bin_coltype_eqb_eq st k ty name st1 v ops G K).
Qed.
Print Assumptions C60_binary_types.

(** A binary table is a sheet; two types are the same for the sheet if they are equal. *)
Definition same_type (a b : bin_coltype) : bool :=
  if (ltac:(repeat decide equality) : {a = b} + {a <> b}) then true else false.

Theorem C129_binary_sheet : forall k t, numbered_columns t -> forall st us, obj_at st k = Ret (mk_tobj t []) ->
  let final := sheet_run same_type bin_decode bin_encode (t_columns t) (t_data t) us blank_sheet in
  exists st' d views,
    table_run bin_coltype_eqb bin_decode bin_encode k us st = (st', snd final) /\
    obj_at st' k = Ret (mk_tobj (with_data t d) views) /\
    (forall j, j <> k -> obj_at st' j = obj_at st j) /\
    length d = length (t_data t) /\
    (forall i, option_map (@length str) (nth_error d i) = option_map (@length str) (nth_error (t_data t) i)) /\
    (forall i j, cell d i j = text_at bin_encode (t_columns t) (t_data t) i j (fst final)).
Proof.
  intros k t N st us O.
  assert (E : forall a b, same_type a b = bin_coltype_eqb a b).
  { intros a b. destruct (bin_coltype_eqb a b) eqn:Q; unfold same_type; destruct (_ : {a = b} + {a <> b}) as [e|n]; try reflexivity.
    - apply bin_coltype_eqb_eq in Q. contradiction.
    - apply bin_coltype_eqb_eq in e. congruence. }
  assert (A : forall ty name s, @ask (list elem) _ same_type (t_columns t) ty name s = ask bin_coltype_eqb (t_columns t) ty name s).
  { intros ty name s. unfold ask. destruct (named _ _); [|reflexivity]. destruct (kind s name); [|reflexivity]. now rewrite E. }
  assert (S : forall u s, sheet_step same_type bin_decode bin_encode (t_columns t) (t_data t) u s =
    sheet_step bin_coltype_eqb bin_decode bin_encode (t_columns t) (t_data t) u s).
  { intros [] s; cbn [sheet_step]; rewrite ?A; reflexivity. }
  assert (R : forall l s, sheet_run same_type bin_decode bin_encode (t_columns t) (t_data t) l s =
    sheet_run bin_coltype_eqb bin_decode bin_encode (t_columns t) (t_data t) l s).
  { induction l as [|u l IH]; intros s; cbn [sheet_run]; [reflexivity|]. rewrite S. destruct (sheet_step _ _ _ _ _ u s) as [s1 a]. now rewrite IH. }
  cbv zeta. rewrite R. exact (C129_sheet _ _ _ _ _ bin_coltype_eqb_eq k t N st us O).
Qed.
Print Assumptions C129_binary_sheet.

Example C60_binary_case : exists st1 v, get_column bin_coltype_eqb 0 int_column (lit "N") ex_store = (st1, Ret v) /\
  (EI16, false) <> int_column /\ snd (get_column bin_coltype_eqb 0 (EI16, false) (lit "N") st1) = Throw BadGet.
Proof. eexists. eexists. split; [reflexivity|]. split; [discriminate|reflexivity]. Qed.
