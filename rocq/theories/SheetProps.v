(** * Property theorems about a table edited through its columns (C129). *)
From Coq Require Import String Ascii List Arith NArith ZArith Bool Lia.
Import ListNotations.
From Verif Require Import CppModel CppProofs CardModel TableModel TableSpec TableProofs ViewModel ViewSpec ViewProofs ViewProps
  TableProps SheetModel SheetSpec SheetProofs SheetOrder.
Open Scope list_scope.

(** ** C129: a table is a sheet of typed columns *)

Theorem C129_sheet : forall (V T : Type) (teqb : T -> T -> bool) (decode : T -> str -> N -> outcome V) (encode : T -> V -> str),
  (forall a b, teqb a b = true <-> a = b) ->
  forall k t, numbered_columns t -> forall st us, obj_at st k = Ret (mk_tobj t []) ->
  let final := sheet_run teqb decode encode (t_columns t) (t_data t) us blank_sheet in
  exists st' d views,
    table_run teqb decode encode k us st = (st', snd final) /\
    obj_at st' k = Ret (mk_tobj (with_data t d) views) /\
    (forall j, j <> k -> obj_at st' j = obj_at st j) /\
    length d = length (t_data t) /\
    (forall i, option_map (@length str) (nth_error d i) = option_map (@length str) (nth_error (t_data t) i)) /\
    (forall i j, cell d i j = text_at encode (t_columns t) (t_data t) i j (fst final)).
Proof. exact table_is_sheet. Qed.
Print Assumptions C129_sheet.

(** The columns of every table made from a header and its data are numbered. *)
Theorem C129_tables : forall fc h buf t, reached fc h -> binary_table fc h buf = Ret t \/ ascii_table fc h buf = Ret t -> numbered_columns t.
Proof.
  intros fc h buf t R [H|H].
  - destruct (C59_binary_columns fc h buf t R H) as (ws & _ & _ & D). intros j c E. exact (proj1 (proj1 (D j c E))).
  - destruct (C59_ascii_columns fc h buf t R H) as (n & _ & _ & D). intros j c E. exact (proj1 (proj1 (D j c E))).
Qed.
Print Assumptions C129_tables.

(** What was entered is seen until something else is entered there. *)
Theorem C129_entry_lasts : forall (V T : Type) (teqb : T -> T -> bool) (decode : T -> str -> N -> outcome V) (encode : T -> V -> str),
  (forall a b, teqb a b = true <-> a = b) ->
  forall k t, numbered_columns t -> forall st, obj_at st k = Ret (mk_tobj t []) ->
  forall us ty name i x us',
  snd (table_step teqb decode encode k (UEnter ty name i x) (fst (table_run teqb decode encode k us st))) = AEnter (Ret tt) ->
  Forall (leaves name i) us' ->
  snd (table_step teqb decode encode k (ULook ty name i)
        (fst (table_run teqb decode encode k (us ++ UEnter ty name i x :: us') st))) = ALook (Ret x).
Proof. exact entry_lasts. Qed.
Print Assumptions C129_entry_lasts.

(** Looking changes nothing of the table. *)
Theorem C129_looking : forall (V T : Type) (teqb : T -> T -> bool) (decode : T -> str -> N -> outcome V) (encode : T -> V -> str),
  (forall a b, teqb a b = true <-> a = b) ->
  forall k t, numbered_columns t -> forall st, obj_at st k = Ret (mk_tobj t []) ->
  forall us, Forall looks us -> exists views, obj_at (fst (table_run teqb decode encode k us st)) k = Ret (mk_tobj t views).
Proof. exact looking. Qed.
Print Assumptions C129_looking.

(** Different columns can be used in either order. *)
Theorem C129_either_order : forall (V T : Type) (teqb : T -> T -> bool) (decode : T -> str -> N -> outcome V) (encode : T -> V -> str),
  (forall a b, teqb a b = true <-> a = b) ->
  forall k t, numbered_columns t -> forall st, obj_at st k = Ret (mk_tobj t []) ->
  forall us a b u v us', of_column a u -> of_column b v -> a <> b ->
  let st1 := fst (table_run teqb decode encode k us st) in
  let after l := fst (table_run teqb decode encode k (us ++ l) st) in
  snd (table_step teqb decode encode k u st1) = snd (table_step teqb decode encode k u (after [v])) /\
  snd (table_step teqb decode encode k v st1) = snd (table_step teqb decode encode k v (after [u])) /\
  snd (table_run teqb decode encode k us' (after [u; v])) = snd (table_run teqb decode encode k us' (after [v; u])) /\
  ViewSpec.cells_of (after [u; v]) k = ViewSpec.cells_of (after [v; u]) k.
Proof.
  intros V T teqb decode encode E k t N st F us a b u v us' A B D st1 after.
  destruct (either_order V T teqb decode encode E k t N st F us a b u v us' A B D) as (H1 & H2 & H3 & H4).
  assert (Nx : forall w, after [w] = fst (table_step teqb decode encode k w st1)).
  { intros w. unfold after, st1. rewrite table_run_app. destruct (table_run teqb decode encode k us st). now rewrite step_run. }
  rewrite !Nx. auto.
Qed.
Print Assumptions C129_either_order.

(** Uses of one column cannot be exchanged: the first decides its type. *)
Theorem C129_same_column_refuted :
  ~ (forall us u v us',
       let after l := fst (table_run bin_coltype_eqb bin_decode bin_encode 0 (us ++ l) ex_store) in
       snd (table_run bin_coltype_eqb bin_decode bin_encode 0 us' (after [u; v])) =
       snd (table_run bin_coltype_eqb bin_decode bin_encode 0 us' (after [v; u]))).
Proof.
  intros H. specialize (H [] (UAsk int_column (lit "N")) (UAsk text_column (lit "N")) [UAsk int_column (lit "N")]).
  vm_compute in H. discriminate.
Qed.
Print Assumptions C129_same_column_refuted.

Definition sheet_uses : list (tuse (list elem) bin_coltype) :=
  [ULook int_column (lit "N") 0; UEnter int_column (lit "N") 0 [XNum 5]; UAsk text_column (lit "N"); URaw 0 0;
   UEnter int_column (lit "X") 0 [XNum 1]; ULook int_column (lit "N") 0; ULook int_column (lit "N") 1;
   UEnter int_column (lit "N") 7 [XNum 1]; URaw 1 1].

Example C129_case : numbered_columns ex_table /\ obj_at ex_store 0 = Ret (mk_tobj ex_table []) /\
  snd (table_run bin_coltype_eqb bin_decode bin_encode 0 sheet_uses ex_store) =
    [ALook (Ret [XNum 263]); AEnter (Ret tt); AAsk (Throw BadGet); ARaw (Ret (map ascii_of_N [0; 0; 0; 5]%N));
     AEnter (Throw ColumnNotFound); ALook (Ret [XNum 5]); ALook (Ret [XNum 9]); AEnter Undef; ARaw (Ret (lit "c"))].
Proof.
  split; [|split; [reflexivity|vm_compute; reflexivity]].
  intros [|[|j]] c; cbn; [| |destruct j]; intros H; now inversion H.
Qed.

Example C129_tables_case : exists t, reached fc0 bin_header /\ binary_table fc0 bin_header bin_bytes = Ret t /\ length (t_columns t) = 2.
Proof. eexists. split; [exact bin_reached|]. vm_compute. auto. Qed.

Example C129_entry_case :
  snd (table_step bin_coltype_eqb bin_decode bin_encode 0 (UEnter int_column (lit "N") 0 [XNum 5])
        (fst (table_run bin_coltype_eqb bin_decode bin_encode 0 [ULook int_column (lit "N") 1] ex_store))) = AEnter (Ret tt) /\
  Forall (@leaves (list elem) bin_coltype (lit "N") 0)
    [UEnter int_column (lit "N") 1 [XNum 6]; UEnter text_column (lit "NAME") 0 [XNum 65; XNum 66]; UAsk text_column (lit "N")].
Proof.
  split; [vm_compute; reflexivity|]. constructor; [right; discriminate|]. constructor; [left; discriminate|].
  constructor; [exact I|constructor].
Qed.

Example C129_order_case :
  of_column (lit "N") (@UEnter (list elem) bin_coltype int_column (lit "N") 0 [XNum 5]) /\
  of_column (lit "NAME") (@UEnter (list elem) bin_coltype text_column (lit "NAME") 0 [XNum 65]) /\ lit "N" <> lit "NAME" /\
  ViewSpec.cells_of (fst (table_run bin_coltype_eqb bin_decode bin_encode 0
      [UEnter int_column (lit "N") 0 [XNum 5]; ULook int_column (lit "N") 1] ex_store)) 0 =
    Some [[map ascii_of_N [0; 0; 0; 5]%N; lit "ab"]; [map ascii_of_N [0; 0; 0; 9]%N; lit "c"]].
Proof.
  split; [reflexivity|]. split; [reflexivity|]. split; [discriminate|]. vm_compute. reflexivity.
Qed.
