(** * Property theorems about column views (C33, C34, C60, C61). *)
From Coq Require Import String Ascii List Arith NArith ZArith Bool Lia.
Import ListNotations.
From Verif Require Import CppModel CppProofs CardModel TableModel ConvModel ConvSpec ConvProofs ViewModel ViewSpec ViewProofs.
Open Scope list_scope.

(** ** A table for the examples: an integer and a text column, two rows *)
Definition ex_column (i : nat) (name : string) : column := mk_column i (lit name) 0 [] [] None None [] [] [] 1.
Definition ex_cells : cells :=
  [[map ascii_of_N [0; 0; 1; 7]%N; lit "ab"]; [map ascii_of_N [0; 0; 0; 9]%N; lit "c"]].
Definition ex_table : table := mk_table fresh_header 2 [ex_column 1 "N"; ex_column 2 "NAME"] ex_cells.
Definition ex_view : view (list elem) := mk_view 0 (ex_column 1 "N") [].
Definition int_column : bin_coltype := (EI32, false).
Definition text_column : bin_coltype := (EByte, true).
Definition ex_store : store (list elem) bin_coltype := [Some (mk_tobj ex_table [])].

Lemma bin_coltype_eqb_eq a b : bin_coltype_eqb a b = true <-> a = b.
Proof. destruct a as [[] []], b as [[] []]; cbn; split; intros H; (reflexivity || discriminate). Qed.

(** ** C33: a view behaves like an array *)

Theorem C33_view_is_array : forall (V T : Type) (decode : T -> str -> N -> outcome V) (encode : T -> V -> str) t d v ops,
  v_cache v = [] -> has_column d (v_pos v) -> Forall (within (length d)) ops ->
  exists v' d',
    view_run decode encode t ops (v, d) =
      ((v', d'), snd (array_run ops (column_of decode t d (v_pos v) (c_elements (v_col v))))) /\
    length d' = length d /\
    (forall i, option_map (@length str) (nth_error d' i) = option_map (@length str) (nth_error d i)) /\
    forall i j, cell d' i j =
      match (if Nat.eqb j (v_pos v)
             then written (fst (array_run ops (column_of decode t d (v_pos v) (c_elements (v_col v))))) i else None) with
      | Some x => Ret (encode t x)
      | None => cell d i j
      end.
Proof. exact view_is_array. Qed.
Print Assumptions C33_view_is_array.

(** The same for the views of binary and of ASCII tables. *)
Theorem C33_binary_view_is_array : forall (t : bin_coltype) d (v : view (list elem)) ops,
  v_cache v = [] -> has_column d (v_pos v) -> Forall (within (length d)) ops ->
  snd (view_run bin_decode bin_encode t ops (v, d)) =
  snd (array_run ops (column_of bin_decode t d (v_pos v) (c_elements (v_col v)))).
Proof.
  intros t d v ops H1 H2 H3.
  destruct (view_is_array _ _ bin_decode bin_encode t d v ops H1 H2 H3) as (v' & d' & E & _). now rewrite E.
Qed.
Print Assumptions C33_binary_view_is_array.

Theorem C33_ascii_view_is_array : forall fc (t : ascii_coltype) d (v : view ascii_value) ops,
  v_cache v = [] -> has_column d (v_pos v) -> Forall (within (length d)) ops ->
  snd (view_run (ascii_decode fc) (ascii_encode fc) t ops (v, d)) =
  snd (array_run ops (column_of (ascii_decode fc) t d (v_pos v) (c_elements (v_col v)))).
Proof.
  intros fc t d v ops H1 H2 H3.
  destruct (view_is_array _ _ (ascii_decode fc) (ascii_encode fc) t d v ops H1 H2 H3) as (v' & d' & E & _). now rewrite E.
Qed.
Print Assumptions C33_ascii_view_is_array.

(** Range-for over a view visits the values of all rows in order. *)
Theorem C33_loop_visits_rows : forall (V T : Type) (decode : T -> str -> N -> outcome V) (encode : T -> V -> str) t d v ops,
  v_cache v = [] -> has_column d (v_pos v) -> Forall (within (length d)) ops ->
  forall v' d', fst (view_run decode encode t ops (v, d)) = (v', d') ->
  let a := fst (array_run ops (column_of decode t d (v_pos v) (c_elements (v_col v)))) in
  (forall l, (forall i, i < length d -> exists x, nth_error l i = Some x /\ value_in a i = Ret x) -> length l = length d ->
     snd (view_all decode t d' v') = Ret l) /\
  ((exists i, i < length d /\ forall x, value_in a i <> Ret x) -> forall l, snd (view_all decode t d' v') <> Ret l).
Proof. exact view_all_rows. Qed.
Print Assumptions C33_loop_visits_rows.

(** What was written is what another view of the column decodes. *)
Theorem C33_written_cell_decodes : forall t x, t <> EI8 -> has_type t x ->
  bin_decode (t, false) (bin_encode (t, false) [x]) 1 = Ret [x].
Proof.
  intros t x H1 H2. unfold bin_decode, bin_encode, bin_serialize_vec. cbn [fst snd map concat]. rewrite app_nil_r.
  now rewrite (single_roundtrip t x H1 H2).
Qed.
Print Assumptions C33_written_cell_decodes.

Theorem C33_written_vector_decodes : forall t l, In t [EBool; EByte; EI16; EI32; EF32; EF64; EC32; EC64] ->
  Forall (has_type t) l -> (N.of_nat (length l) < 2 ^ 31)%N ->
  bin_decode (t, true) (bin_encode (t, true) l) (N.of_nat (length l)) = Ret l.
Proof.
  intros t l Ht Hf Hl. unfold bin_decode, bin_encode. cbn [fst snd]. apply N.ltb_lt in Hl. rewrite Hl, Nat2N.id.
  cbn in Ht. destruct Ht as [<-|[<-|[<-|[<-|[<-|[<-|[<-|[<-|[]]]]]]]]].
  - apply bool_vec_roundtrip; exact Hf.
  - apply byte_vec_roundtrip; exact Hf.
  - apply numeric_vec_roundtrip; [cbn; tauto|exact Hf].
  - apply numeric_vec_roundtrip; [cbn; tauto|exact Hf].
  - apply numeric_vec_roundtrip; [cbn; tauto|exact Hf].
  - apply numeric_vec_roundtrip; [cbn; tauto|exact Hf].
  - apply complex_vec_roundtrip; [cbn; tauto|exact Hf].
  - apply complex_vec_roundtrip; [cbn; tauto|exact Hf].
Qed.
Print Assumptions C33_written_vector_decodes.

Theorem C33_written_ascii_decodes : forall fc z n, (- 2 ^ 63 <= z < 2 ^ 63)%Z ->
  ascii_decode fc ALong (ascii_encode fc ALong (AVLong z)) n = Ret (AVLong z).
Proof. intros fc z n H. cbn [ascii_decode ascii_encode]. rewrite cast_signed_show; [reflexivity|exact H]. Qed.
Print Assumptions C33_written_ascii_decodes.

(** Assigning to a cell that does not decode throws and writes nothing: a blank number of an ASCII table
    cannot be filled in by view[i] = x. *)
Theorem C33_assign_to_undecodable : forall (V T : Type) (decode : T -> str -> N -> outcome V) (encode : T -> V -> str)
    t d v i x e,
  cache_find i (v_cache v) = None ->
  (let! s := cell d i (v_pos v) in decode t s (c_elements (v_col v))) = Throw e ->
  view_step decode encode t (VAssign i x) (v, d) = ((v, d), RDone (Throw e)).
Proof.
  intros V T decode encode t d v i x e H1 H2. cbn [view_step]. unfold view_assign, view_read. now rewrite H1, H2.
Qed.
Print Assumptions C33_assign_to_undecodable.

Example C33_case :
  has_column ex_cells (v_pos ex_view) /\
  snd (view_run bin_decode bin_encode int_column
    [VRead 0; VAssign 0 [XNum 5]; VRead 0; VRead 1; VUpdate 1 [XNum 6]; VRead 1] (ex_view, ex_cells)) =
    [RValue (Ret [XNum 263]); RDone (Ret tt); RValue (Ret [XNum 5]); RValue (Ret [XNum 9]); RDone (Ret tt); RValue (Ret [XNum 6])].
Proof.
  split.
  - intros r [<-|[<-|[]]]; cbn; lia.
  - vm_compute. reflexivity.
Qed.

Example C33_undecodable_case : forall fc,
  view_step (ascii_decode fc) (ascii_encode fc) ALong (VAssign 0 (AVLong 3)) (mk_view 0 (ex_column 1 "N") [], [[[]]]) =
  ((mk_view 0 (ex_column 1 "N") [], [[[]]]), RDone (Throw InvalidCast)).
Proof. reflexivity. Qed.

(** ** C34: a view goes stale *)

Theorem C34_view_keeps_first_value : forall (V T : Type) (decode : T -> str -> N -> outcome V) (encode : T -> V -> str)
    t i x v d ops,
  snd (view_read decode t i d v) = Ret x -> Forall (spares i) ops ->
  forall v' d', fst (view_run decode encode t ops (fst (view_read decode t i d v), d)) = (v', d') ->
  snd (view_read decode t i d' v') = Ret x.
Proof. exact view_stale. Qed.
Print Assumptions C34_view_keeps_first_value.

(** A row the view has not touched is read from the current cells. *)
Theorem C34_untouched_rows_are_current : forall (V T : Type) (decode : T -> str -> N -> outcome V) (encode : T -> V -> str)
    t i ops v d,
  cache_find i (v_cache v) = None -> Forall (avoids i) ops ->
  forall v' d', fst (view_run decode encode t ops (v, d)) = (v', d') ->
  snd (view_read decode t i d' v') = value_in (column_of decode t d' (v_pos v) (c_elements (v_col v))) i.
Proof. exact view_unread. Qed.
Print Assumptions C34_untouched_rows_are_current.

(** Two views of a column: what one writes after the other has read the row is invisible to the other. *)
Theorem C34_second_view_not_seen : forall (V T : Type) (decode : T -> str -> N -> outcome V) (encode : T -> V -> str)
    t i x y v w d,
  snd (view_read decode t i d v) = Ret x ->
  forall w' d', fst (view_step decode encode t (VAssign i y) (w, d)) = (w', d') ->
  snd (view_read decode t i d' (fst (view_read decode t i d v))) = Ret x.
Proof.
  intros V T decode encode t i x y v w d H w' d' _.
  apply (view_stale V T decode encode t i x v d [VBehind d'] H); [repeat constructor|reflexivity].
Qed.
Print Assumptions C34_second_view_not_seen.

(** The view does not always show the cell. *)
Theorem C34_view_shows_table_refuted :
  ~ (forall (v : view (list elem)) d ops i,
       let '((v', d'), _) := view_run bin_decode bin_encode int_column ops (v, d) in
       snd (view_read bin_decode int_column i d' v') =
       value_in (column_of bin_decode int_column d' (v_pos v) (c_elements (v_col v))) i).
Proof.
  intros H. specialize (H ex_view ex_cells [VRead 0; VBehind (rev ex_cells)] 0). vm_compute in H. discriminate.
Qed.
Print Assumptions C34_view_shows_table_refuted.

Example C34_case : snd (view_read bin_decode int_column 0 ex_cells ex_view) = Ret [XNum 263] /\
  Forall (@spares (list elem) 0) [VRead 1; VAssign 1 [XNum 3]; VBehind []].
Proof. split; [vm_compute; reflexivity|]. repeat constructor; discriminate. Qed.

(** ** C60: the first request decides the type of a column *)

Theorem C60_first_request_fixes_type : forall (V T : Type) (teqb : T -> T -> bool) (decode : T -> str -> N -> outcome V)
    (encode : T -> V -> str),
  (forall a b, teqb a b = true <-> a = b) ->
  forall st k ty name st1 v ops,
  get_column teqb k ty name st = (st1, Ret v) -> Forall (keeps k) ops ->
  (exists v', snd (get_column teqb k ty name (obj_run teqb decode encode ops st1)) = Ret v') /\
  (forall ty', ty' <> ty ->
     get_column teqb k ty' name (obj_run teqb decode encode ops st1) = (obj_run teqb decode encode ops st1, Throw BadGet)).
Proof. intros V T teqb decode encode. exact (type_fixed V T decode encode teqb). Qed.
Print Assumptions C60_first_request_fixes_type.

Theorem C60_missing_column_has_no_effect : forall (V T : Type) (teqb : T -> T -> bool) (st : store V T) k ty name o,
  obj_at st k = Ret o -> map_find name (o_views o) = None ->
  (forall c, In c (t_columns (o_table o)) -> c_name c <> name) ->
  get_column teqb k ty name st = (st, Throw ColumnNotFound).
Proof. exact missing_column. Qed.
Print Assumptions C60_missing_column_has_no_effect.

(** In a table used on its own, columns of different names do not interfere. *)
Theorem C60_columns_do_not_interfere : forall (V T : Type) (teqb : T -> T -> bool) (decode : T -> str -> N -> outcome V)
    (encode : T -> V -> str),
  (forall a b, teqb a b = true <-> a = b) ->
  forall k t st ops ta a j x tb b i,
  numbered_columns t -> obj_at st k = Ret (mk_tobj t []) -> Forall (only k t) ops -> a <> b ->
  let st' := obj_run teqb decode encode ops st in
  snd (column_read teqb decode k tb b i (fst (column_assign teqb decode encode k ta a j x st'))) =
  snd (column_read teqb decode k tb b i st').
Proof.
  intros V T teqb decode encode He k t st ops ta a j x tb b i N H K D st'.
  apply (columns_independent V T decode encode teqb He k t); [exact N| |exact D].
  apply run_own; [exact He|exact K|]. exists (mk_tobj t []). split; [exact H|]. split; [reflexivity|]. cbn. discriminate.
Qed.
Print Assumptions C60_columns_do_not_interfere.

Example C60_case :
  let run := obj_run bin_coltype_eqb bin_decode bin_encode in
  let st := run [OAssign 0 int_column (lit "N") 0 [XNum 5]; ORead 0 text_column (lit "NAME") 1] ex_store in
  snd (column_read bin_coltype_eqb bin_decode 0 int_column (lit "N") 0 st) = Ret [XNum 5] /\
  snd (get_column bin_coltype_eqb 0 text_column (lit "N") st) = Throw BadGet /\
  snd (get_column bin_coltype_eqb 0 text_column (lit "X") st) = Throw ColumnNotFound /\
  numbered_columns ex_table.
Proof.
  split; [vm_compute; reflexivity|]. split; [vm_compute; reflexivity|]. split; [vm_compute; reflexivity|].
  intros [|[|j]] c; cbn; [| |destruct j]; intros H; now inversion H.
Qed.

(** ** C61: copies of a table share the cells their views point to *)

Theorem C61_copy_writes_the_original : forall (V T : Type) (teqb : T -> T -> bool) (decode : T -> str -> N -> outcome V)
    (encode : T -> V -> str),
  (forall a b, teqb a b = true <-> a = b) ->
  forall st k o name ty v i x y d,
  obj_at st k = Ret o -> map_find name (o_views o) = Some (ty, v) -> v_table v = k ->
  snd (view_read decode ty i (t_data (o_table o)) v) = Ret y ->
  set_cell (t_data (o_table o)) i (v_pos v) (encode ty x) = Ret d ->
  let st1 := obj_step teqb decode encode (OCopy k) st in
  let st2 := fst (column_assign teqb decode encode (length st) ty name i x st1) in
  snd (column_assign teqb decode encode (length st) ty name i x st1) = Ret tt /\
  cells_of st2 k = Some d /\ cells_of st2 (length st) = Some (t_data (o_table o)).
Proof. intros V T teqb decode encode. exact (copy_aliases V T decode encode teqb). Qed.
Print Assumptions C61_copy_writes_the_original.

Theorem C61_copy_outliving_the_original_is_undefined : forall (V T : Type) (teqb : T -> T -> bool)
    (decode : T -> str -> N -> outcome V) (encode : T -> V -> str),
  (forall a b, teqb a b = true <-> a = b) ->
  forall st k o name ty v i x,
  obj_at st k = Ret o -> map_find name (o_views o) = Some (ty, v) -> v_table v = k ->
  let st1 := obj_run teqb decode encode [OCopy k; ODestroy k] st in
  snd (column_read teqb decode (length st) ty name i st1) = Undef /\
  snd (column_assign teqb decode encode (length st) ty name i x st1) = Undef.
Proof. intros V T teqb decode encode. exact (copy_dangles V T decode encode teqb). Qed.
Print Assumptions C61_copy_outliving_the_original_is_undefined.

(** A copy made before any column was requested has its own views. *)
Theorem C61_early_copy_is_independent : forall (V T : Type) (teqb : T -> T -> bool)
    (decode : T -> str -> N -> outcome V) (encode : T -> V -> str),
  (forall a b, teqb a b = true <-> a = b) ->
  forall st k t ty name i x,
  obj_at st k = Ret (mk_tobj t []) ->
  let st1 := obj_step teqb decode encode (OCopy k) st in
  cells_of (fst (column_assign teqb decode encode (length st) ty name i x st1)) k = Some (t_data t).
Proof. intros V T teqb decode encode. exact (copy_early V T decode encode teqb). Qed.
Print Assumptions C61_early_copy_is_independent.

Theorem C61_copies_are_independent_refuted :
  ~ (forall (st : store (list elem) bin_coltype) k ty name i x,
       let st1 := obj_step bin_coltype_eqb bin_decode bin_encode (OCopy k) st in
       cells_of (fst (column_assign bin_coltype_eqb bin_decode bin_encode (length st) ty name i x st1)) k = cells_of st1 k).
Proof.
  intros H.
  specialize (H (obj_run bin_coltype_eqb bin_decode bin_encode [OGet 0 int_column (lit "N")] ex_store)
                0 int_column (lit "N") 0 [XNum 1]).
  vm_compute in H. discriminate.
Qed.
Print Assumptions C61_copies_are_independent_refuted.

Example C61_case :
  let st := obj_run bin_coltype_eqb bin_decode bin_encode [OGet 0 int_column (lit "N")] ex_store in
  obj_at st 0 = Ret (mk_tobj ex_table [(lit "N", (int_column, ex_view))]).
Proof. vm_compute. reflexivity. Qed.
