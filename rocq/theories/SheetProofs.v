(** * Proofs about a table used through its columns. *)
From Coq Require Import String Ascii List Arith NArith ZArith Bool Lia.
Import ListNotations.
From Verif Require Import CppModel CppProofs HeaderModel HeaderProofs HeaderLookup CardProofs TableModel TableSpec
  TableCells ViewModel ViewSpec ViewProofs SheetModel SheetSpec.
Open Scope list_scope.

Lemma same_name_eq a b : same_name a b = true <-> a = b.
Proof. unfold same_name. destruct (list_eq_dec ascii_dec a b); split; intros H; (assumption || reflexivity || discriminate || contradiction). Qed.
Lemma same_name_refl a : same_name a a = true.
Proof. now apply same_name_eq. Qed.
Lemma same_name_neq a b : a <> b -> same_name a b = false.
Proof. intros H. destruct (same_name a b) eqn:E; [apply same_name_eq in E; contradiction|reflexivity]. Qed.

Lemma named_metadata t name :
  get_column_metadata name t = match named (t_columns t) name with Some c => Ret c | None => Throw ColumnNotFound end.
Proof.
  unfold get_column_metadata, named. induction (t_columns t) as [|c l IH]; [reflexivity|]. cbn [find].
  destruct (str_eqb name (c_name c)) eqn:E.
  - apply str_eqb_eq in E. subst. now rewrite same_name_refl.
  - apply str_eqb_neq in E. rewrite same_name_neq by congruence. exact IH.
Qed.

Lemma named_name cols name c : named cols name = Some c -> c_name c = name.
Proof. unfold named. intros H. apply find_some in H. destruct H as [_ H]. now apply same_name_eq in H. Qed.

Lemma find_place t name c : numbered_columns t -> named (t_columns t) name = Some c ->
  find (fun c' => Nat.eqb (place c') (place c)) (t_columns t) = Some c.
Proof.
  intros N H. unfold named in H. apply find_some in H. destruct H as [H _].
  apply In_nth_error in H. destruct H as [p H].
  destruct (find (fun c' => Nat.eqb (place c') (place c)) (t_columns t)) as [c'|] eqn:E.
  - apply find_some in E. destruct E as [E1 E2]. apply Nat.eqb_eq in E2. apply In_nth_error in E1. destruct E1 as [q E1].
    unfold place in E2. rewrite (N _ _ E1), (N _ _ H) in E2. assert (q = p) by lia. subst. congruence.
  - eapply find_none in E; [|eapply nth_error_In; exact H]. rewrite Nat.eqb_refl in E. discriminate.
Qed.

Lemma map_set_twice {A} name (a b : A) m : map_set name b (map_set name a m) = map_set name b m.
Proof.
  induction m as [|[n c] m IH]; cbn [map_set]; [now rewrite str_eqb_refl|].
  destruct (str_eqb name n) eqn:E; cbn [map_set]; rewrite E; [reflexivity|now rewrite IH].
Qed.

Lemma put_put {V T} (st : store V T) k a b : put (put st k a) k b = put st k b.
Proof.
  unfold put. revert k. induction st as [|x st IH]; intros [|k]; cbn [replace_nth]; auto. now rewrite IH.
Qed.

Lemma with_own_data tb : with_data tb (t_data tb) = tb.
Proof. destruct tb. reflexivity. Qed.

Section Proofs.
Variable V T : Type.
Variable teqb : T -> T -> bool.
Variable decode : T -> str -> N -> outcome V.
Variable encode : T -> V -> str.
Hypothesis teqb_eq : forall a b, teqb a b = true <-> a = b.
Variable k : nat.
Variable t : table.
Hypothesis numbered : numbered_columns t.

Local Notation cols := (t_columns t).
Local Notation d0 := (t_data t).
Local Notation value := (SheetSpec.value decode d0).
Local Notation text_at := (SheetSpec.text_at encode cols d0).

(** The object stands for the sheet. *)
Record stands (st : store V T) (s : sheet V T) (o : tobj V T) : Prop := {
  sd_obj : obj_at st k = Ret o;
  sd_table : o_table o = with_data t (t_data (o_table o));
  sd_rows : length (t_data (o_table o)) = length d0;
  sd_shape : forall i, option_map (@length str) (nth_error (t_data (o_table o)) i) = option_map (@length str) (nth_error d0 i);
  sd_text : forall i j, cell (t_data (o_table o)) i j = text_at i j s;
  sd_kind : forall name, kind s name = option_map fst (map_find name (o_views o));
  sd_fresh : forall name, kind s name = None -> forall i, entry s name i = None;
  sd_view : forall name ty v, map_find name (o_views o) = Some (ty, v) ->
    v_table v = k /\ named cols name = Some (v_col v) /\
    (forall i x, entry s name i = Some x -> cache_find i (v_cache v) = Some x) /\
    (forall i x, cache_find i (v_cache v) = Some x ->
       value ty name (v_col v) i s = Ret x /\ exists r, nth_error d0 i = Some r /\ place (v_col v) < length r)
}.

(** The text of a column that has been asked for. *)
Lemma text_named s name c i : named cols name = Some c ->
  text_at i (place c) s =
  match kind s name, entry s name i with Some ty, Some x => Ret (encode ty x) | _, _ => cell d0 i (place c) end.
Proof.
  intros H. unfold SheetSpec.text_at. rewrite (find_place t name c numbered H), (named_name _ _ _ H), H, Nat.eqb_refl.
  reflexivity.
Qed.

(** Text elsewhere does not depend on that column. *)
Lemma text_elsewhere s s' name c i j : named cols name = Some c ->
  (forall n, n <> name -> kind s' n = kind s n) -> (forall n, n <> name -> entry s' n i = entry s n i) ->
  j <> place c -> text_at i j s' = text_at i j s.
Proof.
  intros H K E D. unfold SheetSpec.text_at. destruct (find _ cols) as [c1|] eqn:F; [|reflexivity].
  apply find_some in F. destruct F as [_ F]. apply Nat.eqb_eq in F.
  destruct (list_eq_dec ascii_dec (c_name c1) name) as [Q|Q].
  - rewrite Q, H. destruct (Nat.eqb_spec (place c) j); [congruence|].
    destruct (kind s' name), (entry s' name i), (kind s name), (entry s name i); reflexivity.
  - rewrite (K _ Q), (E _ Q). reflexivity.
Qed.

Lemma asked_text s name c ty i j : named cols name = Some c -> (forall i, entry s name i = None) ->
  text_at i j (mk_sheet (fun n => if same_name n name then Some ty else kind s n) (entry s)) = text_at i j s.
Proof.
  intros H F. destruct (Nat.eq_dec j (place c)) as [->|D].
  - rewrite !(text_named _ _ _ _ H). cbn [kind entry]. rewrite F. now destruct (kind s name), (same_name name name).
  - eapply text_elsewhere; [exact H| | |exact D]; cbn [kind entry]; [|reflexivity].
    intros n Q. now rewrite same_name_neq.
Qed.

(** Asking. *)
Lemma get_stands st s o ty name : stands st s o ->
  let (st', r) := get_column teqb k ty name st in
  let (s', r') := ask teqb cols ty name s in
  exists o', stands st' s' o' /\ (forall j, j <> k -> obj_at st' j = obj_at st j) /\
    match r, r' with
    | Ret v, Ret c => v_col v = c /\ map_find name (o_views o') = Some (ty, v) /\ named cols name = Some c /\ kind s' name = Some ty
    | Throw e, Throw e' => e = e'
    | _, _ => False
    end.
Proof.
  intros S. pose proof S as [A B R C D E G W]. unfold ViewModel.get_column, ask. rewrite A.
  pose proof (E name) as En.
  destruct (map_find name (o_views o)) as [[ty' v]|] eqn:F; cbn [option_map fst] in En.
  - destruct (W _ _ _ F) as (W1 & W2 & _). rewrite W2, En. exists o. split; [exact S|]. split; [reflexivity|].
    destruct (teqb ty ty') eqn:Q; [|reflexivity]. apply teqb_eq in Q. subst ty'. auto.
  - assert (M : get_column_metadata name (o_table o) = get_column_metadata name t).
    { apply metadata_columns. rewrite B. reflexivity. }
    rewrite M, named_metadata. destruct (named cols name) as [c|] eqn:Nc.
    + rewrite En. exists (mk_tobj (o_table o) (map_set name (ty, mk_view k c []) (o_views o))).
      split; [|split; [intros j Hj; apply obj_put_other; congruence|]].
      2:{ cbn [v_col o_views kind]. rewrite map_find_set_same, same_name_refl. auto. }
      constructor; cbn [o_table o_views kind entry].
      * eapply obj_put_same; exact A.
      * exact B.
      * exact R.
      * exact C.
      * intros i j. rewrite D. symmetry. eapply asked_text; [exact Nc|]. auto.
      * intros n. destruct (list_eq_dec ascii_dec n name) as [->|Q].
        -- now rewrite same_name_refl, map_find_set_same.
        -- rewrite same_name_neq, map_find_set_other by auto. apply E.
      * intros n. destruct (same_name n name); [discriminate|]. apply G.
      * intros n t2 v2 Hn. destruct (list_eq_dec ascii_dec n name) as [->|Q].
        -- rewrite map_find_set_same in Hn. injection Hn as <- <-. cbn [v_table v_col v_cache]. rewrite Nc.
           split; [reflexivity|]. split; [reflexivity|]. split; [|cbn; discriminate].
           intros i x Hx. rewrite (G name En) in Hx. discriminate.
        -- rewrite map_find_set_other in Hn by auto. apply W in Hn. exact Hn.
    + exists o. auto.
Qed.

(** What reading a row gives, and the view afterwards. *)
Lemma read_stands st s o ty name v i : stands st s o -> map_find name (o_views o) = Some (ty, v) ->
  exists v', view_read decode ty i (t_data (o_table o)) v = (v', value ty name (v_col v) i s) /\
    v_table v' = k /\ v_col v' = v_col v /\
    stands (put st k (mk_tobj (o_table o) (map_set name (ty, v') (o_views o)))) s
           (mk_tobj (o_table o) (map_set name (ty, v') (o_views o))) /\
    (forall x, value ty name (v_col v) i s = Ret x -> exists r, nth_error d0 i = Some r /\ place (v_col v) < length r).
Proof.
  intros S F. pose proof S as [A B R C D E G W]. destruct (W _ _ _ F) as (W1 & W2 & W3 & W4).
  pose proof (E name) as En. rewrite F in En. cbn [option_map fst] in En.
  assert (Put : forall v', v_table v' = k -> v_col v' = v_col v ->
    (forall j x, entry s name j = Some x -> cache_find j (v_cache v') = Some x) ->
    (forall j x, cache_find j (v_cache v') = Some x ->
       value ty name (v_col v) j s = Ret x /\ exists r, nth_error d0 j = Some r /\ place (v_col v) < length r) ->
    stands (put st k (mk_tobj (o_table o) (map_set name (ty, v') (o_views o)))) s
           (mk_tobj (o_table o) (map_set name (ty, v') (o_views o)))).
  { intros v' Q1 Q2 Q3 Q4. constructor; cbn [o_table o_views].
    - eapply obj_put_same; exact A.
    - exact B.
    - exact R.
    - exact C.
    - exact D.
    - intros n. destruct (list_eq_dec ascii_dec n name) as [->|Q].
      + now rewrite map_find_set_same.
      + rewrite map_find_set_other by auto. apply E.
    - exact G.
    - intros n t2 v2 Hn. destruct (list_eq_dec ascii_dec n name) as [->|Q].
      + rewrite map_find_set_same in Hn. injection Hn as <- <-. rewrite Q2. auto.
      + rewrite map_find_set_other in Hn by auto. apply W in Hn. exact Hn. }
  unfold ViewModel.view_read. destruct (cache_find i (v_cache v)) as [x|] eqn:Q.
  - destruct (W4 _ _ Q) as [V1 V2]. rewrite V1. exists v. split; [reflexivity|]. split; [exact W1|]. split; [reflexivity|].
    split; [|auto]. apply Put; auto.
  - assert (Ei : entry s name i = None).
    { destruct (entry s name i) as [x|] eqn:Qe; [|reflexivity]. rewrite (W3 _ _ Qe) in Q. discriminate. }
    assert (Cl : cell (t_data (o_table o)) i (v_pos v) = cell d0 i (place (v_col v))).
    { rewrite D. change (v_pos v) with (place (v_col v)). rewrite (text_named _ _ _ _ W2), Ei. now destruct (kind s name). }
    assert (Vl : value ty name (v_col v) i s =
      (let! tx := cell (t_data (o_table o)) i (v_pos v) in decode ty tx (c_elements (v_col v)))).
    { unfold SheetSpec.value. now rewrite Ei, Cl. }
    rewrite <- Vl.
    destruct (value ty name (v_col v) i s) as [x|e| |] eqn:Vx.
    + assert (In0 : exists r, nth_error d0 i = Some r /\ place (v_col v) < length r).
      { unfold SheetSpec.value in Vx. rewrite Ei in Vx. unfold cell in Vx.
        destruct (nth_error d0 i) as [r|]; [|discriminate Vx]. exists r. split; [reflexivity|].
        destruct (nth_error r (place (v_col v))) eqn:Nr; [|discriminate Vx]. apply nth_error_Some. congruence. }
      eexists. split; [reflexivity|]. split; [exact W1|]. split; [reflexivity|]. split; [|auto].
      apply Put; cbn [v_table v_col v_cache]; [exact W1|reflexivity| |].
      * intros j y Hy. cbn [cache_find]. destruct (Nat.eqb_spec j i) as [->|]; [congruence|auto].
      * intros j y. cbn [cache_find]. destruct (Nat.eqb_spec j i) as [->|]; [|auto].
        intros Hy. injection Hy as <-. auto.
    + exists v. split; [reflexivity|]. split; [exact W1|]. split; [reflexivity|]. split; [apply Put; auto|discriminate].
    + exists v. split; [reflexivity|]. split; [exact W1|]. split; [reflexivity|]. split; [apply Put; auto|discriminate].
    + exists v. split; [reflexivity|]. split; [exact W1|]. split; [reflexivity|]. split; [apply Put; auto|discriminate].
Qed.

(** Entering a value in a row that exists. *)
Lemma update_stands st s o ty name v i x r : stands st s o -> map_find name (o_views o) = Some (ty, v) ->
  nth_error d0 i = Some r -> place (v_col v) < length r ->
  exists d', view_update encode ty i x (t_data (o_table o)) v = (mk_view (v_table v) (v_col v) ((i, x) :: v_cache v), d', Ret tt) /\
    forall st1 o1, obj_at st1 k = Ret o1 ->
    stands (put st1 k (mk_tobj (with_data (o_table o) d') (map_set name (ty, mk_view (v_table v) (v_col v) ((i, x) :: v_cache v)) (o_views o))))
           (entered name i x s)
           (mk_tobj (with_data (o_table o) d') (map_set name (ty, mk_view (v_table v) (v_col v) ((i, x) :: v_cache v)) (o_views o))).
Proof.
  intros S F Hr Hl. pose proof S as [A B R C D E G W]. destruct (W _ _ _ F) as (W1 & W2 & W3 & W4).
  pose proof (E name) as En. rewrite F in En. cbn [option_map fst] in En.
  assert (Sc : exists d', set_cell (t_data (o_table o)) i (v_pos v) (encode ty x) = Ret d').
  { unfold set_cell. pose proof (C i) as Ci. rewrite Hr in Ci. cbn [option_map] in Ci.
    destruct (nth_error (t_data (o_table o)) i) as [r'|]; [|discriminate Ci]. cbn [option_map] in Ci. injection Ci as Ci.
    destruct (Nat.ltb_spec (v_pos v) (length r')); [eauto|]. change (v_pos v) with (place (v_col v)) in *. lia. }
  destruct Sc as [d' Sc]. exists d'. unfold ViewModel.view_update. rewrite Sc. split; [reflexivity|].
  intros st1 o1 A1. constructor; cbn [o_table o_views with_data t_data].
  - eapply obj_put_same; exact A1.
  - rewrite B. reflexivity.
  - rewrite (set_cell_length _ _ _ _ _ Sc). exact R.
  - intros i2. rewrite (set_cell_shape _ _ _ _ _ i2 Sc). apply C.
  - intros i2 j2. destruct (Nat.eq_dec j2 (place (v_col v))) as [->|Nj].
    + rewrite (text_named _ _ _ _ W2). cbn [entered kind entry]. rewrite En, same_name_refl. cbn [andb].
      destruct (Nat.eqb_spec i2 i) as [->|Ni].
      * exact (cell_set_same _ _ _ _ _ Sc).
      * rewrite (cell_set_other _ _ _ _ _ i2 (place (v_col v)) Sc) by congruence.
        rewrite D, (text_named _ _ _ _ W2), En. reflexivity.
    + rewrite (cell_set_other _ _ _ _ _ i2 j2 Sc) by (change (v_pos v) with (place (v_col v)); congruence).
      rewrite D. symmetry. eapply text_elsewhere; [exact W2| | |exact Nj]; cbn [entered kind entry]; [reflexivity|].
      intros n Q. now rewrite same_name_neq.
  - intros n. cbn [entered kind]. destruct (list_eq_dec ascii_dec n name) as [->|Q].
    + now rewrite map_find_set_same.
    + rewrite map_find_set_other by auto. apply E.
  - intros n. cbn [entered kind entry]. intros Hn j. destruct (list_eq_dec ascii_dec n name) as [->|Q]; [congruence|].
    rewrite same_name_neq by exact Q. now apply G.
  - intros n t2 v2 Hn. destruct (list_eq_dec ascii_dec n name) as [->|Q].
    + rewrite map_find_set_same in Hn. injection Hn as <- <-. cbn [v_table v_col v_cache].
      split; [exact W1|]. split; [exact W2|]. unfold SheetSpec.value. cbn [entered entry]. rewrite same_name_refl. cbn [andb].
      split; intros j y; cbn [cache_find]; destruct (Nat.eqb_spec j i) as [->|Nj].
      * auto.
      * apply W3.
      * intros Hy. injection Hy as <-. eauto.
      * apply W4.
    + rewrite map_find_set_other in Hn by auto. apply W in Hn. unfold SheetSpec.value in *. cbn [entered entry].
      rewrite same_name_neq by exact Q. exact Hn.
Qed.

Lemma step_stands st s o u : stands st s o ->
  let (st', a) := table_step teqb decode encode k u st in
  let (s', a') := sheet_step teqb decode encode cols d0 u s in
  exists o', stands st' s' o' /\ (forall j, j <> k -> obj_at st' j = obj_at st j) /\ a = a'.
Proof.
  intros S. destruct u as [ty name|ty name i|ty name i x|i j]; cbn [table_step sheet_step].
  - pose proof (get_stands st s o ty name S) as H.
    destruct (get_column teqb k ty name st) as [st' r], (ask teqb cols ty name s) as [s' r'].
    destruct H as (o' & H1 & H2 & H3). exists o'. split; [exact H1|]. split; [exact H2|].
    destruct r, r'; cbn in *; try contradiction; [reflexivity|now subst].
  - pose proof (get_stands st s o ty name S) as H. unfold ViewModel.column_read.
    destruct (get_column teqb k ty name st) as [st' r], (ask teqb cols ty name s) as [s' r'].
    destruct H as (o' & H1 & H2 & H3). destruct r as [v|e| |], r' as [c|e'| |]; try contradiction.
    + destruct H3 as (<- & H4 & H5 & H6). destruct (read_stands _ _ _ _ _ _ i H1 H4) as (v' & R1 & R2 & R3 & R4 & _).
      pose proof (sd_view _ _ _ H1 _ _ _ H4) as (W1 & _). pose proof (sd_obj _ _ _ H1) as A1.
      rewrite W1, A1, R1. unfold put_view. rewrite A1. cbn [bind]. eexists. split; [exact R4|]. split; [|reflexivity].
      intros j Hj. rewrite obj_put_other by congruence. now apply H2.
    + subst e'. exists o'. auto.
  - pose proof (get_stands st s o ty name S) as H. unfold ViewModel.column_assign, ViewModel.view_assign.
    destruct (get_column teqb k ty name st) as [st' r], (ask teqb cols ty name s) as [s' r'].
    destruct H as (o' & H1 & H2 & H3). destruct r as [v|e| |], r' as [c|e'| |]; try contradiction.
    + destruct H3 as (<- & H4 & H5 & H6). destruct (read_stands _ _ _ _ _ _ i H1 H4) as (v' & R1 & R2 & R3 & R4 & R5).
      pose proof (sd_view _ _ _ H1 _ _ _ H4) as (W1 & _). pose proof (sd_obj _ _ _ H1) as A1.
      rewrite W1, A1, R1. cbn [bind].
      set (o2 := mk_tobj (o_table o') (map_set name (ty, v') (o_views o'))) in *.
      assert (Keep : put_cells k (t_data (o_table o')) (put_view k ty name v' st') = put st' k o2).
      { unfold put_view. rewrite A1. unfold put_cells. erewrite obj_put_same by exact A1. cbn [o_table o_views].
        now rewrite put_put, with_own_data. }
      assert (Rest : forall j, j <> k -> obj_at (put st' k o2) j = obj_at st j).
      { intros j Hj. rewrite obj_put_other by congruence. now apply H2. }
      destruct (value ty name (v_col v) i s') as [y|e| |] eqn:Vy.
      * destruct (R5 y eq_refl) as (row & I1 & I2).
        assert (F2 : map_find name (o_views o2) = Some (ty, v')) by apply map_find_set_same.
        rewrite <- R3 in I2.
        destruct (update_stands _ _ _ _ _ _ i x row R4 F2 I1 I2) as (d' & U1 & U2).
        change (t_data (o_table o')) with (t_data (o_table o2)). rewrite U1.
        unfold put_view. rewrite A1. unfold put_cells.
        erewrite obj_put_same by exact A1. cbn [o_table o_views].
        eexists. split; [|split; [|reflexivity]].
        2:{ intros j Hj. rewrite !obj_put_other by congruence. now apply H2. }
        unfold o2 in U2. cbn [o_table o_views] in U2. rewrite map_set_twice in U2.
        eapply U2. eapply obj_put_same. exact A1.
      * exists o2. rewrite Keep. auto.
      * exists o2. rewrite Keep. auto.
      * exists o2. rewrite Keep. auto.
    + subst e'. exists o'. auto.
  - exists o. split; [exact S|]. split; [reflexivity|]. unfold raw_read. rewrite (sd_obj _ _ _ S). cbn [bind].
    now rewrite (sd_text _ _ _ S).
Qed.

Lemma run_stands us : forall st s o, stands st s o ->
  let (st', l) := table_run teqb decode encode k us st in
  let (s', l') := sheet_run teqb decode encode cols d0 us s in
  exists o', stands st' s' o' /\ (forall j, j <> k -> obj_at st' j = obj_at st j) /\ l = l'.
Proof.
  induction us as [|u us IH]; intros st s o S; cbn [table_run sheet_run].
  - exists o. auto.
  - pose proof (step_stands st s o u S) as H.
    destruct (table_step teqb decode encode k u st) as [st1 a], (sheet_step teqb decode encode cols d0 u s) as [s1 a'].
    destruct H as (o1 & S1 & J1 & ->). specialize (IH st1 s1 o1 S1).
    destruct (table_run teqb decode encode k us st1) as [st2 l], (sheet_run teqb decode encode cols d0 us s1) as [s2 l'].
    destruct IH as (o2 & S2 & J2 & ->). exists o2. split; [exact S2|]. split; [|reflexivity].
    intros j Hj. now rewrite J2, J1.
Qed.

Lemma blank_stands st : obj_at st k = Ret (mk_tobj t []) -> stands st blank_sheet (mk_tobj t []).
Proof.
  intros A. constructor; cbn [o_table o_views blank_sheet kind entry map_find option_map]; auto.
  - now rewrite with_own_data.
  - intros i j. unfold SheetSpec.text_at. cbn [blank_sheet kind entry]. now destruct (find _ cols).
  - discriminate.
Qed.

Theorem table_is_sheet st us : obj_at st k = Ret (mk_tobj t []) ->
  exists st' d views,
    table_run teqb decode encode k us st = (st', snd (sheet_run teqb decode encode cols d0 us blank_sheet)) /\
    obj_at st' k = Ret (mk_tobj (with_data t d) views) /\
    (forall j, j <> k -> obj_at st' j = obj_at st j) /\
    length d = length d0 /\
    (forall i, option_map (@length str) (nth_error d i) = option_map (@length str) (nth_error d0 i)) /\
    (forall i j, cell d i j = text_at i j (fst (sheet_run teqb decode encode cols d0 us blank_sheet))).
Proof.
  intros A. pose proof (run_stands us st blank_sheet (mk_tobj t []) (blank_stands st A)) as H.
  destruct (table_run teqb decode encode k us st) as [st' l], (sheet_run teqb decode encode cols d0 us blank_sheet) as [s' l'].
  destruct H as (o & S & J & ->). destruct S as [B C R D E _ _ _].
  exists st', (t_data (o_table o)), (o_views o). cbn [fst snd]. split; [reflexivity|]. rewrite <- C. split; [now destruct o|]. auto.
Qed.
End Proofs.
