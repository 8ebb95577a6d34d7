(** * Proofs about column views. *)
From Coq Require Import String Ascii List Arith NArith ZArith Bool Lia.
From Coq Require Import ZifyBool ZifyNat ZifyN.
Import ListNotations.
From Verif Require Import CppModel CppProofs HeaderModel HeaderProofs HeaderLookup CardProofs TableModel TableSpec
  TableCells ViewModel ViewSpec.
Open Scope list_scope.

(** ** Cells *)

Lemma replace_nth_length {A} i (a : A) l : length (replace_nth i a l) = length l.
Proof. revert i; induction l as [|x l IH]; intros [|i]; cbn; auto. Qed.

Lemma cell_set_same d i j s d' : set_cell d i j s = Ret d' -> cell d' i j = Ret s.
Proof.
  unfold set_cell, cell. destruct (nth_error d i) as [r|] eqn:E; [|discriminate].
  destruct (Nat.ltb_spec j (length r)); [|discriminate]. intros H0; apply ret_inj in H0; subst d'.
  erewrite nth_replace_same by exact E.
  destruct (nth_error r j) as [x|] eqn:E2.
  - erewrite nth_replace_same by exact E2. reflexivity.
  - apply nth_error_None in E2. lia.
Qed.

Lemma cell_set_other d i j s d' i2 j2 : set_cell d i j s = Ret d' -> (i2, j2) <> (i, j) -> cell d' i2 j2 = cell d i2 j2.
Proof.
  unfold set_cell, cell. destruct (nth_error d i) as [r|] eqn:E; [|discriminate].
  destruct (Nat.ltb_spec j (length r)); [|discriminate]. intros H0; apply ret_inj in H0; subst d'. intros N.
  destruct (Nat.eq_dec i i2) as [<-|Ni].
  - erewrite nth_replace_same by exact E. rewrite E.
    rewrite nth_replace_other by congruence. reflexivity.
  - rewrite nth_replace_other by assumption. reflexivity.
Qed.

Lemma set_cell_length d i j s d' : set_cell d i j s = Ret d' -> length d' = length d.
Proof.
  unfold set_cell. destruct (nth_error d i) as [r|]; [|discriminate].
  destruct (Nat.ltb_spec j (length r)); [|discriminate]. intros H0; apply ret_inj in H0; subst d'.
  apply replace_nth_length.
Qed.

Lemma set_cell_column d i j s d' p : set_cell d i j s = Ret d' -> has_column d p -> has_column d' p.
Proof.
  unfold set_cell, has_column. destruct (nth_error d i) as [r|] eqn:E; [|discriminate].
  destruct (Nat.ltb_spec j (length r)); [|discriminate]. intros H0; apply ret_inj in H0; subst d'. intros K.
  apply Forall_forall. apply forall_replace; [apply Forall_forall; exact K|].
  rewrite replace_nth_length. apply K. eapply nth_error_In; eassumption.
Qed.

Lemma set_cell_ret d i j s : i < length d -> has_column d j -> exists d', set_cell d i j s = Ret d'.
Proof.
  intros Hi K. unfold set_cell. destruct (nth_error d i) as [r|] eqn:E; [|apply nth_error_None in E; lia].
  assert (j < length r) by (apply K; eapply nth_error_In; eassumption).
  destruct (Nat.ltb_spec j (length r)); [eauto|lia].
Qed.

Lemma set_cell_shape d i j s d' i2 : set_cell d i j s = Ret d' ->
  option_map (@length str) (nth_error d' i2) = option_map (@length str) (nth_error d i2).
Proof.
  unfold set_cell. destruct (nth_error d i) as [r|] eqn:E; [|discriminate].
  destruct (Nat.ltb_spec j (length r)); [|discriminate]. intros H0; apply ret_inj in H0; subst d'.
  destruct (Nat.eq_dec i i2) as [<-|Ni].
  - erewrite nth_replace_same by exact E. rewrite E. cbn. now rewrite replace_nth_length.
  - now rewrite nth_replace_other by assumption.
Qed.

Section Proofs.
Variable V T : Type.
Variable decode : T -> str -> N -> outcome V.
Variable encode : T -> V -> str.

Notation view_read := (@view_read V T decode).
Notation view_update := (@view_update V T encode).
Notation view_assign := (@view_assign V T decode encode).
Notation view_run := (@view_run V T decode encode).
Notation view_step := (@view_step V T decode encode).
Notation view_all := (@view_all V T decode).
Notation view_iterate := (@view_iterate V T decode).

(** ** One view is an array *)

(** The view [v] over cells [d] shows the array [a]; [d0] are the cells at the start. *)
Record shows (t : T) (col : column) (d0 : cells) (v : view V) (d : cells) (a : column_array V) : Prop := {
  sh_col : v_col v = col;
  sh_rows : length d = length d0;
  sh_has : has_column d (v_pos v);
  sh_cached : forall i x, cache_find i (v_cache v) = Some x -> value_in a i = Ret x;
  sh_fresh : forall i, cache_find i (v_cache v) = None ->
    value_in a i = value_in (column_of decode t d (v_pos v) (c_elements col)) i /\ written a i = None;
  sh_shape : forall i, option_map (@length str) (nth_error d i) = option_map (@length str) (nth_error d0 i);
  sh_cells : forall i j, cell d i j =
    match (if Nat.eqb j (v_pos v) then written a i else None) with
    | Some x => Ret (encode t x)
    | None => cell d0 i j
    end
}.

Lemma read_shows t col d0 v d a i : shows t col d0 v d a ->
  shows t col d0 (fst (view_read t i d v)) d a /\ snd (view_read t i d v) = value_in a i /\
  v_pos (fst (view_read t i d v)) = v_pos v /\
  (forall x, snd (view_read t i d v) = Ret x -> cache_find i (v_cache (fst (view_read t i d v))) = Some x).
Proof.
  intros S. unfold ViewModel.view_read.
  destruct (cache_find i (v_cache v)) as [x|] eqn:E.
  - cbn [fst snd]. split; [exact S|]. split; [symmetry; eapply sh_cached; eauto|]. split; [reflexivity|].
    intros y Hy. apply ret_inj in Hy. now subst.
  - pose proof (sh_fresh _ _ _ _ _ _ S i E) as [Ha Hw].
    assert (Ex : bind (cell d i (v_pos v)) (fun s => decode t s (c_elements (v_col v))) = value_in a i).
    { rewrite Ha. cbn. rewrite (sh_col _ _ _ _ _ _ S). destruct (cell d i (v_pos v)); reflexivity. }
    rewrite Ex. destruct (value_in a i) as [x|e| |] eqn:Ev; cbn [fst snd]; try (split; [exact S|split; [reflexivity|split; [reflexivity|discriminate]]]).
    split; [|split; [reflexivity|split; [reflexivity|]]].
    + split; cbn; try apply S.
      * intros j y. cbn. destruct (Nat.eqb_spec j i) as [->|]; [|apply S].
        intros H. congruence.
      * intros j. cbn. destruct (Nat.eqb_spec j i) as [->|]; [discriminate|]. apply S.
    + intros y Hy. apply ret_inj in Hy. subst y. cbn. now rewrite Nat.eqb_refl.
Qed.

Lemma update_shows t col d0 v d a i x : shows t col d0 v d a -> i < length d0 ->
  exists v' d', view_update t i x d v = (v', d', Ret tt) /\ shows t col d0 v' d' (store_row i x a) /\ v_pos v' = v_pos v.
Proof.
  intros S Hi. unfold ViewModel.view_update.
  destruct (set_cell_ret d i (v_pos v) (encode t x)) as [d' Hd].
  { rewrite (sh_rows _ _ _ _ _ _ S). exact Hi. } { apply S. }
  rewrite Hd. eexists _, d'. split; [reflexivity|]. split; [|reflexivity].
  split.
  - apply S.
  - rewrite (set_cell_length _ _ _ _ _ Hd). apply S.
  - eapply set_cell_column; [exact Hd|]. apply S.
  - intros j y. cbn. unfold at_row. destruct (Nat.eqb_spec j i) as [->|]; [congruence|]. apply S.
  - intros j. cbn. unfold at_row. destruct (Nat.eqb_spec j i) as [->|]; [discriminate|].
    intros Hj. destruct (sh_fresh _ _ _ _ _ _ S j Hj) as [A B]. split; [|exact B].
    rewrite A. cbn [column_of value_in]. change (v_pos (mk_view _ _ _)) with (v_pos v).
    rewrite (cell_set_other _ _ _ _ _ j (v_pos v) Hd) by congruence. reflexivity.
  - intros j. erewrite set_cell_shape by exact Hd. apply S.
  - intros k j. change (v_pos _) with (v_pos v). cbn [store_row written]. unfold at_row.
    destruct (Nat.eqb_spec j (v_pos v)) as [->|Nj].
    + destruct (Nat.eqb_spec k i) as [->|Nk].
      * eapply cell_set_same; exact Hd.
      * erewrite cell_set_other by (first [exact Hd|congruence]).
        rewrite (sh_cells _ _ _ _ _ _ S k (v_pos v)), Nat.eqb_refl. reflexivity.
    + erewrite cell_set_other by (first [exact Hd|congruence]).
      rewrite (sh_cells _ _ _ _ _ _ S k j). apply Nat.eqb_neq in Nj. rewrite Nj. reflexivity.
Qed.

Lemma step_shows t col d0 v d a op : shows t col d0 v d a -> within (length d0) op ->
  exists v' d', view_step t op (v, d) = ((v', d'), snd (array_step op a)) /\
    shows t col d0 v' d' (fst (array_step op a)) /\ v_pos v' = v_pos v.
Proof.
  intros S W. destruct op as [i|i x|i x|d']; cbn [within] in W; [| | |destruct W].
  - destruct (read_shows t col d0 v d a i S) as (A & B & P & _). cbn.
    destruct (view_read t i d v) as [v' r]. cbn in A, B, P. subst r. eexists _, _. split; [reflexivity|]. auto.
  - destruct (read_shows t col d0 v d a i S) as (A & B & P & _). cbn [ViewModel.view_step array_step].
    unfold ViewModel.view_assign.
    destruct (view_read t i d v) as [v1 r]. cbn [fst snd] in A, B, P. subst r.
    destruct (value_in a i) as [y|e| |]; try (eexists _, _; split; [reflexivity|]; auto).
    destruct (update_shows t col d0 v1 d a i x A W) as (v' & d' & E & S' & P').
    rewrite E. exists v', d'. split; [reflexivity|]. split; [exact S'|congruence].
  - destruct (update_shows t col d0 v d a i x S W) as (v' & d' & E & S' & P').
    cbn [ViewModel.view_step array_step]. rewrite E. exists v', d'. auto.
Qed.

Lemma run_shows t col d0 ops : forall v d a, shows t col d0 v d a -> Forall (within (length d0)) ops ->
  exists v' d', view_run t ops (v, d) = ((v', d'), snd (array_run ops a)) /\
    shows t col d0 v' d' (fst (array_run ops a)) /\ v_pos v' = v_pos v.
Proof.
  induction ops as [|op ops IH]; intros v d a S W.
  - cbn. eauto.
  - inversion W as [|? ? W1 W2]; subst.
    destruct (step_shows t col d0 v d a op S W1) as (v1 & d1 & E & S1 & P1).
    cbn [ViewModel.view_run array_run]. rewrite E.
    destruct (array_step op a) as [a1 r] eqn:Ea. cbn [fst snd] in *.
    destruct (IH v1 d1 a1 S1 W2) as (v2 & d2 & E2 & S2 & P2). rewrite E2.
    destruct (array_run ops a1) as [a2 rs]. cbn [fst snd] in *. exists v2, d2. split; [reflexivity|]. split; [exact S2|congruence].
Qed.

Lemma fresh_shows t d v : v_cache v = [] -> has_column d (v_pos v) ->
  shows t (v_col v) d v d (column_of decode t d (v_pos v) (c_elements (v_col v))).
Proof.
  intros E K. split; auto.
  - intros i x. rewrite E. discriminate.
  - intros i j. cbn. destruct (Nat.eqb j (v_pos v)); reflexivity.
Qed.

Theorem view_is_array t d v ops : v_cache v = [] -> has_column d (v_pos v) -> Forall (within (length d)) ops ->
  exists v' d', view_run t ops (v, d) =
      ((v', d'), snd (array_run ops (column_of decode t d (v_pos v) (c_elements (v_col v))))) /\
    length d' = length d /\
    (forall i, option_map (@length str) (nth_error d' i) = option_map (@length str) (nth_error d i)) /\
    forall i j, cell d' i j =
      match (if Nat.eqb j (v_pos v)
             then written (fst (array_run ops (column_of decode t d (v_pos v) (c_elements (v_col v))))) i else None) with
      | Some x => Ret (encode t x)
      | None => cell d i j
      end.
Proof.
  intros E K W. destruct (run_shows t (v_col v) d ops v d _ (fresh_shows t d v E K) W) as (v' & d' & R & S & P).
  exists v', d'. split; [exact R|]. split; [apply S|]. split; [apply S|].
  pose proof (sh_cells _ _ _ _ _ _ S) as C. rewrite P in C. exact C.
Qed.

(** ** The loop over a view *)

Lemma iterate_shows t col d0 d a m : forall i v, shows t col d0 v d a ->
  match snd (view_iterate t m i d v) with
  | Ret l => map Ret l = map (value_in a) (seq i m)
  | _ => exists k, k < m /\ (forall x, value_in a (i + k) <> Ret x) /\
           (forall j, j < k -> exists x, value_in a (i + j) = Ret x)
  end.
Proof.
  induction m as [|m IH]; intros i v Hs; cbn [ViewModel.view_iterate].
  - reflexivity.
  - destruct (read_shows t col d0 v d a i Hs) as (A & B & P & _).
    destruct (view_read t i d v) as [v1 r]. cbn [fst snd] in A, B, P. subst r.
    destruct (value_in a i) as [x|e| |] eqn:Ev.
    2,3,4: cbn; exists 0; rewrite Nat.add_0_r, Ev; split; [lia|split; [discriminate|lia]].
    specialize (IH (S i) v1 A).
    assert (Step : (exists k, k < m /\ (forall x, value_in a (S i + k) <> Ret x) /\
           (forall j, j < k -> exists x, value_in a (S i + j) = Ret x)) ->
         exists k, k < S m /\ (forall x, value_in a (i + k) <> Ret x) /\
           (forall j, j < k -> exists x, value_in a (i + j) = Ret x)).
    { intros (k & K1 & K2 & K3). exists (S k). split; [lia|]. split.
      - intros y. specialize (K2 y). now rewrite Nat.add_succ_r.
      - intros [|j] Hj; [rewrite Nat.add_0_r; eauto|]. rewrite Nat.add_succ_r. apply K3. lia. }
    destruct (view_iterate t m (S i) d v1) as [v2 r2]. cbn [fst snd] in *.
    destruct r2 as [l|e| |]; cbn; [cbn; now rewrite Ev, IH| | |]; apply Step, IH.
Qed.

Theorem view_all_rows t d v ops : v_cache v = [] -> has_column d (v_pos v) -> Forall (within (length d)) ops ->
  forall v' d', fst (view_run t ops (v, d)) = (v', d') ->
  let a := fst (array_run ops (column_of decode t d (v_pos v) (c_elements (v_col v)))) in
  (forall l, (forall i, i < length d -> exists x, nth_error l i = Some x /\ value_in a i = Ret x) -> length l = length d ->
     snd (view_all t d' v') = Ret l) /\
  ((exists i, i < length d /\ forall x, value_in a i <> Ret x) -> forall l, snd (view_all t d' v') <> Ret l).
Proof.
  intros E K W v' d' H a.
  destruct (run_shows t (v_col v) d ops v d _ (fresh_shows t d v E K) W) as (v1 & d1 & R & S & P).
  rewrite R in H. cbn [fst] in H. injection H as <- <-.
  pose proof (iterate_shows t (v_col v) d d1 a (length d1) 0 v1 S) as I.
  unfold ViewModel.view_all. destruct (snd (view_iterate t (length d1) 0 d1 v1)) as [l0|e| |] eqn:Er.
  - rewrite (sh_rows _ _ _ _ _ _ S) in I. split.
    + intros l Hl Hn. f_equal.
      assert (Hm : map (@Ret V) l0 = map (@Ret V) l).
      { rewrite I. apply list_ext. rewrite !map_length, seq_length. lia.
        intros i p q Hp Hq.
        assert (Hi : i < length d) by (rewrite <- Hn, <- (map_length (@Ret V) l); apply nth_error_Some; congruence).
        destruct (Hl i Hi) as (x & X1 & X2).
        rewrite nth_error_map, X1 in Hq. cbn in Hq. injection Hq as <-.
        rewrite nth_error_map, (nth_error_nth' _ 0) in Hp by (rewrite seq_length; lia).
        rewrite seq_nth in Hp by lia. cbn in Hp. congruence. }
      clear -Hm. revert l Hm. induction l0 as [|x l0 IH]; intros [|y l] H; cbn in H; try discriminate; auto.
      inversion H. f_equal. auto.
    + intros (i & Hi & N) l Hl. clear Hl.
      assert (Es : nth_error (map (value_in a) (seq 0 (length d))) i = Some (value_in a i)).
      { rewrite nth_error_map, (nth_error_nth' _ 0) by (rewrite seq_length; lia). now rewrite seq_nth. }
      rewrite <- I, nth_error_map in Es. destruct (nth_error l0 i) as [x|]; cbn in Es; [|discriminate].
      apply (N x). congruence.
  - split; [|intros _ l; discriminate]. intros l Hl _. destruct I as (k & K1 & K2 & _).
    rewrite (sh_rows _ _ _ _ _ _ S) in K1. destruct (Hl k K1) as (x & _ & X). destruct (K2 x X).
  - split; [|intros _ l; discriminate]. intros l Hl _. destruct I as (k & K1 & K2 & _).
    rewrite (sh_rows _ _ _ _ _ _ S) in K1. destruct (Hl k K1) as (x & _ & X). destruct (K2 x X).
  - split; [|intros _ l; discriminate]. intros l Hl _. destruct I as (k & K1 & K2 & _).
    rewrite (sh_rows _ _ _ _ _ _ S) in K1. destruct (Hl k K1) as (x & _ & X). destruct (K2 x X).
Qed.

(** ** Stale views *)

Lemma read_keeps t i d v j x : cache_find i (v_cache v) = Some x ->
  cache_find i (v_cache (fst (view_read t j d v))) = Some x.
Proof.
  intros H. unfold ViewModel.view_read. destruct (cache_find j (v_cache v)) as [y|] eqn:E; [exact H|].
  destruct (bind _ _); cbn; auto. destruct (Nat.eqb_spec i j) as [->|]; [congruence|exact H].
Qed.

Lemma update_keeps t i d v j y x : cache_find i (v_cache v) = Some x -> j <> i ->
  cache_find i (v_cache (fst (fst (view_update t j y d v)))) = Some x.
Proof.
  intros H N. unfold ViewModel.view_update. apply not_eq_sym, Nat.eqb_neq in N.
  destruct (set_cell d j (v_pos v) (encode t y)); cbn; now rewrite N.
Qed.

Lemma step_keeps t i op v d x : cache_find i (v_cache v) = Some x -> spares i op ->
  cache_find i (v_cache (fst (fst (view_step t op (v, d))))) = Some x.
Proof.
  intros H N. destruct op as [j|j y|j y|d']; cbn [spares] in N; cbn [ViewModel.view_step].
  - pose proof (read_keeps t i d v j x H). destruct (view_read t j d v). assumption.
  - unfold ViewModel.view_assign. pose proof (read_keeps t i d v j x H) as K.
    destruct (view_read t j d v) as [v1 r]. cbn [fst] in K. destruct r; auto.
    pose proof (update_keeps t i d v1 j y x K N). destruct (view_update t j y d v1) as [[? ?] ?]. assumption.
  - pose proof (update_keeps t i d v j y x H N). destruct (view_update t j y d v) as [[? ?] ?]. assumption.
  - exact H.
Qed.

Lemma run_keeps t i x ops : forall v d, cache_find i (v_cache v) = Some x -> Forall (spares i) ops ->
  cache_find i (v_cache (fst (fst (view_run t ops (v, d))))) = Some x.
Proof.
  induction ops as [|op ops IH]; intros v d H W; [exact H|].
  inversion W as [|? ? W1 W2]; subst. pose proof (step_keeps t i op v d x H W1) as K.
  cbn [ViewModel.view_run]. destruct (view_step t op (v, d)) as [[v1 d1] r]. cbn [fst] in K.
  specialize (IH v1 d1 K W2). destruct (view_run t ops (v1, d1)). exact IH.
Qed.

Lemma read_caches t i d v x : snd (view_read t i d v) = Ret x -> cache_find i (v_cache (fst (view_read t i d v))) = Some x.
Proof.
  unfold ViewModel.view_read. destruct (cache_find i (v_cache v)) as [y|] eqn:E.
  - cbn. intros H; apply ret_inj in H; subst. exact E.
  - destruct (bind _ _); cbn; try discriminate. intros H; apply ret_inj in H; subst. now rewrite Nat.eqb_refl.
Qed.

Lemma cached_read t i d v x : cache_find i (v_cache v) = Some x -> snd (view_read t i d v) = Ret x.
Proof. intros H. unfold ViewModel.view_read. now rewrite H. Qed.

Theorem view_stale t i x v d ops : snd (view_read t i d v) = Ret x -> Forall (spares i) ops ->
  forall v' d', fst (view_run t ops (fst (view_read t i d v), d)) = (v', d') ->
  snd (view_read t i d' v') = Ret x.
Proof.
  intros H W v' d' R. apply cached_read.
  pose proof (run_keeps t i x ops _ d (read_caches t i d v x H) W) as K. rewrite R in K. exact K.
Qed.

Lemma read_avoids t i d v j : cache_find i (v_cache v) = None -> j <> i ->
  cache_find i (v_cache (fst (view_read t j d v))) = None /\ v_pos (fst (view_read t j d v)) = v_pos v /\
  v_col (fst (view_read t j d v)) = v_col v.
Proof.
  intros H N. apply not_eq_sym, Nat.eqb_neq in N.
  unfold ViewModel.view_read. destruct (cache_find j (v_cache v)) as [y|]; [auto|].
  destruct (bind _ _); cbn; rewrite ?N; auto.
Qed.

Lemma update_avoids t i d v j y : cache_find i (v_cache v) = None -> j <> i ->
  cache_find i (v_cache (fst (fst (view_update t j y d v)))) = None /\
  v_col (fst (fst (view_update t j y d v))) = v_col v.
Proof.
  intros H N. apply not_eq_sym, Nat.eqb_neq in N. unfold ViewModel.view_update.
  destruct (set_cell d j (v_pos v) (encode t y)); cbn; now rewrite N.
Qed.

Lemma step_avoids t i op v d : cache_find i (v_cache v) = None -> avoids i op ->
  cache_find i (v_cache (fst (fst (view_step t op (v, d))))) = None /\
  v_col (fst (fst (view_step t op (v, d)))) = v_col v.
Proof.
  intros H N. destruct op as [j|j y|j y|d']; cbn [avoids] in N; cbn [ViewModel.view_step].
  - destruct (read_avoids t i d v j H N) as (A & _ & B). destruct (view_read t j d v). auto.
  - unfold ViewModel.view_assign. destruct (read_avoids t i d v j H N) as (A & _ & B).
    destruct (view_read t j d v) as [v1 r]. cbn [fst] in A, B. destruct r; auto.
    destruct (update_avoids t i d v1 j y A N) as (A2 & B2). destruct (view_update t j y d v1) as [[? ?] ?].
    cbn [fst] in *. split; congruence.
  - destruct (update_avoids t i d v j y H N). destruct (view_update t j y d v) as [[? ?] ?]. auto.
  - auto.
Qed.

Theorem view_unread t i ops : forall v d, cache_find i (v_cache v) = None -> Forall (avoids i) ops ->
  forall v' d', fst (view_run t ops (v, d)) = (v', d') ->
  snd (view_read t i d' v') = value_in (column_of decode t d' (v_pos v) (c_elements (v_col v))) i.
Proof.
  induction ops as [|op ops IH]; intros v d H W v' d' R.
  - cbn in R. injection R as <- <-. unfold ViewModel.view_read. rewrite H. cbn.
    destruct (cell d i (v_pos v)) as [s| | |]; cbn; try reflexivity. destruct (decode t s _); reflexivity.
  - inversion W as [|? ? W1 W2]; subst. destruct (step_avoids t i op v d H W1) as (A & B).
    cbn [ViewModel.view_run] in R. destruct (view_step t op (v, d)) as [[v1 d1] r]. cbn [fst] in A, B.
    destruct (view_run t ops (v1, d1)) as [st rs] eqn:E. cbn [fst] in R.
    replace (v_pos v) with (v_pos v1) by (unfold v_pos; now rewrite B). rewrite <- B.
    apply (IH v1 d1 A W2). rewrite E. exact R.
Qed.

(** ** Table objects *)

Variable teqb : T -> T -> bool.

Notation get_column := (@get_column V T teqb).
Notation column_read := (@column_read V T teqb decode).
Notation column_assign := (@column_assign V T teqb decode encode).
Notation obj_step := (@obj_step V T teqb decode encode).
Notation obj_run := (@obj_run V T teqb decode encode).

Lemma obj_at_nth (st : store V T) k o : obj_at st k = Ret o <-> nth_error st k = Some (Some o).
Proof.
  unfold obj_at. destruct (nth_error st k) as [[x|]|]; split; intros H; try discriminate; [|].
  - apply ret_inj in H. now subst. - injection H as <-. reflexivity.
Qed.

Lemma obj_put_same (st : store V T) k o o' : obj_at st k = Ret o -> obj_at (put st k o') k = Ret o'.
Proof.
  rewrite !obj_at_nth. intros H. unfold put. eapply nth_replace_same; exact H.
Qed.
Lemma obj_put_other (st : store V T) k j o' : k <> j -> obj_at (put st k o') j = obj_at st j.
Proof. intros H. unfold obj_at, put. now rewrite nth_replace_other. Qed.

Lemma obj_put (st : store V T) k j o' :
  obj_at (put st k o') j = if Nat.eqb k j then (match obj_at st j with Ret _ => Ret o' | _ => obj_at (put st k o') j end) else obj_at st j.
Proof.
  destruct (Nat.eqb_spec k j) as [->|N].
  - destruct (obj_at st j) eqn:E; auto. eapply obj_put_same; eauto.
  - now apply obj_put_other.
Qed.

(** The views of object [k] keep their names and types. *)
Definition typed (st : store V T) (k : nat) (name : str) (ty : T) : Prop :=
  exists o v, obj_at st k = Ret o /\ map_find name (o_views o) = Some (ty, v).

Lemma typed_put st k j o o' name ty : typed st k name ty -> obj_at st j = Ret o ->
  (forall v, map_find name (o_views o) = Some (ty, v) -> exists v', map_find name (o_views o') = Some (ty, v')) ->
  typed (put st j o') k name ty.
Proof.
  intros (o1 & v & A & B) Hj K. destruct (Nat.eq_dec j k) as [->|N].
  - rewrite A in Hj. apply ret_inj in Hj. subst o1. destruct (K v B) as (v' & B').
    exists o', v'. split; [eapply obj_put_same; eauto|exact B'].
  - exists o1, v. split; [now rewrite obj_put_other|exact B].
Qed.

Lemma get_column_typed st k name ty j ty2 n2 : typed st k name ty -> typed (fst (get_column j ty2 n2 st)) k name ty.
Proof.
  intros H. unfold ViewModel.get_column. destruct (obj_at st j) as [o| | |] eqn:E; auto.
  destruct (map_find n2 (o_views o)) as [[ty' v']|] eqn:F; [exact H|].
  destruct (get_column_metadata n2 (o_table o)); cbn [fst]; auto.
  eapply typed_put; [exact H|exact E|]. intros v Hv. cbn.
  destruct (str_eqb name n2) eqn:En.
  - apply str_eqb_eq in En. subst. congruence.
  - rewrite map_find_set_other by (rewrite str_eqb_neq in En; congruence). eauto.
Qed.

Lemma put_cells_typed st k name ty j d : typed st k name ty -> typed (put_cells j d st) k name ty.
Proof.
  intros H. unfold put_cells. destruct (obj_at st j) as [o| | |] eqn:E; auto.
  eapply typed_put; [exact H|exact E|]. cbn. eauto.
Qed.

Lemma put_view_typed st k name ty j ty2 n2 v2 w : typed st k name ty -> 
  (forall o, obj_at st j = Ret o -> map_find n2 (o_views o) = Some (ty2, w)) ->
  typed (put_view j ty2 n2 v2 st) k name ty.
Proof.
  intros H K. unfold put_view. destruct (obj_at st j) as [o| | |] eqn:E; auto.
  eapply typed_put; [exact H|exact E|]. intros v Hv. cbn.
  destruct (str_eqb name n2) eqn:En.
  - apply str_eqb_eq in En. subst n2. rewrite (K o eq_refl) in Hv. injection Hv as -> ->.
    rewrite map_find_set_same. eauto.
  - rewrite map_find_set_other by (rewrite str_eqb_neq in En; congruence). eauto.
Qed.

Variable teqb_eq : forall a b, teqb a b = true <-> a = b.

Lemma get_column_ret st k ty name st1 v : get_column k ty name st = (st1, Ret v) ->
  exists o, obj_at st1 k = Ret o /\ map_find name (o_views o) = Some (ty, v).
Proof.
  unfold ViewModel.get_column. destruct (obj_at st k) as [o| | |] eqn:E; try discriminate.
  destruct (map_find name (o_views o)) as [[ty' v']|] eqn:F.
  - destruct (teqb ty ty') eqn:Et; [|discriminate]. apply teqb_eq in Et. subst ty'.
    intros H. injection H as <- <-. eauto.
  - destruct (get_column_metadata name (o_table o)); try discriminate. intros H.
    injection H as <- <-. eexists. split; [eapply obj_put_same; eauto|]. cbn. apply map_find_set_same.
Qed.

Lemma step_typed st k name ty op : keeps k op -> typed st k name ty -> typed (obj_step op st) k name ty.
Proof.
  intros K H. destruct op as [j t2 n2|j t2 n2 i|j t2 n2 i x|j t|j|j]; cbn [ViewModel.obj_step].
  - now apply get_column_typed.
  - unfold ViewModel.column_read. pose proof (get_column_typed st k name ty j t2 n2 H) as H1.
    destruct (get_column j t2 n2 st) as [st1 r] eqn:E. cbn [fst] in H1. destruct r as [v|e| |]; try exact H1.
    destruct (obj_at st1 (v_table v)) as [o| | |]; try exact H1.
    destruct (view_read t2 i (t_data (o_table o)) v) as [v' r']. cbn [fst].
    destruct (get_column_ret _ _ _ _ _ _ E) as (o1 & A & B).
    apply put_view_typed with (w := v); [exact H1|]. intros o2 Ho2. rewrite A in Ho2. apply ret_inj in Ho2. now subst.
  - unfold ViewModel.column_assign. pose proof (get_column_typed st k name ty j t2 n2 H) as H1.
    destruct (get_column j t2 n2 st) as [st1 r] eqn:E. cbn [fst] in H1. destruct r as [v|e| |]; try exact H1.
    destruct (obj_at st1 (v_table v)) as [o| | |]; try exact H1.
    destruct (view_assign t2 i x (t_data (o_table o)) v) as [[v' d'] r']. cbn [fst].
    destruct (get_column_ret _ _ _ _ _ _ E) as (o1 & A & B).
    apply put_cells_typed. apply put_view_typed with (w := v); [exact H1|].
    intros o2 Ho2. rewrite A in Ho2. apply ret_inj in Ho2. now subst.
  - destruct (obj_at st j) as [o| | |] eqn:E; auto. eapply typed_put; [exact H|exact E|]. cbn. eauto.
  - destruct (obj_at st j) as [o| | |] eqn:E; auto. destruct H as (o1 & v & A & B). exists o1, v. split; [|exact B].
    apply obj_at_nth. apply obj_at_nth in A. rewrite nth_error_app1; [exact A|]. apply nth_error_Some. congruence.
  - cbn [keeps] in K. destruct H as (o1 & v & A & B). exists o1, v. split; [|exact B].
    apply obj_at_nth. apply obj_at_nth in A. now rewrite nth_replace_other.
Qed.

Lemma run_typed k name ty ops : forall st, Forall (keeps k) ops -> typed st k name ty -> typed (obj_run ops st) k name ty.
Proof.
  induction ops as [|op ops IH]; intros st K H; [exact H|].
  inversion K; subst. cbn. apply IH; [assumption|]. now apply step_typed.
Qed.

Theorem type_fixed st k ty name st1 v ops : get_column k ty name st = (st1, Ret v) -> Forall (keeps k) ops ->
  (exists v', snd (get_column k ty name (obj_run ops st1)) = Ret v') /\
  (forall ty', ty' <> ty -> get_column k ty' name (obj_run ops st1) = (obj_run ops st1, Throw BadGet)).
Proof.
  intros H K. destruct (get_column_ret _ _ _ _ _ _ H) as (o & A & B).
  assert (H1 : typed st1 k name ty) by (exists o, v; auto).
  apply (run_typed k name ty ops st1 K) in H1. destruct H1 as (o' & v' & A' & B').
  unfold ViewModel.get_column. rewrite A', B'. split.
  - exists v'. cbn. destruct (teqb ty ty) eqn:E; [reflexivity|]. exfalso.
    assert (teqb ty ty = true) by (apply teqb_eq; reflexivity). congruence.
  - intros ty' N. destruct (teqb ty' ty) eqn:E; [apply teqb_eq in E; congruence|reflexivity].
Qed.

Theorem missing_column st k ty name o : obj_at st k = Ret o -> map_find name (o_views o) = None ->
  (forall c, In c (t_columns (o_table o)) -> c_name c <> name) ->
  get_column k ty name st = (st, Throw ColumnNotFound).
Proof.
  intros H F N. unfold ViewModel.get_column. rewrite H, F. pose proof (column_lookup name (o_table o)) as L.
  destruct (get_column_metadata name (o_table o)) as [c|e| |].
  - destruct L as (a & b & L & Ec & _). destruct (N c); auto. rewrite L. apply in_or_app. right. left. reflexivity.
  - destruct L as [-> _]. reflexivity.
  - destruct L.
  - destruct L.
Qed.

(** ** Views of different columns do not interfere *)

(** Object [k] has columns [cols] and views made for itself. *)
Definition own (k : nat) (t : table) (st : store V T) : Prop :=
  exists o, obj_at st k = Ret o /\ t_columns (o_table o) = t_columns t /\
    forall name ty v, map_find name (o_views o) = Some (ty, v) ->
      v_table v = k /\ get_column_metadata name t = Ret (v_col v).

Lemma metadata_columns name t t' : t_columns t = t_columns t' -> get_column_metadata name t = get_column_metadata name t'.
Proof. intros H. unfold get_column_metadata. now rewrite H. Qed.

Lemma get_column_own k t st ty name : own k t st -> own k t (fst (get_column k ty name st)).
Proof.
  intros (o & A & B & C). unfold ViewModel.get_column. rewrite A.
  destruct (map_find name (o_views o)) as [[ty' v']|] eqn:F; [exists o; auto|].
  destruct (get_column_metadata name (o_table o)) as [c| | |] eqn:E; cbn [fst]; try (exists o; auto; fail).
  eexists. split; [eapply obj_put_same; eauto|]. cbn. split; [exact B|].
  intros n2 t2 v2 Hn. destruct (str_eqb name n2) eqn:En.
  - apply str_eqb_eq in En. subst n2. rewrite map_find_set_same in Hn. injection Hn as <- <-. cbn.
    split; [reflexivity|]. rewrite <- E. apply metadata_columns. auto.
  - rewrite map_find_set_other in Hn by (rewrite str_eqb_neq in En; congruence). eauto.
Qed.

Lemma read_same_column t i d v : v_col (fst (view_read t i d v)) = v_col v /\ v_table (fst (view_read t i d v)) = v_table v.
Proof.
  unfold ViewModel.view_read. destruct (cache_find i (v_cache v)); [auto|]. destruct (bind _ _); auto.
Qed.
Lemma update_same_column t i x d v :
  v_col (fst (fst (view_update t i x d v))) = v_col v /\ v_table (fst (fst (view_update t i x d v))) = v_table v.
Proof. unfold ViewModel.view_update. destruct (set_cell d i (v_pos v) (encode t x)); auto. Qed.
Lemma assign_same_column t i x d v :
  v_col (fst (fst (view_assign t i x d v))) = v_col v /\ v_table (fst (fst (view_assign t i x d v))) = v_table v.
Proof.
  unfold ViewModel.view_assign. pose proof (read_same_column t i d v) as [A B].
  destruct (view_read t i d v) as [v1 r]. cbn [fst] in A, B. destruct r; auto.
  pose proof (update_same_column t i x d v1) as [A2 B2]. split; congruence.
Qed.

(** The view of that name in object [k], with the cells. *)
Lemma own_lookup k t st ty name st1 v : own k t st -> get_column k ty name st = (st1, Ret v) ->
  own k t st1 /\ v_table v = k /\ get_column_metadata name t = Ret (v_col v) /\
  exists o, obj_at st1 k = Ret o /\ map_find name (o_views o) = Some (ty, v).
Proof.
  intros O E. pose proof (get_column_own k t st ty name O) as O1. rewrite E in O1. cbn [fst] in O1.
  destruct (get_column_ret _ _ _ _ _ _ E) as (o & A & B). split; [exact O1|].
  destruct O1 as (o1 & A1 & B1 & C1). rewrite A in A1. apply ret_inj in A1. subst o1.
  destruct (C1 _ _ _ B). split; [assumption|]. split; [assumption|]. eauto.
Qed.

Lemma put_view_own k t st ty name v : own k t st -> v_table v = k -> get_column_metadata name t = Ret (v_col v) ->
  own k t (put_view k ty name v st).
Proof.
  intros (o & A & B & C) Hk Hc. unfold put_view. rewrite A.
  eexists. split; [eapply obj_put_same; eauto|]. cbn. split; [exact B|].
  intros n2 t2 v2 Hn. destruct (str_eqb name n2) eqn:En.
  - apply str_eqb_eq in En. subst n2. rewrite map_find_set_same in Hn. injection Hn as <- <-. auto.
  - rewrite map_find_set_other in Hn by (rewrite str_eqb_neq in En; congruence). eauto.
Qed.

Lemma put_cells_own k t st d : own k t st -> own k t (put_cells k d st).
Proof.
  intros (o & A & B & C). unfold put_cells. rewrite A.
  eexists. split; [eapply obj_put_same; eauto|]. cbn. auto.
Qed.

Lemma step_own k t st op : only k t op -> own k t st -> own k t (obj_step op st).
Proof.
  intros K O. destruct op as [j t2 n2|j t2 n2 i|j t2 n2 i x|j tb|j|j]; cbn [only] in K; cbn [ViewModel.obj_step].
  - subst j. now apply get_column_own.
  - subst j. unfold ViewModel.column_read.
    pose proof (get_column_own k t st t2 n2 O) as O1.
    destruct (get_column k t2 n2 st) as [st1 r] eqn:E. cbn [fst] in O1. destruct r as [v|e| |]; try exact O1.
    destruct (own_lookup k t st t2 n2 st1 v O E) as (_ & Hk & Hc & o & A & B).
    rewrite Hk, A. pose proof (read_same_column t2 i (t_data (o_table o)) v) as [R1 R2].
    destruct (view_read t2 i (t_data (o_table o)) v) as [v' r']. cbn [fst] in *.
    apply put_view_own; [exact O1|congruence|congruence].
  - subst j. unfold ViewModel.column_assign.
    pose proof (get_column_own k t st t2 n2 O) as O1.
    destruct (get_column k t2 n2 st) as [st1 r] eqn:E. cbn [fst] in O1. destruct r as [v|e| |]; try exact O1.
    destruct (own_lookup k t st t2 n2 st1 v O E) as (_ & Hk & Hc & o & A & B).
    rewrite Hk, A. pose proof (assign_same_column t2 i x (t_data (o_table o)) v) as [R1 R2].
    destruct (view_assign t2 i x (t_data (o_table o)) v) as [[v' d'] r']. cbn [fst] in *.
    apply put_cells_own, put_view_own; [exact O1|congruence|congruence].
  - destruct K as [-> Hc]. destruct O as (o & A & B & C). rewrite A.
    eexists. split; [eapply obj_put_same; eauto|]. cbn. auto.
  - destruct K.
  - destruct K.
Qed.

Lemma run_own k t ops : forall st, Forall (only k t) ops -> own k t st -> own k t (obj_run ops st).
Proof.
  induction ops as [|op ops IH]; intros st K H; [exact H|].
  inversion K; subst. cbn. apply IH; [assumption|]. now apply step_own.
Qed.

Lemma positions_differ t a b ca cb : numbered_columns t -> a <> b ->
  get_column_metadata a t = Ret ca -> get_column_metadata b t = Ret cb -> c_index ca - 1 <> c_index cb - 1.
Proof.
  intros N D Ha Hb. pose proof (column_lookup a t) as La. rewrite Ha in La. pose proof (column_lookup b t) as Lb. rewrite Hb in Lb.
  destruct La as (a1 & a2 & Ea & Na & _). destruct Lb as (b1 & b2 & Eb & Nb & _).
  assert (Ia : c_index ca = S (length a1)).
  { apply N. rewrite Ea, nth_error_app2 by lia. now rewrite Nat.sub_diag. }
  assert (Ib : c_index cb = S (length b1)).
  { apply N. rewrite Eb, nth_error_app2 by lia. now rewrite Nat.sub_diag. }
  intros E. assert (length a1 = length b1) by lia. apply D. rewrite <- Na, <- Nb. f_equal.
  assert (nth_error (t_columns t) (length a1) = Some ca) by (rewrite Ea, nth_error_app2 by lia; now rewrite Nat.sub_diag).
  assert (nth_error (t_columns t) (length b1) = Some cb) by (rewrite Eb, nth_error_app2 by lia; now rewrite Nat.sub_diag).
  congruence.
Qed.

Lemma update_cells t i x d v v' d' r j : view_update t i x d v = (v', d', r) -> j <> v_pos v -> forall i2, cell d' i2 j = cell d i2 j.
Proof.
  unfold ViewModel.view_update. destruct (set_cell d i (v_pos v) (encode t x)) as [d1| | |] eqn:E; intros H N i2;
    injection H as <- <- <-; auto. eapply cell_set_other; [exact E|congruence].
Qed.
Lemma assign_cells t i x d v v' d' r j : view_assign t i x d v = (v', d', r) -> j <> v_pos v -> forall i2, cell d' i2 j = cell d i2 j.
Proof.
  unfold ViewModel.view_assign. pose proof (read_same_column t i d v) as [A _].
  destruct (view_read t i d v) as [v1 r1]. cbn [fst] in A. destruct r1; intros H N i2; try (injection H as <- <- <-; reflexivity).
  eapply update_cells; [exact H|]. unfold v_pos in *. congruence.
Qed.

(** What a read of column [b] depends on: the view of that name and the cells of that column. *)
Lemma column_read_depends k t st st' ty b i o o' cb : own k t st -> own k t st' ->
  obj_at st k = Ret o -> obj_at st' k = Ret o' ->
  map_find b (o_views o) = map_find b (o_views o') -> get_column_metadata b t = Ret cb ->
  (forall i2, cell (t_data (o_table o)) i2 (c_index cb - 1) = cell (t_data (o_table o')) i2 (c_index cb - 1)) ->
  snd (column_read k ty b i st) = snd (column_read k ty b i st').
Proof.
  intros (p & Hp & Cp & Vp) (p' & Hp' & Cp' & Vp') A A' F M D.
  rewrite A in Hp. apply ret_inj in Hp. subst p. rewrite A' in Hp'. apply ret_inj in Hp'. subst p'.
  assert (R : forall v, v_col v = cb ->
    snd (view_read ty i (t_data (o_table o)) v) = snd (view_read ty i (t_data (o_table o')) v)).
  { intros v Hv. unfold ViewModel.view_read. destruct (cache_find i (v_cache v)); [reflexivity|].
    replace (v_pos v) with (c_index cb - 1) by (unfold v_pos; now rewrite Hv). rewrite D.
    destruct (bind _ _); reflexivity. }
  unfold ViewModel.column_read, ViewModel.get_column. rewrite A, A', <- F.
  destruct (map_find b (o_views o)) as [[ty' v]|] eqn:E.
  - destruct (Vp _ _ _ E) as [Hk Hc]. destruct (teqb ty ty'); [|reflexivity].
    rewrite Hk, A, A'. assert (v_col v = cb) by congruence. specialize (R v H).
    destruct (view_read ty i (t_data (o_table o)) v), (view_read ty i (t_data (o_table o')) v). exact R.
  - rewrite (metadata_columns b (o_table o) t Cp), (metadata_columns b (o_table o') t Cp'), M. cbn [v_table].
    erewrite obj_put_same by exact A. erewrite obj_put_same by exact A'. cbn [o_table].
    specialize (R (mk_view k cb []) eq_refl).
    destruct (view_read ty i (t_data (o_table o)) (mk_view k cb [])), (view_read ty i (t_data (o_table o')) (mk_view k cb [])). exact R.
Qed.

Theorem columns_independent k t st ta a j x tb b i : numbered_columns t -> own k t st -> a <> b ->
  snd (column_read k tb b i (fst (column_assign k ta a j x st))) = snd (column_read k tb b i st).
Proof.
  intros N O D. symmetry.
  assert (Triv : forall st1, own k t st1 -> get_column_metadata b t = Throw ColumnNotFound ->
    snd (column_read k tb b i st1) = Throw ColumnNotFound).
  { intros st1 (o & A & C & W) M. unfold ViewModel.column_read, ViewModel.get_column. rewrite A.
    destruct (map_find b (o_views o)) as [[ty' v]|] eqn:E; [destruct (W _ _ _ E); congruence|].
    now rewrite (metadata_columns b (o_table o) t C), M. }
  assert (O2 : own k t (fst (column_assign k ta a j x st))).
  { apply (step_own k t st (OAssign k ta a j x)); [reflexivity|exact O]. }
  destruct (get_column_metadata b t) as [cb|e| |] eqn:M.
  2:{ assert (e = ColumnNotFound) as -> by (pose proof (column_lookup b t) as L; rewrite M in L; apply L).
      rewrite !Triv; auto. }
  2,3: pose proof (column_lookup b t) as L; rewrite M in L; destruct L.
  destruct O as (o & A & C & W). destruct O2 as (o2 & A2 & C2 & W2).
  eapply (column_read_depends k t); [exists o; eauto|exists o2; eauto|exact A|exact A2| |exact M|].
  all: revert A2; unfold ViewModel.column_assign.
  all: assert (O : own k t st) by (exists o; auto).
  all: destruct (get_column k ta a st) as [st1 r] eqn:E.
  all: assert (Hst1 : exists o1, obj_at st1 k = Ret o1 /\ o_table o1 = o_table o /\ map_find b (o_views o1) = map_find b (o_views o)).
  1,3: unfold ViewModel.get_column in E; rewrite A in E;
    destruct (map_find a (o_views o)) as [[ty' v']|];
    [injection E as <- _; exists o; auto|];
    destruct (get_column_metadata a (o_table o)); injection E as <- _; try (exists o; auto; fail);
    eexists; (split; [eapply obj_put_same; exact A|]); cbn; (split; [reflexivity|]);
    apply map_find_set_other; congruence.
  all: destruct Hst1 as (o1 & B1 & B2 & B3).
  all: destruct r as [v|e| |]; cbn [fst]; try (intros A2; rewrite A2 in B1; apply ret_inj in B1; subst o1; rewrite ?B2, ?B3; reflexivity).
  all: destruct (own_lookup k t st ta a st1 v O E) as (O1 & Hk & Hc & o1' & B1' & Bv);
    rewrite B1 in B1'; apply ret_inj in B1'; subst o1'.
  all: rewrite Hk, B1.
  all: destruct (view_assign ta j x (t_data (o_table o1)) v) as [[v' d'] r'] eqn:Ea; cbn [fst].
  all: unfold put_view; rewrite B1; unfold put_cells; erewrite obj_put_same by exact B1;
    erewrite obj_put_same by (eapply obj_put_same; exact B1).
  all: intros A2; apply ret_inj in A2; subst o2; cbn.
  - rewrite map_find_set_other by congruence. auto.
  - intros i2. rewrite <- B2. symmetry. eapply assign_cells; [exact Ea|].
    unfold v_pos. apply not_eq_sym. eapply positions_differ; [exact N|exact D|exact Hc|exact M].
Qed.

(** ** Copies *)

Lemma copy_at (st : store V T) k o : obj_at st k = Ret o ->
  obj_at (obj_step (OCopy k) st) (length st) = Ret o /\ (forall j p, obj_at st j = Ret p -> obj_at (obj_step (OCopy k) st) j = Ret p).
Proof.
  intros H. cbn. rewrite H. split.
  - apply obj_at_nth. rewrite nth_error_app2 by lia. now rewrite Nat.sub_diag.
  - intros j p Hj. apply obj_at_nth. apply obj_at_nth in Hj. rewrite nth_error_app1; [exact Hj|]. apply nth_error_Some. congruence.
Qed.

Lemma cells_of_at (st : store V T) k o : obj_at st k = Ret o -> cells_of st k = Some (t_data (o_table o)).
Proof. intros H. apply obj_at_nth in H. unfold cells_of. now rewrite H. Qed.

Theorem copy_aliases st k o name ty v i x y d : obj_at st k = Ret o -> map_find name (o_views o) = Some (ty, v) -> v_table v = k ->
  snd (view_read ty i (t_data (o_table o)) v) = Ret y -> set_cell (t_data (o_table o)) i (v_pos v) (encode ty x) = Ret d ->
  let st1 := obj_step (OCopy k) st in
  let st2 := fst (column_assign (length st) ty name i x st1) in
  snd (column_assign (length st) ty name i x st1) = Ret tt /\
  cells_of st2 k = Some d /\ cells_of st2 (length st) = Some (t_data (o_table o)).
Proof.
  intros H F Hk Hr Hs st1 st2.
  destruct (copy_at st k o H) as [C1 C2]. fold st1 in C1, C2.
  assert (Lk : k < length st) by (apply obj_at_nth in H; apply nth_error_Some; congruence).
  assert (E : column_assign (length st) ty name i x st1 =
    (put_cells k d (put_view (length st) ty name
       (mk_view (v_table v) (v_col v) ((i, x) :: v_cache (fst (view_read ty i (t_data (o_table o)) v)))) st1), Ret tt)).
  { unfold ViewModel.column_assign, ViewModel.get_column. rewrite C1, F.
    assert (teqb ty ty = true) as -> by (apply teqb_eq; reflexivity).
    rewrite Hk, (C2 k o H). unfold ViewModel.view_assign.
    pose proof (read_same_column ty i (t_data (o_table o)) v) as [R1 R2].
    destruct (view_read ty i (t_data (o_table o)) v) as [v1 r1]. cbn [fst snd] in *. subst r1.
    unfold ViewModel.view_update. replace (v_pos v1) with (v_pos v) by (unfold v_pos; congruence). rewrite Hs, R1, R2, Hk. reflexivity. }
  unfold st2. rewrite E. cbn [fst snd]. split; [reflexivity|].
  unfold put_view. rewrite C1.
  assert (Hk1 : forall o', obj_at (put st1 (length st) o') k = Ret o) by (intros; rewrite obj_put_other by lia; auto).
  split.
  - unfold put_cells. rewrite Hk1. erewrite cells_of_at by (eapply obj_put_same; apply Hk1). reflexivity.
  - unfold put_cells. rewrite Hk1. erewrite cells_of_at
      by (rewrite obj_put_other by lia; apply (obj_put_same _ _ _ _ C1)). reflexivity.
Qed.

Theorem copy_early st k t ty name i x : obj_at st k = Ret (mk_tobj t []) ->
  let st1 := obj_step (OCopy k) st in
  cells_of (fst (column_assign (length st) ty name i x st1)) k = Some (t_data t).
Proof.
  intros H st1. destruct (copy_at st k _ H) as [C1 C2]. fold st1 in C1, C2.
  assert (Lk : k < length st) by (apply obj_at_nth in H; apply nth_error_Some; congruence).
  assert (H1 : cells_of st1 k = Some (t_data t)) by (erewrite cells_of_at by (apply C2; exact H); reflexivity).
  unfold ViewModel.column_assign, ViewModel.get_column. rewrite C1. cbn [o_views map_find o_table].
  destruct (get_column_metadata name t) as [c| | |]; try exact H1. cbn [v_table].
  erewrite obj_put_same by exact C1. cbn [o_table].
  destruct (view_assign ty i x (t_data t) (mk_view (length st) c [])) as [[v' d'] r]. cbn [fst].
  unfold put_view. erewrite obj_put_same by exact C1. unfold put_cells.
  erewrite obj_put_same by (eapply obj_put_same; exact C1).
  erewrite cells_of_at by (rewrite !obj_put_other by lia; apply C2; exact H). reflexivity.
Qed.

Theorem copy_dangles st k o name ty v i x : obj_at st k = Ret o -> map_find name (o_views o) = Some (ty, v) -> v_table v = k ->
  let st1 := obj_run [OCopy k; ODestroy k] st in
  snd (column_read (length st) ty name i st1) = Undef /\ snd (column_assign (length st) ty name i x st1) = Undef.
Proof.
  intros H F Hk st1. destruct (copy_at st k o H) as [C1 C2].
  assert (Lk : k < length st) by (apply obj_at_nth in H; apply nth_error_Some; congruence).
  assert (A1 : obj_at st1 (length st) = Ret o).
  { unfold st1. cbn -[ViewModel.obj_step]. apply obj_at_nth. apply obj_at_nth in C1. cbn [ViewModel.obj_step] in *.
    rewrite nth_replace_other by lia. exact C1. }
  assert (A2 : obj_at st1 k = Undef).
  { unfold st1. cbn -[ViewModel.obj_step]. unfold obj_at. cbn [ViewModel.obj_step].
    pose proof (C2 k o H) as C. apply obj_at_nth in C. cbn [ViewModel.obj_step] in C.
    now rewrite (nth_replace_same _ _ _ _ C). }
  unfold ViewModel.column_read, ViewModel.column_assign, ViewModel.get_column. rewrite A1, F.
  assert (teqb ty ty = true) as -> by (apply teqb_eq; reflexivity). rewrite Hk, A2. auto.
Qed.

End Proofs.
