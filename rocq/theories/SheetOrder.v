(** * Entries last, looking changes nothing, columns may be used in any order. *)
From Coq Require Import String Ascii List Arith NArith ZArith Bool Lia.
Import ListNotations.
From Verif Require Import CppModel CppProofs HeaderModel HeaderProofs HeaderLookup CardProofs TableModel TableSpec
  TableCells ViewModel ViewSpec ViewProofs SheetModel SheetSpec SheetProofs.
Open Scope list_scope.

Section Order.
Variable V T : Type.
Variable teqb : T -> T -> bool.
Variable decode : T -> str -> N -> outcome V.
Variable encode : T -> V -> str.
Hypothesis teqb_eq : forall a b, teqb a b = true <-> a = b.
Variable k : nat.
Variable t : table.
Hypothesis numbered : numbered_columns t.

Local Notation cols := (t_columns t).
Local Notation d0 := (t_data t).
Local Notation sheet_step := (SheetSpec.sheet_step teqb decode encode cols d0).
Local Notation sheet_run := (SheetSpec.sheet_run teqb decode encode cols d0).
Local Notation table_step := (SheetModel.table_step teqb decode encode k).
Local Notation table_run := (SheetModel.table_run teqb decode encode k).
Local Notation ask := (SheetSpec.ask teqb cols).
Local Notation stands := (SheetProofs.stands V T decode encode k t).

Lemma sheet_run_app us us' : forall s, sheet_run (us ++ us') s =
  (let (s1, l) := sheet_run us s in let (s2, l') := sheet_run us' s1 in (s2, l ++ l')).
Proof.
  induction us as [|u us IH]; intros s; cbn [app SheetSpec.sheet_run].
  - now destruct (sheet_run us' s).
  - destruct (sheet_step u s) as [s1 a]. rewrite IH. destruct (sheet_run us s1) as [s2 l]. now destruct (sheet_run us' s2).
Qed.
Lemma table_run_app us us' : forall st, table_run (us ++ us') st =
  (let (s1, l) := table_run us st in let (s2, l') := table_run us' s1 in (s2, l ++ l')).
Proof.
  induction us as [|u us IH]; intros s; cbn [app SheetModel.table_run].
  - now destruct (table_run us' s).
  - destruct (table_step u s) as [s1 a]. rewrite IH. destruct (table_run us s1) as [s2 l]. now destruct (table_run us' s2).
Qed.

(** ** Sheets that say the same *)
Definition alike (s s' : sheet V T) : Prop := (forall n, kind s n = kind s' n) /\ (forall n i, entry s n i = entry s' n i).

Lemma alike_refl s : alike s s.
Proof. split; reflexivity. Qed.

Lemma text_alike s s' i j : alike s s' -> text_at encode cols d0 i j s = text_at encode cols d0 i j s'.
Proof. intros [A B]. unfold text_at. destruct (find _ cols); [|reflexivity]. now rewrite A, B. Qed.

Lemma value_alike s s' ty n c i : alike s s' -> value decode d0 ty n c i s = value decode d0 ty n c i s'.
Proof. intros [A B]. unfold value. now rewrite B. Qed.

Lemma ask_alike s s' ty n : alike s s' -> alike (fst (ask ty n s)) (fst (ask ty n s')) /\ snd (ask ty n s) = snd (ask ty n s').
Proof.
  intros [A B]. unfold SheetSpec.ask. destruct (named cols n) as [c|]; [|split; [split; assumption|reflexivity]].
  rewrite A. destruct (kind s' n); (split; [split|reflexivity]); cbn [fst kind entry]; auto.
  intros m. now destruct (same_name m n).
Qed.

Lemma entered_alike s s' n i x : alike s s' -> alike (entered n i x s) (entered n i x s').
Proof. intros [A B]. split; cbn [entered kind entry]; [exact A|]. intros m j. now destruct (same_name m n && Nat.eqb j i). Qed.

Lemma step_alike u s s' : alike s s' -> alike (fst (sheet_step u s)) (fst (sheet_step u s')) /\ snd (sheet_step u s) = snd (sheet_step u s').
Proof.
  intros A. destruct u as [ty n|ty n i|ty n i x|i j]; cbn [SheetSpec.sheet_step].
  - pose proof (ask_alike s s' ty n A) as [H1 H2]. destruct (ask ty n s), (ask ty n s'). cbn [fst snd] in *. subst. auto.
  - pose proof (ask_alike s s' ty n A) as [H1 H2]. destruct (ask ty n s) as [s1 r], (ask ty n s') as [s2 r']. cbn [fst snd] in *. subst r'.
    split; [exact H1|]. f_equal. destruct r; cbn [bind]; auto. now apply value_alike.
  - pose proof (ask_alike s s' ty n A) as [H1 H2]. destruct (ask ty n s) as [s1 r], (ask ty n s') as [s2 r']. cbn [fst snd] in *. subst r'.
    assert (E : (let! c := r in value decode d0 ty n c i s1) = (let! c := r in value decode d0 ty n c i s2)).
    { destruct r; cbn [bind]; auto. now apply value_alike. }
    rewrite E. destruct (let! c := r in value decode d0 ty n c i s2); cbn [fst snd]; auto.
    split; [now apply entered_alike|reflexivity].
  - cbn [fst snd]. split; [exact A|]. f_equal. now apply text_alike.
Qed.

Lemma run_alike us : forall s s', alike s s' -> alike (fst (sheet_run us s)) (fst (sheet_run us s')) /\ snd (sheet_run us s) = snd (sheet_run us s').
Proof.
  induction us as [|u us IH]; intros s s' A; cbn [SheetSpec.sheet_run]; [auto|].
  destruct (step_alike u s s' A) as [H1 H2]. destruct (sheet_step u s) as [s1 a], (sheet_step u s') as [s1' a'].
  cbn [fst snd] in *. subst a'. destruct (IH s1 s1' H1) as [H3 H4].
  destruct (sheet_run us s1), (sheet_run us s1'). cbn [fst snd] in *. subst. auto.
Qed.

(** ** What a use of a column depends on and changes *)
Lemma step_elsewhere name u s : of_column name u ->
  forall m, m <> name -> kind (fst (sheet_step u s)) m = kind s m /\ forall i, entry (fst (sheet_step u s)) m i = entry s m i.
Proof.
  intros O m D.
  assert (Q : forall ty, kind (fst (ask ty name s)) m = kind s m /\ forall i, entry (fst (ask ty name s)) m i = entry s m i).
  { intros ty. unfold SheetSpec.ask. destruct (named cols name); [|auto]. destruct (kind s name); cbn [fst kind entry]; [auto|].
    now rewrite same_name_neq. }
  destruct u as [ty n|ty n i|ty n i x|i j]; cbn [of_column] in O; try contradiction; subst n; cbn [SheetSpec.sheet_step];
    specialize (Q ty); destruct (ask ty name s) as [s1 r]; cbn [fst] in *; try exact Q.
  destruct (let! c := r in _); cbn [fst]; try exact Q. cbn [entered kind entry]. destruct Q as [Q1 Q2].
  split; [exact Q1|]. intros j. rewrite same_name_neq by exact D. apply Q2.
Qed.

(** Sheets that agree on a column. *)
Definition agree (name : str) (s s' : sheet V T) : Prop := kind s name = kind s' name /\ forall i, entry s name i = entry s' name i.

Lemma step_agree name u s s' : of_column name u -> agree name s s' ->
  agree name (fst (sheet_step u s)) (fst (sheet_step u s')) /\ snd (sheet_step u s) = snd (sheet_step u s').
Proof.
  intros O [A B].
  assert (Q : forall ty, agree name (fst (ask ty name s)) (fst (ask ty name s')) /\ snd (ask ty name s) = snd (ask ty name s')).
  { intros ty. unfold SheetSpec.ask. destruct (named cols name); [|split; [split; assumption|reflexivity]].
    rewrite A. destruct (kind s' name) eqn:Q; (split; [split|reflexivity]); cbn [fst kind entry]; auto; [congruence|].
    now rewrite same_name_refl. }
  assert (W : forall ty c i s1 s2, agree name s1 s2 -> value decode d0 ty name c i s1 = value decode d0 ty name c i s2).
  { intros ty c i s1 s2 [_ H]. unfold value. now rewrite H. }
  destruct u as [ty n|ty n i|ty n i x|i j]; cbn [of_column] in O; try contradiction; subst n; cbn [SheetSpec.sheet_step];
    destruct (Q ty) as [Q1 Q2]; destruct (ask ty name s) as [s1 r], (ask ty name s') as [s2 r']; cbn [fst snd] in *; subst r'.
  - auto.
  - split; [exact Q1|]. f_equal. destruct r; cbn [bind]; auto.
  - assert (E : (let! c := r in value decode d0 ty name c i s1) = (let! c := r in value decode d0 ty name c i s2)).
    { destruct r; cbn [bind]; auto. }
    rewrite E. destruct (let! c := r in value decode d0 ty name c i s2); cbn [fst snd]; auto.
    split; [|reflexivity]. destruct Q1 as [Q1 Q3]. split; cbn [entered kind entry]; [exact Q1|].
    intros j. now destruct (same_name name name && Nat.eqb j i).
Qed.

Lemma steps_commute a b u v s : of_column a u -> of_column b v -> a <> b ->
  alike (fst (sheet_run [u; v] s)) (fst (sheet_run [v; u] s)) /\
  snd (sheet_step u s) = snd (sheet_step u (fst (sheet_step v s))) /\
  snd (sheet_step v s) = snd (sheet_step v (fst (sheet_step u s))).
Proof.
  intros A B D. cbn [SheetSpec.sheet_run].
  assert (X : forall a b u v, of_column a u -> of_column b v -> a <> b ->
    agree a (fst (sheet_step u s)) (fst (sheet_step u (fst (sheet_step v s)))) /\
    snd (sheet_step u s) = snd (sheet_step u (fst (sheet_step v s))) /\
    agree a (fst (sheet_step v (fst (sheet_step u s)))) (fst (sheet_step u s))).
  { clear. intros a b u v A B D.
    destruct (step_elsewhere b v s B a D) as [E1 E2]. destruct (step_elsewhere b v (fst (sheet_step u s)) B a D) as [E3 E4].
    destruct (step_agree a u s (fst (sheet_step v s)) A) as [F1 F2]; [split; auto|]. split; [exact F1|]. split; [exact F2|]. split; auto. }
  destruct (X a b u v A B D) as (U1 & U2 & U3). destruct (X b a v u B A) as (V1 & V2 & V3); [congruence|].
  split; [|auto].
  destruct (step_elsewhere a u (fst (sheet_step v s)) A) with (m := b) as [_ _]; [congruence|].
  pose proof (step_elsewhere a u s A) as Eu. pose proof (step_elsewhere b v s B) as Ev.
  pose proof (step_elsewhere a u (fst (sheet_step v s)) A) as Evu. pose proof (step_elsewhere b v (fst (sheet_step u s)) B) as Euv.
  destruct (sheet_step u s) as [s1 r1], (sheet_step v s) as [s2 r2]. cbn [fst snd] in *.
  destruct (sheet_step v s1) as [s3 r3], (sheet_step u s2) as [s4 r4]. cbn [fst snd] in *.
  assert (K : forall n, agree n s3 s4).
  { intros n. destruct (list_eq_dec ascii_dec n a) as [->|Na].
    - destruct U3 as [P1 P2], U1 as [P3 P4]. split; [congruence|]. intros i. now rewrite P2, P4.
    - destruct (list_eq_dec ascii_dec n b) as [->|Nb].
      + destruct V3 as [P1 P2], V1 as [P3 P4]. split; [congruence|]. intros i. now rewrite P2, P4.
      + destruct (Eu n Na) as [P1 P2], (Ev n Nb) as [P3 P4], (Evu n Na) as [P5 P6], (Euv n Nb) as [P7 P8].
        split; [congruence|]. intros i. now rewrite P8, P2, P6, P4. }
  split; intros n; apply K.
Qed.

(** ** Back to tables *)
Variable st : store V T.
Hypothesis fresh : obj_at st k = Ret (mk_tobj t []).

Lemma answers us : snd (table_run us st) = snd (sheet_run us blank_sheet).
Proof. destruct (table_is_sheet V T teqb decode encode teqb_eq k t numbered st us fresh) as (st' & d & w & H & _). now rewrite H. Qed.

Lemma answers_from us us' : snd (table_run us' (fst (table_run us st))) = snd (sheet_run us' (fst (sheet_run us blank_sheet))).
Proof.
  pose proof (answers (us ++ us')) as H. pose proof (answers us) as H0. rewrite table_run_app, sheet_run_app in H.
  destruct (table_run us st) as [s1 l], (sheet_run us blank_sheet) as [s2 l2]. cbn [fst snd] in *. subst l2.
  destruct (table_run us' s1) as [s3 l3], (sheet_run us' s2) as [s4 l4]. cbn [snd] in *. now apply app_inv_head in H.
Qed.

Lemma step_run u s : table_run [u] s = (fst (table_step u s), [snd (table_step u s)]).
Proof. cbn [SheetModel.table_run]. now destruct (table_step u s). Qed.
Lemma step_run_sheet u s : sheet_run [u] s = (fst (sheet_step u s), [snd (sheet_step u s)]).
Proof. cbn [SheetSpec.sheet_run]. now destruct (sheet_step u s). Qed.

Lemma answer_from us u : snd (table_step u (fst (table_run us st))) = snd (sheet_step u (fst (sheet_run us blank_sheet))).
Proof.
  pose proof (answers_from us [u]) as H. rewrite step_run, step_run_sheet in H. cbn [snd] in H. congruence.
Qed.

Lemma cells_eq (d d' : cells) : (forall i, option_map (@length str) (nth_error d i) = option_map (@length str) (nth_error d' i)) ->
  (forall i j, cell d i j = cell d' i j) -> d = d'.
Proof.
  intros S C. assert (X : forall {A} (l l' : list A), (forall i, nth_error l i = nth_error l' i) -> l = l').
  { clear. intros A l. induction l as [|a l IH]; intros [|b l'] H; auto.
    - specialize (H 0). discriminate.
    - specialize (H 0). discriminate.
    - f_equal; [specialize (H 0); now injection H|]. apply IH. intros i. exact (H (S i)). }
  apply X. intros i. specialize (S i). unfold cell in C.
  destruct (nth_error d i) as [r|] eqn:E, (nth_error d' i) as [r'|] eqn:E'; cbn [option_map] in S; try discriminate; [|reflexivity].
  f_equal. apply X. intros j. specialize (C i j). rewrite E, E' in C.
  destruct (nth_error r j) as [a|], (nth_error r' j) as [b|]; try discriminate; [|reflexivity].
  apply ret_inj in C. now subst.
Qed.

(** What was entered is seen until something else is entered there. *)
Theorem entry_lasts us ty name i x us' :
  snd (table_step (UEnter ty name i x) (fst (table_run us st))) = AEnter (Ret tt) -> Forall (leaves name i) us' ->
  snd (table_step (ULook ty name i) (fst (table_run (us ++ UEnter ty name i x :: us') st))) = ALook (Ret x).
Proof.
  intros H F. rewrite answer_from in H. rewrite answer_from, sheet_run_app.
  destruct (sheet_run us blank_sheet) as [s l]. cbn [fst SheetSpec.sheet_run] in *.
  assert (G : forall s1, kind (fst (sheet_step (UEnter ty name i x) s1)) name = Some ty /\
    named cols name <> None /\ entry (fst (sheet_step (UEnter ty name i x) s1)) name i = Some x \/
    snd (sheet_step (UEnter ty name i x) s1) <> AEnter (Ret tt)).
  { intros s1. cbn [SheetSpec.sheet_step]. unfold SheetSpec.ask. destruct (named cols name) as [c|]; [|right; discriminate].
    destruct (kind s1 name) as [ty'|] eqn:K.
    - destruct (teqb ty ty') eqn:Q; [|right; discriminate]. apply teqb_eq in Q. subst ty'. cbn [bind].
      destruct (value decode d0 ty name c i s1); cbn [fst snd entered kind entry]; try (right; discriminate).
      left. rewrite K, same_name_refl, Nat.eqb_refl. repeat split. discriminate.
    - cbn [bind]. destruct (value _ _ _ _ _ _ _); cbn [fst snd entered kind entry]; try (right; discriminate).
      left. rewrite same_name_refl, Nat.eqb_refl. repeat split. discriminate. }
  destruct (G s) as [(G1 & G2 & G3)|G1]; [|contradiction]. clear G H.
  destruct (sheet_step (UEnter ty name i x) s) as [s1 a]. cbn [fst] in *.
  assert (P : forall us s1, Forall (leaves name i) us -> kind s1 name = Some ty -> entry s1 name i = Some x ->
    kind (fst (sheet_run us s1)) name = Some ty /\ entry (fst (sheet_run us s1)) name i = Some x).
  { clear - teqb_eq. induction us as [|u us IH]; intros s1 F K E; [auto|]. inversion F as [|? ? F1 F2]; subst. cbn [SheetSpec.sheet_run].
    assert (Q : kind (fst (sheet_step u s1)) name = Some ty /\ entry (fst (sheet_step u s1)) name i = Some x).
    { assert (Qa : forall ty' n, kind (fst (ask ty' n s1)) name = Some ty /\ entry (fst (ask ty' n s1)) name i = Some x).
      { intros ty' n. unfold SheetSpec.ask. destruct (named cols n); [|auto]. destruct (kind s1 n) eqn:Kn; [auto|]. cbn [fst kind entry].
        rewrite same_name_neq; [auto|]. intros <-. congruence. }
      destruct u as [ty' n|ty' n j|ty' n j y|j j']; cbn [SheetSpec.sheet_step]; [| | |auto];
        specialize (Qa ty' n); destruct (ask ty' n s1) as [s2 r]; cbn [fst] in *; auto.
      destruct (let! c := r in _); cbn [fst]; auto. cbn [entered kind entry leaves] in *. destruct Qa as [Q1 Q2]. split; [exact Q1|].
      destruct (same_name name n && Nat.eqb i j) eqn:Q; [|exact Q2]. apply andb_true_iff in Q. destruct Q as [Q3 Q4].
      apply same_name_eq in Q3. apply Nat.eqb_eq in Q4. destruct F1; congruence. }
    destruct (sheet_step u s1) as [s2 a]. cbn [fst] in Q. destruct Q as [Q1 Q2]. specialize (IH s2 F2 Q1 Q2).
    destruct (sheet_run us s2). exact IH. }
  destruct (P us' s1 F G1 G3) as [P1 P2]. destruct (sheet_run us' s1) as [s2 l2]. cbn [fst] in *.
  cbn [SheetSpec.sheet_step]. unfold SheetSpec.ask. destruct (named cols name) as [c|]; [|congruence]. rewrite P1.
  replace (teqb ty ty) with true by (symmetry; now apply teqb_eq). cbn [bind snd]. unfold value. now rewrite P2.
Qed.

(** Looking leaves the cells alone. *)
Theorem looking us : Forall looks us -> exists views, obj_at (fst (table_run us st)) k = Ret (mk_tobj t views).
Proof.
  intros F. destruct (table_is_sheet V T teqb decode encode teqb_eq k t numbered st us fresh) as (st' & d & w & H & A & _ & _ & S & C).
  rewrite H. cbn [fst]. exists w. rewrite A. do 2 f_equal.
  assert (E : forall us s, Forall looks us -> (forall n i, entry s n i = None) -> forall n i, entry (fst (sheet_run us s)) n i = None).
  { clear. induction us as [|u us IH]; intros s F E; [exact E|]. inversion F as [|? ? F1 F2]; subst. cbn [SheetSpec.sheet_run].
    assert (Q : forall n i, entry (fst (sheet_step u s)) n i = None).
    { assert (Qa : forall ty n, forall m i, entry (fst (ask ty n s)) m i = None).
      { intros ty n. unfold SheetSpec.ask. destruct (named cols n); [|auto]. destruct (kind s n); auto. }
      destruct u as [ty' n|ty' n j|ty' n j y|j j']; cbn [looks] in F1; cbn [SheetSpec.sheet_step]; try contradiction; [| |auto];
        specialize (Qa ty' n); destruct (ask ty' n s) as [s2 r]; exact Qa. }
    destruct (sheet_step u s) as [s2 a]. specialize (IH s2 F2 Q). now destruct (sheet_run us s2). }
  specialize (E us blank_sheet F (fun _ _ => eq_refl)).
  assert (D : d = d0).
  { apply cells_eq; [exact S|]. intros i j. rewrite C. unfold text_at. destruct (find _ cols) as [c|]; [|reflexivity].
    rewrite E. now destruct (kind _ _). }
  rewrite D. apply with_own_data.
Qed.

(** Uses of different columns in either order: each is told the same, and so is everyone afterwards; the cells
    are the same. *)
Theorem either_order us a b u v us' : of_column a u -> of_column b v -> a <> b ->
  let st1 := fst (table_run us st) in
  snd (table_step u st1) = snd (table_step u (fst (table_step v st1))) /\
  snd (table_step v st1) = snd (table_step v (fst (table_step u st1))) /\
  snd (table_run us' (fst (table_run (us ++ [u; v]) st))) = snd (table_run us' (fst (table_run (us ++ [v; u]) st))) /\
  cells_of (fst (table_run (us ++ [u; v]) st)) k = cells_of (fst (table_run (us ++ [v; u]) st)) k.
Proof.
  intros A B D st1. unfold st1.
  assert (Nx : forall w, fst (table_step w (fst (table_run us st))) = fst (table_run (us ++ [w]) st)).
  { intros w. rewrite table_run_app. destruct (table_run us st). now rewrite step_run. }
  assert (Ns : forall w, fst (sheet_step w (fst (sheet_run us blank_sheet))) = fst (sheet_run (us ++ [w]) blank_sheet)).
  { intros w. rewrite sheet_run_app. destruct (sheet_run us blank_sheet). now rewrite step_run_sheet. }
  destruct (steps_commute a b u v (fst (sheet_run us blank_sheet)) A B D) as (K1 & K2 & K3).
  assert (K4 : alike (fst (sheet_run (us ++ [u; v]) blank_sheet)) (fst (sheet_run (us ++ [v; u]) blank_sheet))).
  { rewrite !sheet_run_app. destruct (sheet_run us blank_sheet) as [s l]. cbn [fst] in K1.
    destruct (sheet_run [u; v] s), (sheet_run [v; u] s). exact K1. }
  split; [rewrite Nx, !answer_from, <- Ns; exact K2|]. split; [rewrite Nx, !answer_from, <- Ns; exact K3|].
  split; [rewrite !answers_from; apply run_alike; exact K4|].
  destruct (table_is_sheet V T teqb decode encode teqb_eq k t numbered st (us ++ [u; v]) fresh) as (s1 & d1 & w1 & H1 & A1 & _ & _ & S1 & C1).
  destruct (table_is_sheet V T teqb decode encode teqb_eq k t numbered st (us ++ [v; u]) fresh) as (s2 & d2 & w2 & H2 & A2 & _ & _ & S2 & C2).
  rewrite H1, H2. cbn [fst]. rewrite (cells_of_at _ _ _ _ _ A1), (cells_of_at _ _ _ _ _ A2). cbn [o_table with_data t_data]. f_equal.
  apply cells_eq.
  - intros i. now rewrite S1, S2.
  - intros i j. rewrite C1, C2. now apply text_alike.
Qed.

End Order.
