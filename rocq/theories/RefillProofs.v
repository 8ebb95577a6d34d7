(** * What set_data() leaves behind. *)
From Verif Require Export RefillModel RefillSpec TableAgain.
From Coq Require Import Lia ZifyBool ZifyNat ZifyN.
Open Scope list_scope.

Definition sized (size : str -> outcome N) (c : column) : Prop := exists w, size (c_format c) = Ret w.

(** ** Binary tables: a cell never throws *)

Lemma bin_columns_sized fc k : forall i start h h1 cols, bin_columns fc k i start h = (h1, Ret cols) -> Forall (sized bin_column_size) cols.
Proof.
  induction k as [|k IH]; intros i start h h1 cols H; cbn [bin_columns] in H.
  - injection H as _ <-. constructor.
  - unfold hbind at 1 in H. destruct (bin_column fc i start h) as [h2 [c| | |]]; try discriminate.
    unfold hbind at 1 in H. unfold hlift at 1 in H. destruct (bin_column_size (c_format c)) as [w| | |] eqn:W; try discriminate.
    unfold hbind at 1 in H. destruct (bin_columns fc k (S i) ((start + w) mod two64)%N h2) as [h3 [r| | |]] eqn:R; try discriminate.
    injection H as _ <-. constructor; [exists w; exact W|exact (IH _ _ _ _ _ R)].
Qed.

Lemma bin_row_no_throw cols : Forall (sized bin_column_size) cols -> forall buf, (exists p, bin_read_row cols buf = Ret p) \/ bin_read_row cols buf = Undef.
Proof.
  induction 1 as [|c r [w W] _ IH]; intros buf; cbn [bin_read_row]; [left; eauto|]. rewrite W. cbn [bind].
  destruct (w <=? N.of_nat (length buf))%N; [|right; reflexivity].
  destruct (IH (skipn (N.to_nat w) buf)) as [(p & ->)| ->]; cbn [bind]; [left; eauto|right; reflexivity].
Qed.

Lemma bin_rows_no_throw cols : Forall (sized bin_column_size) cols -> forall n buf,
  (exists d, bin_read_rows n cols buf = Ret d) \/ bin_read_rows n cols buf = Undef.
Proof.
  intros F. induction n as [|n IH]; intros buf; cbn [bin_read_rows]; [left; eauto|].
  destruct (bin_row_no_throw cols F buf) as [(p & ->)| ->]; cbn [bind]; [|right; reflexivity].
  destruct (IH (snd p)) as [(d & ->)| ->]; cbn [bind]; [left; eauto|right; reflexivity].
Qed.

Lemma bin_data_no_throw cols rows buf : Forall (sized bin_column_size) cols -> (max_rows <? rows)%N = false ->
  (exists d, bin_table_data rows cols buf = Ret d) \/ bin_table_data rows cols buf = Undef.
Proof.
  intros F M. unfold bin_table_data. rewrite M. destruct (rows =? 0)%N; [left; eauto|].
  destruct cols as [|c r] eqn:E; [right; reflexivity|]. rewrite <- E in *.
  destruct (bin_rows_no_throw cols F (N.to_nat rows) buf) as [(d & ->)| ->]; cbn [bind]; [|right; reflexivity].
  destruct (2 ^ 31 <=? rows)%N; [right; reflexivity|left; eauto].
Qed.

(** ** ASCII tables: the cells before the first that throws *)

Lemma fill_row_outcome row width buf cols : snd (fill_row row width cols buf) = ending (ascii_read_row row width cols buf) /\
  (forall x, ascii_read_row row width cols buf = Ret x -> fst (fill_row row width cols buf) = x).
Proof.
  induction cols as [|c r [IH1 IH2]]; cbn [fill_row ascii_read_row].
  - split; [reflexivity|]. intros x H. injection H as <-. reflexivity.
  - destruct (ascii_field row width c buf) as [y| | |]; cbn [bind]; [|split; [reflexivity|discriminate]..].
    destruct (fill_row row width r buf) as [z o]. cbn [fst snd] in *.
    destruct (ascii_read_row row width r buf) as [w| | |]; cbn [bind ending] in *; (split; [exact IH1|]); try discriminate.
    intros x H. injection H as <-. rewrite (IH2 w eq_refl). reflexivity.
Qed.

Lemma fill_rows_outcome n width buf cols : forall row, snd (fill_rows n row width cols buf) = ending (ascii_read_rows n row width cols buf) /\
  (forall d, ascii_read_rows n row width cols buf = Ret d -> fst (fill_rows n row width cols buf) = d).
Proof.
  induction n as [|n IH]; intros row; cbn [fill_rows ascii_read_rows].
  - split; [reflexivity|]. intros d H. injection H as <-. reflexivity.
  - destruct (fill_row_outcome row width buf cols) as [A B]. destruct (fill_row row width cols buf) as [x o]. cbn [fst snd] in *.
    destruct (ascii_read_row row width cols buf) as [y| | |]; cbn [bind ending] in *; subst o; [|split; [reflexivity|discriminate]..].
    destruct (IH (S row)) as [C D]. destruct (fill_rows n (S row) width cols buf) as [z o]. cbn [fst snd] in *.
    destruct (ascii_read_rows n (S row) width cols buf) as [w| | |]; cbn [bind ending] in *; (split; [exact C|]); try discriminate.
    intros d H. injection H as <-. rewrite (B y eq_refl), (D w eq_refl). reflexivity.
Qed.

(** A cell throws only because of the width of its column. *)
Lemma field_throws row width c buf e : ascii_field row width c buf = Throw e -> ascii_column_size (c_format c) = Throw e.
Proof.
  unfold ascii_field. destruct (N.of_nat (length buf) <? _)%N; [discriminate|]. destruct (_ =? 0)%N; [discriminate|].
  destruct (ascii_column_size (c_format c)) as [w| | |]; cbn [bind]; try discriminate; [|intros H; injection H as <-; reflexivity].
  destruct (_ <=? N.of_nat (length buf))%N; discriminate.
Qed.
Lemma field_sized row width c buf x : ascii_field row width c buf = Ret x -> sized ascii_column_size c.
Proof.
  unfold ascii_field, sized. destruct (N.of_nat (length buf) <? _)%N; [discriminate|]. destruct (_ =? 0)%N; [discriminate|].
  destruct (ascii_column_size (c_format c)) as [w| | |]; cbn [bind]; try discriminate. eauto.
Qed.

(** How a row ends when it throws: at the first column without a width. *)
Lemma fill_row_throws row width buf cols x e : fill_row row width cols buf = (x, Throw e) ->
  exists before c after, cols = before ++ c :: after /\ ascii_column_size (c_format c) = Throw e /\ Forall (sized ascii_column_size) before /\
    ascii_read_row row width before buf = Ret x.
Proof.
  revert x. induction cols as [|c r IH]; intros x H; cbn [fill_row] in H; [discriminate|].
  destruct (ascii_field row width c buf) as [y|e'| |] eqn:E; try discriminate.
  - destruct (fill_row row width r buf) as [z o] eqn:F. injection H as <- ->.
    destruct (IH z eq_refl) as (b & c' & a & -> & S & B & R). exists (c :: b), c', a. split; [reflexivity|]. split; [exact S|].
    split; [constructor; [exact (field_sized _ _ _ _ _ E)|exact B]|]. cbn [ascii_read_row]. rewrite E. cbn [bind]. rewrite R. reflexivity.
  - injection H as <- ->. exists [], c, r. split; [reflexivity|]. split; [exact (field_throws _ _ _ _ _ E)|]. split; [constructor|reflexivity].
Qed.

(** A row that could be read has columns with a width, so that none throws. *)
Lemma row_sized row width buf cols x : ascii_read_row row width cols buf = Ret x -> Forall (sized ascii_column_size) cols.
Proof.
  revert x. induction cols as [|c r IH]; intros x H; cbn [ascii_read_row] in H; [constructor|].
  destruct (ascii_field row width c buf) as [y| | |] eqn:E; try discriminate. cbn [bind] in H.
  destruct (ascii_read_row row width r buf) as [z| | |]; try discriminate. constructor; [exact (field_sized _ _ _ _ _ E)|eauto].
Qed.

(** Only the first row can throw. *)
Lemma fill_rows_throws n row width buf cols d e : fill_rows n row width cols buf = (d, Throw e) ->
  exists m before c after x, n = S m /\ cols = before ++ c :: after /\ ascii_column_size (c_format c) = Throw e /\
    Forall (sized ascii_column_size) before /\ ascii_read_row row width before buf = Ret x /\
    d = blank_after (length cols) x :: repeat (repeat [] (length cols)) m.
Proof.
  revert row d. destruct n as [|m]; intros row d H; cbn [fill_rows] in H; [discriminate|].
  destruct (fill_row row width cols buf) as [x o] eqn:F. destruct o as [u|e'| |]; try discriminate.
  - exfalso. destruct (fill_rows m (S row) width cols buf) as [y o] eqn:G. injection H as <- ->.
    pose proof (fill_row_outcome row width buf cols) as [A _]. rewrite F in A. cbn [snd] in A.
    destruct (ascii_read_row row width cols buf) as [z| | |] eqn:R; cbn [ending] in A; try discriminate.
    apply row_sized in R. clear F A x z u. revert row y G. induction m as [|m IH]; intros row y G; cbn [fill_rows] in G; [discriminate|].
    destruct (fill_row (S row) width cols buf) as [x o] eqn:F. destruct o as [u|e'| |]; try discriminate.
    + destruct (fill_rows m (S (S row)) width cols buf) as [z o] eqn:G'. injection G as <- ->. exact (IH _ _ G').
    + destruct (fill_row_throws _ _ _ _ _ _ F) as (b & c & a & -> & S & _). rewrite Forall_app in R. destruct R as [_ R]. inversion R as [|? ? [w W] _]. congruence.
  - injection H as <- ->. destruct (fill_row_throws _ _ _ _ _ _ F) as (b & c & a & E & S & B & R). exists m, b, c, a, x. repeat split; assumption.
Qed.

(** ** The whole call *)

Section Refilling.
Variable fc : fcodec.
Variable columns : nat -> hdo (list column).
Variable data : N -> N -> list column -> str -> outcome (list (list str)).
Variable refill : N -> N -> list column -> list (list str) -> str -> list (list str) * outcome unit.
Hypothesis columns_again : forall k, again fc (columns k).

Let fill (fields : N) (old : list (list str)) (buf : str) : hdo (list column * list (list str)) :=
  do cols <- columns (N.to_nat fields) in
  match buf with
  | [] => hret (cols, old)
  | _ => fun h =>
      (h, let! rows := naxis 2 h in
          let! width := naxis 1 h in
          let! d := data rows width cols buf in
          Ret (cols, d))
  end.

Lemma naxis_total i h : (exists n, naxis i h = Ret n) \/ naxis i h = Undef.
Proof. destruct i as [|m]; [right; reflexivity|]. cbn [naxis]. destruct (nth_error (h_naxis h) m); eauto. Qed.

Lemma built_again h buf0 t : make_table fill fc h buf0 = Ret t ->
  columns (N.to_nat (t_fields t)) (t_header t) = (t_header t, Ret (t_columns t)).
Proof.
  intros H. destruct (make_table_parts fc columns data _ _ _ H) as (h1 & E1 & E2).
  destruct (columns_again _ _ _ _ E2) as [_ K]. exact (K I _ (later_refl fc (t_header t))).
Qed.

Lemma state_of h buf0 t cells buf : make_table fill fc h buf0 = Ret t ->
  set_data_state columns refill buf (with_cells t cells) =
    match buf with
    | [] => (with_cells t cells, Ret tt)
    | _ => match naxis 2 (t_header t), naxis 1 (t_header t) with
           | Ret rows, Ret width => let (d, o) := refill rows width (t_columns t) cells buf in (with_cells t d, o)
           | _, _ => (with_cells t cells, Undef)
           end
    end.
Proof.
  intros H. unfold set_data_state. cbn [with_cells t_fields t_data t_header]. rewrite (built_again _ _ _ H). destruct buf; reflexivity.
Qed.

Hypothesis refill_data : forall h buf0 t, make_table fill fc h buf0 = Ret t -> forall rows width old buf,
  snd (refill rows width (t_columns t) old buf) = ending (data rows width (t_columns t) buf) /\
  (forall d, data rows width (t_columns t) buf = Ret d -> fst (refill rows width (t_columns t) old buf) = d).

(** The call ends as [set_data] says, and on success leaves the object [set_data] says. *)
Lemma state_agrees h buf0 t cells buf : make_table fill fc h buf0 = Ret t ->
  snd (set_data_state columns refill buf (with_cells t cells)) = ending (set_data fill buf (with_cells t cells)) /\
  (forall t', set_data fill buf (with_cells t cells) = Ret t' -> fst (set_data_state columns refill buf (with_cells t cells)) = t').
Proof.
  intros H. rewrite (state_of _ _ _ _ _ H). unfold set_data. cbn [with_cells t_fields t_data t_header]. unfold fill. unfold hbind.
  rewrite (built_again _ _ _ H). destruct buf as [|x buf].
  - cbn. split; [reflexivity|]. intros t' E. injection E as <-. reflexivity.
  - destruct (naxis_total 2 (t_header t)) as [(rows & ->)| ->]; cbn [bind]; [|split; [reflexivity|discriminate]].
    destruct (naxis_total 1 (t_header t)) as [(width & ->)| ->]; cbn [bind]; [|split; [reflexivity|discriminate]].
    destruct (refill_data _ _ _ H rows width cells (x :: buf)) as [A B].
    destruct (refill rows width (t_columns t) cells (x :: buf)) as [d o]. cbn [fst snd] in *.
    destruct (data rows width (t_columns t) (x :: buf)) as [d'| | |]; cbn [bind ending] in *; (split; [exact A|]); try discriminate.
    intros t' E. injection E as <-. rewrite (B d' eq_refl). reflexivity.
Qed.

Lemma state_throws h buf0 t cells buf t' e : make_table fill fc h buf0 = Ret t ->
  set_data_state columns refill buf (with_cells t cells) = (t', Throw e) ->
  exists rows width d, naxis 2 (t_header t) = Ret rows /\ naxis 1 (t_header t) = Ret width /\
    refill rows width (t_columns t) cells buf = (d, Throw e) /\ t' = with_cells t d.
Proof.
  intros H. rewrite (state_of _ _ _ _ _ H). destruct buf as [|x buf]; [discriminate|].
  destruct (naxis_total 2 (t_header t)) as [(rows & ->)| ->]; [|discriminate].
  destruct (naxis_total 1 (t_header t)) as [(width & ->)| ->]; [|discriminate].
  destruct (refill rows width (t_columns t) cells (x :: buf)) as [d o] eqn:E. intros K. injection K as <- ->.
  exists rows, width, d. auto.
Qed.

End Refilling.

Lemma bin_built_sized fc h buf t : binary_table fc h buf = Ret t -> Forall (sized bin_column_size) (t_columns t).
Proof.
  intros H. destruct (make_table_parts fc (fun k => bin_columns fc k 1 0) (fun rows _ cols b => bin_table_data rows cols b) _ _ _ H) as (h1 & _ & E).
  exact (bin_columns_sized _ _ _ _ _ _ _ E).
Qed.

Lemma bin_refill_data rows cols old buf : Forall (sized bin_column_size) cols ->
  snd (bin_refill rows cols old buf) = ending (bin_table_data rows cols buf) /\
  (forall d, bin_table_data rows cols buf = Ret d -> fst (bin_refill rows cols old buf) = d).
Proof.
  intros _. unfold bin_refill. destruct (max_rows <? rows)%N eqn:M.
  - unfold bin_table_data. rewrite M. split; [reflexivity|discriminate].
  - destruct (bin_table_data rows cols buf); (split; [reflexivity|]); try discriminate. intros d E. injection E as <-. reflexivity.
Qed.

Lemma ascii_refill_data rows width cols old buf :
  snd (ascii_refill rows width cols old buf) = ending (ascii_table_data rows width cols buf) /\
  (forall d, ascii_table_data rows width cols buf = Ret d -> fst (ascii_refill rows width cols old buf) = d).
Proof.
  unfold ascii_refill, ascii_table_data. destruct (max_rows <? rows)%N; [split; [reflexivity|discriminate]|].
  destruct (rows =? 0)%N; [split; [reflexivity|intros d E; injection E as <-; reflexivity]|].
  destruct cols as [|c r]; [split; [reflexivity|discriminate]|].
  destruct (fill_rows_outcome (N.to_nat rows) width buf (c :: r) 0) as [A B].
  destruct (fill_rows (N.to_nat rows) 0 width (c :: r) buf) as [d o]. cbn [fst snd] in *.
  destruct (ascii_read_rows (N.to_nat rows) 0 width (c :: r) buf) as [d'| | |]; cbn [bind ending] in *; subst o; [|split; [reflexivity|discriminate]..].
  destruct (2 ^ 31 <=? rows)%N; cbn [ending]; (split; [reflexivity|]); [discriminate|]. intros x E. injection E as <-. exact (B d' eq_refl).
Qed.

Theorem bin_state_agrees fc h buf0 t cells buf : binary_table fc h buf0 = Ret t ->
  snd (bin_set_data_state fc buf (with_cells t cells)) = ending (bin_set_data fc buf (with_cells t cells)) /\
  (forall t', bin_set_data fc buf (with_cells t cells) = Ret t' -> fst (bin_set_data_state fc buf (with_cells t cells)) = t').
Proof.
  apply (state_agrees fc (fun k => bin_columns fc k 1 0) (fun rows _ cols b => bin_table_data rows cols b) (fun rows _ => bin_refill rows)
    (fun k => again_bin_columns fc k 1 0%N)).
  intros h' b t' H rows _ old b'. exact (bin_refill_data rows _ old b' (bin_built_sized _ _ _ _ H)).
Qed.

Theorem ascii_state_agrees fc h buf0 t cells buf : ascii_table fc h buf0 = Ret t ->
  snd (ascii_set_data_state fc buf (with_cells t cells)) = ending (ascii_set_data fc buf (with_cells t cells)) /\
  (forall t', ascii_set_data fc buf (with_cells t cells) = Ret t' -> fst (ascii_set_data_state fc buf (with_cells t cells)) = t').
Proof.
  apply (state_agrees fc (fun k => ascii_columns fc k 1) ascii_table_data ascii_refill (fun k => again_ascii_columns fc k 1)).
  intros h' b t' _ rows width old b'. apply ascii_refill_data.
Qed.

Lemma naxis_nth i h n : naxis i h = Ret n -> nth_error (h_naxis h) (i - 1) = Some n.
Proof.
  destruct i as [|m]; [discriminate|]. cbn [naxis Nat.sub]. rewrite Nat.sub_0_r. destruct (nth_error (h_naxis h) m); [congruence|discriminate].
Qed.

(** A binary table throws only for its number of rows, and then is as it was. *)
Theorem bin_state_throws fc h buf0 t cells buf t' e : binary_table fc h buf0 = Ret t ->
  bin_set_data_state fc buf (with_cells t cells) = (t', Throw e) ->
  e = LengthError /\ t' = with_cells t cells /\ exists rows, nth_error (h_naxis (t_header t)) 1 = Some rows /\ (max_rows < rows)%N.
Proof.
  intros H S. destruct (state_throws fc (fun k => bin_columns fc k 1 0) (fun rows _ cols b => bin_table_data rows cols b) (fun rows _ => bin_refill rows)
    (fun k => again_bin_columns fc k 1 0%N) _ _ _ _ _ _ _ H S) as (rows & width & d & N2 & _ & R & ->).
  unfold bin_refill in R. destruct (max_rows <? rows)%N eqn:M.
  - injection R as <- <-. split; [reflexivity|]. split; [reflexivity|]. exists rows. split; [exact (naxis_nth _ _ _ N2)|lia].
  - exfalso. destruct (bin_data_no_throw _ rows buf (bin_built_sized _ _ _ _ H) M) as [(x & E)|E]; rewrite E in R; discriminate.
Qed.

Lemma read_row_cells row width buf cols x : ascii_read_row row width cols buf = Ret x ->
  length x = length cols /\ forall j c, nth_error cols j = Some c -> exists y, nth_error x j = Some y /\ ascii_field row width c buf = Ret y.
Proof.
  revert x. induction cols as [|c r IH]; intros x H; cbn [ascii_read_row] in H.
  - injection H as <-. split; [reflexivity|]. intros [|j] c E; discriminate.
  - destruct (ascii_field row width c buf) as [y| | |] eqn:E; try discriminate. cbn [bind] in H.
    destruct (ascii_read_row row width r buf) as [z| | |]; try discriminate. injection H as <-. destruct (IH z eq_refl) as [L K].
    split; [cbn [length]; lia|]. intros [|j] c' F; [injection F as <-; exists y; auto|]. exact (K j c' F).
Qed.

(** An ASCII table throws for its number of rows, and then is as it was; or at the first column without a width, and then the
    old cells are gone: the cells before it in the first row are new and all others empty. *)
Theorem ascii_state_throws fc h buf0 t cells buf t' e : ascii_table fc h buf0 = Ret t ->
  ascii_set_data_state fc buf (with_cells t cells) = (t', Throw e) ->
  exists rows, nth_error (h_naxis (t_header t)) 1 = Some rows /\
   ((e = LengthError /\ t' = with_cells t cells /\ (max_rows < rows)%N) \/
    (buf0 = [] /\ (0 < rows)%N /\ exists j c x, nth_error (t_columns t) j = Some c /\ ascii_column_size (c_format c) = Throw e /\ length x = j /\
      t' = with_cells t ((x ++ repeat [] (length (t_columns t) - j)) :: repeat (repeat [] (length (t_columns t))) (N.to_nat rows - 1)) /\
      forall i c', i < j -> nth_error (t_columns t) i = Some c' ->
        exists w, ascii_column_size (c_format c') = Ret w /\ (0 < c_start c')%N /\ (c_start c' - 1 + w <= N.of_nat (length buf))%N /\
          nth_error x i = Some (trim (slice buf (N.to_nat (c_start c' - 1)) (N.to_nat w))))).
Proof.
  intros H S. destruct (state_throws fc (fun k => ascii_columns fc k 1) ascii_table_data ascii_refill
    (fun k => again_ascii_columns fc k 1) _ _ _ _ _ _ _ H S) as (rows & width & d & N2 & N1 & R & ->).
  exists rows. split; [exact (naxis_nth _ _ _ N2)|]. unfold ascii_refill in R. destruct (max_rows <? rows)%N eqn:M.
  { injection R as <- <-. left. split; [reflexivity|]. split; [reflexivity|lia]. }
  destruct (rows =? 0)%N eqn:Z; [discriminate|]. destruct (t_columns t) as [|c0 r0] eqn:C; [discriminate|]. rewrite <- C in *. clear c0 r0 C.
  right. destruct (fill_rows (N.to_nat rows) 0 width (t_columns t) buf) as [d' o] eqn:F.
  assert (o = Throw e /\ d' = d) as [-> ->].
  { destruct o; [destruct (2 ^ 31 <=? rows)%N; discriminate|..]; injection R as <- E; split; congruence. }
  destruct (fill_rows_throws _ _ _ _ _ _ _ F) as (m & b & c & a & x & En & Ec & W & B & Rx & ->).
  split.
  - (* with data at construction every width has been read *)
    destruct buf0 as [|y buf0]; [reflexivity|exfalso].
    pose proof (ascii_set_data_again fc h (y :: buf0) t (t_data t) (y :: buf0) H) as K. cbv match in K.
    pose proof (ascii_state_agrees fc h (y :: buf0) t (t_data t) (y :: buf0) H) as [A _]. rewrite K, H in A. cbn [ending] in A. unfold ascii_set_data_state in A.
    rewrite (state_of fc (fun k => ascii_columns fc k 1) ascii_table_data ascii_refill (fun k => again_ascii_columns fc k 1) _ _ _ _ _ H) in A.
    cbv match in A. rewrite N2, N1 in A. unfold ascii_refill in A. rewrite M, Z in A.
    destruct (t_columns t) as [|c0 r0] eqn:C; [destruct b; discriminate|]. rewrite <- C in *.
    destruct (fill_rows_outcome (N.to_nat rows) width (y :: buf0) (t_columns t) 0) as [O _].
    destruct (fill_rows (N.to_nat rows) 0 width (t_columns t) (y :: buf0)) as [dd o]. cbn [snd] in *.
    destruct (ascii_read_rows (N.to_nat rows) 0 width (t_columns t) (y :: buf0)) as [z| | |] eqn:Rr; cbn [ending] in O; subst o; try discriminate.
    rewrite En in Rr. cbn [ascii_read_rows] in Rr. destruct (ascii_read_row 0 width (t_columns t) (y :: buf0)) as [q| | |] eqn:Rq; try discriminate.
    apply row_sized in Rq. rewrite Ec, Forall_app in Rq. destruct Rq as [_ Rq]. inversion Rq as [|? ? [w E] _]. congruence.
  - split; [lia|]. destruct (read_row_cells _ _ _ _ _ Rx) as [L K]. exists (length b), c, x.
    split; [rewrite Ec, nth_error_app2, Nat.sub_diag by lia; reflexivity|]. split; [exact W|]. split; [exact L|]. split.
    { unfold blank_after. rewrite L, En. replace (Datatypes.S m - 1) with m by lia. reflexivity. }
    intros i c' I E. rewrite Ec, nth_error_app1 in E by exact I. destruct (K _ _ E) as (y & Y1 & Y2).
    unfold ascii_field in Y2. change (mul64 (N.of_nat 0) width) with 0%N in Y2. rewrite N.add_0_l in Y2.
    destruct (N.of_nat (length buf) <? c_start c')%N; [discriminate|]. destruct (c_start c' =? 0)%N eqn:Z0; [discriminate|].
    destruct (ascii_column_size (c_format c')) as [w| | |]; try discriminate. cbn [bind] in Y2. exists w. split; [reflexivity|].
    destruct (c_start c' - 1 + w <=? N.of_nat (length buf))%N eqn:G; [|discriminate]. injection Y2 as <-.
    split; [lia|]. split; [lia|]. exact Y1.
Qed.

(** An object constructed with its data never throws. *)
Theorem bin_with_data_never fc h buf0 t cells buf e : binary_table fc h buf0 = Ret t -> buf0 <> [] ->
  snd (bin_set_data_state fc buf (with_cells t cells)) <> Throw e.
Proof.
  intros H B S. destruct (bin_set_data_state fc buf (with_cells t cells)) as [t' o] eqn:E. cbn [snd] in S. subst o.
  destruct (bin_state_throws _ _ _ _ _ _ _ _ H E) as (_ & _ & rows & R & M).
  pose proof (bin_set_data_again fc h buf0 t [] buf0 H) as K. destruct buf0 as [|y buf0]; [congruence|].
  pose proof (bin_state_agrees fc h (y :: buf0) t [] (y :: buf0) H) as [A _]. rewrite K, H in A. cbn [ending] in A. unfold bin_set_data_state in A.
  rewrite (state_of fc (fun k => bin_columns fc k 1 0) (fun rows _ cols b => bin_table_data rows cols b) (fun rows _ => bin_refill rows)
    (fun k => again_bin_columns fc k 1 0%N) _ _ _ _ _ H) in A.
  cbv match in A. replace (naxis 2 (t_header t)) with (Ret rows : outcome N) in A by (cbn [naxis]; rewrite R; reflexivity).
  destruct (naxis_total 1 (t_header t)) as [(w & N1)|N1]; rewrite N1 in A; [|discriminate].
  unfold bin_refill in A. apply N.ltb_lt in M. rewrite M in A. discriminate.
Qed.

Theorem ascii_with_data_never fc h buf0 t cells buf e : ascii_table fc h buf0 = Ret t -> buf0 <> [] ->
  snd (ascii_set_data_state fc buf (with_cells t cells)) <> Throw e.
Proof.
  intros H B S. destruct (ascii_set_data_state fc buf (with_cells t cells)) as [t' o] eqn:E. cbn [snd] in S. subst o.
  destruct (ascii_state_throws _ _ _ _ _ _ _ _ H E) as (rows & R & [(_ & _ & M)|(Z & _)]); [|contradiction].
  pose proof (ascii_set_data_again fc h buf0 t [] buf0 H) as K. destruct buf0 as [|y buf0]; [congruence|].
  pose proof (ascii_state_agrees fc h (y :: buf0) t [] (y :: buf0) H) as [A _]. rewrite K, H in A. cbn [ending] in A. unfold ascii_set_data_state in A.
  rewrite (state_of fc (fun k => ascii_columns fc k 1) ascii_table_data ascii_refill (fun k => again_ascii_columns fc k 1) _ _ _ _ _ H) in A.
  cbv match in A. replace (naxis 2 (t_header t)) with (Ret rows : outcome N) in A by (cbn [naxis]; rewrite R; reflexivity).
  destruct (naxis_total 1 (t_header t)) as [(w & N1)|N1]; rewrite N1 in A; [|discriminate].
  unfold ascii_refill in A. apply N.ltb_lt in M. rewrite M in A. discriminate.
Qed.
