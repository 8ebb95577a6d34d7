(** * Evaluating the columns of a table a second time. *)
From Verif Require Export TableTrim.

(** A card that was read once more: the text is the same, a value may have been remembered. *)
Definition read_more (fc : fcodec) (c c' : card) : Prop :=
  raw c' = raw c /\
  (cache c' = cache c \/ cache c = None /\ exists t v, value_imp fc t c = Ret v /\ cache c' = Some v).

Record later (fc : fcodec) (h h' : header) : Prop := mk_later {
  la_index : h_index h' = h_index h;
  la_naxis : h_naxis h' = h_naxis h;
  la_cards : Forall2 (read_more fc) (h_cards h) (h_cards h')
}.

Lemma read_more_refl fc c : read_more fc c c.
Proof. split; auto. Qed.

Lemma read_more_trans fc a b c : read_more fc a b -> read_more fc b c -> read_more fc a c.
Proof.
  intros [A1 A2] [B1 B2]. split; [congruence|]. destruct A2 as [A2|(A2 & t & v & A3 & A4)].
  - destruct B2 as [B2|(B2 & t & v & B3 & B4)]; [left; congruence|]. right. split; [congruence|]. exists t, v.
    split; [|exact B4]. rewrite <- B3. apply value_imp_raw. congruence.
  - destruct B2 as [B2|(B2 & _)]; [|congruence]. right. split; [exact A2|]. exists t, v. split; [exact A3|congruence].
Qed.

Lemma forall2_refl {A} (P : A -> A -> Prop) (l : list A) : (forall x, P x x) -> Forall2 P l l.
Proof. intros H. induction l; auto. Qed.

Lemma forall2_trans {A} (P : A -> A -> Prop) : (forall x y z, P x y -> P y z -> P x z) ->
  forall a b c, Forall2 P a b -> Forall2 P b c -> Forall2 P a c.
Proof. intros T a b c H. revert c. induction H; intros c K; inversion K; subst; eauto. Qed.

Lemma forall2_nth {A} (P : A -> A -> Prop) a b i x : Forall2 P a b -> nth_error a i = Some x ->
  exists y, nth_error b i = Some y /\ P x y.
Proof.
  intros H. revert i. induction H as [|u w a b Hp H IH]; intros [|i] E; try discriminate.
  - exists w. split; [reflexivity|]. cbn in E. injection E as <-. exact Hp.
  - exact (IH i E).
Qed.

Lemma forall2_replace {A} (P : A -> A -> Prop) : (forall x, P x x) ->
  forall (l : list A) i x y, nth_error l i = Some x -> P x y -> Forall2 P l (replace_nth i y l).
Proof.
  intros R. induction l as [|z l IH]; intros [|i] x y E H; try discriminate.
  - cbn in *. injection E as ->. constructor; [exact H|apply forall2_refl, R].
  - cbn in *. constructor; [apply R|]. eapply IH; eauto.
Qed.

Lemma replace_same {A} : forall (l : list A) i x, nth_error l i = Some x -> replace_nth i x l = l.
Proof.
  induction l as [|z l IH]; intros [|i] x E; try discriminate; cbn in *.
  - congruence.
  - rewrite (IH _ _ E). reflexivity.
Qed.

Lemma later_refl fc h : later fc h h.
Proof. split; auto. apply forall2_refl. intros; apply read_more_refl. Qed.

Lemma later_trans fc a b c : later fc a b -> later fc b c -> later fc a c.
Proof.
  intros [A1 A2 A3] [B1 B2 B3]. split; try congruence.
  eapply forall2_trans; eauto. intros; eapply read_more_trans; eauto.
Qed.

(** A computation whose value, and whose out_of_range, come again on every later header. *)
Definition settled {A} (r : outcome A) : Prop := match r with Ret _ | Throw OutOfRange => True | _ => False end.
Definition again {A} (fc : fcodec) (m : hdo A) : Prop := forall h h1 r, m h = (h1, r) ->
  later fc h h1 /\ (settled r -> forall h2, later fc h1 h2 -> m h2 = (h2, r)).

Lemma again_lift {A} fc (o : outcome A) : again fc (hlift o).
Proof.
  intros h h1 r H. unfold hlift in H. assert (h1 = h) by congruence. assert (r = o) by congruence. subst.
  split; [apply later_refl|]. reflexivity.
Qed.

Lemma again_ret {A} fc (a : A) : again fc (hret a).
Proof. apply (again_lift fc (Ret a)). Qed.

Lemma again_bind {A B} fc (m : hdo A) (k : A -> hdo B) : again fc m -> (forall a, again fc (k a)) -> again fc (hbind m k).
Proof.
  intros Hm Hk h h1 r H. unfold hbind in *. destruct (m h) as [ha o] eqn:E. destruct (Hm _ _ _ E) as [L1 L2].
  destruct o as [a|e| |].
  - destruct (Hk a _ _ _ H) as [K1 K2]. split; [eapply later_trans; eauto|]. intros S h2 L.
    rewrite (L2 I h2) by (eapply later_trans; eauto). apply K2; assumption.
  - assert (ha = h1) by congruence. subst ha. split; [exact L1|]. intros S h2 L.
    assert (S' : settled (Throw e : outcome A)) by (assert (r = Throw e) by congruence; subst r; exact S).
    rewrite (L2 S' h2 L). congruence.
  - assert (ha = h1) by congruence. subst ha. assert (r = Undef) by congruence. subst r. split; [exact L1|intros []].
  - assert (ha = h1) by congruence. subst ha. assert (r = NoFuel) by congruence. subst r. split; [exact L1|intros []].
Qed.

Lemma again_try {A} fc (m : hdo A) : again fc m -> again fc (try_out_of_range m).
Proof.
  intros Hm h h1 r H. unfold try_out_of_range in *. destruct (m h) as [ha o] eqn:E. destruct (Hm _ _ _ E) as [L1 L2].
  destruct o as [a|e| |].
  - assert (ha = h1) by congruence. subst ha. split; [exact L1|]. intros S h2 L. rewrite (L2 I h2 L). congruence.
  - assert (ha = h1) by (destruct e; congruence). subst ha. split; [exact L1|]. intros S h2 L.
    destruct e; try (exfalso; assert (X : exists e, r = Throw e /\ e <> OutOfRange) by (eexists; split; [symmetry; exact (f_equal snd H)|discriminate]);
      destruct X as (e & -> & N); destruct e; try exact S; congruence).
    rewrite (L2 I h2 L). congruence.
  - assert (ha = h1) by congruence. subst ha. assert (r = Undef) by congruence. subst r. split; [exact L1|intros []].
  - assert (ha = h1) by congruence. subst ha. assert (r = NoFuel) by congruence. subst r. split; [exact L1|intros []].
Qed.

(** Only a record that is too short makes a value out of range, and that for every type. *)
Lemma parse_in_range fc t s : parse_to fc t s <> Throw OutOfRange.
Proof.
  destruct t; cbn [parse_to]; unfold split_complex, cast_or_throw;
    repeat match goal with
    | |- context [match ?x with _ => _ end] => destruct x
    end; cbn [bind]; repeat match goal with |- context [match ?x with _ => _ end] => destruct x end; cbn [bind]; try discriminate.
Qed.

Lemma short_record fc t c : value_imp fc t c = Throw OutOfRange -> extract_value (raw c) = Throw OutOfRange.
Proof.
  unfold value_imp. destruct t; unfold value_imp_str; (destruct (extract_value (raw c)) as [e|e| |]; cbn [bind];
    [|intros H; congruence|discriminate|discriminate]);
    intros H; exfalso; try (eapply parse_in_range; exact H).
  destruct (trim e) as [|x [|y r]]; try discriminate; destruct (Ascii.eqb x "'"); discriminate.
Qed.

Lemma short_no_value fc t c v : extract_value (raw c) = Throw OutOfRange -> value_imp fc t c <> Ret v.
Proof. intros H. unfold value_imp, value_imp_str. rewrite H. destruct t; discriminate. Qed.

Lemma again_value fc t key : again fc (value_of fc t key).
Proof.
  intros h h1 r H. unfold value_of in *. destruct (map_find key (h_index h)) as [i|] eqn:I.
  2: { assert (h1 = h) by congruence. assert (r = Throw OutOfRange) by congruence. subst.
       split; [apply later_refl|]. intros _ h2 L. rewrite (la_index _ _ _ L), I. reflexivity. }
  unfold value_at in *. destruct (nth_error (h_cards h) i) as [c|] eqn:E.
  2: { assert (h1 = h) by congruence. assert (r = Undef) by congruence. subst. split; [apply later_refl|intros []]. }
  destruct (value fc t c) as [c' o] eqn:V. assert (o = r) by congruence. subst o.
  assert (h1 = set_cards h (replace_nth i c' (h_cards h))) by congruence. subst h1. clear H.
  assert (M : read_more fc c c').
  { pose proof (value_fst fc t c) as F. rewrite V in F. cbn [fst] in F. destruct F as [->|(v & F1 & F2 & ->)]; [apply read_more_refl|].
    split; [reflexivity|]. right. split; [exact F1|]. exists t, v. auto. }
  split.
  { split; try reflexivity. cbn [set_cards h_cards]. eapply forall2_replace; eauto. intros; apply read_more_refl. }
  intros S h2 L. rewrite (la_index _ _ _ L). cbn [set_cards h_index]. rewrite I.
  destruct (forall2_nth _ _ _ i c' (la_cards _ _ _ L)) as (d & D1 & D2).
  { cbn [set_cards h_cards]. eapply nth_replace_same. exact E. }
  rewrite D1. enough (W : value fc t d = (d, r)).
  { rewrite W. rewrite (replace_same _ _ _ D1). destruct h2; reflexivity. }
  destruct D2 as [D2 D3]. unfold value in V. destruct (cache c) as [w|] eqn:Ec.
  - assert (c' = c) by congruence. subst c'. destruct D3 as [D3|(D3 & _)]; [|congruence].
    unfold value. rewrite D3, Ec. congruence.
  - destruct (value_imp fc t c) as [v|e| |] eqn:Ei.
    + assert (c' = mk_card (raw c) (Some v)) by congruence. subst c'. cbn [cache raw] in *.
      destruct D3 as [D3|(D3 & _)]; [|discriminate]. unfold value. rewrite D3. congruence.
    + assert (c' = c) by congruence. assert (r = Throw e) by congruence. subst c' r. destruct e; try destruct S.
      pose proof (short_record _ _ _ Ei) as X. rewrite <- D2 in X.
      assert (Cd : cache d = None).
      { destruct D3 as [D3|(_ & u & v & Y & _)]; [congruence|]. exfalso. eapply short_no_value; [|exact Y]. rewrite <- D2. exact X. }
      unfold value. rewrite Cd. replace (value_imp fc t d) with (value_imp fc t c) by (apply value_imp_raw; congruence).
      rewrite Ei. reflexivity.
    + assert (r = Undef) by congruence. subst r. destruct S.
    + assert (r = NoFuel) by congruence. subst r. destruct S.
Qed.

Ltac again_tac := repeat first
  [ apply again_value | apply again_ret | apply again_lift | apply again_try | apply again_bind; [|intros ?] ].

Lemma again_name fc i : again fc (name_and_comment fc i).
Proof. unfold name_and_comment, value_str. again_tac. destruct a; again_tac. Qed.

Lemma again_bin_columns fc k : forall i start, again fc (bin_columns fc k i start).
Proof.
  induction k as [|k IH]; intros i start; cbn [bin_columns]; [apply again_ret|].
  apply again_bind; [|intros c; apply again_bind; [apply again_lift|intros w; apply again_bind; [apply IH|intros; apply again_ret]]].
  unfold bin_column, value_str, value_double. apply again_bind; [again_tac|intros form]. apply again_bind; [again_tac|intros w].
  apply again_bind; [apply again_name|intros nc]. again_tac.
Qed.

Lemma again_ascii_columns fc k : forall i, again fc (ascii_columns fc k i).
Proof.
  induction k as [|k IH]; intros i; cbn [ascii_columns]; [apply again_ret|].
  apply again_bind; [|intros c; apply again_bind; [apply IH|intros; apply again_ret]].
  unfold ascii_column, value_str, value_size, value_double. apply again_bind; [again_tac|intros form]. apply again_bind; [again_tac|intros w].
  apply again_bind; [apply again_name|intros nc]. again_tac.
Qed.

(** ** set_data *)

Section Filling.
Variable fc : fcodec.
Variable columns : nat -> hdo (list column).
Variable data : N -> N -> list column -> str -> outcome (list (list str)).
Hypothesis columns_again : forall k, again fc (columns k).

Let fill (fields : N) (old : list (list str)) (buf : str) : hdo (list column * list (list str)) :=
  do cols <- columns (N.to_nat fields) in
  match buf with
  | [] => hret (cols, old)
  | _ => fun h =>
      (h, let! rows := naxis 2 h in
          let! width := naxis 1 h in
          let! d := data rows width cols buf in
          Ret (cols, d))
  end.

Lemma make_table_parts h buf t : make_table fill fc h buf = Ret t ->
  exists h1, table_info fc h = (h1, Ret (t_fields t)) /\
    columns (N.to_nat (t_fields t)) h1 = (t_header t, Ret (t_columns t)).
Proof.
  unfold make_table. unfold hbind at 1. destruct (table_info fc h) as [h1 [n| | |]] eqn:E1; try discriminate.
  unfold fill. unfold hbind at 1 2. destruct (columns (N.to_nat n) h1) as [h2 [cols| | |]] eqn:E2; try discriminate.
  intros H. exists h1. destruct buf as [|x buf].
  - cbn in H. apply ret_inj in H. subst t. cbn [t_fields t_header t_columns]. auto.
  - destruct (naxis 2 h2) as [rows| | |]; try discriminate. cbn [bind] in H.
    destruct (naxis 1 h2) as [wid| | |]; try discriminate. cbn [bind] in H.
    destruct (data rows wid cols (x :: buf)) as [d| | |]; try discriminate. cbn [bind] in H. unfold hret in H. apply ret_inj in H. subst t.
    cbn [t_fields t_header t_columns]. auto.
Qed.

Lemma set_data_again h buf0 t cells buf : make_table fill fc h buf0 = Ret t ->
  set_data fill buf (with_cells t cells) =
    match buf with [] => Ret (with_cells t cells) | _ => make_table fill fc h buf end.
Proof.
  intros H. destruct (make_table_parts _ _ _ H) as (h1 & E1 & E2).
  destruct (columns_again _ _ _ _ E2) as [_ K]. specialize (K I _ (later_refl fc (t_header t))).
  unfold set_data. cbn [with_cells t_fields t_data t_header]. unfold fill at 1. unfold hbind at 1. rewrite K.
  destruct buf as [|x buf]; [reflexivity|]. unfold make_table. unfold hbind at 1. rewrite E1.
  unfold fill. unfold hbind at 1 2. rewrite E2.
  destruct (naxis 2 (t_header t)) as [rows| | |]; try reflexivity. cbn [bind].
  destruct (naxis 1 (t_header t)) as [wid| | |]; try reflexivity. cbn [bind].
  destruct (data rows wid (t_columns t) (x :: buf)) as [d| | |]; reflexivity.
Qed.

End Filling.

Theorem bin_set_data_again fc h buf0 t cells buf : binary_table fc h buf0 = Ret t ->
  bin_set_data fc buf (with_cells t cells) =
    match buf with [] => Ret (with_cells t cells) | _ => binary_table fc h buf end.
Proof.
  exact (set_data_again fc (fun k => bin_columns fc k 1 0) (fun rows _ cols b => bin_table_data rows cols b)
           (fun k => again_bin_columns fc k 1 0%N) h buf0 t cells buf).
Qed.

Theorem ascii_set_data_again fc h buf0 t cells buf : ascii_table fc h buf0 = Ret t ->
  ascii_set_data fc buf (with_cells t cells) =
    match buf with [] => Ret (with_cells t cells) | _ => ascii_table fc h buf end.
Proof.
  exact (set_data_again fc (fun k => ascii_columns fc k 1) ascii_table_data
           (fun k => again_ascii_columns fc k 1) h buf0 t cells buf).
Qed.
