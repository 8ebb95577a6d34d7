(** * Lemmas about tables. *)
From Verif Require Export HeaderLookup TableModel TableSpec ConvProofs.

(** ** Looking up values changes only caches *)

Record steady (fc : fcodec) (h h' : header) : Prop := mk_steady {
  st_raw : map raw (h_cards h') = map raw (h_cards h);
  st_index : h_index h' = h_index h;
  st_naxis : h_naxis h' = h_naxis h;
  st_sound : Forall (cache_sound fc) (h_cards h) -> Forall (cache_sound fc) (h_cards h')
}.

Lemma steady_refl fc h : steady fc h h.
Proof. split; auto. Qed.

Lemma steady_trans fc a b c : steady fc a b -> steady fc b c -> steady fc a c.
Proof. intros [A1 A2 A3 A4] [B1 B2 B3 B4]. split; try congruence; auto. Qed.

Lemma value_at_sound fc t i h : Forall (cache_sound fc) (h_cards h) -> Forall (cache_sound fc) (h_cards (fst (value_at fc t i h))).
Proof.
  intros H. unfold value_at. destruct (nth_error (h_cards h) i) as [c|] eqn:E; [|exact H].
  pose proof (value_fst fc t c) as Hv. destruct (value fc t c) as [c' r]. cbn [fst] in *.
  cbn [set_cards h_cards]. apply forall_replace; [exact H|].
  destruct Hv as [->|(v & Hc & Hi & ->)].
  - rewrite Forall_forall in H. apply H. eapply nth_error_In. exact E.
  - unfold cache_sound. cbn [cache raw].
    pose proof (value_imp_type _ _ _ _ Hi) as Ht.
    rewrite Ht, <- Hi. apply value_imp_raw. reflexivity.
Qed.

Lemma value_of_steady fc t key h : steady fc h (fst (value_of fc t key h)).
Proof.
  unfold value_of. destruct (map_find key (h_index h)) as [i|]; [|apply steady_refl].
  destruct (value_at_rest fc t i h) as (_ & H2 & _ & H4).
  split; [apply value_at_raws|exact H4|exact H2|apply value_at_sound].
Qed.

Definition hsteady {A} (fc : fcodec) (m : hdo A) : Prop := forall h, steady fc h (fst (m h)).

Lemma hsteady_ret {A} fc (a : A) : hsteady fc (hret a).
Proof. intros h. apply steady_refl. Qed.

Lemma hsteady_lift {A} fc (o : outcome A) : hsteady fc (hlift o).
Proof. intros h. apply steady_refl. Qed.

Lemma hsteady_bind {A B} fc (m : hdo A) (k : A -> hdo B) : hsteady fc m -> (forall a, hsteady fc (k a)) -> hsteady fc (hbind m k).
Proof.
  intros Hm Hk h. unfold hbind. specialize (Hm h). destruct (m h) as [h1 [a|e| |]]; cbn [fst] in *; try exact Hm.
  eapply steady_trans; [exact Hm|apply Hk].
Qed.

Lemma hsteady_try {A} fc (m : hdo A) : hsteady fc m -> hsteady fc (try_out_of_range m).
Proof. intros Hm h. unfold try_out_of_range. specialize (Hm h). destruct (m h) as [h1 [a|[]| |]]; exact Hm. Qed.

Lemma hsteady_value fc t key : hsteady fc (value_of fc t key).
Proof. intros h. apply value_of_steady. Qed.

Lemma hsteady_str fc key : hsteady fc (value_str fc key).
Proof. apply hsteady_bind; [apply hsteady_value|intros; apply hsteady_lift]. Qed.
Lemma hsteady_size fc key : hsteady fc (value_size fc key).
Proof. apply hsteady_bind; [apply hsteady_value|intros; apply hsteady_lift]. Qed.
Lemma hsteady_double fc key : hsteady fc (value_double fc key).
Proof. apply hsteady_bind; [apply hsteady_value|intros; apply hsteady_lift]. Qed.

Ltac hsteady_tac := repeat first
  [ apply hsteady_str | apply hsteady_size | apply hsteady_double | apply hsteady_value
  | apply hsteady_ret | apply hsteady_lift | apply hsteady_try
  | apply hsteady_bind; [|intros ?] ].

Lemma hsteady_name fc i : hsteady fc (name_and_comment fc i).
Proof. unfold name_and_comment. hsteady_tac. destruct a; hsteady_tac. Qed.

Ltac hsteady_col := repeat first [ apply hsteady_name | apply hsteady_str | apply hsteady_size | apply hsteady_double | apply hsteady_value
  | apply hsteady_ret | apply hsteady_lift | apply hsteady_try | apply hsteady_bind; [|intros ?] ].

Lemma hsteady_bin_column fc i start : hsteady fc (bin_column fc i start).
Proof. unfold bin_column. hsteady_col. Qed.

Lemma hsteady_bin_columns fc k : forall i start, hsteady fc (bin_columns fc k i start).
Proof.
  induction k as [|k IH]; intros i start; cbn [bin_columns]; [apply hsteady_ret|].
  apply hsteady_bind; [apply hsteady_bin_column|intros c].
  apply hsteady_bind; [apply hsteady_lift|intros w].
  apply hsteady_bind; [apply IH|intros; apply hsteady_ret].
Qed.

Lemma hsteady_ascii_column fc i : hsteady fc (ascii_column fc i).
Proof. unfold ascii_column. hsteady_col. Qed.

Lemma hsteady_ascii_columns fc k : forall i, hsteady fc (ascii_columns fc k i).
Proof.
  induction k as [|k IH]; intros i; cbn [ascii_columns]; [apply hsteady_ret|].
  apply hsteady_bind; [apply hsteady_ascii_column|intros c].
  apply hsteady_bind; [apply IH|intros; apply hsteady_ret].
Qed.

Lemma hsteady_info fc : hsteady fc (table_info fc).
Proof. unfold table_info. hsteady_tac. destruct (_ <? _)%N; hsteady_tac. Qed.

(** Inverting a bind. *)
Lemma hbind_ret {A B} (m : hdo A) (k : A -> hdo B) h h' b : hbind m k h = (h', Ret b) ->
  exists h1 a, m h = (h1, Ret a) /\ k a h1 = (h', Ret b).
Proof. unfold hbind. destruct (m h) as [h1 [a|e| |]]; try discriminate. intros H. exists h1, a. auto. Qed.

Lemma hlift_ret {A} (o : outcome A) h h' a : hlift o h = (h', Ret a) -> h' = h /\ o = Ret a.
Proof. unfold hlift. intros H. split; [exact (eq_sym (f_equal fst H))|exact (f_equal snd H)]. Qed.

Lemma hret_ret {A} (x : A) h h' a : hret x h = (h', Ret a) -> h' = h /\ x = a.
Proof. intros H. apply hlift_ret in H. destruct H as [H1 H2]. split; [exact H1|]. injection H2. auto. Qed.

(** ** Values come from the records *)

Definition record_of (h : header) (key : str) : option str :=
  match map_find key (h_index h) with Some i => nth_error (map raw (h_cards h)) i | None => None end.

Lemma steady_record fc h h' key : steady fc h h' -> record_of h' key = record_of h key.
Proof. intros [A B _ _]. unfold record_of. rewrite A, B. reflexivity. Qed.

Lemma value_of_text fc t key h h' v : Forall (cache_sound fc) (h_cards h) ->
  value_of fc t key h = (h', Ret v) -> exists r, record_of h key = Some r /\ text_value fc t r = Ret v.
Proof.
  intros Hs H. unfold value_of in H. unfold record_of. destruct (map_find key (h_index h)) as [i|]; [|discriminate].
  unfold value_at in H. rewrite nth_error_map. destruct (nth_error (h_cards h) i) as [c|] eqn:E; [|discriminate].
  exists (raw c). split; [reflexivity|].
  destruct (value fc t c) as [c' r] eqn:Ev. apply (f_equal snd) in H. cbn [snd] in H. subst r.
  unfold text_value. rewrite Forall_forall in Hs. specialize (Hs c (nth_error_In _ _ E)). unfold cache_sound in Hs.
  unfold value in *. cbn [cache raw].
  destruct (cache c) as [u|].
  - apply (f_equal snd) in Ev. cbn [snd] in Ev. unfold get_as in Ev.
    destruct (cty_eqb (ty_of u) t) eqn:Et; [|discriminate]. apply ret_inj in Ev. subst u.
    assert (ty_of v = t) by (destruct (ty_of v), t; reflexivity || discriminate). subst t.
    rewrite Hs. cbn [snd]. unfold get_as. rewrite Et. reflexivity.
  - rewrite (value_imp_raw fc t (mk_card (raw c) None) c) by reflexivity.
    destruct (value_imp fc t c) as [u| | |]; try (apply (f_equal snd) in Ev; discriminate Ev).
    apply (f_equal snd) in Ev. exact Ev.
Qed.

Lemma value_str_text fc key h h' s : Forall (cache_sound fc) (h_cards h) ->
  value_str fc key h = (h', Ret s) -> exists r, record_of h key = Some r /\ text_value fc TStr r = Ret (VStr s).
Proof.
  intros Hs H. apply hbind_ret in H. destruct H as (h1 & v & H1 & H2).
  apply hlift_ret in H2. destruct H2 as [_ H2]. destruct v; try discriminate. apply ret_inj in H2. subst s0.
  exact (value_of_text _ _ _ _ _ _ Hs H1).
Qed.

Lemma value_size_text fc key h h' n : Forall (cache_sound fc) (h_cards h) ->
  value_size fc key h = (h', Ret n) -> exists r, record_of h key = Some r /\ text_value fc TSize r = Ret (VSize n).
Proof.
  intros Hs H. apply hbind_ret in H. destruct H as (h1 & v & H1 & H2).
  apply hlift_ret in H2. destruct H2 as [_ H2]. destruct v; try discriminate. apply ret_inj in H2. subst n0.
  exact (value_of_text _ _ _ _ _ _ Hs H1).
Qed.

(** ** Headers as read *)

Lemma reached_facts fc h : reached fc h ->
  Forall (cache_sound fc) (h_cards h) /\
  forall key, ~ mandatory_key (length (h_naxis h)) key -> record_of h key = last_record key (map raw (h_cards h)).
Proof.
  induction 1 as [fuel s s' h Hg H|t key h _ [IH1 IH2]|h _ [IH1 IH2]].
  - destruct (read_header_inv _ _ _ _ _ Hg H) as (n & _ & _ & Hi & _).
    set (rs := records (content s) (N.to_nat (pos s)) n) in *.
    assert (Hne : rs <> []) by (intros E; pose proof (records_length (content s) (N.to_nat (pos s)) n) as L; unfold rs in E; rewrite E in L; discriminate).
    destruct (interpret_got _ _ _ Hi) as (b & l & _ & Hn & _ & He & _).
    destruct (push_all_rest rs fresh_header) as (_ & P2 & _). rewrite P2 in Hn. cbn [fresh_header h_naxis app] in Hn.
    assert (Hraw : map raw (h_cards h) = rs).
    { rewrite (ext_raw _ _ _ _ He), push_all_cards. cbn [fresh_header h_cards app].
      rewrite map_map. cbn [raw]. apply map_id. }
    split; [exact (ext_sound _ _ _ _ He (push_all_sound fc rs))|].
    intros key Hk. rewrite Hn in Hk. unfold record_of. rewrite Hraw.
    destruct (map_find key (h_index (push_all rs fresh_header))) as [i|] eqn:Ei.
    + rewrite (ext_some _ _ _ _ He key i Ei).
      pose proof (push_all_idx key rs Hne) as P. unfold idx in P. rewrite Ei in P. rewrite P.
      unfold mandatory_record. destruct (last_record key rs) eqn:El; [reflexivity|].
      apply push_all_find in El. congruence.
    + rewrite (ext_none _ _ _ _ He key Hk Ei). apply push_all_find in Ei. symmetry. exact Ei.
  - pose proof (value_of_steady fc t key h) as St. split; [exact (st_sound _ _ _ St IH1)|].
    intros k Hk. rewrite (steady_record _ _ _ k St), (st_raw _ _ _ St), (st_naxis _ _ _ St) in *. exact (IH2 k Hk).
  - assert (St : steady fc h (fst (get_hdu_name fc h))).
    { unfold get_hdu_name. pose proof (value_of_steady fc TStr (lit "XTENSION") h) as S1.
      destruct (value_of fc TStr (lit "XTENSION") h) as [h1 r]. cbn [fst] in S1.
      assert (Sn : forall n, steady fc h (set_name h1 n)) by (intros n; destruct S1; split; assumption).
      destruct r as [v|e| |]; try exact S1.
      - destruct v; try exact S1. apply Sn.
      - pose proof (value_of_steady fc TBool (lit "SIMPLE") h1) as S2.
        destruct (value_of fc TBool (lit "SIMPLE") h1) as [h2 r2]. cbn [fst] in S2.
        assert (S3 : steady fc h h2) by (eapply steady_trans; eassumption).
        destruct r2; exact S3. }
    split; [exact (st_sound _ _ _ St IH1)|].
    intros k Hk. rewrite (steady_record _ _ _ k St), (st_raw _ _ _ St), (st_naxis _ _ _ St) in *. exact (IH2 k Hk).
Qed.

Lemma not_mandatory c r d : c <> "B"%char -> c <> "N"%char -> ~ mandatory_key d (c :: r).
Proof.
  intros H1 H2 [H|[H|(i & _ & H)]]; injection H as E _; contradiction.
Qed.

(** ** Metadata *)

(** An optional entry: the text if the record has one, blank if there is no record. *)
Definition optional (fc : fcodec) (h : header) (key s : str) : Prop :=
  (record_of h key = None -> s = []) /\
  (forall r n, record_of h key = Some r -> text_value fc TStr r = Ret (VStr n) -> s = n).
Definition optional_num (fc : fcodec) (h : header) (key : str) (o : option N) : Prop :=
  (record_of h key = None -> o = None) /\
  (forall r n, record_of h key = Some r -> text_value fc TDouble r = Ret (VDouble n) -> o = Some n).

Lemma value_of_missing fc t key h : record_of h key = None -> (forall i, map_find key (h_index h) = Some i -> i < length (h_cards h)) ->
  value_of fc t key h = (h, Throw OutOfRange).
Proof.
  unfold record_of, value_of. intros H Hi. destruct (map_find key (h_index h)) as [i|]; [|reflexivity].
  apply nth_error_None in H. rewrite map_length in H. specialize (Hi i eq_refl). lia.
Qed.

Lemma value_of_present fc t key h r v : Forall (cache_sound fc) (h_cards h) ->
  record_of h key = Some r -> text_value fc t r = Ret v ->
  snd (value_of fc t key h) = Ret v \/ snd (value_of fc t key h) = Throw BadGet.
Proof.
  intros Hs Hr Ht. unfold record_of in Hr. unfold value_of.
  destruct (map_find key (h_index h)) as [i|]; [|discriminate]. rewrite nth_error_map in Hr.
  unfold value_at. destruct (nth_error (h_cards h) i) as [c|] eqn:E; [|discriminate].
  cbn [option_map] in Hr. injection Hr as <-.
  rewrite Forall_forall in Hs. specialize (Hs c (nth_error_In _ _ E)). unfold cache_sound in Hs.
  unfold text_value, value in Ht. cbn [cache] in Ht. unfold value.
  rewrite (value_imp_raw fc t (mk_card (raw c) None) c) in Ht by reflexivity.
  destruct (cache c) as [u|].
  - unfold get_as. destruct (cty_eqb (ty_of u) t) eqn:Et; [left|right; reflexivity].
    assert (ty_of u = t) by (destruct (ty_of u), t; reflexivity || discriminate). subst t.
    rewrite (value_imp_raw fc (ty_of u) (mk_card (raw c) None) c) in Hs by reflexivity.
    rewrite Hs in Ht. cbn [snd] in Ht. unfold get_as in Ht. rewrite Et in Ht. exact Ht.
  - left. destruct (value_imp fc t c); exact Ht.
Qed.

Lemma bound_index h : (forall key, map_find key (h_index h) <> None -> record_of h key <> None) ->
  forall key, record_of h key = None -> map_find key (h_index h) = None.
Proof. intros H key E. destruct (map_find key (h_index h)) eqn:F; [|reflexivity]. exfalso. eapply H; [|exact E]. congruence. Qed.

(** Every index entry points to a card. *)
Definition indexed_ok (h : header) : Prop := forall key, record_of h key = None -> map_find key (h_index h) = None.

Lemma steady_indexed fc h h' : steady fc h h' -> indexed_ok h -> indexed_ok h'.
Proof. intros St H key E. rewrite (steady_record _ _ _ key St) in E. rewrite (st_index _ _ _ St). exact (H key E). Qed.

Lemma try_str fc key h h' o : Forall (cache_sound fc) (h_cards h) -> indexed_ok h ->
  try_out_of_range (value_str fc key) h = (h', Ret o) -> optional fc h key (or_blank o).
Proof.
  intros Hs Hi H. split.
  - intros Hr. pose proof (Hi key Hr) as Hm.
    unfold try_out_of_range, value_str, hbind, value_of in H. rewrite Hm in H.
    apply (f_equal snd) in H. cbn [snd] in H. apply ret_inj in H. subst o. reflexivity.
  - intros r n Hr Ht. destruct (value_of_present fc TStr key h r (VStr n) Hs Hr Ht) as [E|E];
      unfold try_out_of_range, value_str, hbind in H; destruct (value_of fc TStr key h) as [h1 x]; cbn [snd] in E; subst x.
    + unfold hlift, of_str in H. apply (f_equal snd) in H. cbn [snd] in H. apply ret_inj in H. subst o. reflexivity.
    + apply (f_equal snd) in H. discriminate H.
Qed.

Lemma try_double fc key h h' o : Forall (cache_sound fc) (h_cards h) -> indexed_ok h ->
  try_out_of_range (value_double fc key) h = (h', Ret o) -> optional_num fc h key o.
Proof.
  intros Hs Hi H. split.
  - intros Hr. pose proof (Hi key Hr) as Hm.
    unfold try_out_of_range, value_double, hbind, value_of in H. rewrite Hm in H.
    apply (f_equal snd) in H. cbn [snd] in H. apply ret_inj in H. subst o. reflexivity.
  - intros r n Hr Ht. destruct (value_of_present fc TDouble key h r (VDouble n) Hs Hr Ht) as [E|E];
      unfold try_out_of_range, value_double, hbind in H; destruct (value_of fc TDouble key h) as [h1 x]; cbn [snd] in E; subst x.
    + unfold hlift, of_double in H. apply (f_equal snd) in H. cbn [snd] in H. apply ret_inj in H. subst o. reflexivity.
    + apply (f_equal snd) in H. discriminate H.
Qed.

Definition good_header (fc : fcodec) (h : header) : Prop := Forall (cache_sound fc) (h_cards h) /\ indexed_ok h.

Lemma steady_good fc h h' : steady fc h h' -> good_header fc h -> good_header fc h'.
Proof. intros St [A B]. split; [exact (st_sound _ _ _ St A)|exact (steady_indexed _ _ _ St B)]. Qed.

Lemma steady_optional fc h h' key s : steady fc h h' -> optional fc h' key s -> optional fc h key s.
Proof. intros St H. unfold optional in *. rewrite (steady_record _ _ _ key St) in H. exact H. Qed.
Lemma steady_optional_num fc h h' key s : steady fc h h' -> optional_num fc h' key s -> optional_num fc h key s.
Proof. intros St H. unfold optional_num in *. rewrite (steady_record _ _ _ key St) in H. exact H. Qed.

Lemma name_spec fc i h h' n c : good_header fc h -> name_and_comment fc i h = (h', Ret (n, c)) ->
  optional fc h (indexed "TTYPE" i) n.
Proof.
  intros [Hs Hi] H. apply hbind_ret in H. destruct H as (h1 & o & H1 & H2).
  apply try_str in H1; [|assumption..]. destruct o as [name|].
  - apply hbind_ret in H2. destruct H2 as (h2 & o & _ & H2). apply hret_ret in H2. destruct H2 as [_ H2].
    injection H2 as <- _. exact H1.
  - apply hret_ret in H2. destruct H2 as [_ H2]. injection H2 as <- _. exact H1.
Qed.

(** What is in the metadata of a column. *)
Record column_info (fc : fcodec) (h : header) (i : nat) (c : column) : Prop := mk_info {
  ci_index : c_index c = i;
  ci_form : exists r, record_of h (indexed "TFORM" i) = Some r /\ text_value fc TStr r = Ret (VStr (c_format c));
  ci_name : optional fc h (indexed "TTYPE" i) (c_name c);
  ci_unit : optional fc h (indexed "TUNIT" i) (c_unit c);
  ci_scal : optional_num fc h (indexed "TSCAL" i) (c_scale c);
  ci_zero : optional_num fc h (indexed "TZERO" i) (c_zero c)
}.

Lemma steady_info fc h h' i c : steady fc h h' -> column_info fc h' i c -> column_info fc h i c.
Proof.
  intros St [A B C D E F]. rewrite (steady_record _ _ _ (indexed "TFORM" i) St) in B. split; auto.
  - exact (steady_optional _ _ _ _ _ St C).
  - exact (steady_optional _ _ _ _ _ St D).
  - exact (steady_optional_num _ _ _ _ _ St E).
  - exact (steady_optional_num _ _ _ _ _ St F).
Qed.

(** A step of a bind on a good header. *)
Lemma step {A B} fc (m : hdo A) (k : A -> hdo B) h h' b : hsteady fc m -> good_header fc h -> hbind m k h = (h', Ret b) ->
  exists h1 a, m h = (h1, Ret a) /\ k a h1 = (h', Ret b) /\ steady fc h h1 /\ good_header fc h1.
Proof.
  intros Hm Hg H. apply hbind_ret in H. destruct H as (h1 & a & H1 & H2).
  pose proof (Hm h) as St. rewrite H1 in St. cbn [fst] in St.
  exists h1, a. exact (conj H1 (conj H2 (conj St (steady_good _ _ _ St Hg)))).
Qed.

Lemma bin_column_spec fc i start h h' c : good_header fc h -> bin_column fc i start h = (h', Ret c) ->
  column_info fc h i c /\ c_start c = start /\ (exists w, bin_column_size (c_format c) = Ret w) /\
  bin_element_count (c_format c) = Ret (c_elements c) /\
  optional fc h (indexed "TDISP" i) (c_display c) /\ optional fc h (indexed "TDIM" i) (c_dimension c).
Proof.
  intros G H. unfold bin_column in H.
  apply (step fc) in H; [|apply hsteady_str|exact G]. destruct H as (h1 & form & F1 & H & S1 & G1).
  apply (step fc) in H; [|apply hsteady_lift|exact G1]. destruct H as (h2 & w & F2 & H & _ & _).
  apply hlift_ret in F2. destruct F2 as [-> F2].
  apply (step fc) in H; [|apply hsteady_name|exact G1]. destruct H as (h3 & nc & F3 & H & S3 & G3).
  apply (step fc) in H; [|apply hsteady_try, hsteady_str|exact G3]. destruct H as (h4 & unit & F4 & H & S4 & G4).
  apply (step fc) in H; [|apply hsteady_try, hsteady_double|exact G4]. destruct H as (h5 & scal & F5 & H & S5 & G5).
  apply (step fc) in H; [|apply hsteady_try, hsteady_double|exact G5]. destruct H as (h6 & zro & F6 & H & S6 & G6).
  apply (step fc) in H; [|apply hsteady_try, hsteady_str|exact G6]. destruct H as (h7 & disp & F7 & H & S7 & G7).
  apply (step fc) in H; [|apply hsteady_try, hsteady_str|exact G7]. destruct H as (h8 & dim & F8 & H & S8 & G8).
  apply (step fc) in H; [|apply hsteady_lift|exact G8]. destruct H as (h9 & n & F9 & H & _ & _).
  apply hlift_ret in F9. destruct F9 as [-> F9].
  apply hret_ret in H. destruct H as [_ <-]. cbn [c_start c_format c_elements c_display c_dimension].
  pose proof (steady_trans _ _ _ _ S1 S3) as T3. pose proof (steady_trans _ _ _ _ T3 S4) as T4.
  pose proof (steady_trans _ _ _ _ T4 S5) as T5. pose proof (steady_trans _ _ _ _ T5 S6) as T6.
  pose proof (steady_trans _ _ _ _ T6 S7) as T7.
  split; [|split; [reflexivity|split; [exists w; exact F2|split; [exact F9|split]]]].
  - split; cbn [c_index c_format c_name c_unit c_scale c_zero].
    + reflexivity.
    + exact (value_str_text _ _ _ _ _ (proj1 G) F1).
    + destruct nc as [nm cm]. exact (steady_optional _ _ _ _ _ S1 (name_spec _ _ _ _ _ _ G1 F3)).
    + exact (steady_optional _ _ _ _ _ T3 (try_str _ _ _ _ _ (proj1 G3) (proj2 G3) F4)).
    + exact (steady_optional_num _ _ _ _ _ T4 (try_double _ _ _ _ _ (proj1 G4) (proj2 G4) F5)).
    + exact (steady_optional_num _ _ _ _ _ T5 (try_double _ _ _ _ _ (proj1 G5) (proj2 G5) F6)).
  - exact (steady_optional _ _ _ _ _ T6 (try_str _ _ _ _ _ (proj1 G6) (proj2 G6) F7)).
  - exact (steady_optional _ _ _ _ _ T7 (try_str _ _ _ _ _ (proj1 G7) (proj2 G7) F8)).
Qed.

Lemma ascii_column_spec fc i h h' c : good_header fc h -> ascii_column fc i h = (h', Ret c) ->
  column_info fc h i c /\ c_elements c = 0%N /\
  (exists r, record_of h (indexed "TBCOL" i) = Some r /\ text_value fc TSize r = Ret (VSize (c_start c))).
Proof.
  intros G H. unfold ascii_column in H.
  apply (step fc) in H; [|apply hsteady_str|exact G]. destruct H as (h1 & form & F1 & H & S1 & G1).
  apply (step fc) in H; [|apply hsteady_size|exact G1]. destruct H as (h2 & start & F2 & H & S2 & G2).
  apply (step fc) in H; [|apply hsteady_name|exact G2]. destruct H as (h3 & nc & F3 & H & S3 & G3).
  apply (step fc) in H; [|apply hsteady_try, hsteady_str|exact G3]. destruct H as (h4 & unit & F4 & H & S4 & G4).
  apply (step fc) in H; [|apply hsteady_try, hsteady_double|exact G4]. destruct H as (h5 & scal & F5 & H & S5 & G5).
  apply (step fc) in H; [|apply hsteady_try, hsteady_double|exact G5]. destruct H as (h6 & zro & F6 & H & S6 & G6).
  apply hret_ret in H. destruct H as [_ <-]. cbn [c_start c_elements].
  pose proof (steady_trans _ _ _ _ S1 S2) as T2. pose proof (steady_trans _ _ _ _ T2 S3) as T3.
  pose proof (steady_trans _ _ _ _ T3 S4) as T4. pose proof (steady_trans _ _ _ _ T4 S5) as T5.
  split; [|split; [reflexivity|]].
  - split; cbn [c_index c_format c_name c_unit c_scale c_zero].
    + reflexivity.
    + exact (value_str_text _ _ _ _ _ (proj1 G) F1).
    + destruct nc as [nm cm]. exact (steady_optional _ _ _ _ _ T2 (name_spec _ _ _ _ _ _ G2 F3)).
    + exact (steady_optional _ _ _ _ _ T3 (try_str _ _ _ _ _ (proj1 G3) (proj2 G3) F4)).
    + exact (steady_optional_num _ _ _ _ _ T4 (try_double _ _ _ _ _ (proj1 G4) (proj2 G4) F5)).
    + exact (steady_optional_num _ _ _ _ _ T5 (try_double _ _ _ _ _ (proj1 G5) (proj2 G5) F6)).
  - destruct (value_size_text _ _ _ _ _ (proj1 G1) F2) as (r & R1 & R2). exists r.
    rewrite <- (steady_record _ _ _ (indexed "TBCOL" i) S1). auto.
Qed.

(** The widths of the columns. *)
Definition widths_are (size : str -> outcome N) (cols : list column) (ws : list nat) : Prop :=
  Forall2 (fun c w => size (c_format c) = Ret (N.of_nat w)) cols ws.

Lemma bin_columns_spec fc k : forall i start h h' cols, good_header fc h ->
  bin_columns fc k i start h = (h', Ret cols) ->
  length cols = k /\ good_header fc h' /\ steady fc h h' /\
  (exists ws, widths_are bin_column_size cols ws /\
    forall j c, nth_error cols j = Some c -> c_start c = ((start + N.of_nat (total (firstn j ws))) mod two64)%N \/ j = 0 /\ c_start c = start) /\
  forall j c, nth_error cols j = Some c ->
    column_info fc h (i + j) c /\ bin_element_count (c_format c) = Ret (c_elements c).
Proof.
  induction k as [|k IH]; intros i start h h' cols G H; cbn [bin_columns] in H.
  - apply hret_ret in H. destruct H as [-> <-]. split; [reflexivity|]. split; [exact G|].
    split; [apply steady_refl|]. split.
    + exists []. split; [constructor|]. intros [|j] c; discriminate.
    + intros [|j] c; discriminate.
  - apply (step fc) in H; [|apply hsteady_bin_column|exact G]. destruct H as (h1 & c & F1 & H & S1 & G1).
    destruct (bin_column_spec _ _ _ _ _ _ G F1) as (A1 & A2 & _ & A4 & _).
    apply hbind_ret in H. destruct H as (h2 & w & F2 & H).
    apply hlift_ret in F2. destruct F2 as [-> F2].
    apply hbind_ret in H. destruct H as (h3 & r & F3 & H).
    apply hret_ret in H. destruct H as [-> <-].
    destruct (IH _ _ _ _ _ G1 F3) as (L & G3 & S3 & (ws & W1 & W2) & I3).
    split; [cbn; lia|]. split; [exact G3|]. split; [eapply steady_trans; eassumption|]. split.
    + exists (N.to_nat w :: ws). split.
      * constructor; [rewrite N2Nat.id; exact F2|exact W1].
      * intros [|j] x Hx; cbn in Hx.
        -- injection Hx as <-. right. auto.
        -- left. cbn [firstn total]. destruct (W2 j x Hx) as [E|[-> E]].
           ++ rewrite E, N.add_mod_idemp_l by discriminate. f_equal. lia.
           ++ rewrite E. cbn [firstn total]. f_equal. lia.
    + intros [|j] x Hx; cbn in Hx.
      * injection Hx as <-. rewrite Nat.add_0_r. auto.
      * destruct (I3 j x Hx) as [B1 B2]. rewrite <- Nat.add_succ_comm. split; [|exact B2].
        exact (steady_info _ _ _ _ _ S1 B1).
Qed.

Lemma ascii_columns_spec fc k : forall i h h' cols, good_header fc h ->
  ascii_columns fc k i h = (h', Ret cols) ->
  length cols = k /\ good_header fc h' /\ steady fc h h' /\
  forall j c, nth_error cols j = Some c ->
    column_info fc h (i + j) c /\
    exists r, record_of h (indexed "TBCOL" (i + j)) = Some r /\ text_value fc TSize r = Ret (VSize (c_start c)).
Proof.
  induction k as [|k IH]; intros i h h' cols G H; cbn [ascii_columns] in H.
  - apply hret_ret in H. destruct H as [-> <-]. split; [reflexivity|]. split; [exact G|].
    split; [apply steady_refl|]. intros [|j] c; discriminate.
  - apply (step fc) in H; [|apply hsteady_ascii_column|exact G]. destruct H as (h1 & c & F1 & H & S1 & G1).
    destruct (ascii_column_spec _ _ _ _ _ G F1) as (A1 & _ & A3).
    apply hbind_ret in H. destruct H as (h3 & r & F3 & H).
    apply hret_ret in H. destruct H as [-> <-].
    destruct (IH _ _ _ _ G1 F3) as (L & G3 & S3 & I3).
    split; [cbn; lia|]. split; [exact G3|]. split; [eapply steady_trans; eassumption|].
    intros [|j] x Hx; cbn in Hx.
    + injection Hx as <-. rewrite Nat.add_0_r. auto.
    + destruct (I3 j x Hx) as (B1 & q & B2 & B3). rewrite <- Nat.add_succ_comm. split.
      * exact (steady_info _ _ _ _ _ S1 B1).
      * exists q. rewrite <- (steady_record _ _ _ _ S1). auto.
Qed.

Lemma get_hdu_name_steady fc h : steady fc h (fst (get_hdu_name fc h)).
Proof.
  unfold get_hdu_name. pose proof (value_of_steady fc TStr (lit "XTENSION") h) as S1.
  destruct (value_of fc TStr (lit "XTENSION") h) as [h1 r]. cbn [fst] in S1.
  assert (Sn : forall n, steady fc h (set_name h1 n)) by (intros n; destruct S1; split; assumption).
  destruct r as [v|e| |]; try exact S1.
  - destruct v; try exact S1. apply Sn.
  - pose proof (value_of_steady fc TBool (lit "SIMPLE") h1) as S2.
    destruct (value_of fc TBool (lit "SIMPLE") h1) as [h2 r2]. cbn [fst] in S2.
    assert (S3 : steady fc h h2) by (eapply steady_trans; eassumption).
    destruct r2; exact S3.
Qed.

Lemma reached_good fc h : reached fc h -> good_header fc h.
Proof.
  induction 1 as [fuel s s' h Hg H|t key h _ IH|h _ IH].
  - split; [apply (reached_facts fc h); econstructor; eassumption|].
    destruct (read_header_inv _ _ _ _ _ Hg H) as (n & _ & _ & Hi & _).
    set (rs := records (content s) (N.to_nat (pos s)) n) in *.
    assert (Hne : rs <> []) by (intros E; pose proof (records_length (content s) (N.to_nat (pos s)) n) as L; unfold rs in E; rewrite E in L; discriminate).
    destruct (interpret_got _ _ _ Hi) as (b & l & _ & Hn & _ & He & _).
    assert (Hraw : map raw (h_cards h) = rs).
    { rewrite (ext_raw _ _ _ _ He), push_all_cards. cbn [fresh_header h_cards app].
      rewrite map_map. cbn [raw]. apply map_id. }
    intros key Hk. unfold record_of in Hk. pose proof (ext_idx _ _ _ _ He key) as Hx.
    pose proof (push_all_idx key rs Hne) as P. rewrite <- Hx in P. unfold idx in P at 1.
    destruct (map_find key (h_index h)) as [i|]; [|reflexivity]. rewrite Hraw in Hk. congruence.
  - exact (steady_good _ _ _ (value_of_steady fc t key h) IH).
  - exact (steady_good _ _ _ (get_hdu_name_steady fc h) IH).
Qed.

Lemma reached_record fc h base i : reached fc h ->
  match base with String c _ => c <> "B"%char /\ c <> "N"%char | _ => False end ->
  record_of h (indexed base i) = last_record (numbered base i) (map raw (h_cards h)).
Proof.
  intros H Hb. apply (reached_facts fc h H). unfold indexed, lit.
  destruct base as [|c r]; [contradiction|]. apply not_mandatory; apply Hb.
Qed.

(** ** Slices *)

Fixpoint cut (ws : list nat) (buf : str) : list str :=
  match ws with [] => [] | w :: r => firstn w buf :: cut r (skipn w buf) end.

Lemma skipn_add {A} a b (l : list A) : skipn a (skipn b l) = skipn (b + a) l.
Proof.
  revert l. induction b as [|b IH]; intros l; [reflexivity|].
  destruct l as [|x l]; [rewrite !skipn_nil; reflexivity|apply IH].
Qed.

Lemma cut_length ws : forall buf, length (cut ws buf) = length ws.
Proof. induction ws as [|w ws IH]; intros; cbn; auto. Qed.

Lemma cut_nth ws : forall buf c w, nth_error ws c = Some w ->
  nth_error (cut ws buf) c = Some (slice buf (total (firstn c ws)) w).
Proof.
  induction ws as [|v ws IH]; intros buf [|c] w H; cbn in H; try discriminate.
  - injection H as <-. reflexivity.
  - cbn [cut nth_error firstn total]. rewrite (IH _ _ _ H). unfold slice. rewrite skipn_add. reflexivity.
Qed.

Lemma bin_read_row_spec cols ws : widths_are bin_column_size cols ws -> forall buf,
  bin_read_row cols buf =
  if total ws <=? length buf then Ret (map trim (cut ws buf), skipn (total ws) buf) else Undef.
Proof.
  induction 1 as [|c w cols ws Hw _ IH]; intros buf; cbn [bin_read_row cut total map]; [reflexivity|].
  rewrite Hw. cbn [bind]. rewrite Nat2N.id, IH, skipn_length, skipn_add.
  destruct (N.leb_spec (N.of_nat w) (N.of_nat (length buf))), (Nat.leb_spec (total ws) (length buf - w)),
    (Nat.leb_spec (w + total ws) (length buf)); try lia; reflexivity.
Qed.

Definition row_cells (ws : list nat) (buf : str) (r : nat) : list str := map trim (cut ws (skipn (r * total ws) buf)).

Lemma bin_read_rows_spec cols ws : widths_are bin_column_size cols ws -> forall n buf,
  bin_read_rows n cols buf =
  if n * total ws <=? length buf then Ret (map (row_cells ws buf) (seq 0 n)) else Undef.
Proof.
  intros Hw. induction n as [|n IH]; intros buf; cbn [bin_read_rows]; [reflexivity|].
  rewrite (bin_read_row_spec _ _ Hw). destruct (Nat.leb_spec (total ws) (length buf)) as [H|H]; cbn [bind fst snd].
  - rewrite IH, skipn_length.
    destruct (Nat.leb_spec (n * total ws) (length buf - total ws)), (Nat.leb_spec (S n * total ws) (length buf)); try (cbn in *; lia); [|reflexivity].
    cbn [bind seq map]. f_equal. f_equal. rewrite <- seq_shift, map_map. apply map_ext. intros r.
    unfold row_cells. rewrite skipn_add. reflexivity.
  - destruct (Nat.leb_spec (S n * total ws) (length buf)); [cbn in *; lia|reflexivity].
Qed.

Lemma row_cells_nth ws buf r c w : nth_error ws c = Some w ->
  nth_error (row_cells ws buf r) c = Some (trim (slice buf (packed ws r c) w)).
Proof.
  intros H. unfold row_cells. rewrite nth_error_map, (cut_nth _ _ _ _ H). cbn [option_map].
  unfold slice, packed. rewrite skipn_add. reflexivity.
Qed.

Lemma nth_map_seq {A} (f : nat -> A) n r : r < n -> nth_error (map f (seq 0 n)) r = Some (f r).
Proof.
  intros H. rewrite nth_error_map. rewrite (nth_error_nth' (seq 0 n) 0) by (rewrite seq_length; exact H).
  rewrite seq_nth by exact H. reflexivity.
Qed.

(** Construction of a binary table. *)
Lemma table_info_spec fc h h' n : good_header fc h -> table_info fc h = (h', Ret n) ->
  (exists r, record_of h (lit "TFIELDS") = Some r /\ text_value fc TSize r = Ret (VSize n)) /\
  (n <= max_columns)%N /\ steady fc h h' /\ good_header fc h'.
Proof.
  intros G H. unfold table_info in H.
  apply (step fc) in H; [|apply hsteady_value|exact G]. destruct H as (h1 & g & _ & H & S1 & G1).
  apply (step fc) in H; [|apply hsteady_value|exact G1]. destruct H as (h2 & p & _ & H & S2 & G2).
  apply (step fc) in H; [|apply hsteady_value|exact G2]. destruct H as (h3 & e & _ & H & S3 & G3).
  apply (step fc) in H; [|apply hsteady_size|exact G3]. destruct H as (h4 & m & F4 & H & S4 & G4).
  pose proof (steady_trans _ _ _ _ (steady_trans _ _ _ _ S1 S2) S3) as T3.
  destruct (N.ltb_spec max_columns m) as [Hm|Hm]; [apply (f_equal snd) in H; discriminate H|].
  apply hret_ret in H. destruct H as [-> <-].
  split; [|split; [exact Hm|split; [exact (steady_trans _ _ _ _ T3 S4)|exact G4]]].
  destruct (value_size_text _ _ _ _ _ (proj1 G3) F4) as (r & R1 & R2). exists r.
  rewrite <- (steady_record _ _ _ _ T3). auto.
Qed.

(** The metadata does not depend on the data. *)
Definition table_meta (columns : nat -> hdo (list column)) (fc : fcodec) : hdo (N * list column) :=
  do n <- table_info fc in do cols <- columns (N.to_nat n) in hret (n, cols).

Lemma binary_table_meta fc h buf : binary_table fc h buf =
  match table_meta (fun k => bin_columns fc k 1 0) fc h with
  | (h1, Ret (n, cols)) =>
      match buf with
      | [] => Ret (mk_table h1 n cols [])
      | _ =>
        let! rows := naxis 2 h1 in
        let! width := naxis 1 h1 in
        let! d := bin_table_data rows cols buf in
        Ret (mk_table h1 n cols d)
      end
  | (_, Throw e) => Throw e
  | (_, Undef) => Undef
  | (_, NoFuel) => NoFuel
  end.
Proof.
  unfold binary_table, make_table, table_meta, hbind. destruct (table_info fc h) as [h1 [n|e| |]]; try reflexivity.
  unfold bin_fill, hbind. destruct (bin_columns fc (N.to_nat n) 1 0 h1) as [h2 [cols|e| |]]; try reflexivity.
  destruct buf; [reflexivity|]. cbn [hret]. destruct (naxis 2 h2); try reflexivity. cbn [bind].
  destruct (naxis 1 h2); try reflexivity. cbn [bind]. destruct (bin_table_data _ _ _); reflexivity.
Qed.

Lemma ascii_table_meta fc h buf : ascii_table fc h buf =
  match table_meta (fun k => ascii_columns fc k 1) fc h with
  | (h1, Ret (n, cols)) =>
      match buf with
      | [] => Ret (mk_table h1 n cols [])
      | _ =>
        let! rows := naxis 2 h1 in
        let! width := naxis 1 h1 in
        let! d := ascii_table_data rows width cols buf in
        Ret (mk_table h1 n cols d)
      end
  | (_, Throw e) => Throw e
  | (_, Undef) => Undef
  | (_, NoFuel) => NoFuel
  end.
Proof.
  unfold ascii_table, make_table, table_meta, hbind. destruct (table_info fc h) as [h1 [n|e| |]]; try reflexivity.
  unfold ascii_fill, hbind. destruct (ascii_columns fc (N.to_nat n) 1 h1) as [h2 [cols|e| |]]; try reflexivity.
  destruct buf; [reflexivity|]. cbn [hret]. destruct (naxis 2 h2); try reflexivity. cbn [bind].
  destruct (naxis 1 h2); try reflexivity. cbn [bind]. destruct (ascii_table_data _ _ _ _); reflexivity.
Qed.

Lemma bin_meta_spec fc h h1 n cols : good_header fc h ->
  table_meta (fun k => bin_columns fc k 1 0) fc h = (h1, Ret (n, cols)) ->
  (exists r, record_of h (lit "TFIELDS") = Some r /\ text_value fc TSize r = Ret (VSize n)) /\
  length cols = N.to_nat n /\ steady fc h h1 /\ good_header fc h1 /\
  (exists ws, widths_are bin_column_size cols ws /\
    forall j c, nth_error cols j = Some c -> c_start c = (N.of_nat (total (firstn j ws)) mod two64)%N) /\
  forall j c, nth_error cols j = Some c ->
    column_info fc h (S j) c /\ bin_element_count (c_format c) = Ret (c_elements c).
Proof.
  intros G H. apply (step fc) in H; [|apply hsteady_info|exact G]. destruct H as (h2 & m & F1 & H & S1 & G1).
  destruct (table_info_spec _ _ _ _ G F1) as (T1 & T2 & _).
  apply hbind_ret in H. destruct H as (h3 & cs & F2 & H). apply hret_ret in H. destruct H as [-> H].
  injection H as <- <-.
  destruct (bin_columns_spec _ _ _ _ _ _ _ G1 F2) as (L & G3 & S3 & (ws & W1 & W2) & I3).
  split; [exact T1|]. split; [exact L|]. split; [exact (steady_trans _ _ _ _ S1 S3)|]. split; [exact G3|]. split.
  - exists ws. split; [exact W1|]. intros j c Hc. destruct (W2 j c Hc) as [E|[-> E]]; rewrite E; reflexivity.
  - intros j c Hc. destruct (I3 j c Hc) as [A B]. split; [|exact B]. exact (steady_info _ _ _ _ _ S1 A).
Qed.

Lemma ascii_meta_spec fc h h1 n cols : good_header fc h ->
  table_meta (fun k => ascii_columns fc k 1) fc h = (h1, Ret (n, cols)) ->
  (exists r, record_of h (lit "TFIELDS") = Some r /\ text_value fc TSize r = Ret (VSize n)) /\
  length cols = N.to_nat n /\ steady fc h h1 /\ good_header fc h1 /\
  forall j c, nth_error cols j = Some c ->
    column_info fc h (S j) c /\
    exists r, record_of h (indexed "TBCOL" (S j)) = Some r /\ text_value fc TSize r = Ret (VSize (c_start c)).
Proof.
  intros G H. apply (step fc) in H; [|apply hsteady_info|exact G]. destruct H as (h2 & m & F1 & H & S1 & G1).
  destruct (table_info_spec _ _ _ _ G F1) as (T1 & T2 & _).
  apply hbind_ret in H. destruct H as (h3 & cs & F2 & H). apply hret_ret in H. destruct H as [-> H].
  injection H as <- <-.
  destruct (ascii_columns_spec _ _ _ _ _ _ G1 F2) as (L & G3 & S3 & I3).
  split; [exact T1|]. split; [exact L|]. split; [exact (steady_trans _ _ _ _ S1 S3)|]. split; [exact G3|].
  intros j c Hc. destruct (I3 j c Hc) as [A (r & B1 & B2)]. split; [exact (steady_info _ _ _ _ _ S1 A)|].
  exists r. rewrite <- (steady_record _ _ _ _ S1). auto.
Qed.
