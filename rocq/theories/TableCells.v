(** * Lemmas about the cells of tables. *)
From Verif Require Export TableProofs.

(** ** Formats *)

Lemma digit_code c : (48 <= N_of_ascii c <= 57)%N -> digit_val c = Some (N_of_ascii c - 48)%N.
Proof.
  intros [A B]. unfold digit_val.
  destruct (N.leb_spec 48 (N_of_ascii c)); [|lia]. destruct (N.leb_spec (N_of_ascii c) 57); [|lia]. reflexivity.
Qed.

Lemma parse_decimal_from ds : all_digits ds -> forall a,
  parse_digits_from a ds = Some (fold_left (fun a c => (10 * a + (N_of_ascii c - 48))%N) ds a).
Proof.
  induction ds as [|c ds IH]; intros H a; cbn [parse_digits_from fold_left]; [reflexivity|].
  rewrite (digit_code c) by (apply H; left; reflexivity). apply IH. intros x Hx. apply H. right. exact Hx.
Qed.

Lemma sign_digits ds : all_digits ds -> split_sign ds = (false, ds).
Proof.
  destruct ds as [|c ds]; intros H; [reflexivity|]. specialize (H c (or_introl eq_refl)).
  cbn [split_sign]. destruct (Ascii.eqb_spec c "-"%char) as [->|_]; [cbn in H; lia|].
  destruct (Ascii.eqb_spec c "+"%char) as [->|_]; [cbn in H; lia|reflexivity].
Qed.

Lemma lexical_decimal ds : all_digits ds -> ds <> [] -> (decimal ds < two64)%N -> lexical_size ds = Ret (decimal ds).
Proof.
  intros H Hn Hl. unfold lexical_size, cast_unsigned. rewrite sign_digits by exact H.
  unfold parse_digits. replace (match ds with [] => None | _ => parse_digits_from 0 ds end) with (parse_digits_from 0 ds) by (destruct ds; [contradiction|reflexivity]).
  rewrite parse_decimal_from by exact H. fold (decimal ds).
  destruct (N.ltb_spec (decimal ds) (2 ^ 64)); [reflexivity|unfold two64 in Hl; lia].
Qed.

Lemma form_blank c : is_form_blank c = true <-> c = "'"%char \/ c = " "%char.
Proof.
  unfold is_form_blank. rewrite Bool.orb_true_iff, !Ascii.eqb_eq. unfold sp. tauto.
Qed.

Lemma form_trim_left_pre pre s : (forall c, In c pre -> c = "'"%char \/ c = " "%char) ->
  form_trim_left (pre ++ s) = form_trim_left s.
Proof.
  induction pre as [|c pre IH]; intros H; cbn [app form_trim_left]; [reflexivity|].
  rewrite (proj2 (form_blank c)) by (apply H; left; reflexivity). apply IH. intros x Hx. apply H. right. exact Hx.
Qed.

Lemma form_trim_quoted form x core : quoted form (x :: core) -> is_form_blank x = false ->
  match rev (x :: core) with [] => False | c :: _ => is_form_blank c = false end ->
  form_trim form = x :: core.
Proof.
  intros (pre & post & -> & H) Hx Hc. unfold form_trim.
  rewrite form_trim_left_pre by (intros c Hi; apply H, in_or_app; auto).
  cbn [app form_trim_left]. rewrite Hx. change (x :: core ++ post) with ((x :: core) ++ post).
  rewrite rev_app_distr, form_trim_left_pre.
  - remember (rev (x :: core)) as y eqn:Hy. destruct y as [|c y]; [contradiction|]. cbn [form_trim_left]. rewrite Hc, Hy, rev_involutive. reflexivity.
  - intros c Hi. apply H, in_or_app. right. apply in_rev. exact Hi.
Qed.

Lemma digit_not_blank c : (48 <= N_of_ascii c <= 57)%N -> is_form_blank c = false.
Proof.
  intros H. destruct (is_form_blank c) eqn:E; [|reflexivity]. apply form_blank in E.
  destruct E as [-> | ->]; cbn in H; lia.
Qed.

Lemma quoted_refl core : quoted core core.
Proof. exists [], []. rewrite app_nil_r. split; [reflexivity|]. intros c []. Qed.

Lemma form_trim_bin ds letter form : all_digits ds -> is_form_blank letter = false -> quoted form (ds ++ [letter]) ->
  form_trim form = ds ++ [letter].
Proof.
  intros Hd Hl Hq. destruct ds as [|d ds].
  - apply form_trim_quoted; [exact Hq|exact Hl|exact Hl].
  - apply (form_trim_quoted form d (ds ++ [letter])); [exact Hq| |].
    + apply digit_not_blank, Hd. left. reflexivity.
    + change (d :: ds ++ [letter]) with ((d :: ds) ++ [letter]). rewrite rev_app_distr. exact Hl.
Qed.

Lemma bin_form_count form n letter : bin_form form n letter -> is_form_blank letter = false -> (n < two64)%N ->
  bin_element_count form = Ret n.
Proof.
  intros (ds & Hd & Hq & ->) Hl Hn. unfold bin_element_count. rewrite (form_trim_bin _ _ _ Hd Hl Hq).
  rewrite app_length, removelast_last. cbn [length].
  destruct ds as [|d ds]; [reflexivity|].
  destruct (Nat.ltb_spec 1 (length (d :: ds) + 1)); [|cbn in *; lia].
  apply lexical_decimal; [exact Hd|discriminate|exact Hn].
Qed.

Lemma bin_type_bytes c k : In (String c EmptyString, k) fits_type_bytes -> is_form_blank c = false /\ bin_type_size c = Ret (N.of_nat k).
Proof.
  cbn [fits_type_bytes In]. intros H.
  repeat (destruct H as [H|H]; [injection H as <- <-; split; reflexivity|]). destruct H.
Qed.

Lemma bin_form_width form n letter k : bin_form form n letter -> In (String letter EmptyString, k) fits_type_bytes ->
  (n * N.of_nat k < two64)%N -> bin_column_size form = Ret (n * N.of_nat k)%N.
Proof.
  intros Hf Hk Hn. pose proof Hf as (ds & Hd & Hq & _). destruct (bin_type_bytes _ _ Hk) as [Hb Hs].
  assert (0 < k). { cbn [fits_type_bytes In] in Hk. repeat (destruct Hk as [Hk|Hk]; [injection Hk as <- <-; lia|]). destruct Hk. }
  unfold bin_column_size. rewrite (form_trim_bin _ _ _ Hd Hb Hq).
  rewrite (bin_form_count (ds ++ [letter]) n letter); [|destruct Hf as (ds' & H1 & H2 & H3)|exact Hb|nia].
  2:{ pose proof (form_trim_bin _ _ _ Hd Hb Hq) as E1. pose proof (form_trim_bin _ _ _ H1 Hb H2) as E2.
      rewrite E1 in E2. apply app_inj_tail in E2. destruct E2 as [<- _].
      exists ds. split; [exact Hd|]. split; [apply quoted_refl|exact H3]. }
  cbn [bind]. unfold bin_type. rewrite (form_trim_bin _ _ _ Hd Hb (quoted_refl _)), rev_app_distr. cbn [rev app bind].
  rewrite Hs. cbn [bind]. unfold mul64. rewrite N.mod_small by exact Hn. reflexivity.
Qed.

Lemma firstn_exact {A} (a b : list A) n : length a = n -> firstn n (a ++ b) = a.
Proof. intros <-. rewrite firstn_app, Nat.sub_diag, firstn_all. cbn. apply app_nil_r. Qed.

Lemma ascii_form_width form letter w : ascii_form form letter w -> is_form_blank letter = false -> letter <> "."%char ->
  (w < two64)%N -> (N.of_nat (length form) < two64)%N -> ascii_column_size form = Ret w.
Proof.
  intros (ds & rest & Hd & Hn & -> & Hq & Hr) Hl Hdot Hw Hlen. unfold ascii_column_size.
  assert (Hdd : ~ In "."%char ds) by (intros Hi; apply Hd in Hi; cbn in Hi; lia).
  assert (E : form_trim form = letter :: ds ++ rest).
  { apply (form_trim_quoted form letter (ds ++ rest)); [exact Hq|exact Hl|].
    change (letter :: ds ++ rest) with ((letter :: ds) ++ rest). rewrite rev_app_distr.
    destruct Hr as [->|(ps & -> & Hp & Hps)].
    - cbn [rev app]. destruct (rev ds) as [|c r] eqn:Er.
      + exfalso. apply Hn. rewrite <- (rev_involutive ds), Er. reflexivity.
      + cbn [app]. apply digit_not_blank, Hd, in_rev. rewrite Er. left. reflexivity.
    - cbn [rev]. destruct (rev ps) as [|c r] eqn:Er.
      + exfalso. apply Hp. rewrite <- (rev_involutive ps), Er. reflexivity.
      + cbn [app]. apply digit_not_blank, Hps, in_rev. rewrite Er. left. reflexivity. }
  rewrite E.
  assert (F : match find_idx "."%char (letter :: ds ++ rest) with Some i => i | None => length (letter :: ds ++ rest) end = S (length ds)).
  { destruct Hr as [->|(ps & -> & _)].
    - rewrite app_nil_r. destruct (find_idx "."%char (letter :: ds)) as [i|] eqn:Ef; [|reflexivity].
      assert (Hc : find_idx "."%char (letter :: ds) = None); [|congruence].
      apply find_idx_none. intros [Hi|Hi]; [congruence|contradiction].
    - change (letter :: ds ++ "."%char :: ps) with ((letter :: ds) ++ "."%char :: ps).
      assert (Hc : find_idx "."%char ((letter :: ds) ++ "."%char :: ps) = Some (length (letter :: ds))).
      { apply find_idx_app. intros [Hi|Hi]; [congruence|contradiction]. }
      rewrite Hc. reflexivity. }
  rewrite F. destruct Hq as (pre & post & Hf & _).
  assert (Hlf : length ds + 1 <= length form) by (rewrite Hf, !app_length; cbn; rewrite app_length; lia).
  rewrite sub64_small by (change two64 with (2^64)%N in *; lia).
  replace (N.of_nat (S (length ds)) - 1)%N with (N.of_nat (length ds)) by lia.
  rewrite substr_exact by (cbn; rewrite app_length; lia). cbn [skipn bind].
  rewrite firstn_exact by reflexivity. apply lexical_decimal; assumption.
Qed.

(** ** Binary tables *)

Lemma naxis_nth k h v : naxis (S k) h = Ret v -> nth_error (h_naxis h) k = Some v.
Proof. cbn [naxis]. destruct (nth_error (h_naxis h) k); [|discriminate]. intros H. apply ret_inj in H. congruence. Qed.

Lemma two31_rows : (2 ^ 31 <= max_rows)%N.
Proof. vm_compute. discriminate. Qed.

Lemma bin_data_inv rows cols buf d : bin_table_data rows cols buf = Ret d ->
  rows = 0%N /\ d = [] \/
  (0 < rows < 2 ^ 31)%N /\ cols <> [] /\ bin_read_rows (N.to_nat rows) cols buf = Ret d.
Proof.
  unfold bin_table_data. destruct (N.ltb_spec max_rows rows); [discriminate|].
  destruct (N.eqb_spec rows 0) as [->|H0].
  - intros E. apply ret_inj in E. auto.
  - destruct cols as [|c cols]; [discriminate|]. destruct (bin_read_rows _ _ _) as [x| | |] eqn:E; cbn [bind]; try discriminate.
    destruct (N.leb_spec (2 ^ 31) rows) as [|H31]; [discriminate|]. intros Ex. right. split; [split; [lia|exact H31]|].
    split; [discriminate|]. exact Ex.
Qed.


Lemma widths_nth size cols ws j w : widths_are size cols ws -> nth_error ws j = Some w ->
  exists c, nth_error cols j = Some c /\ size (c_format c) = Ret (N.of_nat w).
Proof.
  intros H. revert j. induction H as [|a b cols ws H _ IH]; intros [|j] Hj; cbn in Hj; try discriminate.
  - injection Hj as <-. exists a. auto.
  - exact (IH j Hj).
Qed.

Lemma widths_length size cols ws : widths_are size cols ws -> length cols = length ws.
Proof. induction 1; cbn; congruence. Qed.

Lemma info_form fc h j c : reached fc h -> column_info fc h (S j) c -> header_text fc h (numbered "TFORM" (S j)) (c_format c).
Proof.
  intros R [_ (r & R1 & R2) _ _ _ _]. exists r. split; [|exact R2].
  rewrite <- (reached_record fc h "TFORM" (S j) R); [exact R1|split; discriminate].
Qed.

Lemma fields_text fc h n : reached fc h ->
  (exists r, record_of h (lit "TFIELDS") = Some r /\ text_value fc TSize r = Ret (VSize n)) ->
  header_number fc h (lit "TFIELDS") n.
Proof.
  intros R (r & R1 & R2). exists r. split; [|exact R2].
  destruct (reached_facts fc h R) as [_ F]. rewrite <- F; [exact R1|]. apply not_mandatory; discriminate.
Qed.

Lemma header_number_fun fc h key a b : header_number fc h key a -> header_number fc h key b -> a = b.
Proof. intros (r & A1 & A2) (r' & B1 & B2). rewrite A1 in B1. injection B1 as <-. rewrite A2 in B2. apply ret_inj in B2. injection B2. auto. Qed.
Lemma header_text_fun fc h key a b : header_text fc h key a -> header_text fc h key b -> a = b.
Proof. intros (r & A1 & A2) (r' & B1 & B2). rewrite A1 in B1. injection B1 as <-. rewrite A2 in B2. apply ret_inj in B2. injection B2. auto. Qed.

Lemma layout_fun size fc h a b : layout size fc h a -> layout size fc h b -> a = b.
Proof.
  intros [A1 A2] [B1 B2]. pose proof (header_number_fun _ _ _ _ _ A1 B1) as L.
  assert (L' : length a = length b) by lia. clear A1 B1 L.
  assert (E : forall c, nth_error a c = nth_error b c).
  { intros c. destruct (nth_error a c) as [x|] eqn:Ea.
    - destruct (nth_error b c) as [y|] eqn:Eb; [|apply nth_error_None in Eb; assert (c < length a) by (apply nth_error_Some; congruence); lia].
      destruct (A2 c x Ea) as (f & F1 & F2). destruct (B2 c y Eb) as (g & G1 & G2).
      pose proof (header_text_fun _ _ _ _ _ F1 G1) as <-. rewrite F2 in G2. apply ret_inj in G2. f_equal. lia.
    - apply nth_error_None in Ea. symmetry. apply nth_error_None. lia. }
  clear -E. revert b E. induction a as [|x a IH]; intros [|y b] E; auto.
  - specialize (E 0). discriminate.
  - specialize (E 0). discriminate.
  - pose proof (E 0) as E0. injection E0 as ->. f_equal. apply IH. intros c. exact (E (S c)).
Qed.

Lemma binary_table_inv fc h buf t : reached fc h -> binary_table fc h buf = Ret t ->
  exists h1 n cols ws, table_meta (fun k => bin_columns fc k 1 0) fc h = (h1, Ret (n, cols)) /\
    t_header t = h1 /\ t_fields t = n /\ t_columns t = cols /\
    widths_are bin_column_size cols ws /\ layout bin_column_size fc h ws /\ length cols = N.to_nat n /\
    steady fc h h1 /\
    (buf = [] -> t_data t = []) /\
    (buf <> [] -> exists rows, nth_error (h_naxis h) 1 = Some rows /\ bin_table_data rows cols buf = Ret (t_data t)).
Proof.
  intros R H. rewrite binary_table_meta in H. pose proof (reached_good fc h R) as G.
  destruct (table_meta _ fc h) as [h1 [[n cols]|e| |]] eqn:M; try discriminate.
  destruct (bin_meta_spec _ _ _ _ _ G M) as (A1 & A2 & A3 & A4 & (ws & W1 & W2) & A5).
  exists h1, n, cols, ws. split; [reflexivity|].
  assert (L : layout bin_column_size fc h ws).
  { split.
    - rewrite <- (widths_length _ _ _ W1), A2, N2Nat.id. exact (fields_text _ _ _ R A1).
    - intros c w Hc. destruct (widths_nth _ _ _ _ _ W1 Hc) as (col & C1 & C2). exists (c_format col).
      split; [|exact C2]. apply (info_form fc h c col R), A5, C1. }
  destruct buf as [|x buf].
  - apply ret_inj in H. subst t. cbn [t_header t_fields t_columns t_data].
    do 7 (split; [auto; fail|]). split; [auto|]. intros K; destruct (K eq_refl).
  - destruct (naxis 2 h1) as [rows| | |] eqn:E2; try discriminate. cbn [bind] in H.
    destruct (naxis 1 h1) as [wid| | |] eqn:E1; try discriminate. cbn [bind] in H.
    destruct (bin_table_data rows cols (x :: buf)) as [d| | |] eqn:D; try discriminate. cbn [bind] in H.
    apply ret_inj in H. subst t. cbn [t_header t_fields t_columns t_data].
    do 7 (split; [auto; fail|]). split; [discriminate|]. intros _. exists rows. split; [|exact D].
    apply naxis_nth in E2. rewrite <- (st_naxis _ _ _ A3). exact E2.
Qed.

Theorem binary_cells fc h buf t : reached fc h -> binary_table fc h buf = Ret t -> buf <> [] ->
  exists rows ws, layout bin_column_size fc h ws /\ nth_error (h_naxis h) 1 = Some rows /\
    length (t_data t) = N.to_nat rows /\
    forall r row, nth_error (t_data t) r = Some row ->
      length row = length ws /\
      forall c w, nth_error ws c = Some w ->
        packed ws r c + w <= length buf /\
        nth_error row c = Some (trim (slice buf (packed ws r c) w)).
Proof.
  intros R H Hb. destruct (binary_table_inv _ _ _ _ R H) as (h1 & n & cols & ws & _ & _ & _ & _ & W & L & _ & _ & _ & D).
  destruct (D Hb) as (rows & E & Hd). exists rows, ws. split; [exact L|]. split; [exact E|].
  apply bin_data_inv in Hd. destruct Hd as [[-> Hd]|(_ & _ & Hd)].
  - rewrite Hd. split; [reflexivity|]. intros [|r] row Hr; discriminate.
  - rewrite (bin_read_rows_spec _ _ W) in Hd. destruct (Nat.leb_spec (N.to_nat rows * total ws) (length buf)) as [Hl|]; [|discriminate].
    apply ret_inj in Hd. rewrite <- Hd. rewrite map_length, seq_length. split; [reflexivity|].
    intros r row Hr.
    assert (Hrn : r < N.to_nat rows).
    { assert (Hs : nth_error (map (row_cells ws buf) (seq 0 (N.to_nat rows))) r <> None) by congruence.
      apply nth_error_Some in Hs. rewrite map_length, seq_length in Hs. exact Hs. }
    rewrite nth_map_seq in Hr by exact Hrn. injection Hr as <-. split.
    + unfold row_cells. rewrite map_length. apply cut_length.
    + intros c w Hc. split; [|apply row_cells_nth; exact Hc].
      unfold packed. assert (total (firstn c ws) + w <= total ws).
      { clear -Hc. revert c Hc. induction ws as [|x ws IH]; intros [|c] Hc; cbn in Hc; try discriminate.
        - injection Hc as ->. cbn. lia.
        - cbn [firstn total]. specialize (IH c Hc). lia. }
      assert ((r + 1) * total ws <= N.to_nat rows * total ws) by (apply Nat.mul_le_mono_r; lia). lia.
Qed.

(** Given the metadata, the buffer decides. *)
Theorem binary_success fc h t0 buf rows ws : reached fc h -> binary_table fc h [] = Ret t0 -> buf <> [] ->
  layout bin_column_size fc h ws -> nth_error (h_naxis h) 1 = Some rows -> (0 < rows < 2 ^ 31)%N -> ws <> [] ->
  (N.to_nat rows * total ws <= length buf ->
     exists t, binary_table fc h buf = Ret t /\ t_columns t = t_columns t0 /\ t_header t = t_header t0) /\
  (length buf < N.to_nat rows * total ws -> binary_table fc h buf = Undef).
Proof.
  intros R H0 Hb L E Hrows Hne. destruct (binary_table_inv _ _ _ _ R H0) as (h1 & n & cols & ws' & M & T1 & T2 & T3 & W & L' & Ln & St & _).
  pose proof (layout_fun _ _ _ _ _ L' L) as ->.
  rewrite binary_table_meta, M. destruct buf as [|x buf]; [contradiction|].
  assert (N2 : naxis 2 h1 = Ret rows) by (cbn [naxis]; rewrite (st_naxis _ _ _ St), E; reflexivity).
  assert (N1 : exists v, naxis 1 h1 = Ret v).
  { cbn [naxis]. rewrite (st_naxis _ _ _ St). destruct (h_naxis h) as [|v l]; [discriminate|]. exists v. reflexivity. }
  destruct N1 as [v N1]. rewrite N2, N1. cbn [bind].
  assert (D : bin_table_data rows cols (x :: buf) = bin_read_rows (N.to_nat rows) cols (x :: buf)).
  { unfold bin_table_data. pose proof two31_rows.
    destruct (N.ltb_spec max_rows rows); [lia|]. destruct (N.eqb_spec rows 0); [lia|].
    destruct cols as [|c cols]; [apply widths_length in W; destruct ws; [contradiction|discriminate]|].
    destruct (N.leb_spec (2 ^ 31) rows); [lia|]. destruct (bin_read_rows _ _ _); reflexivity. }
  rewrite D, (bin_read_rows_spec _ _ W). split; intros Hl.
  - destruct (Nat.leb_spec (N.to_nat rows * total ws) (length (x :: buf))); [|lia]. cbn [bind].
    eexists. split; [reflexivity|]. cbn [t_columns t_header]. auto.
  - destruct (Nat.leb_spec (N.to_nat rows * total ws) (length (x :: buf))); [lia|]. reflexivity.
Qed.

(** ** Writing a binary table *)

Lemma trim_fixed s : trim s = s <-> ~ has_outer_space s.
Proof.
  split.
  - intros E [(c & r & Hs & Hc)|(c & r & Hs & Hc)]; pose proof (trim_trimmed s) as [T1 T2]; rewrite E in *; subst s.
    + cbn in T1. congruence.
    + rewrite rev_app_distr in T2. cbn in T2. congruence.
  - intros H. apply trim_id. split.
    + destruct s as [|c r]; cbn; [exact I|]. destruct (is_space c) eqn:E; [|reflexivity].
      exfalso. apply H. left. eauto.
    + destruct (rev s) as [|c r] eqn:E; cbn; [exact I|]. destruct (is_space c) eqn:Ec; [|reflexivity].
      exfalso. apply H. right. exists c, (rev r). split; [|exact Ec].
      rewrite <- (rev_involutive s), E. reflexivity.
Qed.

Lemma trim_shorter s : length (trim s) <= length s /\ (length (trim s) = length s -> trim s = s).
Proof.
  destruct (trim_split s) as (a & b & E & _). assert (L : length s = length a + (length (trim s) + length b)) by (rewrite E at 1; rewrite !app_length; reflexivity).
  split; [lia|]. intros Hl. destruct a; [|cbn in L; lia]. destruct b; [|cbn in L; lia]. rewrite app_nil_r in E. symmetry. exact E.
Qed.

Lemma cut_fields ws : forall buf, cut ws buf = map (fun c => slice buf (total (firstn c ws)) (nth c ws 0)) (seq 0 (length ws)).
Proof.
  induction ws as [|w ws IH]; intros buf; cbn [cut length seq map]; [reflexivity|].
  f_equal. rewrite IH, <- seq_shift, map_map. apply map_ext. intros c. cbn [firstn total nth].
  unfold slice. rewrite skipn_add. reflexivity.
Qed.

Lemma fields_cut ws rows buf : fields ws rows buf = concat (map (fun r => cut ws (skipn (r * total ws) buf)) (seq 0 rows)).
Proof.
  unfold fields. rewrite flat_map_concat_map. f_equal. apply map_ext. intros r. rewrite cut_fields.
  apply map_ext. intros c. unfold slice, packed. rewrite skipn_add. reflexivity.
Qed.

Lemma concat_cut ws : forall buf, total ws <= length buf -> concat (cut ws buf) = firstn (total ws) buf.
Proof.
  induction ws as [|w ws IH]; intros buf H; cbn [cut concat total] in *; [reflexivity|].
  rewrite IH by (rewrite skipn_length; lia).
  rewrite <- (firstn_skipn w buf) at 3. rewrite firstn_app, firstn_firstn, firstn_length.
  replace (Nat.min (w + total ws) w) with w by lia. f_equal. f_equal. lia.
Qed.

Lemma concat_fields ws rows : forall buf, rows * total ws <= length buf ->
  concat (fields ws rows buf) = firstn (rows * total ws) buf.
Proof.
  intros buf H. rewrite fields_cut. revert buf H.
  induction rows as [|rows IH]; intros buf H; [reflexivity|]. cbn [seq map concat].
  rewrite concat_app, concat_cut by (cbn in *; lia).
  rewrite <- seq_shift, map_map.
  assert (E : map (fun x => cut ws (skipn (S x * total ws) buf)) (seq 0 rows) =
              map (fun r => cut ws (skipn (r * total ws) (skipn (total ws) buf))) (seq 0 rows)).
  { apply map_ext. intros r. rewrite skipn_add. reflexivity. }
  rewrite E, IH by (rewrite skipn_length; cbn in H; lia).
  rewrite <- (firstn_skipn (total ws) buf) at 3. cbn [Nat.mul]. rewrite firstn_app, firstn_firstn, firstn_length.
  replace (Nat.min (total ws + rows * total ws) (total ws)) with (total ws) by lia.
  cbn in H. f_equal. f_equal. lia.
Qed.

Lemma concat_rows {A B} (f : A -> list (list B)) l : concat (map (fun r => concat (f r)) l) = concat (concat (map f l)).
Proof. induction l as [|x l IH]; cbn; [reflexivity|]. rewrite concat_app, IH. reflexivity. Qed.

Lemma cells_text ws rows buf :
  concat (map bin_row_text (map (row_cells ws buf) (seq 0 rows))) = concat (map trim (fields ws rows buf)).
Proof.
  rewrite fields_cut, concat_map, !map_map. unfold bin_row_text, row_cells.
  exact (concat_rows (fun r => map trim (cut ws (skipn (r * total ws) buf))) (seq 0 rows)).
Qed.

Lemma concat_trim_length l : length (concat (map trim l)) <= length (concat l) /\
  (length (concat (map trim l)) = length (concat l) -> Forall (fun s => trim s = s) l).
Proof.
  induction l as [|s l [IH1 IH2]]; cbn; [split; [lia|constructor]|].
  rewrite !app_length. destruct (trim_shorter s) as [S1 S2]. split; [lia|]. intros H.
  constructor; [apply S2; lia|apply IH2; lia].
Qed.

Lemma concat_trim_exact l : concat (map trim l) = concat l <-> Forall (fun s => ~ has_outer_space s) l.
Proof.
  split.
  - intros E. assert (F : Forall (fun s => trim s = s) l) by (apply concat_trim_length; rewrite E; reflexivity).
    eapply Forall_impl; [|exact F]. intros s. apply trim_fixed.
  - induction 1 as [|s l H _ IH]; [reflexivity|]. cbn. rewrite IH. apply trim_fixed in H. rewrite H. reflexivity.
Qed.

Lemma write_rows_append rows : forall s, appending s ->
  appending (fold_left (fun s row => stream_write (bin_row_text row) s) rows s) /\
  content (fold_left (fun s row => stream_write (bin_row_text row) s) rows s) = content s ++ concat (map bin_row_text rows).
Proof.
  induction rows as [|row rows IH]; intros s Ha; cbn [fold_left map concat].
  - rewrite app_nil_r. auto.
  - destruct (write_append s (bin_row_text row) Ha) as [A C]. destruct (IH _ A) as [A' C'].
    split; [exact A'|]. rewrite C', C, app_assoc. reflexivity.
Qed.

Lemma bin_write_text t s : appending s ->
  (N.of_nat (before_padding s (t_header t) (concat (map bin_row_text (t_data t)))) < 2 ^ 63)%N ->
  content (bin_write t s) = content (write_header (t_header t) s) ++ concat (map bin_row_text (t_data t)) ++
    spaces (pad_len (length (content (write_header (t_header t) s)) + length (concat (map bin_row_text (t_data t))))).
Proof.
  intros Ha Hl. unfold before_padding in Hl.
  destruct (write_header_append (t_header t) s Ha) as [A1 C1]; [lia|].
  destruct (write_rows_append (t_data t) _ A1) as [A2 C2]. unfold bin_write.
  destruct (write_padding_append _ A2) as [_ C3].
  - rewrite C2, C1, !app_length, length_spaces.
    pose proof (pad_len_bounds (length (content s) + length (concat (map raw (h_cards (t_header t)))))) as [B _]. lia.
  - rewrite C3, C2, !app_length, <- app_assoc. reflexivity.
Qed.

Theorem binary_write_back fc h buf t : reached fc h -> binary_table fc h buf = Ret t -> buf <> [] ->
  exists rows ws, layout bin_column_size fc h ws /\ nth_error (h_naxis h) 1 = Some rows /\
    concat (map bin_row_text (t_data t)) = concat (map trim (fields ws (N.to_nat rows) buf)) /\
    concat (fields ws (N.to_nat rows) buf) = firstn (N.to_nat rows * total ws) buf /\
    (concat (map bin_row_text (t_data t)) = firstn (N.to_nat rows * total ws) buf <->
     Forall (fun s => ~ has_outer_space s) (fields ws (N.to_nat rows) buf)).
Proof.
  intros R H Hb. destruct (binary_table_inv _ _ _ _ R H) as (h1 & n & cols & ws & _ & _ & _ & _ & W & L & _ & _ & _ & D).
  destruct (D Hb) as (rows & E & Hd). exists rows, ws. split; [exact L|]. split; [exact E|].
  apply bin_data_inv in Hd. destruct Hd as [[-> Hd]|(_ & _ & Hd)].
  - rewrite Hd. cbn. split; [reflexivity|]. split; [reflexivity|]. split; [constructor|reflexivity].
  - rewrite (bin_read_rows_spec _ _ W) in Hd. destruct (Nat.leb_spec (N.to_nat rows * total ws) (length buf)) as [Hl|]; [|discriminate].
    apply ret_inj in Hd. rewrite <- Hd, cells_text, <- (concat_fields _ _ _ Hl).
    split; [reflexivity|]. split; [reflexivity|]. apply concat_trim_exact.
Qed.

(** ** ASCII tables *)

Lemma ascii_table_inv fc h buf t : reached fc h -> ascii_table fc h buf = Ret t ->
  exists h1 n cols, table_meta (fun k => ascii_columns fc k 1) fc h = (h1, Ret (n, cols)) /\
    t_header t = h1 /\ t_fields t = n /\ t_columns t = cols /\
    header_number fc h (lit "TFIELDS") n /\ length cols = N.to_nat n /\ steady fc h h1 /\
    (forall j c, nth_error cols j = Some c ->
       header_text fc h (numbered "TFORM" (S j)) (c_format c) /\
       header_number fc h (numbered "TBCOL" (S j)) (c_start c)) /\
    (buf = [] -> t_data t = []) /\
    (buf <> [] -> exists width rows, nth_error (h_naxis h) 0 = Some width /\ nth_error (h_naxis h) 1 = Some rows /\
       ascii_table_data rows width cols buf = Ret (t_data t)).
Proof.
  intros R H. rewrite ascii_table_meta in H. pose proof (reached_good fc h R) as G.
  destruct (table_meta _ fc h) as [h1 [[n cols]|e| |]] eqn:M; try discriminate.
  destruct (ascii_meta_spec _ _ _ _ _ G M) as (A1 & A2 & A3 & A4 & A5).
  exists h1, n, cols. split; [reflexivity|].
  assert (I : forall j c, nth_error cols j = Some c ->
       header_text fc h (numbered "TFORM" (S j)) (c_format c) /\
       header_number fc h (numbered "TBCOL" (S j)) (c_start c)).
  { intros j c Hc. destruct (A5 j c Hc) as [B1 (r & R1 & R2)]. split; [exact (info_form fc h j c R B1)|].
    exists r. split; [|exact R2]. rewrite <- (reached_record fc h "TBCOL" (S j) R); [exact R1|split; discriminate]. }
  pose proof (fields_text _ _ _ R A1) as F.
  destruct buf as [|x buf].
  - apply ret_inj in H. subst t. cbn [t_header t_fields t_columns t_data].
    do 7 (split; [auto; fail|]). split; [auto|]. intros K; destruct (K eq_refl).
  - destruct (naxis 2 h1) as [rows| | |] eqn:E2; try discriminate. cbn [bind] in H.
    destruct (naxis 1 h1) as [wid| | |] eqn:E1; try discriminate. cbn [bind] in H.
    destruct (ascii_table_data rows wid cols (x :: buf)) as [d| | |] eqn:D; try discriminate. cbn [bind] in H.
    apply ret_inj in H. subst t. cbn [t_header t_fields t_columns t_data].
    do 7 (split; [auto; fail|]). split; [discriminate|]. intros _. exists wid, rows.
    apply naxis_nth in E1, E2. rewrite (st_naxis _ _ _ A3) in E1, E2. auto.
Qed.

Lemma ascii_data_inv rows width cols buf d : ascii_table_data rows width cols buf = Ret d ->
  rows = 0%N /\ d = [] \/
  (0 < rows < 2 ^ 31)%N /\ cols <> [] /\ ascii_read_rows (N.to_nat rows) 0 width cols buf = Ret d.
Proof.
  unfold ascii_table_data. destruct (N.ltb_spec max_rows rows); [discriminate|].
  destruct (N.eqb_spec rows 0) as [->|H0].
  - intros E. apply ret_inj in E. auto.
  - destruct cols as [|c cols]; [discriminate|]. destruct (ascii_read_rows _ _ _ _ _) as [x| | |] eqn:E; cbn [bind]; try discriminate.
    destruct (N.leb_spec (2 ^ 31) rows) as [|H31]; [discriminate|]. intros Ex. right. split; [split; [lia|exact H31]|].
    split; [discriminate|]. exact Ex.
Qed.

Lemma ascii_rows_inv n : forall row width cols buf d, ascii_read_rows n row width cols buf = Ret d ->
  length d = n /\ forall r x, nth_error d r = Some x -> ascii_read_row (row + r) width cols buf = Ret x.
Proof.
  induction n as [|n IH]; intros row width cols buf d H; cbn [ascii_read_rows] in H.
  - apply ret_inj in H. subst d. split; [reflexivity|]. intros [|r] x; discriminate.
  - destruct (ascii_read_row row width cols buf) as [x| | |] eqn:E; try discriminate. cbn [bind] in H.
    destruct (ascii_read_rows n (S row) width cols buf) as [y| | |] eqn:E2; try discriminate. cbn [bind] in H.
    apply ret_inj in H. subst d. destruct (IH _ _ _ _ _ E2) as [L I]. split; [cbn; lia|].
    intros [|r] z Hz; cbn in Hz.
    + injection Hz as <-. rewrite Nat.add_0_r. exact E.
    + rewrite <- Nat.add_succ_comm. exact (I r z Hz).
Qed.

Lemma ascii_row_inv row width cols buf : forall d, ascii_read_row row width cols buf = Ret d ->
  length d = length cols /\ forall c col, nth_error cols c = Some col ->
    exists x, nth_error d c = Some x /\ ascii_field row width col buf = Ret x.
Proof.
  induction cols as [|c cols IH]; intros d H; cbn [ascii_read_row] in H.
  - apply ret_inj in H. subst d. split; [reflexivity|]. intros [|j] x; discriminate.
  - destruct (ascii_field row width c buf) as [x| | |] eqn:E; try discriminate. cbn [bind] in H.
    destruct (ascii_read_row row width cols buf) as [y| | |] eqn:E2; try discriminate. cbn [bind] in H.
    apply ret_inj in H. subst d. destruct (IH _ eq_refl) as [L I]. split; [cbn; lia|].
    intros [|j] col Hj; cbn in Hj.
    + injection Hj as <-. exists x. auto.
    + exact (I j col Hj).
Qed.

Lemma ascii_field_spec row width c buf x : (N.of_nat row * width < two64)%N ->
  ascii_field row width c buf = Ret x ->
  exists w, ascii_column_size (c_format c) = Ret (N.of_nat w) /\
    (1 <= N.of_nat row * width + c_start c)%N /\
    (N.of_nat row * width + c_start c - 1 + N.of_nat w <= N.of_nat (length buf))%N /\
    x = trim (slice buf (N.to_nat (N.of_nat row * width + c_start c - 1)) w).
Proof.
  intros Hs H. unfold ascii_field, mul64 in H. rewrite N.mod_small in H by exact Hs.
  destruct (N.ltb_spec (N.of_nat (length buf)) (N.of_nat row * width + c_start c)); [discriminate|].
  destruct (N.eqb_spec (N.of_nat row * width + c_start c) 0); [discriminate|].
  destruct (ascii_column_size (c_format c)) as [w| | |]; try discriminate. cbn [bind] in H.
  destruct (N.leb_spec (N.of_nat row * width + c_start c - 1 + w) (N.of_nat (length buf))); [|discriminate].
  apply ret_inj in H. subst x. exists (N.to_nat w). rewrite N2Nat.id.
  split; [reflexivity|]. split; [lia|]. split; [lia|]. reflexivity.
Qed.

Theorem ascii_cells fc h buf t : reached fc h -> ascii_table fc h buf = Ret t -> buf <> [] ->
  exists n width rows, header_number fc h (lit "TFIELDS") n /\
    nth_error (h_naxis h) 0 = Some width /\ nth_error (h_naxis h) 1 = Some rows /\
    length (t_data t) = N.to_nat rows /\
    ((rows * width < two64)%N ->
     forall r row, nth_error (t_data t) r = Some row ->
       length row = N.to_nat n /\
       forall c, c < N.to_nat n -> exists f start w,
         header_text fc h (numbered "TFORM" (S c)) f /\ ascii_column_size f = Ret (N.of_nat w) /\
         header_number fc h (numbered "TBCOL" (S c)) start /\
         (1 <= N.of_nat r * width + start)%N /\
         (N.of_nat r * width + start - 1 + N.of_nat w <= N.of_nat (length buf))%N /\
         nth_error row c = Some (trim (slice buf (N.to_nat (N.of_nat r * width + start - 1)) w))).
Proof.
  intros R H Hb. destruct (ascii_table_inv _ _ _ _ R H) as (h1 & n & cols & _ & _ & _ & _ & F & Ln & _ & I & _ & D).
  destruct (D Hb) as (width & rows & E1 & E2 & Hd). exists n, width, rows. do 3 (split; [assumption|]).
  apply ascii_data_inv in Hd. destruct Hd as [[-> Hd]|(_ & _ & Hd)].
  - rewrite Hd. split; [reflexivity|]. intros _ [|r] row Hr; discriminate.
  - destruct (ascii_rows_inv _ _ _ _ _ _ Hd) as [L A]. split; [exact L|].
    intros Hw r row Hr. specialize (A r row Hr). cbn [plus] in A.
    assert (Hrn : r < N.to_nat rows) by (rewrite <- L; apply nth_error_Some; congruence).
    destruct (ascii_row_inv _ _ _ _ _ A) as [Lr B]. split; [congruence|].
    intros c Hc. destruct (nth_error cols c) as [col|] eqn:Ec; [|apply nth_error_None in Ec; lia].
    destruct (B c col Ec) as (x & X1 & X2).
    destruct (I c col Ec) as [I1 I2].
    destruct (ascii_field_spec r width col buf x) as (w & W1 & W2 & W3 & W4); [nia|exact X2|].
    exists (c_format col), (c_start col), w. do 5 (split; [assumption|]). rewrite X1, W4. reflexivity.
Qed.

Lemma header_widths size fc h cols ws n :
  header_number fc h (lit "TFIELDS") n -> length cols = N.to_nat n ->
  (forall j c, nth_error cols j = Some c -> header_text fc h (numbered "TFORM" (S j)) (c_format c)) ->
  layout size fc h ws -> widths_are size cols ws.
Proof.
  intros F L I [L1 L2].
  assert (E : length cols = length ws).
  { pose proof (header_number_fun _ _ _ _ _ F L1). lia. }
  assert (H : forall j c w, nth_error cols j = Some c -> nth_error ws j = Some w -> size (c_format c) = Ret (N.of_nat w)).
  { intros j c w Hc Hw. destruct (L2 j w Hw) as (f & F1 & F2). rewrite (header_text_fun _ _ _ _ _ (I j c Hc) F1). exact F2. }
  clear -E H. revert ws E H. induction cols as [|c cols IH]; intros [|w ws] E H; try discriminate; constructor.
  - exact (H 0 c w eq_refl eq_refl).
  - apply IH; [cbn in E; lia|]. intros j x y Hx Hy. exact (H (S j) x y Hx Hy).
Qed.

(** Enough data for the construction. *)
Lemma ascii_field_ok row width c buf w : (N.of_nat row * width < two64)%N ->
  ascii_column_size (c_format c) = Ret (N.of_nat w) -> (1 <= c_start c)%N ->
  (N.of_nat row * width + c_start c - 1 + N.of_nat w <= N.of_nat (length buf))%N ->
  (N.of_nat row * width + c_start c <= N.of_nat (length buf))%N ->
  ascii_field row width c buf = Ret (trim (slice buf (N.to_nat (N.of_nat row * width + c_start c - 1)) w)).
Proof.
  intros H1 H2 H3 H4 H5. unfold ascii_field, mul64. rewrite N.mod_small by exact H1.
  destruct (N.ltb_spec (N.of_nat (length buf)) (N.of_nat row * width + c_start c)); [lia|].
  destruct (N.eqb_spec (N.of_nat row * width + c_start c) 0); [lia|]. rewrite H2. cbn [bind].
  destruct (N.leb_spec (N.of_nat row * width + c_start c - 1 + N.of_nat w) (N.of_nat (length buf))); [|lia].
  unfold slice. rewrite Nat2N.id. reflexivity.
Qed.

Definition ascii_cells_of (width : N) (cols : list column) (ws : list nat) (buf : str) (r : nat) : list str :=
  map (fun p => trim (slice buf (N.to_nat (N.of_nat r * width + c_start (fst p) - 1)) (snd p))) (combine cols ws).

Definition fits_in (width : N) (cols : list column) (ws : list nat) : Prop :=
  Forall2 (fun c w => ascii_column_size (c_format c) = Ret (N.of_nat w) /\ (1 <= c_start c <= width)%N /\
                      (c_start c - 1 + N.of_nat w <= width)%N) cols ws.

Lemma ascii_row_ok row width cols ws buf : fits_in width cols ws -> (N.of_nat row * width < two64)%N ->
  ((N.of_nat row + 1) * width <= N.of_nat (length buf))%N ->
  ascii_read_row row width cols buf = Ret (ascii_cells_of width cols ws buf row).
Proof.
  intros F H1 H2. induction F as [|c w cols ws (A & B & C) _ IH]; [reflexivity|].
  cbn [ascii_read_row]. rewrite (ascii_field_ok row width c buf w); [|assumption|assumption|lia|lia|lia].
  cbn [bind]. rewrite IH. reflexivity.
Qed.

Lemma ascii_rows_ok n : forall row width cols ws buf, fits_in width cols ws ->
  (N.of_nat (row + n) * width < two64)%N -> (N.of_nat (row + n) * width <= N.of_nat (length buf))%N ->
  ascii_read_rows n row width cols buf = Ret (map (ascii_cells_of width cols ws buf) (seq row n)).
Proof.
  induction n as [|n IH]; intros row width cols ws buf F H1 H2; [reflexivity|].
  cbn [ascii_read_rows seq map]. rewrite (ascii_row_ok row width cols ws buf F); [|nia|nia].
  cbn [bind]. rewrite (IH (S row) width cols ws buf F); [reflexivity| |];
    rewrite Nat.add_succ_comm; assumption.
Qed.

Lemma ascii_data_ok rows width cols ws buf : fits_in width cols ws -> cols <> [] ->
  (0 < rows < 2 ^ 31)%N -> (rows * width < two64)%N -> (rows * width <= N.of_nat (length buf))%N ->
  ascii_table_data rows width cols buf = Ret (map (ascii_cells_of width cols ws buf) (seq 0 (N.to_nat rows))).
Proof.
  intros F Hne Hr H1 H2. unfold ascii_table_data. pose proof two31_rows.
  destruct (N.ltb_spec max_rows rows); [lia|]. destruct (N.eqb_spec rows 0); [lia|].
  destruct cols as [|c cols]; [contradiction|].
  rewrite (ascii_rows_ok (N.to_nat rows) 0 width (c :: cols) ws buf F); [|cbn [plus]; rewrite N2Nat.id; assumption..].
  cbn [bind]. destruct (N.leb_spec (2 ^ 31) rows); [lia|]. reflexivity.
Qed.

Lemma rjust_length w x : length x <= w -> length (rjust w x) = w.
Proof. intros H. unfold rjust. rewrite app_length, repeat_length. lia. Qed.

Lemma justified_length ws row : fitting ws row -> length (justified ws row) = total ws.
Proof.
  induction 1 as [|w x ws row [_ H] _ IH]; [reflexivity|]. cbn [justified total].
  rewrite app_length, IH, rjust_length by exact H. reflexivity.
Qed.

Lemma trim_rjust w x : ~ has_outer_space x -> trim (rjust w x) = x.
Proof.
  intros H. unfold rjust. change (repeat " "%char (w - length x)) with (spaces (w - length x)).
  rewrite trim_spaces_l. apply trim_fixed. exact H.
Qed.

Lemma slice_app1 a b off w : off + w <= length a -> slice (a ++ b) off w = slice a off w.
Proof.
  intros H. unfold slice. rewrite skipn_app. replace (off - length a) with 0 by lia. cbn [skipn].
  rewrite firstn_app, skipn_length. replace (w - (length a - off)) with 0 by lia. cbn. apply app_nil_r.
Qed.

Lemma slice_app2 a b off w : slice (a ++ b) (length a + off) w = slice b off w.
Proof.
  unfold slice. rewrite skipn_app. replace (length a + off - length a) with off by lia.
  rewrite skipn_all2 by lia. reflexivity.
Qed.

Lemma slice_whole a : slice a 0 (length a) = a.
Proof. unfold slice. cbn [skipn]. apply firstn_all. Qed.

Lemma justified_slice ws row : fitting ws row -> forall j w, nth_error ws j = Some w ->
  exists x, nth_error row j = Some x /\ slice (justified ws row) (total (firstn j ws)) w = rjust w x /\ ~ has_outer_space x.
Proof.
  induction 1 as [|v x ws row [N H] _ IH]; intros [|j] w Hj; cbn in Hj; try discriminate.
  - injection Hj as <-. exists x. split; [reflexivity|]. split; [|exact N]. cbn [firstn total justified].
    rewrite slice_app1 by (rewrite rjust_length by exact H; lia).
    transitivity (slice (rjust v x) 0 (length (rjust v x))); [rewrite rjust_length by exact H; reflexivity|apply slice_whole].
  - destruct (IH j w Hj) as (y & Y1 & Y2 & Y3). exists y. split; [exact Y1|]. split; [|exact Y3].
    cbn [firstn total justified].
    replace (v + total (firstn j ws)) with (length (rjust v x) + total (firstn j ws)) by (rewrite rjust_length by exact H; reflexivity).
    rewrite slice_app2. exact Y2.
Qed.

Lemma total_firstn ws j w : nth_error ws j = Some w -> total (firstn j ws) + w <= total ws.
Proof.
  revert j. induction ws as [|x ws IH]; intros [|j] H; cbn in H; try discriminate.
  - injection H as ->. cbn. lia.
  - cbn [firstn total]. specialize (IH j H). lia.
Qed.

Lemma rows_slice ws data : Forall (fitting ws) data -> forall r row off w, nth_error data r = Some row -> off + w <= total ws ->
  slice (concat (map (justified ws) data)) (r * total ws + off) w = slice (justified ws row) off w.
Proof.
  induction 1 as [|x data Hx _ IH]; intros [|r] row off w Hr Ho; cbn in Hr; try discriminate.
  - injection Hr as ->. cbn [map concat Nat.mul plus]. apply slice_app1. rewrite justified_length by exact Hx. exact Ho.
  - cbn [map concat].
    replace (S r * total ws + off) with (length (justified ws x) + (r * total ws + off)) by (rewrite justified_length by exact Hx; cbn; lia).
    rewrite slice_app2. apply IH; assumption.
Qed.

Lemma rows_length ws data : Forall (fitting ws) data -> length (concat (map (justified ws) data)) = length data * total ws.
Proof.
  induction 1 as [|x data Hx _ IH]; [reflexivity|]. cbn [map concat length]. rewrite app_length, IH, justified_length by exact Hx. reflexivity.
Qed.

Lemma list_ext {A} (a b : list A) : length a = length b ->
  (forall i x y, nth_error a i = Some x -> nth_error b i = Some y -> x = y) -> a = b.
Proof.
  revert b. induction a as [|x a IH]; intros [|y b] L H; try discriminate; [reflexivity|].
  f_equal; [exact (H 0 x y eq_refl eq_refl)|]. apply IH; [cbn in L; lia|]. intros i u v Hu Hv. exact (H (S i) u v Hu Hv).
Qed.

Lemma combine_nth_error {A B} (a : list A) (b : list B) i p : nth_error (combine a b) i = Some p ->
  nth_error a i = Some (fst p) /\ nth_error b i = Some (snd p).
Proof.
  revert b i. induction a as [|x a IH]; intros [|y b] [|i] H; cbn in H; try discriminate.
  - injection H as <-. auto.
  - exact (IH b i H).
Qed.

Lemma ascii_reread cols ws data : Forall (fitting ws) data -> length cols = length ws ->
  (forall j c, nth_error cols j = Some c -> c_start c = (1 + N.of_nat (total (firstn j ws)))%N) ->
  map (ascii_cells_of (N.of_nat (total ws)) cols ws (concat (map (justified ws) data))) (seq 0 (length data)) = data.
Proof.
  intros F L S. apply list_ext; [rewrite map_length, seq_length; reflexivity|].
  intros r x row Hx Hr.
  assert (Hrn : r < length data) by (apply nth_error_Some; congruence).
  rewrite nth_map_seq in Hx by exact Hrn. injection Hx as <-.
  assert (Fr : fitting ws row) by (rewrite Forall_forall in F; apply F; eapply nth_error_In; exact Hr).
  assert (Lr : length row = length ws) by (clear -Fr; induction Fr; cbn; congruence).
  apply list_ext.
  - unfold ascii_cells_of. rewrite map_length, combine_length. lia.
  - intros j x y Hx Hy. unfold ascii_cells_of in Hx. rewrite nth_error_map in Hx.
    destruct (nth_error (combine cols ws) j) as [p|] eqn:E; [|discriminate]. cbn [option_map] in Hx. injection Hx as <-.
    apply combine_nth_error in E. destruct E as [E1 E2].
    destruct (justified_slice ws row Fr j (snd p) E2) as (z & Z1 & Z2 & Z3).
    rewrite Z1 in Hy. injection Hy as <-.
    rewrite (S j _ E1).
    replace (N.to_nat (N.of_nat r * N.of_nat (total ws) + (1 + N.of_nat (total (firstn j ws))) - 1))
      with (r * total ws + total (firstn j ws)) by lia.
    rewrite (rows_slice ws data F r row _ _ Hr) by (apply total_firstn; exact E2).
    rewrite Z2. apply trim_rjust. exact Z3.
Qed.

(** Writing. *)
Lemma ascii_row_text_ok cols ws row : widths_are ascii_column_size cols ws -> fitting ws row ->
  (N.of_nat (total ws) <= max_size)%N -> ascii_row_text cols row = Ret (justified ws row).
Proof.
  intros W. revert row. induction W as [|c w cols ws Hw _ IH]; intros row F Hm; inversion F; subst; [reflexivity|].
  cbn [ascii_row_text justified total] in *. rewrite Hw. cbn [bind].
  destruct H1 as [_ Hl]. rewrite sub64_small by (unfold two64; unfold max_size in Hm; lia).
  match goal with |- context [(max_size <? ?x)%N] => destruct (N.ltb_spec max_size x); [lia|] end.
  rewrite IH; [|assumption|lia]. cbn [bind]. unfold rjust.
  replace (N.to_nat (N.of_nat w - N.of_nat (length y))) with (w - length y) by lia.
  rewrite <- app_assoc. reflexivity.
Qed.

Lemma ascii_write_rows_ok cols ws data : widths_are ascii_column_size cols ws -> Forall (fitting ws) data ->
  (N.of_nat (total ws) <= max_size)%N -> forall s, appending s -> exists s',
  ascii_write_rows cols data s = (s', Ret tt) /\ appending s' /\
  content s' = content s ++ concat (map (justified ws) data).
Proof.
  intros W F Hm. induction F as [|row data Hr _ IH]; intros s Ha; cbn [ascii_write_rows].
  - exists s. cbn. rewrite app_nil_r. auto.
  - rewrite (ascii_row_text_ok _ _ _ W Hr Hm).
    destruct (write_append s (justified ws row) Ha) as [A C].
    destruct (IH _ A) as (s' & E & A' & C'). exists s'. split; [exact E|]. split; [exact A'|].
    rewrite C', C. cbn [map concat]. rewrite app_assoc. reflexivity.
Qed.

Lemma ascii_row_text_wide cols ws row : widths_are ascii_column_size cols ws -> length row <= length ws ->
  Forall (fun x => (N.of_nat (length x) <= max_size)%N) row ->
  (exists j w x, nth_error ws j = Some w /\ nth_error row j = Some x /\ w < length x) ->
  ascii_row_text cols row = Throw LengthError.
Proof.
  intros W. revert row. induction W as [|c w cols ws Hw _ IH]; intros row L F (j & v & x & J1 & J2 & J3).
  - destruct j; discriminate.
  - destruct row as [|y row]; [destruct j; discriminate|]. cbn [ascii_row_text]. rewrite Hw. cbn [bind].
    inversion F as [|? ? Fy Fr]; subst.
    destruct (N.ltb_spec max_size (sub64 (N.of_nat w) (N.of_nat (length y)))) as [_|Hle]; [reflexivity|].
    destruct j as [|j].
    + cbn in J1, J2. injection J1 as <-. injection J2 as <-. exfalso.
      rewrite sub64_wrap in Hle by (unfold two64; unfold max_size in *; lia). unfold two64, max_size in *. lia.
    + rewrite IH; [reflexivity|cbn in L; lia|exact Fr|]. exists j, v, x. auto.
Qed.

Lemma ascii_row_text_total cols ws row : widths_are ascii_column_size cols ws -> length row <= length ws ->
  (exists d, ascii_row_text cols row = Ret d) \/ ascii_row_text cols row = Throw LengthError.
Proof.
  intros W. revert row. induction W as [|c w cols ws Hw _ IH]; intros [|y row] L; cbn [ascii_row_text].
  - left. eauto.
  - cbn in L. lia.
  - left. eauto.
  - rewrite Hw. cbn [bind]. destruct (max_size <? _)%N; [right; reflexivity|].
    destruct (IH row) as [(d & ->)| ->]; [cbn in L; lia|left|right]; cbn [bind]; eauto.
Qed.

Lemma ascii_write_rows_wide cols ws data : widths_are ascii_column_size cols ws ->
  Forall (fun row => length row <= length ws) data ->
  Forall (Forall (fun x => (N.of_nat (length x) <= max_size)%N)) data ->
  (exists row, In row data /\ exists j w x, nth_error ws j = Some w /\ nth_error row j = Some x /\ w < length x) ->
  forall s, snd (ascii_write_rows cols data s) = Throw LengthError.
Proof.
  intros W F1 F2 (row & Hin & Hw). induction data as [|x data IH]; [destruct Hin|]. intros s.
  inversion F1; subst. inversion F2; subst. cbn [ascii_write_rows].
  destruct Hin as [->|Hin].
  - rewrite (ascii_row_text_wide _ _ _ W) by assumption. reflexivity.
  - destruct (ascii_row_text_total _ _ x W) as [(d & ->)| ->]; [assumption|apply IH; assumption|reflexivity].
Qed.

Theorem ascii_roundtrip fc h buf0 t0 ws rows data s :
  reached fc h -> ascii_table fc h buf0 = Ret t0 -> layout ascii_column_size fc h ws ->
  nth_error (h_naxis h) 0 = Some (N.of_nat (total ws)) -> nth_error (h_naxis h) 1 = Some rows ->
  (forall c, c < length ws -> header_number fc h (numbered "TBCOL" (S c)) (1 + N.of_nat (total (firstn c ws)))) ->
  Forall (fun w => 0 < w) ws -> ws <> [] -> (0 < rows < 2 ^ 31)%N -> length data = N.to_nat rows -> Forall (fitting ws) data ->
  appending s -> (N.of_nat (before_padding s h (concat (map (justified ws) data))) < 2 ^ 63)%N ->
  let d := concat (map (justified ws) data) in
  exists s', ascii_write (with_cells t0 data) s = (s', Ret tt) /\
    content s' = content (write_header h s) ++ d ++ spaces (pad_len (length (content (write_header h s)) + length d)) /\
    length d = N.to_nat rows * total ws /\
    exists t1, ascii_table fc h d = Ret t1 /\ t_data t1 = data /\ t_columns t1 = t_columns t0.
Proof.
  intros R H0 L E1 E2 HB Hpos Hne Hrows Hlen F Ha Hsz d.
  destruct (ascii_table_inv _ _ _ _ R H0) as (h1 & n & cols & M & T1 & T2 & T3 & Fn & Ln & St & I & _).
  assert (W : widths_are ascii_column_size cols ws).
  { eapply header_widths; eauto. intros j c Hc. apply I, Hc. }
  pose proof (widths_length _ _ _ W) as Lcw.
  assert (Hpt : 0 < total ws) by (destruct ws; [contradiction|]; inversion Hpos; cbn; lia).
  assert (Ld : length d = N.to_nat rows * total ws) by (unfold d; rewrite rows_length, Hlen by exact F; reflexivity).
  unfold before_padding in Hsz. fold d in Hsz.
  assert (Hraw : concat (map raw (h_cards h1)) = concat (map raw (h_cards h))) by (rewrite (st_raw _ _ _ St); reflexivity).
  assert (Hwh : write_header h1 s = write_header h s) by (unfold write_header; rewrite Hraw; reflexivity).
  assert (Hts : (N.of_nat (total ws) <= max_size)%N).
  { unfold max_size. assert (total ws <= length d) by (rewrite Ld; nia). lia. }
  destruct (write_header_append h s Ha) as [A1 C1]; [lia|].
  destruct (ascii_write_rows_ok cols ws data W F Hts _ A1) as (s1 & W1 & A2 & C2).
  destruct (write_padding_append s1 A2) as [A3 C3].
  { rewrite C2, C1, !app_length, length_spaces. fold d.
    pose proof (pad_len_bounds (length (content s) + length (concat (map raw (h_cards h))))) as [B _]. lia. }
  exists (write_padding s1). split; [|split; [|split; [exact Ld|]]].
  - unfold ascii_write, with_cells. cbn [t_columns t_data t_header]. rewrite T1, T3, Hwh, W1. reflexivity.
  - rewrite C3, C2, !app_length, <- app_assoc. reflexivity.
  - assert (St' : forall j c, nth_error cols j = Some c -> c_start c = (1 + N.of_nat (total (firstn j ws)))%N).
    { intros j c Hc. destruct (I j c Hc) as [_ I2]. eapply header_number_fun; [exact I2|]. apply HB.
      rewrite <- Lcw. apply nth_error_Some. congruence. }
    assert (Fi : fits_in (N.of_nat (total ws)) cols ws).
    { clear -W St' Hpos. unfold fits_in.
      assert (G : forall k j w c, nth_error cols k = Some c -> nth_error ws k = Some w -> j = k ->
        (1 <= c_start c <= N.of_nat (total ws))%N /\ (c_start c - 1 + N.of_nat w <= N.of_nat (total ws))%N).
      { intros k j w c Hc Hw ->. rewrite (St' k c Hc). pose proof (total_firstn ws k w Hw).
        rewrite Forall_forall in Hpos. specialize (Hpos w (nth_error_In _ _ Hw)). lia. }
      assert (G' : forall k w c, nth_error cols k = Some c -> nth_error ws k = Some w ->
        (1 <= c_start c <= N.of_nat (total ws))%N /\ (c_start c - 1 + N.of_nat w <= N.of_nat (total ws))%N)
        by (intros k w c Hc Hw; exact (G k k w c Hc Hw eq_refl)).
      clear G St' Hpos. revert G'. generalize (N.of_nat (total ws)). intros T.
      induction W as [|c w cols ws Hw _ IH]; intros G'; constructor.
      - split; [exact Hw|]. exact (G' 0 w c eq_refl eq_refl).
      - apply IH. intros k w' c' Hc' Hw'. exact (G' (S k) w' c' Hc' Hw'). }
    rewrite ascii_table_meta, M. destruct d as [|x d'] eqn:Ed; [cbn in Ld; nia|]. rewrite <- Ed in *.
    assert (N2 : naxis 2 h1 = Ret rows) by (cbn [naxis]; rewrite (st_naxis _ _ _ St), E2; reflexivity).
    assert (N1 : naxis 1 h1 = Ret (N.of_nat (total ws))) by (cbn [naxis]; rewrite (st_naxis _ _ _ St), E1; reflexivity).
    rewrite N2, N1. cbn [bind]. rewrite (ascii_data_ok _ _ _ ws); [|exact Fi| |exact Hrows| |].
    + cbn [bind]. eexists. split; [reflexivity|]. cbn [t_data t_columns]. split; [|symmetry; exact T3].
      rewrite <- Hlen. apply ascii_reread; assumption.
    + intros ->. destruct ws; [contradiction|discriminate].
    + assert (rows * N.of_nat (total ws) = N.of_nat (length d))%N by (rewrite Ld; lia). unfold two64. lia.
    + rewrite Ld. lia.
Qed.

Theorem ascii_over_wide fc h buf0 t0 ws data s :
  reached fc h -> ascii_table fc h buf0 = Ret t0 -> layout ascii_column_size fc h ws ->
  Forall (fun row => length row <= length ws) data ->
  Forall (Forall (fun x => (N.of_nat (length x) <= max_size)%N)) data ->
  (exists row, In row data /\ exists j w x, nth_error ws j = Some w /\ nth_error row j = Some x /\ w < length x) ->
  snd (ascii_write (with_cells t0 data) s) = Throw LengthError.
Proof.
  intros R H0 L F1 F2 Hw.
  destruct (ascii_table_inv _ _ _ _ R H0) as (h1 & n & cols & M & T1 & T2 & T3 & Fn & Ln & St & I & _).
  assert (W : widths_are ascii_column_size cols ws).
  { eapply header_widths; eauto. intros j c Hc. apply I, Hc. }
  unfold ascii_write, with_cells. cbn [t_columns t_data t_header]. rewrite T3.
  pose proof (ascii_write_rows_wide _ _ _ W F1 F2 Hw (write_header (t_header t0) s)) as E.
  destruct (ascii_write_rows cols data (write_header (t_header t0) s)) as [s1 r]. cbn [snd] in E. subst r. reflexivity.
Qed.

(** ** Metadata in terms of the records *)

Lemma optional_text fc h base i s : reached fc h ->
  match base with String c _ => c <> "B"%char /\ c <> "N"%char | _ => False end ->
  optional fc h (indexed base i) s -> text_or_blank fc h (numbered base i) s.
Proof.
  intros R Hb [A B]. rewrite (reached_record fc h base i R Hb) in A, B. split; [exact A|].
  intros v (r & R1 & R2). exact (B r v R1 R2).
Qed.
Lemma optional_number fc h base i s : reached fc h ->
  match base with String c _ => c <> "B"%char /\ c <> "N"%char | _ => False end ->
  optional_num fc h (indexed base i) s -> number_or_none fc h (numbered base i) s.
Proof.
  intros R Hb [A B]. rewrite (reached_record fc h base i R Hb) in A, B. split; [exact A|].
  intros v (r & R1 & R2). exact (B r v R1 R2).
Qed.

Lemma info_described fc h j c : reached fc h -> column_info fc h (S j) c -> described fc h (S j) c.
Proof.
  intros R I. pose proof (info_form fc h j c R I) as F. destruct I as [A _ B C D E].
  split; [exact A|]. split; [exact F|].
  split; [apply optional_text; [exact R|split; discriminate|exact B]|].
  split; [apply optional_text; [exact R|split; discriminate|exact C]|].
  split; apply optional_number; try exact R; try (split; discriminate); assumption.
Qed.

Theorem binary_columns fc h buf t : reached fc h -> binary_table fc h buf = Ret t ->
  exists ws, layout bin_column_size fc h ws /\ length (t_columns t) = length ws /\
    forall j c, nth_error (t_columns t) j = Some c ->
      described fc h (S j) c /\ bin_element_count (c_format c) = Ret (c_elements c) /\
      c_start c = (N.of_nat (total (firstn j ws)) mod two64)%N.
Proof.
  intros R H. pose proof (binary_table_inv _ _ _ _ R H) as (h1 & n & cols & ws & M & _ & _ & -> & W & L & _).
  exists ws. split; [exact L|]. split; [exact (widths_length _ _ _ W)|].
  destruct (bin_meta_spec _ _ _ _ _ (reached_good _ _ R) M) as (_ & _ & _ & _ & (ws' & W1 & W2) & A5).
  assert (ws' = ws).
  { clear -W W1. revert ws W. induction W1 as [|c w cols ws' H _ IH]; intros ws W; inversion W; subst; [reflexivity|].
    f_equal; [|auto]. rewrite H in H2. apply ret_inj in H2. lia. }
  subst ws'. intros j c Hc. destruct (A5 j c Hc) as [B1 B2].
  split; [exact (info_described _ _ _ _ R B1)|]. split; [exact B2|exact (W2 j c Hc)].
Qed.

Theorem ascii_columns_described fc h buf t : reached fc h -> ascii_table fc h buf = Ret t ->
  exists n, header_number fc h (lit "TFIELDS") n /\ length (t_columns t) = N.to_nat n /\
    forall j c, nth_error (t_columns t) j = Some c ->
      described fc h (S j) c /\ header_number fc h (numbered "TBCOL" (S j)) (c_start c).
Proof.
  intros R H. pose proof (ascii_table_inv _ _ _ _ R H) as (h1 & n & cols & M & _ & _ & -> & F & L & _ & I & _).
  exists n. split; [exact F|]. split; [exact L|].
  destruct (ascii_meta_spec _ _ _ _ _ (reached_good _ _ R) M) as (_ & _ & _ & _ & A5).
  intros j c Hc. destruct (A5 j c Hc) as [B1 _]. split; [exact (info_described _ _ _ _ R B1)|apply I, Hc].
Qed.

Theorem column_lookup name t :
  match get_column_metadata name t with
  | Ret c => exists a b, t_columns t = a ++ c :: b /\ c_name c = name /\ forall x, In x a -> c_name x <> name
  | Throw e => e = ColumnNotFound /\ forall x, In x (t_columns t) -> c_name x <> name
  | _ => False
  end.
Proof.
  unfold get_column_metadata. induction (t_columns t) as [|c l IH]; cbn [find].
  - split; [reflexivity|]. intros x [].
  - destruct (str_eqb name (c_name c)) eqn:E.
    + apply str_eqb_eq in E. exists [], l. split; [reflexivity|]. split; [auto|]. intros x [].
    + apply str_eqb_neq in E. destruct (find _ l) as [d|].
      * destruct IH as (a & b & -> & H1 & H2). exists (c :: a), b. split; [reflexivity|]. split; [exact H1|].
        intros x [<-|Hx]; [congruence|auto].
      * destruct IH as [_ IH]. split; [reflexivity|]. intros x [<-|Hx]; [congruence|auto].
Qed.
