(** * Proofs about copying and editing whole files. *)
From Verif Require Export CopySpec WholeProofs.
From Coq Require Import Lia ZifyBool ZifyNat ZifyN.
Open Scope list_scope.

(** ** What the header of an object is written as *)

Definition object_records (o : hdu) : list str :=
  match o with
  | HBlank => []
  | HPrimary p => map raw (h_cards (p_header p))
  | HBinary t | HAscii t => map raw (h_cards (t_header t))
  end.

Lemma becomes_records fc h d name o : reached fc h -> becomes fc h d name o -> o <> HBlank -> object_records o = map raw (h_cards h).
Proof.
  intros R B NB. destruct o as [|p|t|t]; [contradiction|..]; cbn [object_records].
  - destruct B as (h1 & En & C). unfold construct_hdu in C.
    destruct (contains_keyword (lit "SIMPLE") h1).
    + destruct (make_primary fc h1 d) as [p'| | |] eqn:M; try discriminate. cbn [bind] in C.
      assert (p' = p) by congruence. subst p'.
      destruct (make_primary_inv _ _ _ _ M) as (b & h2 & _ & _ & _ & -> & _ & St). rewrite (st_raw _ _ _ St).
      pose proof (get_hdu_name_steady fc h) as S0. rewrite En in S0. apply S0.
    + unfold make_extension in C. destruct (value_str fc (lit "XTENSION") h1) as [h2 [x| | |]]; try discriminate.
      destruct (str_eqb x (lit "TABLE")); [destruct (ascii_table fc h2 d); discriminate|].
      destruct (str_eqb x (lit "BINTABLE")); [destruct (binary_table fc h2 d); discriminate|discriminate].
  - destruct (becomes_table fc _ _ name t false R B) as (h1 & h2 & _ & _ & _ & R2 & St & T).
    destruct (binary_table_inv _ _ _ _ R2 T) as (h3 & n & cols & ws & _ & -> & _ & _ & _ & _ & _ & St3 & _).
    rewrite (st_raw _ _ _ St3). apply St.
  - destruct (becomes_table fc _ _ name t true R B) as (h1 & h2 & _ & _ & _ & R2 & St & T).
    destruct (ascii_table_inv _ _ _ _ R2 T) as (h3 & n & cols & _ & -> & _ & _ & _ & _ & St3 & _).
    rewrite (st_raw _ _ _ St3). apply St.
Qed.

Lemma contains_made x o : contains x o -> o <> HBlank.
Proof. destruct x; intros (y & -> & _); discriminate. Qed.

(** ** Widths *)

Lemma text_size fc rs line i c : text_col_ok fc rs line i c -> (N.of_nat line < 2 ^ 63)%N ->
  ascii_column_size (a_form (tc_about c)) = Ret (N.of_nat (tc_width c)).
Proof.
  intros ((C1 & C3 & C4 & C5 & C6) & C7 & (letter & L & F) & B1 & B2 & B3) Hm.
  assert (Hl : is_form_blank letter = false /\ letter <> "."%char).
  { cbn in L. repeat (destruct L as [<-|L]; [split; [reflexivity|discriminate]|]). contradiction. }
  eapply ascii_form_width; [exact F|apply Hl|apply Hl|unfold two64; lia|]. pose proof (says_text_short _ _ _ C3). unfold two64. lia.
Qed.

Lemma bin_size fc rs i c : bin_col_ok fc rs i c -> (N.of_nat (bc_width c) < 2 ^ 63)%N ->
  bin_column_size (a_form (bc_about c)) = Ret (N.of_nat (bc_width c)).
Proof.
  intros (_ & _ & _ & letter & k & F & L & W & Hw) Hm. rewrite W. eapply bin_form_width; [exact F|exact L|]. unfold two64. lia.
Qed.

Lemma value_in_header fc rs b axes h t key v : typed fc rs b axes h -> has_value fc t rs key v -> header_value fc t h key v.
Proof. intros T (r & R1 & R2). exists r. rewrite (ty_raw _ _ _ _ _ T). auto. Qed.

Lemma width_in cols c : In c cols -> c <= total cols.
Proof. induction cols as [|d cols IH]; [contradiction|]. intros [->|H]; cbn [total]; [lia|]. specialize (IH H). lia. Qed.

Lemma cells_layout fc rs b axes h cols rows d : encodes fc (Cells cols rows) rs d -> typed fc rs b axes h ->
  layout bin_column_size fc h (map bc_width cols).
Proof.
  intros ((_ & _ & _ & _ & _ & _ & _ & Tf & Hf & Hw & _) & C & _) T. split.
  - rewrite map_length. eapply value_in_header; [exact T|]. apply number_value; [exact Tf|free|lia].
  - intros j w Hj. rewrite nth_error_map in Hj. destruct (nth_error cols j) as [c|] eqn:E; [|discriminate]. injection Hj as <-.
    exists (a_form (bc_about c)). pose proof (C j c E) as K. split.
    + eapply value_in_header; [exact T|]. apply string_value; [apply K|apply numbered_slash; free].
    + eapply bin_size; [exact K|]. assert (In (bc_width c) (map bc_width cols)) by (apply in_map; eapply nth_error_In; exact E).
      apply width_in in H. lia.
Qed.

Lemma lines_layout fc rs b axes h cols line rows d : encodes fc (Lines cols line rows) rs d -> typed fc rs b axes h ->
  layout ascii_column_size fc h (map tc_width cols).
Proof.
  intros ((_ & _ & _ & _ & _ & _ & _ & Tf & Hf & Hw & _) & C & _) T. split.
  - rewrite map_length. eapply value_in_header; [exact T|]. apply number_value; [exact Tf|free|lia].
  - intros j w Hj. rewrite nth_error_map in Hj. destruct (nth_error cols j) as [c|] eqn:E; [|discriminate]. injection Hj as <-.
    exists (a_form (tc_about c)). pose proof (C j c E) as K. split.
    + eapply value_in_header; [exact T|]. apply string_value; [apply K|apply numbered_slash; free].
    + eapply text_size; [exact K|lia].
Qed.

Lemma lines_contiguous fc rs b h cols line rows d : encodes fc (Lines cols line rows) rs d -> typed fc rs b (content_axes (Lines cols line rows)) h ->
  rows <> [] -> gapless cols line -> contiguous fc h (map tc_width cols) (N.of_nat (length rows)).
Proof.
  intros E T Hr [G1 G2]. pose proof (lines_layout _ _ _ _ _ _ _ _ _ E T) as L.
  destruct E as ((_ & _ & _ & _ & _ & _ & _ & Tf & Hf & Hw & Hn) & C & Hl & F & _).
  split; [exact L|]. rewrite (ty_naxis _ _ _ _ _ T). cbn [content_axes nth_error].
  split; [rewrite G1; reflexivity|]. split; [reflexivity|]. split; [|split; [|split]].
  - intros j Hj. rewrite map_length in Hj. destruct (nth_error cols j) as [c|] eqn:Ec; [|apply nth_error_None in Ec; lia].
    pose proof (C j c Ec) as (_ & B & _ & B1 & B2 & B3). eapply value_in_header; [exact T|]. rewrite firstn_map.
    replace (1 + N.of_nat (total (map tc_width (firstn j cols))))%N with (N.of_nat (tc_start c)) by (rewrite (G2 j c Ec); lia).
    apply number_value; [exact B|apply numbered_slash; free|lia].
  - apply Forall_forall. intros w Hw'. apply in_map_iff in Hw' as (c & <- & Hc). apply In_nth_error in Hc as (j & Hj). apply (C j c Hj).
  - destruct cols; [cbn in Hf; lia|discriminate].
  - destruct rows; [contradiction|]. cbn [length] in *. lia.
Qed.

(** ** Bytes *)

Lemma row_text cols ws row : widths_are ascii_column_size cols ws -> fitting ws row ->
  Forall (fun w => (N.of_nat w <= max_size)%N) ws -> ascii_row_text cols row = Ret (justified ws row).
Proof.
  intros W. revert row. induction W as [|c w cols ws Hw _ IH]; intros row F Hm; inversion F; subst; [reflexivity|].
  inversion Hm; subst.
  cbn [ascii_row_text justified] in *. rewrite Hw. cbn [bind].
  destruct H1 as [_ Hl]. rewrite sub64_small by (unfold two64; unfold max_size in *; lia).
  match goal with |- context [(max_size <? ?x)%N] => destruct (N.ltb_spec max_size x); [lia|] end.
  rewrite IH by assumption. cbn [bind]. unfold rjust.
  replace (N.to_nat (N.of_nat w - N.of_nat (length y))) with (w - length y) by lia.
  rewrite <- app_assoc. reflexivity.
Qed.

Lemma made_widths_text fc rs line cols made : (forall j c, nth_error cols j = Some c -> text_col_ok fc rs line (S j) c) ->
  (N.of_nat line < 2 ^ 63)%N -> columns_are is_text_col cols made -> widths_are ascii_column_size made (map tc_width cols).
Proof.
  intros C Hl [L I].
  assert (G : Forall2 (fun c m => ascii_column_size (c_format m) = Ret (N.of_nat (tc_width c))) cols made).
  { clear -C Hl L I.
    assert (Q : forall j b m, nth_error cols j = Some b -> nth_error made j = Some m -> ascii_column_size (c_format m) = Ret (N.of_nat (tc_width b))).
    { intros j b m Hb Hm. destruct (I j b m Hb Hm) as ((_ & _ & -> & _) & _). eapply text_size; [exact (C j b Hb)|exact Hl]. }
    clear C I Hl. revert made L Q. induction cols as [|c cols IH]; intros [|m made] L Q; try discriminate; constructor.
    - apply (Q 0); reflexivity.
    - apply IH; [cbn in L; lia|]. intros j. apply (Q (S j)). }
  clear -G. induction G; cbn [map]; constructor; assumption.
Qed.

Lemma widths_bound fc rs line cols : (forall j c, nth_error cols j = Some c -> text_col_ok fc rs line (S j) c) ->
  (N.of_nat line < 2 ^ 63)%N -> Forall (fun w => (N.of_nat w <= max_size)%N) (map tc_width cols).
Proof.
  intros C Hl. apply Forall_forall. intros w Hw. apply in_map_iff in Hw as (c & <- & Hc). apply In_nth_error in Hc as (j & Hj).
  destruct (C j c Hj) as (_ & _ & _ & B1 & B2 & B3). unfold max_size. lia.
Qed.

Lemma slice_short r a w : length (slice r a w) <= w.
Proof. unfold slice. rewrite firstn_length. lia. Qed.

Lemma trimmed_fitting cols r : fitting (map tc_width cols) (map (fun c => trim (slice r (tc_start c - 1) (tc_width c))) cols).
Proof.
  induction cols as [|c cols IH]; cbn [map]; constructor; [|exact IH]. split.
  - apply trim_fixed, trim_id, trim_trimmed.
  - pose proof (trim_length (slice r (tc_start c - 1) (tc_width c))). pose proof (slice_short r (tc_start c - 1) (tc_width c)). lia.
Qed.

Lemma justified_cols cols r :
  justified (map tc_width cols) (map (fun c => trim (slice r (tc_start c - 1) (tc_width c))) cols) = concat (map (fun c => to_the_right c r) cols).
Proof. induction cols as [|c cols IH]; [reflexivity|]. cbn [map justified concat]. rewrite IH. reflexivity. Qed.

Lemma pixel_bytes b l : b <> B8 -> Forall (fun w => (w < 256 ^ element_size b)%N) l ->
  Forall2 (fun w s => length s = N.to_nat (element_size b) /\ big_endian s = w) l (map (fun w => bin_serialize (pixel_type b) (XNum w)) l).
Proof.
  intros Hb F. induction F as [|w l Hw F IH]; cbn [map]; constructor; [|exact IH]. clear -Hb Hw.
  assert (S : bin_serialize (pixel_type b) (XNum w) = be_bytes (N.to_nat (element_size b)) w) by (destruct b; [contradiction|reflexivity..]).
  rewrite S, be_bytes_length. split; [reflexivity|]. rewrite <- be_val_big_endian. apply be_val_bytes. rewrite N2Nat.id. exact Hw.
Qed.

Lemma stored_pixels b values bytes : b <> B8 -> Forall2 (fun v s => length s = N.to_nat (element_size b) /\ big_endian s = v) values bytes ->
  map (fun w => bin_serialize (pixel_type b) (XNum w)) values = bytes.
Proof.
  intros Hb F. induction F as [|v s vs ss [L <-] F IH]; [reflexivity|]. cbn [map]. f_equal; [|exact IH].
  rewrite <- be_val_big_endian. apply numeric_decode; [destruct b; cbn; auto; contradiction|]. rewrite L. destruct b; reflexivity.
Qed.

(** What an object that was not changed is written as. *)
Theorem copy_written fc x rs d h name o : encodes fc x rs d -> typed fc rs (content_bitpix x) (content_axes x) h -> reached fc h ->
  becomes fc h d name o -> contains x o -> written_as o rs (data_copied x d).
Proof.
  intros E T R B C. pose proof (becomes_records _ _ _ _ _ R B (contains_made _ _ C)) as Rr. rewrite (ty_raw _ _ _ _ _ T) in Rr.
  destruct x as [b axes values|cols rows|cols line rows]; destruct C as (y & -> & C); cbn [object_records] in Rr; cbn [written_as data_copied].
  - destruct C as (<- & _ & Cp). split; [symmetry; exact Rr|]. unfold write_image. rewrite Cp.
    destruct E as (_ & _ & _ & _ & _ & _ & _ & Hb & _ & bytes & -> & F). f_equal. symmetry. destruct Hb as [Hb|Hb].
    + apply stored_pixels; assumption.
    + rewrite Hb in *. inversion F. reflexivity.
  - destruct C as [_ Cd]. split; [symmetry; exact Rr|]. rewrite Cd, map_map. reflexivity.
  - destruct C as [Cc Cd]. split; [symmetry; exact Rr|].
    destruct E as ((_ & _ & _ & _ & _ & _ & _ & _ & _ & Hw & _) & Co & _ & F & _).
    pose proof (made_widths_text _ _ _ _ _ Co Hw Cc) as W. pose proof (widths_bound _ _ _ _ Co Hw) as Wb.
    exists (map (fun r => concat (map (fun c => to_the_right c r) cols)) rows). split; [|reflexivity].
    rewrite Cd. clear -W Wb. induction rows as [|r rows IH]; cbn [map]; constructor; [|exact IH].
    rewrite (row_text _ _ _ W (trimmed_fitting _ _) Wb), justified_cols. reflexivity.
Qed.

(** And what one with other values is written as. *)
Theorem edit_written fc x rs d h name o v : encodes fc x rs d -> typed fc rs (content_bitpix x) (content_axes x) h -> reached fc h ->
  becomes fc h d name o -> contains x o -> d <> [] -> suit x v ->
  exists d', laid_out x v d' /\ written_as (set_values o v) rs d'.
Proof.
  intros E T R B C Hd Sv. pose proof (becomes_records _ _ _ _ _ R B (contains_made _ _ C)) as Rr. rewrite (ty_raw _ _ _ _ _ T) in Rr.
  destruct x as [b axes values|cols rows|cols line rows]; destruct v as [l|l]; try contradiction Sv; cbn [suit] in Sv;
    destruct C as (y & -> & C); cbn [object_records] in Rr; cbn [set_values written_as laid_out].
  - destruct C as (Ck & _ & Cp). destruct Sv as [Sl Sf].
    destruct E as (_ & _ & _ & _ & _ & _ & _ & Hb & _ & bytes & Ed & F).
    assert (Hb' : b <> B8).
    { destruct Hb as [Hb|Hb]; [exact Hb|]. rewrite Hb in F. inversion F; subst bytes. cbn in Ed. contradiction. }
    exists (concat (map (fun w => bin_serialize (pixel_type b) (XNum w)) l)). split.
    + eexists. split; [reflexivity|]. apply pixel_bytes; assumption.
    + cbn [with_pixels p_header p_kind p_image]. split; [symmetry; exact Rr|]. rewrite Ck. reflexivity.
  - exists (concat (map (@concat ascii) l)). split; [reflexivity|]. cbn [with_cells t_header t_data]. split; [symmetry; exact Rr|reflexivity].
  - destruct C as [Cc Cd]. destruct Sv as (_ & _ & Sf).
    destruct E as ((_ & _ & _ & _ & _ & _ & _ & _ & _ & Hw & _) & Co & _ & F & _).
    pose proof (made_widths_text _ _ _ _ _ Co Hw Cc) as W. pose proof (widths_bound _ _ _ _ Co Hw) as Wb.
    exists (concat (map (justified (map tc_width cols)) l)). split; [reflexivity|]. cbn [with_cells t_header t_columns t_data].
    split; [symmetry; exact Rr|]. exists (map (justified (map tc_width cols)) l). split; [|reflexivity].
    clear -W Wb Sf. induction Sf as [|row l Hr Sf IH]; cbn [map]; constructor; [|exact IH].
    apply row_text; [exact W| |exact Wb]. clear -Hr. unfold fitting. induction Hr; cbn [map]; constructor; assumption.
Qed.

Lemma written_once o rs d rs' d' : written_as o rs d -> written_as o rs' d' -> rs = rs' /\ d = d'.
Proof.
  destruct o as [|p|t|t]; cbn [written_as]; [contradiction|..].
  - intros [-> ->] [-> ->]. auto.
  - intros [-> ->] [-> ->]. auto.
  - intros [-> (ts & F & ->)] [-> (ts' & F' & ->)]. split; [reflexivity|]. f_equal.
    revert ts' F'. induction F as [|row y l ts H F IH]; intros ts' F'; inversion F'; subst; [reflexivity|].
    f_equal; [|apply IH; assumption]. rewrite H in *. congruence.
Qed.

Theorem edit_belongs fc x c u e name o v : encodes fc (s_content x) (s_records x) (s_data x) -> unit_in fc c u e -> unit_of fc x u ->
  (N.of_nat (length c) < 2 ^ 61)%N ->
  becomes fc (u_header u) (u_data u) name o -> contains (s_content x) o -> s_data x <> [] -> suit (s_content x) v ->
  belongs fc u name (set_values o v) /\ has_values (set_values o v) v.
Proof.
  intros E U [T Ed] Sm B C Hd Sv. pose proof (readable_reached _ _ _ _ (unit_readable _ _ _ _ U)) as R. rewrite <- Ed in Hd.
  pose proof (unit_matching _ _ _ _ U Hd) as Mt. pose proof (unit_readable _ _ _ _ U) as [_ Hb].
  assert (Ld : length (u_data u) <= length c).
  { destruct U; cbn [u_data]; [cbn; lia|]. unfold slice. rewrite firstn_length, skipn_length. lia. }
  destruct (s_content x) as [b axes values|cols rows|cols line rows] eqn:Ex; destruct v as [l|l]; try contradiction Sv; cbn [suit] in Sv;
    destruct C as (y & -> & C); cbn [set_values has_values]; (split; [|reflexivity]).
  - destruct C as (Ck & _ & Cp). destruct Sv as [Sl Sf].
    destruct (encodes_header _ _ _ _ E) as (_ & _ & _ & _ & El). cbn [content_axes content_bitpix] in El.
    destruct E as (_ & _ & _ & _ & _ & _ & _ & Hb' & Hn & bytes & Eb & F).
    assert (El' : N.of_nat (length (s_data x)) = (N.of_nat (length values) * element_size b)%N) by (rewrite El, Hn; destruct axes; reflexivity).
    clear El Hn. rename El' into El.
    assert (Hb8 : b <> B8).
    { destruct Hb' as [K|K]; [exact K|]. rewrite K in F. inversion F; subst bytes. cbn in Eb. congruence. }
    assert (Hl : length (u_data u) <> 0) by (destruct (u_data u); [contradiction|discriminate]).
    rewrite Ed in Hl. eapply primary_belongs; try eassumption.
    + rewrite Ck. exact Hb8.
    + intros ->. cbn [length] in Sl. rewrite <- Sl in El. cbn in El. lia.
    + rewrite Ck. exact Sf.
    + rewrite Ck, Ed, Sl. lia.
  - destruct Sv as [Sl Sf]. cbn [content_bitpix content_axes] in T.
    pose proof (cells_layout _ _ _ _ _ _ _ _ E T) as L.
    destruct (encodes_header _ _ _ _ E) as (_ & _ & _ & _ & El). cbn [content_axes content_bitpix product element_size] in El.
    destruct E as ((_ & _ & _ & _ & _ & _ & _ & _ & _ & _ & Hr) & _).
    assert (Hl : length (u_data u) <> 0) by (destruct (u_data u); [contradiction|discriminate]). rewrite <- Ed in El.
    eapply binary_belongs with (ws := map bc_width cols) (rows := N.of_nat (length rows)); try eassumption.
    + rewrite (ty_naxis _ _ _ _ _ T). reflexivity.
    + split; [|exact Hr]. destruct rows; [cbn [length] in El; lia|cbn [length]; lia].
    + lia.
    + lia.
    + eapply Forall_impl; [|exact Sf]. intros row Hrow. unfold filling. clear -Hrow. induction Hrow; cbn [map]; constructor; assumption.
  - destruct Sv as (G & Sl & Sf). cbn [content_bitpix content_axes] in T.
    destruct (encodes_header _ _ _ _ E) as (Hh & _ & _ & _ & El). cbn [content_axes content_bitpix product element_size] in El.
    assert (Hl : length (u_data u) <> 0) by (destruct (u_data u); [contradiction|discriminate]). rewrite <- Ed in El.
    assert (Hr : rows <> []) by (intros ->; cbn [length] in El; lia).
    pose proof (lines_contiguous _ _ _ _ _ _ _ _ E T Hr G) as Co. destruct G as [G _].
    eapply ascii_belongs; try eassumption.
    + rewrite <- G. lia.
    + lia.
    + rewrite (ty_raw _ _ _ _ _ T). apply header_records_lengths, Hh.
    + lia.
    + eapply Forall_impl; [|exact Sf]. intros row Hrow. unfold fitting. clear -Hrow. induction Hrow; cbn [map]; constructor; assumption.
Qed.

(** ** Whole files *)

Definition names_in (l : list stored) : list str := map (fun y => content_name (s_content y)) l.

Lemma standard_objects fc l0 x0 l : l = l0 ++ [x0] -> Forall (fun x => encodes fc (s_content x) (s_records x) (s_data x)) l -> Forall tidy l0 ->
  header_inside x0 \/ s_data x0 = [] -> forall c, c = concat (map stored_bytes l) -> small c ->
  exists us xs, units fc c 0 us /\ Forall2 (unit_of fc) l us /\ length xs = length l /\ Forall2 (fun x o => contains (s_content x) o) l xs /\
    Forall2 (fun u nx => becomes fc (u_header u) (u_data u) (fst nx) (snd nx)) us (combine (names_in l) xs) /\
    forall hf fuel, Forall (fun x => length (s_records x) <= hf) l -> length l < fuel ->
    exists s, read_entire_hdus fc hf fuel (open_fits c) = (mk_fits s xs (catalogue 0 us (names_in l) []), Ret tt).
Proof.
  intros El Fe Ft Hx c -> Sm.
  assert (SU : exists us, units fc (concat (map stored_bytes l)) 0 us /\ Forall2 (unit_of fc) l us) by (rewrite El in *; exact (stored_units fc l0 x0 Fe Ft Hx Sm)).
  destruct SU as (us & U & F2). clear El Hx Ft.
  destruct (made_units fc l us Fe F2 (small_data _ Sm)) as (xs & X1 & X2 & X3).
  exists us, xs. split; [exact U|]. split; [exact F2|]. split; [exact X1|]. split; [exact X2|]. split; [exact X3|].
  intros hf fuel Ff Hf. apply (read_file fc _ us U Sm hf fuel (names_in l) xs).
  - exact (fuel_units _ _ _ _ Ff F2).
  - apply Forall2_len in F2. lia.
  - exact X3.
  - unfold names_in. rewrite map_length. lia.
Qed.

Lemma written_unit_text rs d : written_unit rs d = unit_text rs d.
Proof. unfold written_unit, unit_text, blank_filled, pad_len. rewrite <- !app_assoc. reflexivity. Qed.

Lemma units_readable fc c p us e : units_to fc c p us e -> Forall (fun u => exists e', unit_in fc c u e') us.
Proof. induction 1; constructor; eauto. Qed.

Lemma all_written fc c l us xs : Forall (fun x => encodes fc (s_content x) (s_records x) (s_data x)) l ->
  Forall2 (unit_of fc) l us -> Forall (fun u => exists e', unit_in fc c u e') us -> Forall2 (fun x o => contains (s_content x) o) l xs ->
  Forall2 (fun u nx => becomes fc (u_header u) (u_data u) (fst nx) (snd nx)) us (combine (names_in l) xs) ->
  Forall2 (fun o rd => written_as o (fst rd) (snd rd)) xs (map (fun x => (s_records x, data_copied (s_content x) (s_data x))) l).
Proof.
  intros Fe Fu. revert xs. induction Fu as [|x u l us [T Ed] Fu IH]; intros xs Fr Fc Fb; inversion Fc as [|? o ? xs' C Fc']; subst; cbn [map]; constructor.
  - cbn [fst snd]. inversion Fe; subst. inversion Fr as [|? ? (e' & U) _]; subst. cbn [names_in map combine] in Fb. inversion Fb as [|? ? ? ? B _]; subst.
    cbn [fst snd] in B. rewrite Ed in B. eapply copy_written; try eassumption.
    exact (readable_reached _ _ _ _ (unit_readable _ _ _ _ U)).
  - inversion Fe; subst. inversion Fr; subst. cbn [names_in map combine] in Fb. inversion Fb; subst. apply IH; assumption.
Qed.

Theorem copy_file fc l0 x0 l : l = l0 ++ [x0] -> Forall (fun x => encodes fc (s_content x) (s_records x) (s_data x)) l -> Forall tidy l0 ->
  header_inside x0 \/ s_data x0 = [] -> forall c, c = concat (map stored_bytes l) -> small c -> small (concat (map copied l)) ->
  forall hf fuel, Forall (fun x => length (s_records x) <= hf) l -> length l < fuel ->
  exists f, read_entire_hdus fc hf fuel (open_fits c) = (f, Ret tt) /\ write_to f = (concat (map copied l), Ret tt).
Proof.
  intros El Fe Ft Hx c Ec Sm Sw hf fuel Ff Hf.
  destruct (standard_objects fc l0 x0 l El Fe Ft Hx c Ec Sm) as (us & xs & (e & U & _) & F2 & _ & X2 & X3 & Rd).
  destruct (Rd hf fuel Ff Hf) as (s & E). eexists. split; [exact E|].
  pose proof (all_written fc c l us xs Fe F2 (units_readable _ _ _ _ _ U) X2 X3) as W.
  assert (Ew : map (fun rd : list str * str => unit_text (fst rd) (snd rd)) (map (fun x => (s_records x, data_copied (s_content x) (s_data x))) l) = map copied l).
  { rewrite map_map. apply map_ext. intros x. cbn [fst snd]. symmetry. apply written_unit_text. }
  rewrite <- Ew in *. apply write_to_text; assumption.
Qed.

Lemma all_edited fc c l us xs vs : Forall (fun x => encodes fc (s_content x) (s_records x) (s_data x)) l -> (N.of_nat (length c) < 2 ^ 61)%N ->
  Forall2 (unit_of fc) l us -> Forall (fun u => exists e', unit_in fc c u e') us -> Forall2 (fun x o => contains (s_content x) o) l xs ->
  Forall2 (fun u nx => becomes fc (u_header u) (u_data u) (fst nx) (snd nx)) us (combine (names_in l) xs) ->
  Forall (fun x => s_data x <> []) l -> Forall2 (fun x v => suit (s_content x) v) l vs ->
  Forall2 (fun u nx => belongs fc u (fst nx) (snd nx)) us (combine (names_in l) (with_values xs vs)) /\
  Forall2 has_values (with_values xs vs) vs /\ length (with_values xs vs) = length l /\
  exists ds, Forall2 (fun xv d => laid_out (s_content (fst xv)) (snd xv) d) (combine l vs) ds /\
    Forall2 (fun u d => length d = length (u_data u)) us ds /\
    Forall2 (fun o rd => written_as o (fst rd) (snd rd)) (with_values xs vs) (map (fun xd => (s_records (fst xd), snd xd)) (combine l ds)).
Proof.
  intros Fe Sm Fu. revert xs vs. induction Fu as [|x u l us [T Ed] Fu IH]; intros xs vs Fr Fc Fb Fd Fs; inversion Fc as [|? o ? xs' C Fc']; subst; inversion Fs as [|? v ? vs' Sv Fs']; subst.
  - split; [constructor|]. split; [constructor|]. split; [reflexivity|]. exists []. split; [|split]; constructor.
  - inversion Fe as [|? ? E Fe']; subst. inversion Fr as [|? ? (e' & U) Fr']; subst. cbn [names_in map combine] in Fb. inversion Fb as [|? ? ? ? B Fb']; subst.
    inversion Fd as [|? ? D Fd']; subst. cbn [fst snd] in B.
    destruct (IH Fe' xs' vs' Fr' Fc' Fb' Fd' Fs') as (I1 & I2 & I3 & ds & I4 & I6 & I5).
    destruct (edit_belongs fc x c u e' _ o v E U (conj T Ed) Sm B C D Sv) as [B1 B2].
    destruct (edit_written fc (s_content x) (s_records x) (s_data x) (u_header u) (content_name (s_content x)) o v E T
      (readable_reached _ _ _ _ (unit_readable _ _ _ _ U)) ltac:(rewrite <- Ed; exact B) C D Sv) as (d & W1 & W2).
    change (with_values (o :: xs') (v :: vs')) with (set_values o v :: with_values xs' vs'). cbn [names_in map combine length].
    split; [constructor; assumption|]. split; [constructor; assumption|]. split; [congruence|].
    exists (d :: ds). split; [constructor; assumption|]. split; [|constructor; assumption]. constructor; [|exact I6].
    destruct B1 as (d' & B3 & B4 & _). destruct (written_once _ _ _ _ _ W2 B3) as [_ ->]. exact B4.
Qed.

Theorem edit_file fc l0 x0 l : l = l0 ++ [x0] -> Forall (fun x => encodes fc (s_content x) (s_records x) (s_data x)) l -> Forall tidy l0 ->
  header_inside x0 -> Forall (fun x => s_data x <> []) l -> forall c, c = concat (map stored_bytes l) -> (N.of_nat (length c) < 2 ^ 61)%N ->
  forall vs, Forall2 (fun x v => suit (s_content x) v) l vs ->
  forall hf fuel, Forall (fun x => length (s_records x) <= hf) l -> length l < fuel ->
  exists f ds, read_entire_hdus fc hf fuel (open_fits c) = (f, Ret tt) /\
    Forall2 (fun xv d => laid_out (s_content (fst xv)) (snd xv) d) (combine l vs) ds /\
    let c' := concat (map (fun xd => written_unit (s_records (fst xd)) (snd xd)) (combine l ds)) in
    write_to (mk_fits (f_stream f) (with_values (f_hdus f) vs) (f_info f)) = (c', Ret tt) /\
    exists s, read_entire_hdus fc hf fuel (open_fits c') = (mk_fits s (with_values (f_hdus f) vs) (f_info f), Ret tt) /\
      Forall2 has_values (with_values (f_hdus f) vs) vs.
Proof.
  intros El Fe Ft Hx Fd c Ec Sm vs Fs hf fuel Ff Hf.
  assert (Sm' : small c) by (unfold small; lia).
  destruct (standard_objects fc l0 x0 l El Fe Ft (or_introl Hx) c Ec Sm') as (us & xs & U & F2 & Lx & X2 & X3 & Rd).
  destruct (Rd hf fuel Ff Hf) as (s & E). pose proof U as (e & Ut & _).
  destruct (all_edited fc c l us xs vs Fe Sm F2 (units_readable _ _ _ _ _ Ut) X2 X3 Fd Fs) as (B1 & B2 & B3 & ds & D1 & D3 & D2).
  eexists. exists ds. split; [exact E|]. split; [exact D1|]. cbn [f_stream f_hdus f_info]. cbv zeta.
  destruct (rewritten fc c us (names_in l) (with_values xs vs) (catalogue 0 us (names_in l) []) s) as (c' & W & R).
  - exact U.
  - exact Sm.
  - clear -F2 Fd. induction F2 as [|x u l us [_ Ed] F2 IH]; inversion Fd; subst; constructor; [rewrite Ed; assumption|auto].
  - unfold names_in. rewrite map_length. congruence.
  - exact B1.
  - assert (Ht : map (fun rd : list str * str => unit_text (fst rd) (snd rd)) (map (fun xd => (s_records (fst xd), snd xd)) (combine l ds))
      = map (fun xd => written_unit (s_records (fst xd)) (snd xd)) (combine l ds)).
    { rewrite map_map. apply map_ext. intros xd. symmetry. apply written_unit_text. }
    assert (Hu : map (fun hd => unit_text (map raw (h_cards (fst hd))) (snd hd)) (map unit_pair (combine us ds))
      = map (fun xd => written_unit (s_records (fst xd)) (snd xd)) (combine l ds)).
    { clear -F2. revert ds. induction F2 as [|x u l us [T _] F2 IH]; intros [|d ds]; try reflexivity. cbn [combine map unit_pair fst snd].
      rewrite IH. f_equal. rewrite written_unit_text, (ty_raw _ _ _ _ _ T). reflexivity. }
    assert (Fu : Forall (fun u => u_data u <> []) us) by (clear -F2 Fd; induction F2 as [|x u l us [_ Ed] F2 IH]; inversion Fd; subst; constructor; [rewrite Ed; assumption|auto]).
    pose proof (units_extent _ _ _ _ _ Ut Fu eq_refl ds D3) as X.
    assert (Xl : length (concat (map (fun xd => written_unit (s_records (fst xd)) (snd xd)) (combine l ds))) <= length c + 2880)
      by (rewrite <- Hu; cbn [plus Nat.max] in X; exact X).
    assert (Ew : write_to (mk_fits s (with_values xs vs) (catalogue 0 us (names_in l) [])) =
      (concat (map (fun xd => written_unit (s_records (fst xd)) (snd xd)) (combine l ds)), Ret tt)).
    { rewrite <- Ht. apply write_to_text; [exact D2|]. rewrite Ht. lia. }
    assert (Ec' : c' = concat (map (fun xd => written_unit (s_records (fst xd)) (snd xd)) (combine l ds))) by congruence.
    rewrite <- Ec'. split; [exact W|].
    destruct (R hf fuel (fuel_units _ _ _ _ Ff F2)) as (s' & Rr); [apply Forall2_len in F2; lia|].
    exists s'. split; [exact Rr|exact B2].
Qed.

(** ** Unchanged files *)

Definition values_of (x : contents) : values :=
  match x with
  | Image _ _ l => Pixels l
  | Cells _ rows => Rows rows
  | Lines cols _ rows => Rows (map (fun r => map (fun c => trim (slice r (tc_start c - 1) (tc_width c))) cols) rows)
  end.

Lemma big_endian_bound s : (big_endian s < 256 ^ N.of_nat (length s))%N.
Proof.
  induction s as [|c s IH]; [reflexivity|]. cbn [big_endian length]. rewrite Nat2N.inj_succ, N.pow_succ_r'. pose proof (N_ascii_bounded c).
  set (P := (256 ^ N.of_nat (length s))%N) in *. nia.
Qed.

Lemma own_values fc x rs d : encodes fc x rs d -> copyable x -> suit x (values_of x).
Proof.
  destruct x as [b axes l|cols rows|cols line rows]; cbn [copyable values_of suit].
  - intros (_ & _ & _ & _ & _ & _ & _ & _ & _ & bytes & _ & F) _. split; [reflexivity|]. clear -F.
    induction F as [|v s l bytes [L <-] F IH]; constructor; [|exact IH]. pose proof (big_endian_bound s) as B. rewrite L, N2Nat.id in B. exact B.
  - intros (_ & _ & F & _) C. split; [reflexivity|]. clear -F C. induction F as [|row rows Hr F IH]; constructor; inversion C as [|? ? Cr C']; subst; [|auto].
    clear -Hr Cr. induction Hr; inversion Cr; subst; constructor; auto.
  - intros _ G. split; [exact G|]. split; [apply map_length|]. clear G. apply Forall_forall. intros row Hin. apply in_map_iff in Hin as (r & <- & _).
    pose proof (trimmed_fitting cols r) as T. induction cols as [|c cols IH]; [constructor|]. cbn [map] in *. inversion T; subst. constructor; auto.
Qed.

Lemma own_object x o : contains x o -> copyable x -> set_values o (values_of x) = o.
Proof.
  destruct x as [b axes l|cols rows|cols line rows]; intros (y & -> & C) K; cbn [values_of set_values].
  - destruct C as (_ & _ & <-). rewrite with_pixels_same. reflexivity.
  - destruct C as [_ C]. cbn [copyable] in K. replace rows with (t_data y); [rewrite with_cells_same; reflexivity|]. rewrite C. clear -K.
    induction K as [|row rows Hr K IH]; [reflexivity|]. cbn [map]. f_equal; [|exact IH]. induction Hr as [|s row Hs Hr IHr]; [reflexivity|]. cbn [map]. f_equal; [|exact IHr].
    apply trim_fixed. exact Hs.
  - destruct C as [_ <-]. rewrite with_cells_same. reflexivity.
Qed.

Lemma own_bytes fc x rs d d' : encodes fc x rs d -> copyable x -> laid_out x (values_of x) d' -> d' = data_copied x d.
Proof.
  destruct x as [b axes l|cols rows|cols line rows]; cbn [copyable values_of laid_out data_copied].
  - intros (_ & _ & _ & _ & _ & _ & _ & Hb & _ & bytes & -> & F) _ (bytes' & -> & F'). f_equal. destruct Hb as [Hb| ->].
    + rewrite <- (stored_pixels _ _ _ Hb F). symmetry. apply stored_pixels; assumption.
    + inversion F. inversion F'. reflexivity.
  - intros _ C ->. f_equal. apply map_ext_in. intros row Hin. rewrite Forall_forall in C. specialize (C row Hin). f_equal.
    clear -C. induction C as [|s row Hs C IH]; [reflexivity|]. cbn [map]. f_equal; [symmetry; apply trim_fixed; exact Hs|exact IH].
  - intros _ _ ->. rewrite map_map. f_equal. apply map_ext. intros r. apply justified_cols.
Qed.

Theorem copy_same fc l0 x0 l : l = l0 ++ [x0] -> Forall (fun x => encodes fc (s_content x) (s_records x) (s_data x)) l -> Forall tidy l0 ->
  header_inside x0 -> Forall (fun x => s_data x <> []) l -> Forall (fun x => copyable (s_content x)) l ->
  forall c, c = concat (map stored_bytes l) -> (N.of_nat (length c) < 2 ^ 61)%N ->
  forall hf fuel, Forall (fun x => length (s_records x) <= hf) l -> length l < fuel ->
  exists f s, read_entire_hdus fc hf fuel (open_fits c) = (f, Ret tt) /\ write_to f = (concat (map copied l), Ret tt) /\
    read_entire_hdus fc hf fuel (open_fits (concat (map copied l))) = (mk_fits s (f_hdus f) (f_info f), Ret tt) /\
    Forall2 (fun x o => contains (s_content x) o) l (f_hdus f).
Proof.
  intros El Fe Ft Hx Fd Fc c Ec Sm hf fuel Ff Hf.
  assert (Sm' : small c) by (unfold small; lia).
  destruct (edit_file fc l0 x0 l El Fe Ft Hx Fd c Ec Sm (map (fun x => values_of (s_content x)) l)) with (hf := hf) (fuel := fuel) as (f & ds & E & D & W & s & R & _);
    [|exact Ff|exact Hf|].
  { clear -Fe Fc. induction Fe as [|x l E Fe IH]; inversion Fc; subst; cbn [map]; constructor; [eapply own_values; eassumption|auto]. }
  destruct (standard_file fc l0 x0 l El Fe Ft (or_introl Hx) c Ec Sm' hf fuel Ff Hf) as (f' & E' & Co & _).
  assert (f' = f) by congruence. subst f'.
  assert (Ev : with_values (f_hdus f) (map (fun x => values_of (s_content x)) l) = f_hdus f).
  { clear -Co Fc. induction Co as [|x o l xs C Co IH]; [reflexivity|]. inversion Fc; subst. cbn [map]. unfold with_values in *. cbn [combine map fst snd].
    rewrite IH by assumption. f_equal. apply own_object; assumption. }
  rewrite Ev in *.
  assert (Ef : mk_fits (f_stream f) (f_hdus f) (f_info f) = f) by (destruct f; reflexivity). rewrite Ef in W.
  set (c' := concat (map (fun xd => written_unit (s_records (fst xd)) (snd xd)) (combine l ds))) in *.
  assert (Ed : c' = concat (map copied l)).
  { unfold c'. f_equal. clear -D Fe Fc. revert ds D. induction l as [|x l IH]; intros ds D; cbn [map combine] in D; inversion D as [|? d ? ds' D1 D2]; subst; [reflexivity|].
    inversion Fe; subst. inversion Fc; subst. cbn [combine map fst snd] in *. f_equal; [|apply IH; assumption]. unfold copied. f_equal.
    eapply own_bytes; eassumption. }
  rewrite Ed in *. exists f, s. auto.
Qed.

(** ** Files the copy of which is the same *)

Lemma gapless_line cols line r : gapless cols line -> length r = line -> concat (map (fun c => slice r (tc_start c - 1) (tc_width c)) cols) = r.
Proof.
  intros [-> G] L.
  assert (H : forall cs pre, cols = pre ++ cs -> concat (map (fun c => slice r (tc_start c - 1) (tc_width c)) cs) = skipn (total (map tc_width pre)) r).
  { induction cs as [|c cs IH]; intros pre E.
    - rewrite app_nil_r in E. subst pre. rewrite <- L, skipn_all. reflexivity.
    - cbn [map concat]. rewrite (IH (pre ++ [c])) by (rewrite <- app_assoc; exact E).
      assert (St : tc_start c - 1 = total (map tc_width pre)).
      { rewrite (G (length pre) c) by (rewrite E, nth_error_app2, Nat.sub_diag by lia; reflexivity).
        rewrite E, firstn_app, firstn_all, Nat.sub_diag. cbn [firstn]. rewrite app_nil_r. lia. }
      rewrite St, map_app, total_app. cbn [map total]. rewrite Nat.add_0_r. unfold slice.
      rewrite <- (firstn_skipn (tc_width c) (skipn (total (map tc_width pre)) r)) at 2. f_equal. rewrite skipn_add. f_equal. }
  exact (H cols [] eq_refl).
Qed.

Lemma same_data fc x rs d : encodes fc x rs d -> copyable x -> justified_right x -> data_copied x d = d.
Proof.
  intros E C J. destruct x as [b axes l|cols rows|cols line rows]; cbn [data_copied copyable justified_right] in *.
  - reflexivity.
  - destruct E as (_ & _ & _ & ->). f_equal. apply map_ext_in. intros row Hin. rewrite Forall_forall in C. specialize (C row Hin). f_equal.
    clear -C. induction C as [|s row Hs C IH]; [reflexivity|]. cbn [map]. f_equal; [apply trim_fixed; exact Hs|exact IH].
  - destruct E as (_ & _ & _ & F & ->). f_equal.
    etransitivity; [|apply map_id]. apply map_ext_in. intros r Hin. rewrite Forall_forall in J, F. specialize (J r Hin). specialize (F r Hin).
    etransitivity; [|exact (gapless_line _ _ _ C F)]. f_equal. apply map_ext_in. intros c Hc. rewrite Forall_forall in J. symmetry. apply J. exact Hc.
Qed.

Lemma filled_up s : length s mod 2880 <> 0 -> blocked sp s = blank_filled s.
Proof.
  intros H. unfold blocked, blank_filled, spaces. do 2 f_equal. pose proof (Nat.mod_upper_bound (length s) 2880 ltac:(lia)). apply Nat.mod_small. lia.
Qed.

Theorem copy_identical fc l : Forall (fun x => encodes fc (s_content x) (s_records x) (s_data x)) l -> Forall tidy l ->
  Forall (fun x => s_data x <> [] /\ s_fill x = sp /\ copyable (s_content x) /\ justified_right (s_content x)) l ->
  concat (map copied l) = concat (map stored_bytes l).
Proof.
  intros Fe Ft Fc. f_equal. apply map_ext_in. intros x Hin. rewrite Forall_forall in *.
  specialize (Fe x Hin). specialize (Ft x Hin). specialize (Fc x Hin). cbv beta in *. destruct Fc as (D & Fi & C & J). destruct Ft as [Th Td].
  unfold copied, stored_bytes, written_unit. rewrite (same_data _ _ _ _ Fe C J), Fi. destruct Td as [Td|Td]; [contradiction|].
  rewrite !filled_up by assumption. reflexivity.
Qed.
