(** * Writing back what was read, possibly after edits. *)
From Coq Require Export String Ascii List Arith NArith ZArith Bool.
Export ListNotations.
From Verif Require Export TableTrim ImageProofs ReaderProofs.
From Verif Require Export ReaderModel ReaderSpec.
From Coq Require Import Lia ZifyBool ZifyNat ZifyN.
Open Scope list_scope.

Lemma readable_reached fc c p h : readable fc c p h -> reached fc h.
Proof. intros [(fuel & s & R) _]. eapply reached_read; [apply (good_positioned c p)|exact R]. Qed.

Lemma value_of_bitpix fc t key h : h_bitpix (fst (value_of fc t key h)) = h_bitpix h.
Proof.
  unfold value_of. destruct (map_find key (h_index h)) as [i|]; [|reflexivity].
  unfold value_at. destruct (nth_error (h_cards h) i) as [c|]; [|reflexivity]. destruct (value fc t c). reflexivity.
Qed.

Lemma get_hdu_name_bitpix fc h : h_bitpix (fst (get_hdu_name fc h)) = h_bitpix h.
Proof.
  unfold get_hdu_name. pose proof (value_of_bitpix fc TStr (lit "XTENSION") h) as B.
  destruct (value_of fc TStr (lit "XTENSION") h) as [h1 [v|e| |]]; cbn [fst] in *; try exact B.
  - destruct v; exact B.
  - pose proof (value_of_bitpix fc TBool (lit "SIMPLE") h1) as B2.
    destruct (value_of fc TBool (lit "SIMPLE") h1) as [h2 [v| | |]]; cbn [fst] in *; congruence.
Qed.

Lemma hsteady_bool fc key : hsteady fc (value_bool fc key).
Proof. apply hsteady_bind; [apply hsteady_value|intros; apply hsteady_lift]. Qed.

(** ** Primary HDU *)

Definition primary_meta (fc : fcodec) : hdo (bool * bool) :=
  do s <- value_bool fc (lit "SIMPLE") in do e <- value_bool fc (lit "EXTEND") in hret (s, e).

Lemma make_primary_inv fc h d p : make_primary fc h d = Ret p ->
  exists b h1, h_bitpix h = Some b /\ read_image b d empty_image = Ret (p_image p) /\
    primary_meta fc h = (h1, Ret (p_simple p, p_extend p)) /\ p_header p = h1 /\ p_kind p = b /\ steady fc h h1.
Proof.
  unfold make_primary, get_bitpix. destruct (h_bitpix h) as [b|]; [|discriminate]. cbn [bind].
  destruct (read_image b d empty_image) as [im|e| |] eqn:E; try discriminate. cbn [bind]. fold (primary_meta fc).
  assert (St : steady fc h (fst (primary_meta fc h))).
  { unfold primary_meta. revert h. change (hsteady fc (primary_meta fc)). unfold primary_meta.
    apply hsteady_bind; [apply hsteady_bool|intros s]. apply hsteady_bind; [apply hsteady_bool|intros; apply hsteady_ret]. }
  destruct (primary_meta fc h) as [h1 [[s e]| | |]] eqn:M; try discriminate. intros H. apply ret_inj in H. subst p.
  exists b, h1. cbn [p_header p_kind p_image p_simple p_extend]. auto 8.
Qed.

Lemma pixels_back b l im : b <> B8 -> Forall (fun w => (w < 256 ^ element_size b)%N) l -> l <> [] ->
  let d := write_image b (mk_image l (width im)) in
  read_image b d im = Ret (mk_image l (width im)) /\ length d = length l * N.to_nat (element_size b) /\ d <> [].
Proof.
  intros Hb F Hne. cbv zeta. unfold write_image. cbn [pixels]. set (k := N.to_nat (element_size b)).
  assert (Hk : 1 <= k) by (unfold k; rewrite pixel_size; apply word_size_pos).
  assert (Ht : forall w, (w < 256 ^ element_size b)%N -> has_type (pixel_type b) (XNum w)).
  { intros w H. replace (element_size b) with (N.of_nat (word_size (pixel_type b))) in H by (destruct b; reflexivity).
    destruct b; exact H. }
  assert (Hw : forall w, (w < 256 ^ element_size b)%N -> length (bin_serialize (pixel_type b) (XNum w)) = k).
  { intros w H. rewrite bin_serialize_length by (apply Ht; exact H). unfold k. destruct b; reflexivity. }
  assert (L : length (concat (map (fun w => bin_serialize (pixel_type b) (XNum w)) l)) = length l * k).
  { clear Hne. induction F as [|w l Hx F IH]; [reflexivity|]. cbn [map concat length]. rewrite app_length, IH, Hw by exact Hx. reflexivity. }
  assert (Hne' : concat (map (fun w => bin_serialize (pixel_type b) (XNum w)) l) <> []).
  { intros E. rewrite E in L. destruct l; [contradiction|]. cbn in L. lia. }
  split; [|split; [exact L|exact Hne']].
  unfold read_image. destruct (concat (map (fun w => bin_serialize (pixel_type b) (XNum w)) l)) as [|x d] eqn:E; [contradiction|].
  rewrite L. fold k. rewrite Nat.div_mul by lia. rewrite <- E. clear E L Hne Hne' x d.
  assert (R : read_pixels b (length l) (concat (map (fun w => bin_serialize (pixel_type b) (XNum w)) l)) = Ret l).
  { induction F as [|w l Hx F IH]; [reflexivity|]. cbn [map concat length read_pixels]. fold k.
    replace (k <=? _) with true by (symmetry; apply Nat.leb_le; rewrite app_length, Hw by exact Hx; lia).
    rewrite firstn_app, skipn_app, Hw, Nat.sub_diag, firstn_all2, skipn_all2 by (rewrite ?Hw by exact Hx; auto).
    cbn [firstn skipn app]. rewrite app_nil_r, single_roundtrip by (first [apply Ht; exact Hx|destruct b; discriminate || contradiction]).
    cbn [bind]. rewrite IH. reflexivity. }
  rewrite R. reflexivity.
Qed.

Theorem primary_belongs fc u name p l : reached fc (u_header u) -> becomes fc (u_header u) (u_data u) name (HPrimary p) ->
  p_kind p <> B8 -> u_data u <> [] -> l <> [] -> Forall (fun w => (w < 256 ^ element_size (p_kind p))%N) l ->
  length l * N.to_nat (element_size (p_kind p)) = length (u_data u) ->
  belongs fc u name (HPrimary (with_pixels p l)).
Proof.
  intros R (h1 & En & C) Hb Hd Hl F Hlen. unfold construct_hdu in C.
  destruct (contains_keyword (lit "SIMPLE") h1) eqn:K.
  2: { unfold make_extension in C. destruct (value_str fc (lit "XTENSION") h1) as [h2 [x| | |]]; try discriminate.
       destruct (str_eqb x (lit "TABLE")); [destruct (ascii_table fc h2 (u_data u)); discriminate|].
       destruct (str_eqb x (lit "BINTABLE")); [destruct (binary_table fc h2 (u_data u)); discriminate|discriminate]. }
  destruct (make_primary fc h1 (u_data u)) as [p'| | |] eqn:M; try discriminate. cbn [bind] in C.
  assert (p' = p) by congruence. subst p'. clear C.
  destruct (make_primary_inv _ _ _ _ M) as (b & h2 & E1 & E2 & E3 & E4 & E5 & St). rewrite E5 in *.
  destruct (pixels_back b l empty_image Hb F Hl) as (P1 & P2 & P3).
  assert (W : width (p_image p) = width empty_image).
  { destruct (read_image_spec b (u_data u) empty_image Hb Hd) as (q & Q & _). rewrite Q in E2. apply ret_inj in E2. rewrite <- E2. reflexivity. }
  exists (write_image b (mk_image l (width empty_image))). split; [|split].
  - cbn [written_as with_pixels p_header p_kind p_image]. rewrite W, E5, E4. split; [|reflexivity].
    rewrite (st_raw _ _ _ St). pose proof (get_hdu_name_steady fc (u_header u)) as S0. rewrite En in S0. symmetry. apply S0.
  - rewrite P2. exact Hlen.
  - exists h1. split; [exact En|]. unfold construct_hdu. rewrite K. unfold make_primary, get_bitpix. rewrite E1. cbn [bind].
    rewrite P1. cbn [bind]. fold (primary_meta fc). rewrite E3. cbn [bind]. unfold with_pixels. rewrite E4, E5, W. reflexivity.
Qed.

(** ** Tables *)

Lemma becomes_table fc h d name t (asc : bool) : reached fc h ->
  becomes fc h d name (if asc then HAscii t else HBinary t) ->
  exists h1 h2, get_hdu_name fc h = (h1, Ret name) /\ contains_keyword (lit "SIMPLE") h1 = false /\
    value_str fc (lit "XTENSION") h1 = (h2, Ret (if asc then lit "TABLE" else lit "BINTABLE")) /\
    reached fc h2 /\ steady fc h h2 /\
    (if asc then ascii_table fc h2 d else binary_table fc h2 d) = Ret t.
Proof.
  intros R (h1 & En & C). unfold construct_hdu in C. exists h1.
  destruct (contains_keyword (lit "SIMPLE") h1).
  { destruct (make_primary fc h1 d); destruct asc; discriminate. }
  unfold make_extension in C. destruct (value_str fc (lit "XTENSION") h1) as [h2 r] eqn:V. exists h2.
  assert (R1 : reached fc h1) by (replace h1 with (fst (get_hdu_name fc h)) by (rewrite En; reflexivity); constructor; exact R).
  assert (H2 : h2 = fst (value_of fc TStr (lit "XTENSION") h1)).
  { unfold value_str, hbind in V. destruct (value_of fc TStr (lit "XTENSION") h1) as [h3 [v| | |]]; unfold hlift in V; cbn [fst]; congruence. }
  assert (S2 : steady fc h h2).
  { eapply steady_trans; [exact (get_hdu_name_steady fc h)|]. rewrite En. cbn [fst]. rewrite H2. apply value_of_steady. }
  assert (R2 : reached fc h2) by (rewrite H2; constructor; exact R1).
  destruct r as [x| | |]; try (destruct asc; discriminate).
  split; [exact En|]. split; [reflexivity|].
  destruct (str_eqb x (lit "TABLE")) eqn:T.
  - apply str_eqb_eq in T. subst x. destruct (ascii_table fc h2 d) as [t'| | |] eqn:A; try (destruct asc; discriminate).
    cbn [bind] in C. destruct asc; [|discriminate]. assert (t' = t) by congruence. subst t'. auto.
  - destruct (str_eqb x (lit "BINTABLE")) eqn:B; [|destruct asc; discriminate].
    apply str_eqb_eq in B. subst x. destruct (binary_table fc h2 d) as [t'| | |] eqn:A; try (destruct asc; discriminate).
    cbn [bind] in C. destruct asc; [discriminate|]. assert (t' = t) by congruence. subst t'. auto.
Qed.

Lemma steady_number fc h h' key n : steady fc h h' -> header_number fc h key n -> header_number fc h' key n.
Proof. intros St (r & A & B). exists r. rewrite (st_raw _ _ _ St). auto. Qed.
Lemma steady_text fc h h' key n : steady fc h h' -> header_text fc h key n -> header_text fc h' key n.
Proof. intros St (r & A & B). exists r. rewrite (st_raw _ _ _ St). auto. Qed.
Lemma steady_layout size fc h h' ws : steady fc h h' -> layout size fc h ws -> layout size fc h' ws.
Proof.
  intros St [A B]. split; [exact (steady_number _ _ _ _ _ St A)|]. intros c w H. destruct (B c w H) as (f & F1 & F2).
  exists f. split; [exact (steady_text _ _ _ _ _ St F1)|exact F2].
Qed.

Theorem ascii_belongs fc u name t ws rows data : reached fc (u_header u) -> becomes fc (u_header u) (u_data u) name (HAscii t) ->
  contiguous fc (u_header u) ws rows -> length (u_data u) = N.to_nat rows * total ws ->
  (N.of_nat (length (u_data u) + header_bytes (u_header u)) < 2 ^ 62)%N ->
  Forall (fun r => length r = 80) (map raw (h_cards (u_header u))) ->
  length data = N.to_nat rows -> Forall (fitting ws) data ->
  belongs fc u name (HAscii (with_cells t data)).
Proof.
  intros R B (L & E1 & E2 & HB & Hpos & Hne & Hrows) Hlen Hsz H80 Hd F.
  destruct (becomes_table fc _ _ name t true R B) as (h1 & h2 & En & K & V & R2 & St & T). cbn [negb] in T.
  assert (Lj : length (concat (map (justified ws) data)) = N.to_nat rows * total ws) by (rewrite rows_length, Hd by exact F; reflexivity).
  destruct (ascii_roundtrip fc h2 (u_data u) t ws rows data create_stream R2 T) as (s' & _ & _ & _ & t1 & T1 & D1 & C1).
  - exact (steady_layout _ _ _ _ _ St L).
  - rewrite (st_naxis _ _ _ St). exact E1.
  - rewrite (st_naxis _ _ _ St). exact E2.
  - intros c Hc. exact (steady_number _ _ _ _ _ St (HB c Hc)).
  - exact Hpos.
  - exact Hne.
  - exact Hrows.
  - exact Hd.
  - exact F.
  - apply create_appending.
  - unfold before_padding. rewrite Lj. cbn [create_stream content length]. rewrite (st_raw _ _ _ St).
    rewrite concat_length80, map_length by exact H80. unfold header_bytes in Hsz. lia.
  - destruct (ascii_table_inv _ _ _ _ R2 T) as (h3 & n & cols & M & A1 & A2 & A3 & Fn & Ln & St3 & I & _).
    destruct (ascii_table_inv _ _ _ _ R2 T1) as (h3' & n' & cols' & M' & A1' & A2' & A3' & _).
    rewrite M in M'. assert (h3' = h3 /\ n' = n) as [-> ->] by (split; congruence).
    assert (W : widths_are ascii_column_size cols ws).
    { eapply header_widths; eauto; [|exact (steady_layout _ _ _ _ _ St L)]. intros j c Hc. apply I, Hc. }
    assert (Et : t1 = with_cells t data) by (destruct t1, t; unfold with_cells; cbn in *; congruence).
    exists (concat (map (justified ws) data)). split; [|split].
    + cbn [written_as with_cells t_header t_columns t_data]. split.
      * rewrite A1, (st_raw _ _ _ St3). symmetry. apply St.
      * exists (map (justified ws) data). split; [|reflexivity]. rewrite A3.
        assert (Hm : (N.of_nat (total ws) <= max_size)%N) by (unfold max_size; assert (total ws <= length (u_data u)) by (rewrite Hlen; nia); lia).
        clear -W F Hm. induction F as [|row data Hr F IH]; constructor; [|exact IH]. apply ascii_row_text_ok with (ws := ws); assumption.
    + rewrite Lj. symmetry. exact Hlen.
    + exists h1. split; [exact En|]. unfold construct_hdu. rewrite K. unfold make_extension. rewrite V.
      rewrite str_eqb_refl, T1, Et. reflexivity.
Qed.

Lemma filling_fitting ws row : filling ws row -> fitting ws row /\ justified ws row = concat row.
Proof.
  induction 1 as [|w x ws row [N L] _ [IH1 IH2]]; [split; [constructor|reflexivity]|]. split.
  - constructor; [split; [exact N|lia]|exact IH1].
  - cbn [justified concat]. rewrite IH2. unfold rjust. rewrite L, Nat.sub_diag. reflexivity.
Qed.

Theorem binary_belongs fc u name t ws rows data : reached fc (u_header u) -> becomes fc (u_header u) (u_data u) name (HBinary t) ->
  layout bin_column_size fc (u_header u) ws -> nth_error (h_naxis (u_header u)) 1 = Some rows -> (0 < rows < 2 ^ 31)%N ->
  u_data u <> [] -> length (u_data u) = N.to_nat rows * total ws ->
  length data = N.to_nat rows -> Forall (filling ws) data ->
  belongs fc u name (HBinary (with_cells t data)).
Proof.
  intros R B L E2 Hrows Hne Hlen Hd F.
  destruct (becomes_table fc _ _ name t false R B) as (h1 & h2 & En & K & V & R2 & St & T). cbn [negb] in T.
  assert (F' : Forall (fitting ws) data) by (eapply Forall_impl; [|exact F]; intros r Hr; apply filling_fitting; exact Hr).
  set (d := concat (map bin_row_text data)).
  assert (Ed : d = concat (map (justified ws) data)).
  { unfold d. f_equal. apply map_ext_in. intros r Hr. rewrite Forall_forall in F. symmetry. apply filling_fitting, F, Hr. }
  assert (Ld : length d = N.to_nat rows * total ws) by (rewrite Ed, rows_length, Hd by exact F'; reflexivity).
  assert (Hd' : d <> []) by (intros Z; rewrite Z in Ld; rewrite <- Ld in Hlen; destruct (u_data u); [contradiction|discriminate]).
  assert (Hws : ws <> []) by (intros Z; rewrite Z in Ld; cbn [total] in Ld; rewrite Nat.mul_0_r in Ld; destruct d; [contradiction|discriminate]).
  destruct (binary_table_inv _ _ _ _ R2 T) as (h3 & n & cols & ws' & M & A1 & A2 & A3 & W & L' & Ln & St3 & _).
  pose proof (layout_fun _ _ _ _ _ L' (steady_layout _ _ _ _ _ St L)) as ->.
  destruct (binary_table fc h2 d) as [t1| | |] eqn:T1.
  2-4: exfalso; rewrite binary_table_meta in T1, T; rewrite M in T1, T;
    (destruct d as [|x d'] eqn:Ed0; [contradiction|]); (destruct (u_data u) as [|y u'] eqn:Eu; [contradiction|]);
    destruct (naxis 2 h3) as [r| | |]  eqn:N2; try discriminate; destruct (naxis 1 h3); try discriminate; cbn [bind] in *;
    assert (r = rows) by (cbn [naxis] in N2; rewrite (st_naxis _ _ _ St3), (st_naxis _ _ _ St), E2 in N2; congruence); subst r;
    assert (D : forall b, bin_table_data rows cols b = bin_read_rows (N.to_nat rows) cols b)
      by (intros b; unfold bin_table_data; pose proof two31_rows;
          destruct (N.ltb_spec max_rows rows); [lia|]; destruct (N.eqb_spec rows 0); [lia|];
          destruct cols as [|c cols]; [apply widths_length in W; destruct ws; [contradiction|discriminate]|];
          destruct (N.leb_spec (2 ^ 31) rows); [lia|]; destruct (bin_read_rows _ _ _); reflexivity);
    rewrite D, (bin_read_rows_spec _ _ W) in T1; destruct (Nat.leb_spec (N.to_nat rows * total ws) (length (x :: d'))); [discriminate|lia].
  destruct (binary_table_inv _ _ _ _ R2 T1) as (h3' & n' & cols' & ws1 & M' & A1' & A2' & A3' & _).
  rewrite M in M'. assert (h3' = h3 /\ n' = n /\ cols' = cols) as (-> & -> & ->) by (repeat split; congruence).
  assert (D1 : t_data t1 = data).
  { destruct (binary_cells _ _ _ _ R2 T1 Hd') as (rows' & ws2 & L2 & E3 & L3 & C).
    rewrite (st_naxis _ _ _ St), E2 in E3. injection E3 as <-.
    pose proof (layout_fun _ _ _ _ _ L2 L') as ->.
    apply list_ext; [congruence|]. intros r x y Hx Hy. destruct (C r x Hx) as [Lx Cx].
    assert (Fy : filling ws y) by (rewrite Forall_forall in F; apply F; eapply nth_error_In; exact Hy).
    assert (Ly : length y = length ws) by (clear -Fy; induction Fy; cbn; congruence).
    apply list_ext; [congruence|]. intros c a b Ha Hb.
    destruct (nth_error ws c) as [w|] eqn:Ew; [|apply nth_error_None in Ew; assert (c < length y) by (apply nth_error_Some; congruence); lia].
    destruct (Cx c w Ew) as [_ Cc]. rewrite Cc in Ha. injection Ha as <-.
    destruct (justified_slice ws y (proj1 (filling_fitting _ _ Fy)) c w Ew) as (z & Z1 & Z2 & Z3).
    rewrite Z1 in Hb. injection Hb as <-. unfold packed.
    rewrite Ed, (rows_slice ws data F' r y _ _ Hy) by (apply total_firstn; exact Ew).
    rewrite Z2. apply trim_rjust. exact Z3. }
  assert (Et : t1 = with_cells t data) by (destruct t1, t; unfold with_cells; cbn in *; congruence).
  exists d. split; [|split].
  - cbn [written_as with_cells t_header t_data]. split; [|reflexivity]. rewrite A1, (st_raw _ _ _ St3). symmetry. apply St.
  - congruence.
  - exists h1. split; [exact En|]. unfold construct_hdu. rewrite K. unfold make_extension. rewrite V.
    replace (str_eqb (lit "BINTABLE") (lit "TABLE")) with false by reflexivity. rewrite str_eqb_refl, T1, Et. reflexivity.
Qed.

(** ** Whole files *)

Definition unit_pair (ud : file_unit * str) : header * str := (u_header (fst ud), snd ud).

Lemma unit_matching fc c u e : unit_in fc c u e -> u_data u <> [] -> matching fc (u_header u) (u_data u).
Proof.
  intros U F. destruct U as [p h Hp R Z|p h b n Hp R Hb Z Hn Hl]; cbn [u_header u_data] in *; [contradiction|].
  split; [eauto|]. exists b. split; [exact Hb|].
  unfold slice. rewrite firstn_length, skipn_length, Nat.min_l by lia. exact Hn.
Qed.

Lemma units_matching fc c p us e : units_to fc c p us e -> Forall (fun u => u_data u <> []) us ->
  Forall (fun u => matching fc (u_header u) (u_data u)) us.
Proof.
  induction 1 as [|u us e e' U Us IH]; intros F; inversion F; subst; constructor; [|auto]. eapply unit_matching; eassumption.
Qed.

Lemma unit_extent fc c u e : unit_in fc c u e -> u_data u <> [] ->
  u_data_at u = next_block (u_at u + header_bytes (u_header u)) /\ e = next_block (u_data_at u + length (u_data u)) /\ e <= length c + 2880.
Proof.
  intros U F. destruct U as [p h Hp R Z|p h b n Hp R Hb Z Hn Hl]; cbn [u_header u_data u_at u_data_at] in *; [contradiction|].
  assert (L : length (slice c (next_block (p + header_bytes h)) n) = n) by (unfold slice; rewrite firstn_length, skipn_length; lia).
  rewrite L. split; [reflexivity|]. split; [reflexivity|].
  destruct (next_block_spec (next_block (p + header_bytes h) + n)) as [B _]. lia.
Qed.

Lemma unit_readable fc c u e : unit_in fc c u e -> readable fc c (u_at u) (u_header u).
Proof. intros U. destruct U; assumption. Qed.

Lemma units_replaced fc c p us e : units_to fc c p us e -> Forall (fun u => u_data u <> []) us -> forall ds,
  Forall2 (fun u d => length d = length (u_data u)) us ds -> forall i names m,
  catalogue i (placed p (map unit_pair (combine us ds))) names m = catalogue i us names m.
Proof.
  induction 1 as [|u us e e' U Us IH]; intros F ds F2 i names m;
    inversion F as [|? ? F1 Fr]; subst; inversion F2 as [|? d ? ds' L F2']; subst; [reflexivity|].
  destruct (unit_extent _ _ _ _ U F1) as (E1 & E2 & _).
  cbn [combine map unit_pair fst snd placed catalogue]. destruct names as [|name names]; [reflexivity|].
  cbn [u_at u_data_at]. rewrite L, <- E1, <- E2. apply IH; assumption.
Qed.

Lemma units_extent fc c p us e : units_to fc c p us e -> Forall (fun u => u_data u <> []) us -> p mod 2880 = 0 -> forall ds,
  Forall2 (fun u d => length d = length (u_data u)) us ds ->
  p + length (concat (map (fun hd => unit_text (map raw (h_cards (fst hd))) (snd hd)) (map unit_pair (combine us ds)))) <= Nat.max p (length c + 2880).
Proof.
  induction 1 as [|u us e e' U Us IH]; intros F M ds F2;
    inversion F as [|? ? F1 Fr]; subst; inversion F2 as [|? d ? ds' L F2']; subst; [cbn; lia|].
  destruct (unit_extent _ _ _ _ U F1) as (E1 & E2 & B).
  cbn [combine map unit_pair fst snd concat]. rewrite app_length.
  destruct (unit_text_length (map raw (h_cards (u_header u))) d) as [Lu _]. rewrite Lu, L.
  destruct (readable_records _ _ _ _ (unit_readable _ _ _ _ U)) as (_ & _ & Lh). rewrite Lh.
  assert (E : e = u_at u + next_block (next_block (header_bytes (u_header u)) + length (u_data u))).
  { rewrite E2, E1, (next_block_shift (u_at u)) by exact M. rewrite <- Nat.add_assoc, (next_block_shift (u_at u)) by exact M. reflexivity. }
  assert (Mn : e mod 2880 = 0) by (rewrite E2; apply next_block_spec).
  specialize (IH Fr Mn ds' F2'). lia.
Qed.

Theorem rewritten fc c us names xs info st :
  units fc c 0 us -> (N.of_nat (length c) < 2 ^ 61)%N -> Forall (fun u => u_data u <> []) us ->
  length names = length xs -> Forall2 (fun u nx => belongs fc u (fst nx) (snd nx)) us (combine names xs) ->
  exists c', write_to (mk_fits st xs info) = (c', Ret tt) /\
    forall hf fuel, Forall (fun u => length (h_cards (u_header u)) <= hf) us -> length us < fuel ->
    exists s, read_entire_hdus fc hf fuel (open_fits c') = (mk_fits s xs (catalogue 0 us names []), Ret tt).
Proof.
  intros (e0 & U & He) Sm Fd Lnx FB.
  assert (Hds : exists ds, length ds = length us /\
    Forall2 (fun u d => length d = length (u_data u)) us ds /\
    Forall2 (fun x rd => written_as x (fst rd) (snd rd)) xs (map (fun ud => (map raw (h_cards (u_header (fst ud))), snd ud)) (combine us ds)) /\
    Forall2 (fun ud nx => becomes fc (u_header (fst ud)) (snd ud) (fst nx) (snd nx)) (combine us ds) (combine names xs)).
  { clear U Sm Fd He. revert names xs Lnx FB. induction us as [|u us IH]; intros names xs Lnx FB.
    - inversion FB as [E|]; subst. destruct names, xs; cbn in *; try discriminate. exists []. repeat split; constructor.
    - destruct names as [|name names]; destruct xs as [|x xs]; cbn in Lnx; try discriminate; cbn [combine] in FB; inversion FB as [|? ? ? ? B1 B2]; subst.
      destruct (IH names xs ltac:(lia) B2) as (ds & L0 & L1 & L2 & L3). destruct B1 as (d & D1 & D2 & D3). cbn [fst snd] in *.
      exists (d :: ds). cbn [combine map length]. split; [lia|]. split; [constructor; assumption|]. split; constructor; cbn [fst snd]; assumption. }
  destruct Hds as (ds & L0 & L1 & L2 & L3).
  set (l := map unit_pair (combine us ds)).
  assert (El : map (fun rd : list str * str => unit_text (fst rd) (snd rd)) (map (fun ud => (map raw (h_cards (u_header (fst ud))), snd ud)) (combine us ds))
             = map (fun hd => unit_text (map raw (h_cards (fst hd))) (snd hd)) l) by (unfold l; rewrite !map_map; reflexivity).
  pose proof (units_extent _ _ _ _ _ U Fd eq_refl ds L1) as Ext. fold l in Ext. cbn [plus] in Ext.
  destruct (write_hdus_text _ _ L2 create_stream create_appending eq_refl) as (s' & Ew & Cw).
  { rewrite El. cbn [create_stream content length plus]. lia. }
  rewrite El in Cw. cbn [create_stream content app] in Cw.
  exists (content s'). split; [unfold write_to; cbn [f_hdus]; rewrite Ew; reflexivity|]. intros hf fuel Fh Fu.
  assert (Fm : Forall (fun hd => matching fc (fst hd) (snd hd) /\ snd hd <> []) l).
  { pose proof (units_matching _ _ _ _ _ U Fd) as Fm. unfold l. clear -Fm Fd L1 L0. revert Fm Fd. induction L1 as [|u d us ds L L1 IH]; intros Fm Fd; [constructor|].
    inversion Fm as [|? ? [M1 (b & M2 & M3)] Fm']; subst. inversion Fd as [|? ? D1 Fd']; subst.
    cbn [combine map]. constructor; [|apply IH; [cbn in L0; lia|assumption..]]. cbn [unit_pair fst snd]. split.
    - split; [exact M1|]. exists b. split; [exact M2|]. rewrite L. exact M3.
    - intros ->. destruct (u_data u); [contradiction|discriminate]. }
  pose proof (units_written fc l [] eq_refl Fm) as Uw. cbn [length app] in Uw. rewrite <- Cw in Uw.
  assert (Epl : forall q, map (fun u => (u_header u, u_data u)) (placed q l) = l) by (intros q; apply placed_units).
  destruct (read_units fc (content s') 0 (placed 0 l) Uw ltac:(unfold small; rewrite Cw; lia) hf fuel names xs (open_fits (content s'))) as (s & E).
  - reflexivity.
  - assert (Fh' : Forall (fun hd : header * str => length (h_cards (fst hd)) <= hf) l).
    { unfold l. clear -Fh L1. induction L1 as [|u d us ds L L1 IH]; [constructor|]. inversion Fh; subst. cbn [combine map]. constructor; [assumption|]. apply IH. assumption. }
    rewrite <- (Epl 0) in Fh'. rewrite Forall_map in Fh'. exact Fh'.
  - pose proof (f_equal (@length _) (Epl 0)) as Ep0. rewrite map_length in Ep0. rewrite Ep0. unfold l. rewrite map_length, combine_length, L0. lia.
  - assert (L3' : Forall2 (fun (hd : header * str) nx => becomes fc (fst hd) (snd hd) (fst nx) (snd nx)) l (combine names xs)).
    { unfold l. clear -L3. induction L3; cbn [map]; constructor; assumption. }
    rewrite <- (Epl 0) in L3'. clear -L3'. set (pl := placed 0 l) in *. clearbody pl. revert L3'. generalize (combine names xs).
    induction pl as [|u pl IH]; intros k H; inversion H; subst; constructor; [assumption|]. apply IH. assumption.
  - exact Lnx.
  - exists s. rewrite E. cbn [open_fits f_hdus f_info app length]. unfold l. rewrite (units_replaced _ _ _ _ _ U Fd ds L1). reflexivity.
Qed.
