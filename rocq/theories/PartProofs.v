(** * Proofs about files with extensions of other kinds, and about reading headers only. *)
From Coq Require Import Lia.
From Verif Require Import ReaderImage.
From Verif Require Export WholeProofs CopyProofs PartSpec.

(** ** Where the parts of a file lie *)

(** A stored unit with the same bytes. *)
Definition as_stored (p : part) : stored :=
  match p with Known u => u | Bytes axes rs d fill => mk_stored (Image B8 axes []) rs d fill | Other _ b axes rs d fill => mk_stored (Image b axes []) rs d fill end.

Lemma layout_bytes p : stored_bytes (as_stored p) = part_bytes p.
Proof. destruct p; reflexivity. Qed.
Lemma layout_tidy p : tidy (as_stored p) <-> part_tidy p.
Proof. destruct p; reflexivity. Qed.
Lemma layout_inside p : header_inside (as_stored p) <-> part_header_inside p.
Proof. destruct p; reflexivity. Qed.
Lemma layout_data p : s_data (as_stored p) = part_data p.
Proof. destruct p; reflexivity. Qed.
Lemma layout_records p : s_records (as_stored p) = part_records p.
Proof. destruct p; reflexivity. Qed.

Definition is_laid (x : stored) : Prop := laid (s_content x) (s_records x) (s_data x).

Lemma part_laid fc p : part_ok fc p -> is_laid (as_stored p).
Proof.
  destruct p as [u|axes rs d fill|kind b axes rs d fill]; cbn [part_ok as_stored]; unfold is_laid; [exact (encodes_header _ _ _ _)|..].
  - intros (H1 & _ & _ & _ & H2 & H3 & H4 & H5). unfold laid. cbn [s_content s_records s_data content_bitpix content_axes]. repeat (split; [assumption|]).
    rewrite H5. destruct axes; cbn [element_size]; lia.
  - intros (H1 & _ & _ & _ & _ & H2 & H3 & H4 & H5). unfold laid. cbn [s_content s_records s_data content_bitpix content_axes].
    repeat (split; [assumption|]). destruct axes; exact H5.
Qed.

Lemma laid_units_to fc l : Forall is_laid l -> Forall tidy l ->
  forall pre rest, length pre mod 2880 = 0 -> small (pre ++ concat (map stored_bytes l) ++ rest) ->
  exists us, units_to fc (pre ++ concat (map stored_bytes l) ++ rest) (length pre) us (length (pre ++ concat (map stored_bytes l))) /\
    Forall2 (unit_of fc) l us /\ length (pre ++ concat (map stored_bytes l)) mod 2880 = 0.
Proof.
  induction l as [|x l IH]; intros Fe Ft pre rest Hp Sm.
  - exists []. cbn [map concat]. rewrite app_nil_r. split; [constructor|]. split; [constructor|exact Hp].
  - inversion Fe as [|? ? E Fe']; subst. inversion Ft as [|? ? H Ft']; subst. cbn [map concat] in *.
    rewrite <- app_assoc in Sm |- *.
    destruct (laid_unit fc x pre (concat (map stored_bytes l) ++ rest) E (or_introl (proj1 H)) Hp Sm) as (u & e & U1 & U2 & U3 & _ & U5).
    specialize (U5 H). destruct (IH Fe' Ft' (pre ++ stored_bytes x) rest) as (us & Us & F2 & M).
    + rewrite app_length, Nat.add_mod, Hp, stored_length by lia. reflexivity.
    + rewrite <- app_assoc. exact Sm.
    + rewrite <- !app_assoc in Us, M. exists (u :: us). split; [|split; [constructor; assumption|exact M]].
      rewrite <- U2. eapply next_unit_at; [exact U1|]. rewrite U5, (app_assoc pre (stored_bytes x) (concat _)). exact Us.
Qed.

Theorem laid_units fc l x : Forall is_laid (l ++ [x]) -> Forall tidy l ->
  header_inside x \/ s_data x = [] -> small (concat (map stored_bytes (l ++ [x]))) ->
  exists us, units fc (concat (map stored_bytes (l ++ [x]))) 0 us /\ Forall2 (unit_of fc) (l ++ [x]) us.
Proof.
  intros Fe Ft Hx Sm. apply Forall_app in Fe as [Fe Ex]. inversion Ex as [|? ? E _]; subst. rewrite map_app, concat_app in *. cbn [map concat] in *. rewrite app_nil_r in *.
  destruct (laid_units_to fc l Fe Ft [] (stored_bytes x) eq_refl Sm) as (us & U & F2 & M). cbn [app length] in U, M.
  destruct (laid_unit fc x (concat (map stored_bytes l)) [] E Hx M) as (u & e & U1 & U2 & U3 & U4 & _); [rewrite app_nil_r; exact Sm|].
  rewrite app_nil_r in *. exists (us ++ [u]). split.
  - exists e. split; [|exact U4]. exact (units_to_snoc _ _ _ _ _ _ _ U U1 U2).
  - apply Forall2_app; [exact F2|constructor; [exact U3|constructor]].
Qed.

(** ** What becomes of a part *)

Definition typed_for (fc : fcodec) (p : part) (h : header) : Prop :=
  typed fc (part_records p) (content_bitpix (s_content (as_stored p))) (content_axes (s_content (as_stored p))) h.

Lemma other_made fc kind b axes rs d h buf : other_ok kind b axes rs d -> typed fc rs b axes h -> becomes fc h buf kind HBlank.
Proof.
  intros (_ & M & X & K1 & K2 & _) T. destruct (table_name _ _ _ _ _ _ T X) as (h1 & En & T1). exists h1. split; [exact En|].
  destruct (extension_table _ _ _ _ _ _ buf T1 M X) as (h2 & _ & Ec). rewrite Ec.
  destruct (str_eqb kind (lit "TABLE")) eqn:E1; [apply str_eqb_eq in E1; contradiction|].
  destruct (str_eqb kind (lit "BINTABLE")) eqn:E2; [apply str_eqb_eq in E2; contradiction|]. reflexivity.
Qed.

(** An image whose data is read to some pixels. *)
Lemma image_of fc rs b axes h d im : missing rs (lit "XTENSION") -> says_logical rs (lit "SIMPLE") true -> (exists e, says_logical rs (lit "EXTEND") e) ->
  typed fc rs b axes h -> read_image b d empty_image = Ret im -> exists o, becomes fc h d (lit "primary_hdu") o /\ contains (Image b axes (pixels im)) o.
Proof.
  intros M S (e & Se) T Im. destruct (primary_name _ _ _ _ _ T M S) as (h1 & En & T1).
  assert (Y : yields fc rs b axes (do s <- value_bool fc (lit "SIMPLE") in do e <- value_bool fc (lit "EXTEND") in hret (s, e)) (fun _ => True)).
  { eapply y_bind; [apply y_bool; [reflexivity|free|exact S]|]. intros s _.
    eapply y_bind; [apply y_bool; [reflexivity|free|exact Se]|]. intros s' _. apply y_ret. exact I. }
  destruct (Y h1 T1) as (h2 & [s1 e1] & E & _ & T2).
  exists (HPrimary (mk_primary h2 b im s1 e1)). split.
  - exists h1. split; [exact En|]. unfold construct_hdu.
    assert (C : contains_keyword (lit "SIMPLE") h1 = true).
    { destruct (contains_keyword (lit "SIMPLE") h1) eqn:C; [reflexivity|]. apply (typed_contains _ _ _ _ _ _ T1) in C.
      destruct S as (r & S & _). unfold missing in C. congruence. }
    rewrite C. unfold make_primary, get_bitpix. rewrite (ty_bitpix _ _ _ _ _ T1). cbn [bind]. rewrite Im. cbn [bind]. rewrite E. reflexivity.
  - eexists. split; [reflexivity|]. cbn [p_kind p_header p_image]. split; [reflexivity|]. split; [exact (ty_naxis _ _ _ _ _ T2)|reflexivity].
Qed.

Lemma bytes_read d : exists im, read_image B8 d empty_image = Ret im /\ pixels im = repeat 0%N (length d) /\ write_image B8 im = repeat zero (length d).
Proof.
  assert (D : d = [] \/ d <> []) by (destruct d; [left; reflexivity|right; discriminate]). destruct D as [->|D].
  - exists empty_image. repeat split.
  - eexists. split; [exact (image_b8_zero d empty_image D)|]. split; [reflexivity|apply write_b8_zero].
Qed.

Theorem part_made fc p h : part_ok fc p -> typed_for fc p h -> (N.of_nat (length (part_data p)) < 2 ^ 62)%N ->
  exists o, becomes fc h (part_data p) (part_name p) o /\ part_is p o.
Proof.
  destruct p as [u|axes rs d fill|kind b axes rs d fill]; cbn [part_ok part_data part_name part_is]; intros H T S.
  - exact (content_made fc _ _ _ h H T S).
  - destruct H as (_ & M & Si & Se & _). destruct (bytes_read d) as (im & E & P & _). rewrite <- P.
    exact (image_of fc rs B8 axes h d im M Si Se T E).
  - exists HBlank. split; [|reflexivity]. exact (other_made fc kind b axes rs d h d H T).
Qed.

Lemma cells_head fc cols rows rs d h : encodes fc (Cells cols rows) rs d -> typed fc rs B8 (content_axes (Cells cols rows)) h ->
  exists o, becomes fc h [] (lit "BINTABLE") o /\ contains (Cells cols []) o.
Proof.
  intros (R & C & F & ->) T. pose proof R as (_ & M & X & _ & _ & _ & _ & _ & Hf & Hw & Hr).
  destruct (table_name _ _ _ _ _ _ T X) as (h1 & En & T1).
  destruct (extension_table _ _ _ _ _ _ [] T1 M X) as (h2 & T2 & Ec).
  change (str_eqb (lit "BINTABLE") (lit "TABLE")) with false in Ec. change (str_eqb (lit "BINTABLE") (lit "BINTABLE")) with true in Ec. cbv iota in Ec.
  destruct (y_meta fc rs B8 _ _ _ _ cols (fun k => bin_columns fc k 1 0) _ R
    (y_bin_columns fc rs B8 _ cols 1 0%N (le_n 1) C Hw) h2 T2) as (h3 & [n cs] & E & [E1 E2] & T3). cbn [fst snd] in E1, E2.
  destruct (made_widths cols cs cols [] eq_refl E2) as (W & Wn & Wf).
  exists (HBinary (mk_table h3 n cs [])). split.
  - exists h1. split; [exact En|]. rewrite Ec, binary_table_meta, E. reflexivity.
  - eexists. split; [reflexivity|]. cbn [t_columns t_data]. split; [split; assumption|reflexivity].
Qed.

Lemma lines_head fc cols line rows rs d h : encodes fc (Lines cols line rows) rs d -> typed fc rs B8 (content_axes (Lines cols line rows)) h ->
  exists o, becomes fc h [] (lit "TABLE") o /\ contains (Lines cols line []) o.
Proof.
  intros (R & C & Hl & F & ->) T. pose proof R as (_ & M & X & _ & _ & _ & _ & _ & Hf & Hw & Hr).
  destruct (table_name _ _ _ _ _ _ T X) as (h1 & En & T1).
  destruct (extension_table _ _ _ _ _ _ [] T1 M X) as (h2 & T2 & Ec).
  change (str_eqb (lit "TABLE") (lit "TABLE")) with true in Ec. cbv iota in Ec.
  destruct (y_meta fc rs B8 _ _ _ _ cols (fun k => ascii_columns fc k 1) _ R
    (y_text_columns fc rs B8 _ line cols Hw 1 (le_n 1) C) h2 T2) as (h3 & [n cs] & E & [E1 E2] & T3). cbn [fst snd] in E1, E2.
  destruct (made_places cs cols 0 E2) as (E3 & Wn & Wf).
  exists (HAscii (mk_table h3 n cs [])). split.
  - exists h1. split; [exact En|]. rewrite Ec, ascii_table_meta, E. reflexivity.
  - eexists. split; [reflexivity|]. cbn [t_columns t_data]. split; [split; assumption|reflexivity].
Qed.

Theorem head_made fc p h : part_ok fc p -> typed_for fc p h -> exists o, becomes fc h [] (part_name p) o /\ head_is p o.
Proof.
  intros H T. destruct p as [[x rs d fill]|axes rs d fill|kind b axes rs d fill]; cbn [part_ok part_name head_is s_content s_records s_data] in *.
  - unfold typed_for in T. cbn [as_stored part_records s_content s_records] in T. destruct x as [b axes values|cols rows|cols line rows].
    + destruct H as (_ & M & S & Se & _). exact (image_of fc rs b axes h [] empty_image M S Se T eq_refl).
    + exact (cells_head fc cols rows rs d h H T).
    + exact (lines_head fc cols line rows rs d h H T).
  - destruct H as (_ & M & S & Se & _). exact (image_of fc rs B8 axes h [] empty_image M S Se T eq_refl).
  - exists HBlank. split; [|reflexivity]. exact (other_made fc kind b axes rs d h [] H T).
Qed.

(** ** Whole files *)

Lemma layouts_bytes l : concat (map stored_bytes (map as_stored l)) = concat (map part_bytes l).
Proof. rewrite map_map. f_equal. apply map_ext. exact layout_bytes. Qed.
Lemma forall_layout (P : stored -> Prop) l : Forall P (map as_stored l) <-> Forall (fun p => P (as_stored p)) l.
Proof. apply Forall_map. Qed.

Lemma units_of_parts fc l us : Forall2 (unit_of fc) (map as_stored l) us -> Forall2 (fun p u => typed_for fc p (u_header u) /\ u_data u = part_data p) l us.
Proof.
  revert us. induction l as [|p l IH]; intros us F; cbn [map] in F; inversion F as [|? u ? us' [U1 U2] F' E1]; subst; constructor; [|apply IH; assumption].
  rewrite layout_data in U2. split; [|exact U2]. unfold typed_for. rewrite <- layout_records. exact U1.
Qed.

Lemma forall2_length {A B} (P : A -> B -> Prop) l m : Forall2 P l m -> length m = length l.
Proof. induction 1; cbn; congruence. Qed.

Lemma named_objects (Q : part -> hdu -> Prop) s us l xs : Forall2 Q l xs -> length us = length l ->
  let f := mk_fits s xs (catalogue 0 us (map part_name l) []) in
  (forall j p, last_position (part_name p) (map part_name l) j -> nth_error l j = Some p -> exists o, hdu_named (part_name p) f = Ret o /\ Q p o) /\
  (forall n, ~ In n (map part_name l) -> hdu_named n f = Throw OutOfRange).
Proof.
  intros X2 Lu f. pose proof (forall2_length _ _ _ X2) as Lx.
  destruct (control_block s us (map part_name l) [] xs) as (_ & B2 & B3); [rewrite map_length; lia|rewrite map_length; lia|].
  cbn [app length] in B2, B3. split; [|exact B3]. intros j p P Hx.
  assert (O : exists o, nth_error xs j = Some o /\ Q p o).
  { clear -X2 Hx. revert j Hx. induction X2 as [|y o l xs H F IH]; intros [|j] Hx; try discriminate; cbn in *; [injection Hx as ->; eauto|eauto]. }
  destruct O as (o & O1 & O2). exists o. split; [exact (B2 _ _ _ P O1)|exact O2].
Qed.

(** ** What is written *)

Definition written_part (g : part -> str) (p : part) (o : hdu) : Prop :=
  match p with Other _ _ _ _ _ _ => o = HBlank | _ => written_as o (part_records p) (g p) end.
Definition part_text (g : part -> str) (p : part) : str := match p with Other _ _ _ _ _ _ => [] | _ => written_unit (part_records p) (g p) end.

Lemma knowns_written g l xs st info : Forall2 (written_part g) l xs -> small (concat (map (part_text g) l)) ->
  write_to (mk_fits st xs info) = (concat (map (part_text g) l), Ret tt).
Proof.
  intros F Sm. rewrite blank_not_written.
  pose (k := filter (fun p => match p with Other _ _ _ _ _ _ => false | _ => true end) l).
  assert (Ew : concat (map (fun rd : list str * str => unit_text (fst rd) (snd rd)) (map (fun p => (part_records p, g p)) k)) = concat (map (part_text g) l)).
  { unfold k. clear. induction l as [|p l IH]; [reflexivity|]. cbn [filter map concat]. rewrite <- IH.
    destruct p; cbn [part_text map concat fst snd]; rewrite ?written_unit_text; reflexivity. }
  rewrite <- Ew in *. apply write_to_text; [|exact Sm]. unfold k. clear -F. induction F as [|p o l xs H F IH]; [constructor|].
  destruct p as [u|axes rs d fill|kind b axes rs d fill]; cbn [written_part] in H; cbn [map filter].
  - destruct o as [|q|t|t]; [contradiction H|..]; constructor; assumption.
  - destruct o as [|q|t|t]; [contradiction H|..]; constructor; assumption.
  - subst o. exact IH.
Qed.

Definition copied_data (p : part) : str :=
  match p with Known u => data_copied (s_content u) (s_data u) | Bytes _ _ d _ => repeat zero (length d) | Other _ _ _ _ _ _ => [] end.

Lemma part_written fc p h o : part_ok fc p -> typed_for fc p h -> reached fc h -> becomes fc h (part_data p) (part_name p) o -> part_is p o ->
  written_part copied_data p o.
Proof.
  destruct p as [u|axes rs d fill|kind b axes rs d fill]; cbn [part_ok part_data part_name part_is written_part part_records copied_data]; intros H T R B C; [| |exact C].
  - eapply copy_written; eassumption.
  - pose proof (becomes_records _ _ _ _ _ R B (contains_made _ _ C)) as Rr. unfold typed_for in T. rewrite (ty_raw _ _ _ _ _ T) in Rr.
    destruct C as (y & -> & Ck & _ & Cp). cbn [object_records] in Rr. cbn [written_as]. split; [symmetry; exact Rr|].
    destruct (bytes_read d) as (im & _ & P & W). unfold write_image in *. rewrite Ck, Cp, <- P. symmetry. exact W.
Qed.
Lemma head_written fc p h o : typed_for fc p h -> reached fc h -> becomes fc h [] (part_name p) o -> head_is p o -> written_part (fun _ => []) p o.
Proof.
  intros T R B C. unfold typed_for in T.
  destruct p as [u|axes rs d fill|kind b axes rs d fill]; cbn [head_is written_part] in *; [| |exact C];
    (pose proof (no_buffer_no_data fc h _ o R B (contains_made _ _ C)) as W; rewrite (ty_raw _ _ _ _ _ T) in W; exact W).
Qed.

Lemma announced_reached fc c p us : announced_units fc c p us -> Forall (fun u => reached fc (u_header u)) us.
Proof.
  induction 1 as [p He|u us e A As IH]; constructor; [|exact IH].
  destruct A as [p h Hp R Z|p h b n Hp R Hb Z Hn Hl]; exact (readable_reached _ _ _ _ R).
Qed.

Theorem parts_file fc l0 x0 l : l = l0 ++ [x0] -> Forall (part_ok fc) l -> Forall part_tidy l0 -> part_header_inside x0 \/ part_data x0 = [] ->
  forall c, c = concat (map part_bytes l) -> small c -> forall hf fuel, Forall (fun p => length (part_records p) <= hf) l -> length l < fuel ->
  exists f, read_entire_hdus fc hf fuel (open_fits c) = (f, Ret tt) /\ Forall2 part_is l (f_hdus f) /\
    (forall j p, last_position (part_name p) (map part_name l) j -> nth_error l j = Some p -> exists o, hdu_named (part_name p) f = Ret o /\ part_is p o) /\
    (forall n, ~ In n (map part_name l) -> hdu_named n f = Throw OutOfRange) /\
    (small (concat (map part_copied l)) -> write_to f = (concat (map part_copied l), Ret tt)).
Proof.
  intros El Fe Ft Hx c -> Sm hf fuel Ff Hf.
  assert (SU : exists us, units fc (concat (map part_bytes l)) 0 us /\ Forall2 (fun p u => typed_for fc p (u_header u) /\ u_data u = part_data p) l us).
  { rewrite <- layouts_bytes in *. destruct (laid_units fc (map as_stored l0) (as_stored x0)) as (us & U & F2).
    - change [as_stored x0] with (map as_stored [x0]). rewrite <- map_app, <- El, forall_layout. eapply Forall_impl; [|exact Fe]. intros p. apply part_laid.
    - rewrite forall_layout. eapply Forall_impl; [|exact Ft]. intros p. apply layout_tidy.
    - rewrite layout_inside, layout_data. exact Hx.
    - change [as_stored x0] with (map as_stored [x0]). rewrite <- map_app, <- El. exact Sm.
    - change [as_stored x0] with (map as_stored [x0]) in U, F2. rewrite <- map_app, <- El in U, F2. exists us. split; [exact U|exact (units_of_parts _ _ _ F2)]. }
  destruct SU as (us & U & F2). clear El Hx Ft.
  assert (Sd : Forall (fun p => (N.of_nat (length (part_data p)) < 2 ^ 62)%N) l).
  { rewrite <- layouts_bytes in Sm. apply small_data, forall_layout in Sm. eapply Forall_impl; [|exact Sm]. intros p. cbv beta. rewrite layout_data. auto. }
  pose proof (forall2_length _ _ _ F2) as Lu.
  assert (Re : Forall (fun u => reached fc (u_header u)) us).
  { destruct U as (e & U & _). apply units_readable in U. eapply Forall_impl; [|exact U]. intros u (e' & V).
    exact (readable_reached _ _ _ _ (unit_readable _ _ _ _ V)). }
  assert (X : exists xs, Forall2 part_is l xs /\ Forall2 (fun u nx => becomes fc (u_header u) (u_data u) (fst nx) (snd nx)) us (combine (map part_name l) xs) /\
    Forall2 (written_part copied_data) l xs).
  { clear -Fe F2 Sd Re. induction F2 as [|p u l us [U1 U2] F2 IH]; [exists []; repeat split; constructor|].
    inversion Fe as [|? ? E Fe']; subst. inversion Sd as [|? ? S Sd']; subst. inversion Re as [|? ? R Re']; subst. destruct (IH Fe' Sd' Re') as (xs & X1 & X2 & X3).
    destruct (part_made fc p _ E U1 S) as (o & O1 & O2). exists (o :: xs). cbn [map combine]. split; [|split]; constructor; try assumption.
    - cbn [fst snd]. rewrite U2. exact O1.
    - exact (part_written fc p _ o E U1 R O1 O2). }
  destruct X as (xs & X2 & X3 & X4). pose proof (forall2_length _ _ _ X2) as Lx.
  destruct (read_file fc _ us U Sm hf fuel (map part_name l) xs) as (s & E).
  - clear -Ff F2. induction F2 as [|p u l us [U1 U2] F2 IH]; inversion Ff; subst; constructor; [|auto].
    rewrite <- (map_length raw), (ty_raw _ _ _ _ _ U1). assumption.
  - lia.
  - exact X3.
  - rewrite map_length. lia.
  - eexists. split; [exact E|]. split; [exact X2|]. destruct (named_objects _ s us l xs X2 Lu) as [B2 B3]. split; [exact B2|]. split; [exact B3|]. intros Sw.
    assert (Et : map part_copied l = map (part_text copied_data) l) by (apply map_ext; intros [u|axes rs d fill|kind b axes rs d fill]; reflexivity).
    rewrite Et in *. exact (knowns_written _ l xs s _ X4 Sw).
Qed.

(** ** Headers only *)

Lemma announced_before fc c p us q vs : units_to fc c p us q -> small c -> announced_units fc c q vs -> announced_units fc c p (map without_data us ++ vs).
Proof.
  intros U Sm. induction U as [p|u us e e' U Us IH]; intros A; cbn [map app]; [exact A|].
  refine (announced_next _ _ (without_data u) _ e _ (IH A)). unfold small in Sm.
  destruct U; unfold without_data; cbn [u_at u_data_at u_header].
  - apply announced_none; assumption.
  - apply announced_some with (b := b); [assumption..|lia].
Qed.

Lemma last_announced fc x pre rest : is_laid x -> length pre mod 2880 = 0 -> (N.of_nat (length (pre ++ stored_bytes x)) < 2 ^ 61)%N ->
  let c := pre ++ concat (s_records x) ++ rest in length c <= length (pre ++ stored_bytes x) ->
  exists u e, announced fc c u e /\ u_at u = length pre /\ length c <= e /\
    typed fc (s_records x) (content_bitpix (s_content x)) (content_axes (s_content x)) (u_header u).
Proof.
  intros (R & Sh & Fa & La & Ld) Hp Sm c Lc. unfold stored_bytes in Sm, Lc. rewrite !app_length in Sm. rewrite !(app_length pre) in Lc.
  set (rs := s_records x) in *. set (d := s_data x) in *. rewrite app_length in Lc.
  destruct (header_records_lengths _ R) as [L80 Hne].
  destruct (header_typed fc pre rs rest _ _ R Sh Fa La) as (h & Rd & T). fold c in Rd.
  assert (Hb : header_bytes h = length (concat rs)).
  { unfold header_bytes. rewrite concat_length80 by exact L80. rewrite <- (ty_raw _ _ _ _ _ T), map_length. reflexivity. }
  assert (Hpos : length pre < length c).
  { unfold c. rewrite !app_length, concat_length80 by exact L80. destruct rs; [contradiction|cbn [length]; lia]. }
  assert (Ds : data_size h = match content_axes (s_content x) with [] => 0%N | l => (product l mod two64)%N end).
  { rewrite data_size_product, (ty_naxis _ _ _ _ _ T). reflexivity. }
  assert (He : (1 <= element_size (content_bitpix (s_content x)))%N) by (destruct (content_bitpix (s_content x)); cbn; lia).
  pose proof (blocked_next sp (concat rs)) as B1. pose proof (blocked_next (s_fill x) d) as B2.
  assert (B3 : length d <= length (blocked (s_fill x) d)) by (unfold blocked; rewrite app_length; lia).
  assert (B4 : length (concat rs) <= length (blocked sp (concat rs))) by (unfold blocked; rewrite app_length; lia).
  assert (Dp : data_size h = (match content_axes (s_content x) with [] => 0 | l => product l end)%N).
  { rewrite Ds. destruct (content_axes (s_content x)) as [|a l]; [reflexivity|]. apply N.mod_small. unfold two64. nia. }
  pose (q := next_block (length pre + header_bytes h)).
  assert (Eq : q = length pre + next_block (length (concat rs))) by (unfold q; rewrite next_block_shift by exact Hp; rewrite Hb; reflexivity).
  assert (Mq : q mod 2880 = 0) by apply next_block_spec.
  destruct (N.eq_dec (data_size h) 0) as [Z|Z].
  - exists (mk_unit (length pre) q h []), q. split; [apply announced_none; assumption|]. split; [reflexivity|]. split; [|exact T].
    assert (K : d = []) by (destruct d; [reflexivity|]; rewrite <- Dp, Z in Ld; cbn [length] in Ld; lia).
    rewrite K in Lc. change (blocked (s_fill x) []) with (@nil ascii) in Lc. cbn [length] in Lc. lia.
  - exists (mk_unit (length pre) q h []), (next_block (q + length d)).
    split; [apply announced_some with (b := content_bitpix (s_content x)); try assumption|split; [reflexivity|split; [|exact T]]].
    + exact (ty_bitpix _ _ _ _ _ T).
    + rewrite Dp. exact Ld.
    + fold q. rewrite Eq. pose proof (next_block_spec (length (concat rs))). lia.
    + rewrite next_block_shift by exact Mq. lia.
Qed.

Theorem heads_file fc l0 x0 l rest : l = l0 ++ [x0] -> Forall (part_ok fc) l -> Forall part_tidy l0 ->
  (N.of_nat (length (concat (map part_bytes l))) < 2 ^ 61)%N ->
  forall c, c = concat (map part_bytes l0) ++ concat (part_records x0) ++ rest -> length c <= length (concat (map part_bytes l)) ->
  forall hf fuel, Forall (fun p => length (part_records p) <= hf) l -> length l < fuel ->
  exists f, read_only_headers fc hf fuel (open_fits c) = (f, Ret tt) /\ Forall2 head_is l (f_hdus f) /\
    (forall j p, last_position (part_name p) (map part_name l) j -> nth_error l j = Some p -> exists o, hdu_named (part_name p) f = Ret o /\ head_is p o) /\
    (forall n, ~ In n (map part_name l) -> hdu_named n f = Throw OutOfRange) /\
    (small (concat (map bare l)) -> write_to f = (concat (map bare l), Ret tt)).
Proof.
  intros El Fe Ft Sm c Ec Lc hf fuel Ff Hf.
  assert (Sc : small c) by (unfold small; lia).
  assert (SU : exists us, announced_units fc c 0 us /\ Forall2 (fun p u => typed_for fc p (u_header u)) l us).
  { assert (Fl : Forall is_laid (map as_stored l)) by (rewrite forall_layout; eapply Forall_impl; [|exact Fe]; intros p; apply part_laid).
    rewrite El, map_app in Fl. apply Forall_app in Fl as [Fl Fx]. inversion Fx as [|? ? L0 _]; subst x l1.
    assert (Fy : Forall tidy (map as_stored l0)) by (rewrite forall_layout; eapply Forall_impl; [|exact Ft]; intros p; apply layout_tidy).
    rewrite <- (layouts_bytes l0) in Ec. rewrite <- layout_records in Ec.
    destruct (laid_units_to fc (map as_stored l0) Fl Fy [] (concat (s_records (as_stored x0)) ++ rest) eq_refl) as (us & U & F2 & M); [cbn [app]; rewrite <- Ec; exact Sc|].
    cbn [app length] in U, M. rewrite <- Ec in U.
    assert (Ll : concat (map part_bytes l) = concat (map stored_bytes (map as_stored l0)) ++ stored_bytes (as_stored x0)).
    { rewrite El, map_app, concat_app, layouts_bytes, layout_bytes. cbn [map concat]. rewrite app_nil_r. reflexivity. }
    rewrite Ll in Sm, Lc.
    destruct (last_announced fc (as_stored x0) _ rest L0 M Sm) as (u & e & A1 & A2 & A3 & A4); [rewrite <- Ec; exact Lc|]. rewrite <- Ec in A1, A3.
    exists (map without_data us ++ [u]). split.
    - apply (announced_before _ _ _ _ _ _ U Sc). rewrite <- A2. eapply announced_next; [exact A1|]. constructor. exact A3.
    - rewrite El. apply Forall2_app.
      + apply units_of_parts in F2. clear -F2. induction F2 as [|p v l us [V _] F IH]; cbn [map]; constructor; [exact V|exact IH].
      + constructor; [|constructor]. unfold typed_for. rewrite <- layout_records. exact A4. }
  destruct SU as (us & U & F2). pose proof (forall2_length _ _ _ F2) as Lu.
  pose proof (announced_reached _ _ _ _ U) as Re.
  assert (X : exists xs, Forall2 head_is l xs /\ Forall2 (fun u nx => becomes fc (u_header u) [] (fst nx) (snd nx)) us (combine (map part_name l) xs) /\
    Forall2 (written_part (fun _ => [])) l xs).
  { clear -Fe F2 Re. induction F2 as [|p u l us U1 F2 IH]; [exists []; repeat split; constructor|].
    inversion Fe as [|? ? E Fe']; subst. inversion Re as [|? ? R Re']; subst. destruct (IH Fe' Re') as (xs & X1 & X2 & X3).
    destruct (head_made fc p _ E U1) as (o & O1 & O2). exists (o :: xs). cbn [map combine]. split; [|split]; constructor; try assumption.
    exact (head_written fc p _ o U1 R O1 O2). }
  destruct X as (xs & X2 & X3 & X4). pose proof (forall2_length _ _ _ X2) as Lx.
  destruct (headers_truncated fc c us hf fuel (map part_name l) xs U Sc) as (s & E).
  - clear -Ff F2. induction F2 as [|p u l us U1 F2 IH]; inversion Ff; subst; constructor; [|auto].
    rewrite <- (map_length raw), (ty_raw _ _ _ _ _ U1). assumption.
  - lia.
  - exact X3.
  - rewrite map_length. lia.
  - eexists. split; [exact E|]. split; [exact X2|]. destruct (named_objects _ s us l xs X2 Lu) as [B2 B3]. split; [exact B2|]. split; [exact B3|]. intros Sw.
    assert (Et : map bare l = map (part_text (fun _ => [])) l) by (apply map_ext; intros [u|axes rs d fill|kind b axes rs d fill]; reflexivity).
    rewrite Et in *. exact (knowns_written _ l xs s _ X4 Sw).
Qed.
