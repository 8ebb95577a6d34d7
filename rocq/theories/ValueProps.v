(** * Property theorems about the values of columns (C120). *)
From Verif Require Import ValueProofs WholeProps.

(** ** C120: what a column of a file says *)

(** Fields without white space at either end: the elements are those of the bytes. *)
Theorem C120_binary_vector k name i (st : store (list elem) bin_coltype) t b s : untouched st k t name -> binary_field t name i b s ->
  forall e, ~ In e [EI8; EBool; EPair] -> bc_width b = N.to_nat (bc_count b) * elem_size e -> (bc_count b < 2 ^ 31)%N -> no_outer_blanks s ->
  snd (column_read bin_coltype_eqb bin_decode k (e, true) name i st) = Ret (map (element_of e s) (seq 0 (N.to_nat (bc_count b)))).
Proof. exact (binary_vector k name i st t b s). Qed.
Print Assumptions C120_binary_vector.

Theorem C120_binary_logicals k name i (st : store (list elem) bin_coltype) t b s : untouched st k t name -> binary_field t name i b s ->
  bc_width b = N.to_nat (bc_count b) -> (bc_count b < 2 ^ 31)%N -> no_outer_blanks s ->
  snd (column_read bin_coltype_eqb bin_decode k (EBool, true) name i st) = Ret (map (element_of EBool s) (seq 0 (N.to_nat (bc_count b)))).
Proof. exact (binary_logicals k name i st t b s). Qed.
Print Assumptions C120_binary_logicals.

Theorem C120_binary_single k name i (st : store (list elem) bin_coltype) t b s : untouched st k t name -> binary_field t name i b s ->
  forall e, e <> EI8 -> bc_width b = elem_size e -> no_outer_blanks s ->
  snd (column_read bin_coltype_eqb bin_decode k (e, false) name i st) = Ret [element_of e s 0].
Proof. exact (binary_single k name i st t b s). Qed.
Print Assumptions C120_binary_single.

(** One byte of white space at an end: the numbers are those of the other bytes and a zero byte behind them. *)
Theorem C120_blank_byte k name i (st : store (list elem) bin_coltype) t b s : untouched st k t name -> binary_field t name i b s ->
  forall e, In e [EI16; EI32; EF32; EF64; EC32; EC64] -> bc_width b = N.to_nat (bc_count b) * elem_size e -> (bc_count b < 2 ^ 31)%N ->
  length (trim s) + 1 = length s ->
  snd (column_read bin_coltype_eqb bin_decode k (e, true) name i st) = Ret (map (element_of e (trim s ++ [zero])) (seq 0 (N.to_nat (bc_count b)))).
Proof. exact (binary_blank_byte k name i st t b s). Qed.
Print Assumptions C120_blank_byte.

(** More of them, or any in a text: bytes behind the end of the string are read. *)
Theorem C120_blank_bytes k name i (st : store (list elem) bin_coltype) t b s : untouched st k t name -> binary_field t name i b s ->
  forall e, In e [EI16; EI32; EF32; EF64; EC32; EC64] -> bc_width b = N.to_nat (bc_count b) * elem_size e -> (0 < bc_count b < 2 ^ 31)%N ->
  length (trim s) + 1 < length s -> snd (column_read bin_coltype_eqb bin_decode k (e, true) name i st) = Undef.
Proof. exact (binary_blank_bytes k name i st t b s). Qed.
Print Assumptions C120_blank_bytes.

Theorem C120_text_blank k name i (st : store (list elem) bin_coltype) t b s : untouched st k t name -> binary_field t name i b s ->
  bc_width b = N.to_nat (bc_count b) -> (bc_count b < 2 ^ 31)%N -> length (trim s) < length s ->
  snd (column_read bin_coltype_eqb bin_decode k (EByte, true) name i st) = Undef.
Proof. exact (binary_text_blank k name i st t b s). Qed.
Print Assumptions C120_text_blank.

(** ASCII tables: the number written between blanks. *)
Theorem C120_ascii_integer fc teqb k name i (st : store ascii_value ascii_coltype) t s : untouched st k t name -> text_field t name i s ->
  forall z text x y, s = spaces x ++ text ++ spaces y -> integer_text z text -> int_range 64 z ->
  snd (column_read teqb (ascii_decode fc) k ALong name i st) = Ret (AVLong z).
Proof. exact (text_long fc teqb k name i st t s). Qed.
Print Assumptions C120_ascii_integer.

Theorem C120_ascii_double fc teqb k name i (st : store ascii_value ascii_coltype) t s : untouched st k t name -> text_field t name i s ->
  forall w text x y, s = spaces x ++ text ++ spaces y -> no_outer_blanks text -> f64_read fc text = Some w ->
  snd (column_read teqb (ascii_decode fc) k ADouble name i st) = Ret (AVDouble w).
Proof. exact (text_double fc teqb k name i st t s). Qed.
Print Assumptions C120_ascii_double.

Theorem C120_ascii_float fc teqb k name i (st : store ascii_value ascii_coltype) t s : untouched st k t name -> text_field t name i s ->
  forall w text x y, s = spaces x ++ text ++ spaces y -> no_outer_blanks text -> f32_read fc text = Some w ->
  snd (column_read teqb (ascii_decode fc) k AFloat name i st) = Ret (AVFloat w).
Proof. exact (text_float fc teqb k name i st t s). Qed.
Print Assumptions C120_ascii_float.

(** ** Examples: the file of C119 with its two tables *)
Definition on_its_own {V T : Type} (t : table) : store V T := [Some (mk_tobj t [])].
Lemma own_untouched {V T : Type} t name : untouched (on_its_own (V := V) (T := T) t) 0 t name.
Proof. exists (mk_tobj t []). repeat split. Qed.

(** A file of an image and two tables whose binary table has the given rows. *)
Definition table_of (rows : list (list str)) : stored := mk_stored (Cells cells_cols rows) cells_records (concat (map (@concat ascii) rows)) zero.
Lemma table_encoded rows : length rows = 2 -> Forall (Forall2 (fun c (cell : str) => length cell = bc_width c) cells_cols) rows ->
  encodes fc0 (s_content (table_of rows)) (s_records (table_of rows)) (s_data (table_of rows)).
Proof.
  intros L F. destruct C119_cells_encoded as (A & B & _). split; [|split; [exact B|split; [exact F|reflexivity]]].
  assert (L' : length cells_rows = 2) by reflexivity. rewrite L. rewrite L' in A. exact A.
Qed.

Lemma table_file rows : length rows = 2 -> Forall (Forall2 (fun c (cell : str) => length cell = bc_width c) cells_cols) rows ->
  exists f t, read_entire_hdus fc0 40 4 (open_fits (concat (map stored_bytes [image_unit; table_of rows; lines_unit]))) = (f, Ret tt) /\
    hdu_named (lit "BINTABLE") f = Ret (HBinary t) /\ contains (Cells cells_cols rows) (HBinary t).
Proof.
  intros L F.
  assert (Ld : length (s_data (table_of rows)) = 14).
  { cbn [table_of s_data]. destruct rows as [|r [|r' [|]]]; try discriminate L. inversion F as [|? ? F1 F']; subst. inversion F' as [|? ? F2 _]; subst.
    cbn [map concat]. rewrite app_nil_r, app_length.
    assert (X : forall r : list str, Forall2 (fun c (cell : str) => length cell = bc_width c) cells_cols r -> length (concat r) = 7).
    { intros q Q. unfold cells_cols in Q. inversion Q as [|? ? ? ? Q1 Q2]; subst. inversion Q2 as [|? ? ? ? Q3 Q4]; subst. inversion Q4; subst.
      cbn [concat]. rewrite !app_length, Q1, Q3. reflexivity. }
    rewrite (X _ F1), (X _ F2). reflexivity. }
  destruct (C119_standard_file fc0 [image_unit; table_of rows] lines_unit [image_unit; table_of rows; lines_unit]) with
    (c := concat (map stored_bytes [image_unit; table_of rows; lines_unit])) (hf := 40) (fuel := 4) as (f & E & _ & N & _).
  - reflexivity.
  - constructor; [exact C119_image_encoded|]. constructor; [exact (table_encoded rows L F)|]. constructor; [exact C119_lines_encoded|constructor].
  - constructor; [split; [|right]; vm_compute; discriminate|]. constructor; [|constructor].
    split; [vm_compute; discriminate|]. right. rewrite Ld. vm_compute. discriminate.
  - left. vm_compute. discriminate.
  - reflexivity.
  - unfold small. cbn [map concat]. rewrite !app_length. unfold stored_bytes at 2, blocked. rewrite !app_length, Ld, !repeat_length.
    cbn [table_of s_records]. vm_compute. reflexivity.
  - constructor; [apply Nat.leb_le; vm_compute; reflexivity|]. constructor; [apply Nat.leb_le; vm_compute; reflexivity|].
    constructor; [apply Nat.leb_le; vm_compute; reflexivity|constructor].
  - cbn. lia.
  - destruct (N 1 (table_of rows)) as (o & O1 & O2).
    + split; [reflexivity|]. intros [|[|[|[|j]]]] K; cbn; try lia; discriminate.
    + reflexivity.
    + pose proof O2 as (t & -> & _). exists f, t. split; [exact E|]. split; [exact O1|exact O2].
Qed.

Lemma flux_field rows t i row s : contains (Cells cells_cols rows) (HBinary t) -> nth_error rows i = Some row -> nth_error row 0 = Some s -> length s = 4 ->
  binary_field t (lit "FLUX") i (nth 0 cells_cols (mk_bin_col (mk_about [] [] None None None) 0 0 None None)) s.
Proof.
  intros C R S L. exists cells_cols, rows, 0, row. split; [exact C|]. split; [|split; [exact R|split; [exact S|exact L]]].
  split; [reflexivity|]. split; [reflexivity|]. intros j c K. lia.
Qed.

Definition int_rows (a b : list N) : list (list str) := [[map ascii_of_N a; lit "abc"]; [map ascii_of_N b; lit "de "]].
Lemma int_rows_ok a b : length a = 4 -> length b = 4 -> Forall (Forall2 (fun c (cell : str) => length cell = bc_width c) cells_cols) (int_rows a b).
Proof.
  intros A B. constructor; [|constructor; [|constructor]].
  - constructor; [rewrite map_length; exact A|constructor; [reflexivity|constructor]].
  - constructor; [rewrite map_length; exact B|constructor; [reflexivity|constructor]].
Qed.

(** The integers of a file are read. *)
Example C120_case : exists f t,
  read_entire_hdus fc0 40 4 (open_fits (concat (map stored_bytes [image_unit; table_of (int_rows [1; 0; 1; 7] [255; 255; 255; 254]); lines_unit])))%N = (f, Ret tt) /\
  hdu_named (lit "BINTABLE") f = Ret (HBinary t) /\
  snd (column_read bin_coltype_eqb bin_decode 0 (EI32, false) (lit "FLUX") 1 (on_its_own t)) = Ret [XNum 4294967294].
Proof.
  destruct (table_file (int_rows [1; 0; 1; 7] [255; 255; 255; 254])%N eq_refl (int_rows_ok [1; 0; 1; 7]%N [255; 255; 255; 254]%N eq_refl eq_refl)) as (f & t & E & Nm & C).
  exists f, t. split; [exact E|]. split; [exact Nm|].
  rewrite (C120_binary_single 0 _ _ (on_its_own t) t _ (map ascii_of_N [255; 255; 255; 254]%N) (own_untouched t (lit "FLUX")) (flux_field _ t 1 _ _ C eq_refl eq_refl eq_refl) EI32).
  - vm_compute. reflexivity.
  - discriminate.
  - reflexivity.
  - apply no_outer; reflexivity.
Qed.

(** Not all of them: 32 is read as 0 and 538976257 (hexadecimal 20200001) is not read at all. *)
Theorem C120_every_integer_refuted : exists f t,
  read_entire_hdus fc0 40 4 (open_fits (concat (map stored_bytes [image_unit; table_of (int_rows [0; 0; 0; 32] [32; 32; 0; 1]); lines_unit])))%N = (f, Ret tt) /\
  hdu_named (lit "BINTABLE") f = Ret (HBinary t) /\
  snd (column_read bin_coltype_eqb bin_decode 0 (EI32, true) (lit "FLUX") 0 (on_its_own t)) = Ret [XNum 0] /\
  snd (column_read bin_coltype_eqb bin_decode 0 (EI32, true) (lit "FLUX") 1 (on_its_own t)) = Undef.
Proof.
  destruct (table_file (int_rows [0; 0; 0; 32] [32; 32; 0; 1])%N eq_refl (int_rows_ok [0; 0; 0; 32]%N [32; 32; 0; 1]%N eq_refl eq_refl)) as (f & t & E & Nm & C).
  exists f, t. split; [exact E|]. split; [exact Nm|]. split.
  - rewrite (C120_blank_byte 0 _ _ (on_its_own t) t _ (map ascii_of_N [0; 0; 0; 32]%N) (own_untouched t (lit "FLUX")) (flux_field _ t 0 _ _ C eq_refl eq_refl eq_refl) EI32);
      [vm_compute; reflexivity|cbn; tauto|reflexivity|reflexivity|vm_compute; reflexivity].
  - apply (C120_blank_bytes 0 _ _ (on_its_own t) t _ (map ascii_of_N [32; 32; 0; 1]%N) (own_untouched t (lit "FLUX")) (flux_field _ t 1 _ _ C eq_refl eq_refl eq_refl) EI32);
      [cbn; tauto|reflexivity|split; reflexivity|vm_compute; lia].
Qed.
Print Assumptions C120_every_integer_refuted.

(** An integer of an ASCII table. *)
Example C120_ascii_case : exists t, text_field t (lit "N") 0 (lit " -42 ") /\
  snd (column_read (fun _ _ => true) (ascii_decode fc0) 0 ALong (lit "N") 0 (on_its_own t)) = Ret (AVLong (-42)).
Proof.
  exists (mk_table fresh_header 1 [mk_column 1 (lit "N") 2 (lit "I5") [] None None [] [] [] 0] [[lit "-42"]]).
  assert (F : text_field (mk_table fresh_header 1 [mk_column 1 (lit "N") 2 (lit "I5") [] None None [] [] [] 0] [[lit "-42"]]) (lit "N") 0 (lit " -42 ")).
  { exists [mk_text_col (mk_about (lit "N") (lit "I5") None None None) 2 5], 6, [lit "x -42 "], 0, (mk_text_col (mk_about (lit "N") (lit "I5") None None None) 2 5), (lit "x -42 ").
    split; [|split; [|split; reflexivity]].
    - eexists. split; [reflexivity|]. split; [|reflexivity]. split; [reflexivity|].
      intros [|[|j]] b c B C; try discriminate. injection B as <-. injection C as <-. repeat split.
    - split; [reflexivity|]. split; [reflexivity|]. intros j c K. lia. }
  split; [exact F|].
  apply (C120_ascii_integer fc0 (fun _ _ => true) 0 (lit "N") 0 _ _ _ (own_untouched _ _) F (-42) (lit "-42") 1 1); [reflexivity| |vm_compute; split; [discriminate|reflexivity]].
  right. exists (lit "42"). split; [reflexivity|]. split; [|discriminate]. split; [discriminate|]. split; [apply digits; reflexivity|reflexivity].
Qed.
