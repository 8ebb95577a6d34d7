(** * Property theorems about the object a throwing set_data() leaves behind (C114). *)
From Verif Require Import RefillProofs TableProps.

(** [bin_set_data_state] and [ascii_set_data_state] give the object and how the call ends; they agree with what C80 and C29 to
    C32 speak about. *)
Theorem C114_agrees : forall fc h buf0 t cells buf,
  (binary_table fc h buf0 = Ret t ->
     snd (bin_set_data_state fc buf (with_cells t cells)) = ending (bin_set_data fc buf (with_cells t cells)) /\
     forall t', bin_set_data fc buf (with_cells t cells) = Ret t' -> fst (bin_set_data_state fc buf (with_cells t cells)) = t') /\
  (ascii_table fc h buf0 = Ret t ->
     snd (ascii_set_data_state fc buf (with_cells t cells)) = ending (ascii_set_data fc buf (with_cells t cells)) /\
     forall t', ascii_set_data fc buf (with_cells t cells) = Ret t' -> fst (ascii_set_data_state fc buf (with_cells t cells)) = t').
Proof. intros fc h buf0 t cells buf. split; [apply bin_state_agrees|apply ascii_state_agrees]. Qed.
Print Assumptions C114_agrees.

(** A binary table throws only when there can be no vector with that many rows, and is then as it was. *)
Theorem C114_binary : forall fc h buf0 t cells buf t' e, binary_table fc h buf0 = Ret t ->
  bin_set_data_state fc buf (with_cells t cells) = (t', Throw e) ->
  e = LengthError /\ t' = with_cells t cells /\ exists rows, nth_error (h_naxis (t_header t)) 1 = Some rows /\ (max_rows < rows)%N.
Proof. exact bin_state_throws. Qed.
Print Assumptions C114_binary.

(** So does an ASCII table; or else it was constructed without data, some column has a TFORM without a width, the old cells are
    gone, the cells before that column in the first row are those of the buffer and all other cells are empty. *)
Theorem C114_ascii : forall fc h buf0 t cells buf t' e, ascii_table fc h buf0 = Ret t ->
  ascii_set_data_state fc buf (with_cells t cells) = (t', Throw e) ->
  exists rows, nth_error (h_naxis (t_header t)) 1 = Some rows /\
   ((e = LengthError /\ t' = with_cells t cells /\ (max_rows < rows)%N) \/
    (buf0 = [] /\ (0 < rows)%N /\ exists j c x, nth_error (t_columns t) j = Some c /\ ascii_column_size (c_format c) = Throw e /\ length x = j /\
      t' = with_cells t ((x ++ repeat [] (length (t_columns t) - j)) :: repeat (repeat [] (length (t_columns t))) (N.to_nat rows - 1)) /\
      forall i c', i < j -> nth_error (t_columns t) i = Some c' ->
        exists w, ascii_column_size (c_format c') = Ret w /\ (0 < c_start c')%N /\ (c_start c' - 1 + w <= N.of_nat (length buf))%N /\
          nth_error x i = Some (trim (slice buf (N.to_nat (c_start c' - 1)) (N.to_nat w))))).
Proof. exact ascii_state_throws. Qed.
Print Assumptions C114_ascii.

(** A table constructed together with its data never throws in set_data(), whatever the new data are. *)
Theorem C114_never : forall fc h buf0 t cells buf e, buf0 <> [] ->
  (binary_table fc h buf0 = Ret t -> snd (bin_set_data_state fc buf (with_cells t cells)) <> Throw e) /\
  (ascii_table fc h buf0 = Ret t -> snd (ascii_set_data_state fc buf (with_cells t cells)) <> Throw e).
Proof. intros. split; intros; [eapply bin_with_data_never|eapply ascii_with_data_never]; eauto. Qed.
Print Assumptions C114_never.

(** The second column has no width. *)
Definition wide_file : str := table_file "'TABLE'" "7" "2"
  [("TFIELDS", "3"); ("TFORM1", "'A3'"); ("TBCOL1", "1"); ("TFORM2", "'Ix'"); ("TBCOL2", "4"); ("TFORM3", "'A1'"); ("TBCOL3", "7")]%string.
Definition wide_header : header := table_header wide_file.
Definition wide_table : table := built (ascii_table fc0 wide_header []).

(** A throwing set_data() does not leave the table as it was: this one had no rows, or whatever rows were in it, and has two
    with one cell filled; its metadata are unchanged. *)
Theorem C114_unchanged_refuted : exists h t, reached fc0 h /\ ascii_table fc0 h [] = Ret t /\ t_data t = [] /\
  forall cells, ascii_set_data_state fc0 (lit "abc  12d  -7 z") (with_cells t cells) =
    (with_cells t [[lit "abc"; []; []]; [[]; []; []]], Throw BadLexicalCast).
Proof.
  exists wide_header, wide_table. split; [eapply table_reached; vm_compute; reflexivity|]. split; [vm_compute; reflexivity|].
  split; [vm_compute; reflexivity|]. intros cells.
  vm_compute. reflexivity.
Qed.
Print Assumptions C114_unchanged_refuted.

(** C114_binary is not empty: a header that asks for 2^60 rows. *)
Definition tall_header : header := table_header (table_file "'BINTABLE'" "6" "1152921504606846976"
  [("TFIELDS", "2"); ("TFORM1", "'1J'"); ("TFORM2", "'2A'")]%string).
Example C114_binary_case : exists t, binary_table fc0 tall_header [] = Ret t /\
  snd (bin_set_data_state fc0 bin_bytes t) = Throw LengthError /\ bin_set_data fc0 bin_bytes t = Throw LengthError.
Proof. eexists. split; [vm_compute; reflexivity|]. split; vm_compute; reflexivity. Qed.

(** C114_never is not empty: both tables accept other data. *)
Example C114_never_case : exists t t', ascii_table fc0 ascii_header (lit "abc  12 d  -7 ") = Ret t /\
  ascii_set_data_state fc0 (lit "xyz   3uvw   4") t = (t', Ret tt) /\ t_data t' = [[lit "xyz"; lit "3"]; [lit "uvw"; lit "4"]].
Proof. do 2 eexists. split; [vm_compute; reflexivity|]. split; vm_compute; reflexivity. Qed.
