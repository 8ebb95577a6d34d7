(** * Property theorems about the exceptions a caller has to expect (C118). *)
From Verif Require Import ReaderImage ExnSpec ExnProofs ReaderProps.

(** ** Cards *)

(** A card made from text. *)
Theorem C118_card_made : forall s, throws_only [InvalidCard; OutOfRange] (card_of_string s) /\ (8 <= length s -> throws_only [InvalidCard] (card_of_string s)).
Proof. intros s. split; [apply only_card_of_string|apply only_card_of_string80]. Qed.
Print Assumptions C118_card_made.

(** A value read from a card, and when each of the three exceptions occurs. *)
Theorem C118_card_value : forall fc t c e, snd (value fc t c) = Throw e ->
  (e = BadGet /\ exists v, cache c = Some v /\ ty_of v <> t) \/
  (e = OutOfRange /\ cache c = None /\ length (raw_card c) < 9) \/
  (e = InvalidCast /\ cache c = None /\ t <> TStr /\ 9 <= length (raw_card c)).
Proof. exact card_value_exn. Qed.
Print Assumptions C118_card_value.

Example C118_card_case : snd (value fc0 TBool (mk_card (line "A" "7") (Some (VInt 7)))) = Throw BadGet /\
  snd (value fc0 TInt (mk_card (lit "A") None)) = Throw OutOfRange /\ snd (value fc0 TInt (mk_card (line "A" "T") None)) = Throw InvalidCast /\
  card_of_string (lit "A") = Throw OutOfRange /\ card_of_string (lit "A without a sign") = Throw InvalidCard.
Proof. vm_compute. auto. Qed.

(** ** Headers *)

Definition bad_card_records : list str := [spaces 8 ++ lit "x"; lit "no card" ++ repeat "x"%char 73].
Definition bad_value_records : list str := [line "BITPIX" "x"; end_line].
Definition bad_bitpix_records : list str := [line "BITPIX" "7"; end_line].
Definition many_axes_records : list str := [line "BITPIX" "8"; line "NAXIS" "1152921504606846976"; end_line].
Definition no_bitpix_records : list str := [line "SIMPLE" "8"; end_line].
Definition file_of (rs : list str) : str := unit_text rs [].

(** read_header() throws these five exceptions and no others. *)
Theorem C118_header : forall fc e, In e header_exceptions <-> exists fuel s s' h, read_header fc fuel s fresh_header = (s', h, Throw e).
Proof.
  intros fc e. split.
  - intros H. exists 3. cbn in H. destruct H as [<-|[<-|[<-|[<-|[<-|[]]]]]].
    + exists (open_stream (file_of bad_card_records)). eexists _, _. vm_compute. reflexivity.
    + exists (open_stream (file_of bad_value_records)). eexists _, _. vm_compute. reflexivity.
    + exists (open_stream (file_of bad_bitpix_records)). eexists _, _. vm_compute. reflexivity.
    + exists (open_stream (file_of many_axes_records)). eexists _, _. vm_compute. reflexivity.
    + exists (open_stream (file_of no_bitpix_records)). eexists _, _. vm_compute. reflexivity.
  - intros (fuel & s & s' & h & E). apply (read_header_exn fc fuel s fresh_header full_fresh). rewrite E. reflexivity.
Qed.
Print Assumptions C118_header.

(** ** Files *)

Definition bad_format_records : list str := table_records "'BINTABLE'" "6" [("TFIELDS", "1"); ("TFORM1", "'1K'")]%string.
Definition bad_count_records : list str := table_records "'BINTABLE'" "6" [("TFIELDS", "1"); ("TFORM1", "'1PE(7)'")]%string.

(** A file that throws the exception. *)
Definition witness (e : exn) : str :=
  file_of match e with
          | InvalidCard => bad_card_records | InvalidCast => bad_value_records | FitsException => bad_bitpix_records
          | LengthError => many_axes_records | BadGet => no_bitpix_records | OutOfRange => minimal_records
          | InvalidColumnFormat => bad_format_records | _ => bad_count_records
          end.
Lemma witness_throws fc o e : In e file_exceptions -> snd (reading o fc 20 2 (open_fits (witness e))) = Throw e.
Proof. intros H. cbn in H. destruct o; destruct H as [<-|[<-|[<-|[<-|[<-|[<-|[<-|[<-|[]]]]]]]]]; vm_compute; reflexivity. Qed.

(** Reading a file, entirely or only the headers, throws these eight exceptions and no others. *)
Theorem C118_reading : forall fc o e, In e file_exceptions <-> exists hf fuel c f, reading o fc hf fuel (open_fits c) = (f, Throw e).
Proof.
  intros fc o e. split.
  - intros H. exists 20, 2, (witness e). pose proof (witness_throws fc o e H) as W.
    destruct (reading o fc 20 2 (open_fits (witness e))) as [f r]. cbn [snd] in W. subst r. exists f. reflexivity.
  - intros (hf & fuel & c & f & E). apply (only_reading o fc hf fuel (open_fits c)). rewrite E. reflexivity.
Qed.
Print Assumptions C118_reading.

(** Not even when the reader was used before. *)
Theorem C118_reading_again : forall fc o hf fuel f, throws_only file_exceptions (snd (reading o fc hf fuel f)).
Proof. intros fc o. exact (only_reading o fc). Qed.
Print Assumptions C118_reading_again.

(** Opening a file by its path: these, and file_reading_exception exactly for the path that cannot be opened. *)
Theorem C118_open : forall fc hf fuel file o e, fits_open fc hf fuel file o = Throw e ->
  (e = FileReading /\ file = None) \/ (In e file_exceptions /\ file <> None).
Proof. exact open_exn. Qed.
Print Assumptions C118_open.

(** A program that catches fits_exception still lets four exceptions through, each for some file. *)
Theorem C118_fits_handler : forall fc o (instead : ReaderModel.fits) e, In e [OutOfRange; LengthError; BadGet; BadLexicalCast] <->
  exists hf fuel file, catching_fits (fits_open fc hf fuel file o) instead = Throw e.
Proof.
  intros fc o instead e. split.
  - intros H. assert (He : In e file_exceptions) by (cbn in *; tauto). exists 20, 2, (Some (witness e)).
    pose proof (witness_throws fc o e He) as W. unfold fits_open, initialize_path, set_file.
    change (mk_fits (open_stream (witness e)) (f_hdus no_fits) []) with (open_fits (witness e)). unfold reading in W.
    destruct (match o with ReadOnlyHeaders => _ | ReadEntireHdus => _ end) as [f r]. cbn [snd] in W. subst r.
    cbn [catching_fits]. cbn in H. destruct H as [<-|[<-|[<-|[<-|[]]]]]; reflexivity.
  - intros (hf & fuel & file & E). destruct (fits_open fc hf fuel file o) as [f|x| |] eqn:Eo; try discriminate E.
    cbn [catching_fits] in E. destruct (is_fits_exception x) eqn:Ex; [discriminate|]. injection E as <-.
    destruct x; try discriminate Ex; cbn; tauto.
Qed.
Print Assumptions C118_fits_handler.

(** So that handler is not enough: a minimal valid file escapes it. *)
Theorem C118_fits_handler_refuted : forall fc o instead,
  catching_fits (fits_open fc 20 2 (Some (file_of minimal_records)) o) instead = Throw OutOfRange.
Proof. intros fc o instead. destruct o; vm_compute; reflexivity. Qed.
Print Assumptions C118_fits_handler_refuted.

(** ** Columns *)

(** Asking for a column: bad_get exactly for a second request with another type, column_not_found_exception exactly for a name the
    table does not have. *)
Theorem C118_get_column : forall (V T : Type) (teqb : T -> T -> bool) k ty name (st : store V T) e,
  snd (get_column teqb k ty name st) = Throw e ->
  exists o, obj_at st k = Ret o /\
  ((e = BadGet /\ exists ty' v, map_find name (o_views o) = Some (ty', v) /\ teqb ty ty' = false) \/
   (e = ColumnNotFound /\ map_find name (o_views o) = None /\ forall c, In c (t_columns (o_table o)) -> c_name c <> name)).
Proof. exact @get_column_exn. Qed.
Print Assumptions C118_get_column.

(** Reading and assigning an element of a column of a binary table. *)
Theorem C118_binary_element : forall k ty name i x st e,
  snd (column_read bin_coltype_eqb bin_decode k ty name i st) = Throw e \/
  snd (column_assign bin_coltype_eqb bin_decode bin_encode k ty name i x st) = Throw e ->
  snd (get_column bin_coltype_eqb k ty name st) = Throw e \/ (e = BadLexicalCast /\ ty = (EByte, false)).
Proof.
  intros k ty name i x st e [H|H]; [apply column_read_exn in H|apply column_assign_exn in H]; (destruct H as [H|(s & n & H)]; [left; exact H|right]);
    apply bin_decode_exn in H; tauto.
Qed.
Print Assumptions C118_binary_element.

(** The same for an ASCII table; what is thrown there is a fits_exception or bad_get. *)
Theorem C118_ascii_element : forall (teqb : ascii_coltype -> ascii_coltype -> bool) fc k ty name i x st e,
  snd (column_read teqb (ascii_decode fc) k ty name i st) = Throw e \/
  snd (column_assign teqb (ascii_decode fc) (ascii_encode fc) k ty name i x st) = Throw e ->
  snd (get_column teqb k ty name st) = Throw e \/ e = InvalidCast.
Proof.
  intros teqb fc k ty name i x st e [H|H]; [apply column_read_exn in H|apply column_assign_exn in H]; (destruct H as [H|(s & n & H)]; [left; exact H|right]);
    apply ascii_decode_exn in H; exact H.
Qed.
Print Assumptions C118_ascii_element.

(** A byte that is a blank is trimmed away and cannot be read as an element. *)
Definition one_byte : store (list elem) bin_coltype :=
  [Some (mk_tobj (mk_table fresh_header 1 [mk_column 1 (lit "B") 0 (lit "1B") [] None None [] [] [] 1] [[[]]]) [])].
Example C118_column_case :
  snd (column_read bin_coltype_eqb bin_decode 0 (EByte, false) (lit "B") 0 one_byte) = Throw BadLexicalCast /\
  snd (column_read bin_coltype_eqb bin_decode 0 (EByte, false) (lit "C") 0 one_byte) = Throw ColumnNotFound /\
  snd (column_read bin_coltype_eqb bin_decode 0 (EByte, true) (lit "B") 0
         (fst (get_column bin_coltype_eqb 0 (EByte, false) (lit "B") one_byte))) = Throw BadGet.
Proof. vm_compute. auto. Qed.

(** ** Writing *)

(** Whatever files were opened and read before, and however that ended, writing what the reader holds throws nothing. *)
Theorem C118_writing : forall fc f creatable, used fc f -> snd (write_to_path creatable f) = Ret tt.
Proof. exact used_write. Qed.
Print Assumptions C118_writing.

(** A reader that has read a file with three HDUs, was refused a path, and then failed on another file. *)
Definition history : ReaderModel.fits :=
  fst (reading ReadEntireHdus fc0 20 2 (fst (initialize_path (Some (witness LengthError)) (fst (initialize_path None
    (fst (reading ReadEntireHdus fc0 20 4 (fst (initialize_path (Some three_file) no_fits))))))))).
Example C118_writing_case : used fc0 history /\ length (f_hdus history) = 3 /\
  snd (reading ReadEntireHdus fc0 20 2 (fst (initialize_path (Some (witness LengthError)) no_fits))) = Throw LengthError.
Proof.
  split; [unfold history; apply used_read, used_open, used_open, used_read, used_open, used_new|]. split; vm_compute; reflexivity.
Qed.
