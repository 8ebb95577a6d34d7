(** * Property theorems about tables (C29 - C32, C58, C59, C80). *)
From Verif Require Import TableAgain.

Definition fc0 : fcodec :=
  {| f32_show := show_N; f32_read := cast_unsigned 32; f64_show := show_N; f64_read := cast_unsigned 64 |}.

(** ** Files for the examples *)
Definition line (k v : string) : str := record (lit k) (lit v) [].
Definition table_file (kind width rows : string) (cols : list (string * string)) : str :=
  concat ([line "XTENSION" kind; line "BITPIX" "8"; line "NAXIS" "2"; line "NAXIS1" width; line "NAXIS2" rows;
           line "PCOUNT" "0"; line "GCOUNT" "1"; line "EXTNAME" "'X'"] ++
          map (fun p => line (fst p) (snd p)) cols ++ [lit "END" ++ spaces 77]).
Definition table_header (f : str) : header := snd (fst (read_header fc0 40 (open_stream f) fresh_header)).

Lemma table_reached f s : read_header fc0 40 (open_stream f) fresh_header = (s, table_header f, Ret tt) -> reached fc0 (table_header f).
Proof. intros H. eapply reached_read; [|exact H]. reflexivity. Qed.

Lemma header_value_calc t h key v :
  match last_record key (map raw (h_cards h)) with Some r => text_value fc0 t r | None => Undef end = Ret v -> header_value fc0 t h key v.
Proof. unfold header_value. destruct (last_record key (map raw (h_cards h))) as [r|]; [|discriminate]. intros H. exists r. auto. Qed.

(** A 32-bit integer and two characters per row, two rows. *)
Definition bin_file (width : string) : str := table_file "'BINTABLE'" width "2"
  [("TFIELDS", "2"); ("TFORM1", "'1J'"); ("TTYPE1", "'N'"); ("TFORM2", "'2A'"); ("TTYPE2", "'NAME'"); ("TUNIT2", "'m'")]%string.
Definition bin_header : header := table_header (bin_file "6").
Definition byte (n : N) : ascii := ascii_of_N n.
Definition bin_bytes : str := map byte [0; 0; 1; 7]%N ++ lit "ab" ++ map byte [1; 2; 3; 4]%N ++ lit "c ".

Example bin_reached : reached fc0 bin_header.
Proof. eapply table_reached. vm_compute. reflexivity. Qed.

Definition cells_of (o : outcome table) : list (list str) := match o with Ret t => t_data t | _ => [] end.

Example bin_constructed : exists t, binary_table fc0 bin_header bin_bytes = Ret t /\
  t_data t = [[map byte [0; 0; 1; 7]%N; lit "ab"]; [map byte [1; 2; 3; 4]%N; lit "c"]].
Proof. eexists. vm_compute. split; reflexivity. Qed.

(** A ten character text and a four character integer, contiguous. *)
Definition ascii_file (second : string) (width : string) : str := table_file "'TABLE'" width "2"
  [("TFIELDS", "2"); ("TFORM1", "'A3'"); ("TBCOL1", "1"); ("TFORM2", "'I4'"); ("TBCOL2", second)]%string.
Definition ascii_header : header := table_header (ascii_file "4" "7").

Example ascii_reached : reached fc0 ascii_header.
Proof. eapply table_reached. vm_compute. reflexivity. Qed.

Example ascii_constructed : exists t, ascii_table fc0 ascii_header (lit "abc  12 d  -7 ") = Ret t /\
  t_data t = [[lit "abc"; lit "12"]; [lit "d"; lit "-7"]].
Proof. eexists. vm_compute. split; reflexivity. Qed.

(** ** C29 *)

Theorem C29_cells : forall fc h buf t, reached fc h -> binary_table fc h buf = Ret t -> buf <> [] ->
  exists rows ws, layout bin_column_size fc h ws /\ nth_error (h_naxis h) 1 = Some rows /\
    length (t_data t) = N.to_nat rows /\
    forall r row, nth_error (t_data t) r = Some row ->
      length row = length ws /\
      forall c w, nth_error ws c = Some w ->
        packed ws r c + w <= length buf /\
        nth_error row c = Some (trim (slice buf (packed ws r c) w)).
Proof. exact binary_cells. Qed.
Print Assumptions C29_cells.

(** The width of a column: repeat count times the bytes of the type. *)
Theorem C29_column_width : forall form n letter k,
  bin_form form n letter -> In (String letter EmptyString, k) fits_type_bytes ->
  (n * N.of_nat k < 2 ^ 64)%N -> bin_column_size form = Ret (n * N.of_nat k)%N.
Proof. exact bin_form_width. Qed.
Print Assumptions C29_column_width.

Example C29_width_case : bin_form (lit "'12J '") 12 "J"%char /\ bin_column_size (lit "'12J '") = Ret 48%N.
Proof.
  split; [|reflexivity]. exists (lit "12"). split; [|split; [|reflexivity]].
  - intros c [<-|[<-|[]]]; cbn; lia.
  - exists (lit "'"), (lit " '"). split; [reflexivity|]. intros c [<-|[<-|[<-|[]]]]; auto.
Qed.

(** The buffer has to hold all rows. *)
Theorem C29_needs_all_rows : forall fc h t0 buf rows ws,
  reached fc h -> binary_table fc h [] = Ret t0 -> buf <> [] ->
  layout bin_column_size fc h ws -> nth_error (h_naxis h) 1 = Some rows -> (0 < rows < 2 ^ 31)%N -> ws <> [] ->
  (N.to_nat rows * total ws <= length buf ->
     exists t, binary_table fc h buf = Ret t /\ t_columns t = t_columns t0 /\ t_header t = t_header t0) /\
  (length buf < N.to_nat rows * total ws -> binary_table fc h buf = Undef).
Proof. exact binary_success. Qed.
Print Assumptions C29_needs_all_rows.

Example C29_needs_case : binary_table fc0 bin_header [] <> Undef /\
  binary_table fc0 bin_header (firstn 11 bin_bytes) = Undef /\ length bin_bytes = 12.
Proof. vm_compute. split; [discriminate|auto]. Qed.

(** The rows do not begin at multiples of NAXIS1 if that differs from the sum of the widths. *)
Theorem C29_row_stride_refuted :
  exists h buf t, reached fc0 h /\ h_naxis h = [8; 2]%N /\ binary_table fc0 h buf = Ret t /\ length buf = 16 /\
    map (fun row => nth 1 row []) (t_data t) = [lit "ab"; lit "cd"] /\
    slice buf 4 2 = lit "ab" /\ slice buf (8 + 4) 2 = lit "ef".
Proof.
  exists (table_header (bin_file "8")), (lit "----ab----cdef++"). eexists. split.
  - eapply table_reached. vm_compute. reflexivity.
  - vm_compute. repeat (split; [reflexivity|]). reflexivity.
Qed.
Print Assumptions C29_row_stride_refuted.

(** Bit columns take a byte per bit, 64-bit integers and variable length arrays with a maximum are refused. *)
Theorem C29_other_formats :
  bin_column_size (lit "'16X'") = Ret 16%N /\
  bin_column_size (lit "'1K'") = Throw InvalidColumnFormat /\
  bin_column_size (lit "'1PE(7)'") = Throw BadLexicalCast /\
  bin_column_size (lit "'-1J'") = Ret (2 ^ 64 - 4)%N.
Proof. vm_compute. auto. Qed.
Print Assumptions C29_other_formats.

(** ** C30 *)

Theorem C30_written_data : forall fc h buf t, reached fc h -> binary_table fc h buf = Ret t -> buf <> [] ->
  exists rows ws, layout bin_column_size fc h ws /\ nth_error (h_naxis h) 1 = Some rows /\
    concat (map bin_row_text (t_data t)) = concat (map trim (fields ws (N.to_nat rows) buf)) /\
    concat (fields ws (N.to_nat rows) buf) = firstn (N.to_nat rows * total ws) buf /\
    (concat (map bin_row_text (t_data t)) = firstn (N.to_nat rows * total ws) buf <->
     Forall (fun s => ~ has_outer_space s) (fields ws (N.to_nat rows) buf)).
Proof. exact binary_write_back. Qed.
Print Assumptions C30_written_data.

Theorem C30_written_file : forall t s, appending s ->
  (N.of_nat (before_padding s (t_header t) (concat (map bin_row_text (t_data t)))) < 2 ^ 63)%N ->
  content (bin_write t s) = content (write_header (t_header t) s) ++ concat (map bin_row_text (t_data t)) ++
    spaces (pad_len (length (content (write_header (t_header t) s)) + length (concat (map bin_row_text (t_data t))))).
Proof. exact bin_write_text. Qed.
Print Assumptions C30_written_file.

(** The second row of the example loses a byte. *)
Theorem C30_write_back_refuted :
  exists t, binary_table fc0 bin_header bin_bytes = Ret t /\ length bin_bytes = 12 /\
    concat (map bin_row_text (t_data t)) = firstn 11 bin_bytes.
Proof. eexists. vm_compute. auto. Qed.
Print Assumptions C30_write_back_refuted.

Example C30_case : exists t, binary_table fc0 bin_header (lit "----ab----cd") = Ret t /\
  concat (map bin_row_text (t_data t)) = lit "----ab----cd".
Proof. eexists. vm_compute. auto. Qed.

(** ** C31 *)

Theorem C31_cells : forall fc h buf t, reached fc h -> ascii_table fc h buf = Ret t -> buf <> [] ->
  exists n width rows, header_number fc h (lit "TFIELDS") n /\
    nth_error (h_naxis h) 0 = Some width /\ nth_error (h_naxis h) 1 = Some rows /\
    length (t_data t) = N.to_nat rows /\
    ((rows * width < two64)%N ->
     forall r row, nth_error (t_data t) r = Some row ->
       length row = N.to_nat n /\
       forall c, c < N.to_nat n -> exists f start w,
         header_text fc h (numbered "TFORM" (S c)) f /\ ascii_column_size f = Ret (N.of_nat w) /\
         header_number fc h (numbered "TBCOL" (S c)) start /\
         (1 <= N.of_nat r * width + start)%N /\
         (N.of_nat r * width + start - 1 + N.of_nat w <= N.of_nat (length buf))%N /\
         nth_error row c = Some (trim (slice buf (N.to_nat (N.of_nat r * width + start - 1)) w))).
Proof. exact ascii_cells. Qed.
Print Assumptions C31_cells.

Theorem C31_column_width : forall form letter w,
  ascii_form form letter w -> is_form_blank letter = false -> letter <> "."%char ->
  (w < two64)%N -> (N.of_nat (length form) < two64)%N -> ascii_column_size form = Ret w.
Proof. exact ascii_form_width. Qed.
Print Assumptions C31_column_width.

Example C31_width_case : ascii_form (lit "'F12.3'") "F"%char 12 /\ ascii_column_size (lit "'F12.3'") = Ret 12%N.
Proof.
  split; [|reflexivity]. exists (lit "12"), (lit ".3"). split; [intros c [<-|[<-|[]]]; cbn; lia|].
  split; [discriminate|]. split; [reflexivity|]. split.
  - exists (lit "'"), (lit "'"). split; [reflexivity|]. intros c [<-|[<-|[]]]; auto.
  - right. exists (lit "3"). split; [reflexivity|]. split; [discriminate|]. intros c [<-|[]]; cbn; lia.
Qed.

(** ** C32 *)

Theorem C32_roundtrip : forall fc h buf0 t0 ws rows data s,
  reached fc h -> ascii_table fc h buf0 = Ret t0 -> layout ascii_column_size fc h ws ->
  nth_error (h_naxis h) 0 = Some (N.of_nat (total ws)) -> nth_error (h_naxis h) 1 = Some rows ->
  (forall c, c < length ws -> header_number fc h (numbered "TBCOL" (S c)) (1 + N.of_nat (total (firstn c ws)))) ->
  Forall (fun w => 0 < w) ws -> ws <> [] -> (0 < rows < 2 ^ 31)%N ->
  length data = N.to_nat rows -> Forall (fitting ws) data ->
  appending s -> (N.of_nat (before_padding s h (concat (map (justified ws) data))) < 2 ^ 63)%N ->
  let d := concat (map (justified ws) data) in
  exists s', ascii_write (with_cells t0 data) s = (s', Ret tt) /\
    content s' = content (write_header h s) ++ d ++ spaces (pad_len (length (content (write_header h s)) + length d)) /\
    length d = N.to_nat rows * total ws /\
    exists t1, ascii_table fc h d = Ret t1 /\ t_data t1 = data /\ t_columns t1 = t_columns t0.
Proof. exact ascii_roundtrip. Qed.
Print Assumptions C32_roundtrip.

Theorem C32_over_wide_cell : forall fc h buf0 t0 ws data s,
  reached fc h -> ascii_table fc h buf0 = Ret t0 -> layout ascii_column_size fc h ws ->
  Forall (fun row => length row <= length ws) data ->
  Forall (Forall (fun x => (N.of_nat (length x) <= max_size)%N)) data ->
  (exists row, In row data /\ exists j w x, nth_error ws j = Some w /\ nth_error row j = Some x /\ w < length x) ->
  snd (ascii_write (with_cells t0 data) s) = Throw LengthError.
Proof. exact ascii_over_wide. Qed.
Print Assumptions C32_over_wide_cell.

Example C32_case : layout ascii_column_size fc0 ascii_header [3; 4] /\ h_naxis ascii_header = [7; 2]%N /\
  header_number fc0 ascii_header (numbered "TBCOL" 1) 1 /\ header_number fc0 ascii_header (numbered "TBCOL" 2) 4 /\
  Forall (fitting [3; 4]) [[lit "x y"; lit "7"]; [[]; lit "-123"]].
Proof.
  split; [|split; [reflexivity|split; [|split]]].
  - split; [apply header_value_calc; vm_compute; reflexivity|].
    intros [|[|[|c]]] w H; cbn in H; try discriminate; injection H as <-.
    + exists (lit "A3"). split; [apply header_value_calc; vm_compute; reflexivity|reflexivity].
    + exists (lit "I4"). split; [apply header_value_calc; vm_compute; reflexivity|reflexivity].
  - apply header_value_calc; vm_compute; reflexivity.
  - apply header_value_calc; vm_compute; reflexivity.
  - assert (T : forall s, trim s = s -> ~ has_outer_space s) by (intros s; apply trim_fixed).
    repeat constructor; try (apply T; reflexivity); cbn; lia.
Qed.

(** With a gap between the columns what is written is not read back. *)
Definition built (o : outcome table) : table := match o with Ret t => t | _ => mk_table fresh_header 0 [] [] end.
Definition gap_header : header := table_header (ascii_file "5" "8").
Definition gap_table : table := built (ascii_table fc0 gap_header (lit "abc 1234d     -7")).
Definition gap_again : table :=
  built (ascii_table fc0 gap_header (slice (content (fst (ascii_write gap_table create_stream))) 2880 16)).

Theorem C32_gap_refuted :
  reached fc0 gap_header /\ ascii_table fc0 gap_header (lit "abc 1234d     -7") = Ret gap_table /\
  snd (ascii_write gap_table create_stream) = Ret tt /\
  t_data gap_table = [[lit "abc"; lit "1234"]; [lit "d"; lit "-7"]] /\
  t_data gap_again = [[lit "abc"; lit "234"]; [lit "d"; lit "-7"]].
Proof.
  split; [eapply table_reached; vm_compute; reflexivity|].
  split; [vm_compute; reflexivity|]. split; [vm_compute; reflexivity|]. split; vm_compute; reflexivity.
Qed.
Print Assumptions C32_gap_refuted.

(** ** C58 *)

Theorem C58_single : forall t s, ~ In t [EBool; EI8] -> length s = elem_size t ->
  (bin_deserialize t (trim s) = bin_deserialize t s <-> ~ has_outer_space s).
Proof. exact trim_single. Qed.
Print Assumptions C58_single.

Theorem C58_vector : forall t s n, In t [EByte; EI16; EI32; EF32; EF64; EC32; EC64] -> 1 <= n ->
  length s = n * elem_size t ->
  (bin_deserialize_vec t (trim s) n = bin_deserialize_vec t s n <-> ~ has_outer_space s).
Proof. exact trim_vector. Qed.
Print Assumptions C58_vector.

Theorem C58_out_of_bounds : forall t s, In t [EI16; EI32; EF32; EF64; EC32; EC64; EPair] -> length s = elem_size t ->
  length (trim s) + 1 < length s -> bin_deserialize t (trim s) = Undef.
Proof. exact trim_undefined. Qed.
Print Assumptions C58_out_of_bounds.
Example C58_case : let s := map ascii_of_N [1; 2; 3; 4]%N in let r := map ascii_of_N [32; 32; 32; 4]%N in
  length s = elem_size EI32 /\ trim s = s /\ length r = elem_size EI32 /\ length (trim r) + 1 < length r.
Proof. vm_compute. repeat split; lia. Qed.

(** The integers 32 and 2^29 are read from a table as 0, 8224 is undefined. *)
Theorem C58_integer_cell_refuted :
  bin_deserialize EI32 (bin_serialize EI32 (XNum 32)) = Ret (XNum 32) /\
  bin_deserialize EI32 (trim (bin_serialize EI32 (XNum 32))) = Ret (XNum 0) /\
  bin_deserialize EI32 (trim (bin_serialize EI32 (XNum (2 ^ 29)))) = Ret (XNum 0) /\
  bin_deserialize EI32 (trim (bin_serialize EI32 (XNum 8224))) = Undef /\
  bin_deserialize EByte (trim (bin_serialize EByte (XNum 32))) = Throw BadLexicalCast.
Proof. vm_compute. auto. Qed.
Print Assumptions C58_integer_cell_refuted.

(** ** C59 *)

Theorem C59_binary_columns : forall fc h buf t, reached fc h -> binary_table fc h buf = Ret t ->
  exists ws, layout bin_column_size fc h ws /\ length (t_columns t) = length ws /\
    forall j c, nth_error (t_columns t) j = Some c ->
      described fc h (S j) c /\ bin_element_count (c_format c) = Ret (c_elements c) /\
      c_start c = (N.of_nat (total (firstn j ws)) mod two64)%N.
Proof. exact binary_columns. Qed.
Print Assumptions C59_binary_columns.

Theorem C59_ascii_columns : forall fc h buf t, reached fc h -> ascii_table fc h buf = Ret t ->
  exists n, header_number fc h (lit "TFIELDS") n /\ length (t_columns t) = N.to_nat n /\
    forall j c, nth_error (t_columns t) j = Some c ->
      described fc h (S j) c /\ header_number fc h (numbered "TBCOL" (S j)) (c_start c).
Proof. exact ascii_columns_described. Qed.
Print Assumptions C59_ascii_columns.

Theorem C59_repeat_count : forall form n letter,
  bin_form form n letter -> is_form_blank letter = false -> (n < 2 ^ 64)%N -> bin_element_count form = Ret n.
Proof. exact bin_form_count. Qed.
Print Assumptions C59_repeat_count.

Theorem C59_lookup_by_name : forall name t,
  match get_column_metadata name t with
  | Ret c => exists a b, t_columns t = a ++ c :: b /\ c_name c = name /\ forall x, In x a -> c_name x <> name
  | Throw e => e = ColumnNotFound /\ forall x, In x (t_columns t) -> c_name x <> name
  | _ => False
  end.
Proof. exact column_lookup. Qed.
Print Assumptions C59_lookup_by_name.

Example C59_case : map (fun c => (c_index c, c_name c, c_unit c, c_start c, c_elements c))
    (t_columns (built (binary_table fc0 bin_header bin_bytes))) =
  [(1, lit "N", [], 0%N, 1%N); (2, lit "NAME", lit "m", 4%N, 2%N)].
Proof. vm_compute. reflexivity. Qed.

(** A column cannot have the name of a keyword that was read before as another type. *)
Definition clash_file (name : string) : str := table_file "'BINTABLE'" "4" "1"
  [("TFIELDS", "1"); ("TFORM1", "'1J'"); ("TTYPE1", name)]%string.
Theorem C59_column_name_refuted :
  reached fc0 (table_header (clash_file "'TFIELDS'")) /\
  binary_table fc0 (table_header (clash_file "'TFIELDS'")) [] = Throw BadGet /\
  binary_table fc0 (table_header (clash_file "'NAXIS1'")) [] = Throw BadGet /\
  binary_table fc0 (table_header (clash_file "'OTHER'")) [] =
    Ret (built (binary_table fc0 (table_header (clash_file "'OTHER'")) [])).
Proof.
  split; [eapply table_reached; vm_compute; reflexivity|].
  split; [vm_compute; reflexivity|]. split; vm_compute; reflexivity.
Qed.
Print Assumptions C59_column_name_refuted.

(** ** C80 *)

Theorem C80_binary_new_data : forall fc h buf0 t cells buf, binary_table fc h buf0 = Ret t -> buf <> [] ->
  bin_set_data fc buf (with_cells t cells) = binary_table fc h buf.
Proof. intros fc h buf0 t cells buf H N. rewrite (bin_set_data_again _ _ _ _ _ _ H). destruct buf; [destruct (N eq_refl)|reflexivity]. Qed.
Print Assumptions C80_binary_new_data.

Theorem C80_ascii_new_data : forall fc h buf0 t cells buf, ascii_table fc h buf0 = Ret t -> buf <> [] ->
  ascii_set_data fc buf (with_cells t cells) = ascii_table fc h buf.
Proof. intros fc h buf0 t cells buf H N. rewrite (ascii_set_data_again _ _ _ _ _ _ H). destruct buf; [destruct (N eq_refl)|reflexivity]. Qed.
Print Assumptions C80_ascii_new_data.

Theorem C80_no_data_keeps_table : forall fc h buf0 t cells,
  (binary_table fc h buf0 = Ret t -> bin_set_data fc [] (with_cells t cells) = Ret (with_cells t cells)) /\
  (ascii_table fc h buf0 = Ret t -> ascii_set_data fc [] (with_cells t cells) = Ret (with_cells t cells)).
Proof.
  intros fc h buf0 t cells. split; intros H; [exact (bin_set_data_again _ _ _ _ _ [] H)|exact (ascii_set_data_again _ _ _ _ _ [] H)].
Qed.
Print Assumptions C80_no_data_keeps_table.

(** A new table without data has no rows; a table that had rows keeps them. *)
Theorem C80_no_data_refuted : exists t, binary_table fc0 bin_header bin_bytes = Ret t /\
  cells_of (bin_set_data fc0 [] t) <> cells_of (binary_table fc0 bin_header []) /\
  cells_of (binary_table fc0 bin_header []) = [] /\ length (cells_of (bin_set_data fc0 [] t)) = 2.
Proof. eexists. split; [vm_compute; reflexivity|]. split; [vm_compute; discriminate|]. vm_compute. auto. Qed.
Print Assumptions C80_no_data_refuted.

Example C80_case :
  cells_of (bin_set_data fc0 (lit "1234ab5678 d") (built (binary_table fc0 bin_header bin_bytes))) =
    [[lit "1234"; lit "ab"]; [lit "5678"; lit "d"]] /\
  bin_set_data fc0 (lit "1234ab5678") (built (binary_table fc0 bin_header bin_bytes)) = Undef /\
  cells_of (ascii_set_data fc0 (lit "x   1 y   2  ") (built (ascii_table fc0 ascii_header (lit "abc  12 d  -7 ")))) = [] /\
  cells_of (ascii_set_data fc0 (lit "x   1 y   2   ") (built (ascii_table fc0 ascii_header (lit "abc  12 d  -7 ")))) <> [].
Proof. vm_compute. repeat split; discriminate. Qed.
