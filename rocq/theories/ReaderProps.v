(** * Property theorems about whole files (C20 - C22, C62 - C68, C81, C82). *)
From Verif Require Import ReaderImage.

Definition fc0 : fcodec :=
  {| f32_show := show_N; f32_read := cast_unsigned 32; f64_show := show_N; f64_read := cast_unsigned 64 |}.

(** ** Headers and data for the examples *)
Definition line (k v : string) : str := record (lit k) (lit v) [].
Definition end_line : str := lit "END" ++ spaces 77.
Definition header_of (rs : list str) : header := snd (fst (read_header fc0 40 (open_stream (concat rs)) fresh_header)).

Definition primary_records (bitpix axis : string) (more : list str) : list str :=
  [line "SIMPLE" "T"; line "BITPIX" bitpix; line "NAXIS" "1"; line "NAXIS1" axis] ++ more ++ [end_line].
Definition with_extend : list str := [line "EXTEND" "T"].
Definition table_records (kind width : string) (cols : list (string * string)) : list str :=
  [line "XTENSION" kind; line "BITPIX" "8"; line "NAXIS" "2"; line "NAXIS1" width; line "NAXIS2" "2";
   line "PCOUNT" "0"; line "GCOUNT" "1"; line "EXTNAME" "'X'"] ++ map (fun p => line (fst p) (snd p)) cols ++ [end_line].

Definition prim_records : list str := primary_records "16" "3" with_extend.
Definition bint_records : list str := table_records "'BINTABLE'" "6" [("TFIELDS", "2"); ("TFORM1", "'1J'"); ("TFORM2", "'2A'")]%string.
Definition asct_records : list str := table_records "'TABLE'" "7"
  [("TFIELDS", "2"); ("TFORM1", "'A3'"); ("TBCOL1", "1"); ("TFORM2", "'I4'"); ("TBCOL2", "4")]%string.
Definition prim : header := header_of prim_records.
Definition bint : header := header_of bint_records.
Definition asct : header := header_of asct_records.
Definition prim_data : str := map ascii_of_N [0; 1; 2; 3; 255; 254]%N.
Definition bint_data : str := map ascii_of_N [0; 0; 1; 7]%N ++ lit "ab" ++ map ascii_of_N [1; 2; 3; 4]%N ++ lit "cd".
Definition asct_data : str := lit "abc  12d    -7".
Definition three : list (header * str) := [(prim, prim_data); (bint, bint_data); (asct, asct_data)].
Definition three_file : str := concat (map (fun hd => unit_text (map raw (h_cards (fst hd))) (snd hd)) three).

Definition built (h : header) (d : str) : option (str * hdu) :=
  match get_hdu_name fc0 h with
  | (h1, Ret name) => match construct_hdu fc0 h1 d with Ret x => Some (name, x) | _ => None end
  | _ => None
  end.
Lemma built_becomes h d name x : built h d = Some (name, x) -> becomes fc0 h d name x.
Proof.
  unfold built, becomes. destruct (get_hdu_name fc0 h) as [h1 [n| | |]]; try discriminate.
  destruct (construct_hdu fc0 h1 d) as [y| | |] eqn:E; try discriminate. intros H. exists h1.
  assert (n = name) by congruence. assert (y = x) by congruence. subst. auto.
Qed.
Definition object (h : header) (d : str) : hdu := match built h d with Some (_, x) => x | None => HBlank end.

(** A header can be read from its records. *)
Definition read_ok (rs : list str) : bool :=
  match read_header fc0 40 (open_stream (concat rs)) fresh_header with
  | (_, h, Ret _) => (header_bytes h <=? length (concat rs))%nat
  | _ => false
  end.
Lemma readable_calc rs : read_ok rs = true -> exists c p, readable fc0 c p (header_of rs).
Proof.
  unfold read_ok, header_of. intros H. exists (concat rs), 0. split.
  - exists 40. change (positioned (concat rs) 0) with (open_stream (concat rs)).
    destruct (read_header fc0 40 (open_stream (concat rs)) fresh_header) as [[s h] [[]| | |]]; try discriminate. eauto.
  - destruct (read_header fc0 40 (open_stream (concat rs)) fresh_header) as [[s h] [[]| | |]]; try discriminate.
    cbn [fst snd]. apply Nat.leb_le in H. exact H.
Qed.

Example three_matching : Forall (fun hd => matching fc0 (fst hd) (snd hd) /\ snd hd <> []) three.
Proof.
  repeat constructor; try discriminate; cbn [fst snd]; try (apply readable_calc; vm_compute; reflexivity).
  - exists B16. vm_compute. auto.
  - exists B8. vm_compute. auto.
  - exists B8. vm_compute. auto.
Qed.

Definition names_of (l : list (header * str)) : list str :=
  map (fun hd => match built (fst hd) (snd hd) with Some (n, _) => n | None => [] end) l.
Definition objects_of (l : list (header * str)) : list hdu := map (fun hd => object (fst hd) (snd hd)) l.

Lemma all_built l : forallb (fun hd => match built (fst hd) (snd hd) with Some _ => true | None => false end) l = true ->
  Forall2 (fun hd nx => becomes fc0 (fst hd) (snd hd) (fst nx) (snd nx)) l (combine (names_of l) (objects_of l)).
Proof.
  induction l as [|[h d] l IH]; intros H; [constructor|]. cbn [forallb fst snd] in H. apply andb_true_iff in H as [H1 H2].
  cbn [names_of objects_of map combine fst snd]. constructor; [|exact (IH H2)]. cbn [fst snd]. apply built_becomes.
  unfold object. destruct (built h d) as [[n x]|]; [reflexivity|discriminate].
Qed.

(** ** C20 *)

(** What is written is read back: the same headers and data at the places where they were put. *)
Theorem C20_written_units_are_read : forall fc l names xs,
  Forall (fun hd => matching fc (fst hd) (snd hd) /\ snd hd <> []) l ->
  let c := concat (map (fun hd => unit_text (map raw (h_cards (fst hd))) (snd hd)) l) in
  small c -> length names = length xs ->
  Forall2 (fun hd nx => becomes fc (fst hd) (snd hd) (fst nx) (snd nx)) l (combine names xs) ->
  units fc c 0 (placed 0 l) /\
  forall hf fuel, Forall (fun hd => length (h_cards (fst hd)) <= hf) l -> length l < fuel ->
  exists s, read_entire_hdus fc hf fuel (open_fits c) = (mk_fits s xs (catalogue 0 (placed 0 l) names []), Ret tt).
Proof. exact written_read. Qed.
Print Assumptions C20_written_units_are_read.

Example C20_written_case :
  names_of three = [lit "primary_hdu"; lit "BINTABLE"; lit "TABLE"] /\
  map (fun u => N.of_nat (u_at u)) (placed 0 three) = [0; 5760; 11520]%N /\
  exists s m, read_entire_hdus fc0 20 4 (open_fits three_file) = (mk_fits s (objects_of three) m, Ret tt).
Proof.
  split; [vm_compute; reflexivity|]. split; [vm_compute; reflexivity|].
  destruct (C20_written_units_are_read fc0 three (names_of three) (objects_of three) three_matching) as [_ H].
  - apply N.ltb_lt. vm_compute. reflexivity.
  - reflexivity.
  - apply all_built. vm_compute. reflexivity.
  - destruct (H 20 4) as (s & E).
    + repeat constructor; apply Nat.leb_le; vm_compute; reflexivity.
    + cbn. lia.
    + eexists _, _. exact E.
Qed.

(** The file write_to() makes, for any list of HDU objects. *)
Theorem C20_written_text : forall l xs st info, Forall2 (fun x rd => written_as x (fst rd) (snd rd)) xs l ->
  (N.of_nat (length (concat (map (fun rd => unit_text (fst rd) (snd rd)) l))) < 2 ^ 62)%N ->
  write_to (mk_fits st xs info) = (concat (map (fun rd => unit_text (fst rd) (snd rd)) l), Ret tt).
Proof. exact write_to_text. Qed.
Print Assumptions C20_written_text.

(** Any file all units of which can be read. *)
Theorem C20_read_units : forall fc c us, units fc c 0 us -> small c -> forall hf fuel names xs,
  Forall (fun u => length (h_cards (u_header u)) <= hf) us -> length us < fuel ->
  Forall2 (fun u nx => becomes fc (u_header u) (u_data u) (fst nx) (snd nx)) us (combine names xs) -> length names = length xs ->
  exists s, read_entire_hdus fc hf fuel (open_fits c) = (mk_fits s xs (catalogue 0 us names []), Ret tt).
Proof. exact read_file. Qed.
Print Assumptions C20_read_units.

(** A unit no HDU can be made of ends the reading; the units before it are there. *)
Theorem C20_bad_unit : forall fc c us q u e0, units_to fc c 0 us q -> unit_in fc c u e0 -> u_at u = q -> small c ->
  forall hf fuel names xs e,
  Forall (fun u => length (h_cards (u_header u)) <= hf) (us ++ [u]) -> length us < fuel ->
  Forall2 (fun u nx => becomes fc (u_header u) (u_data u) (fst nx) (snd nx)) us (combine names xs) -> length names = length xs ->
  fails fc (u_header u) (u_data u) e ->
  exists f1, read_entire_hdus fc hf fuel (open_fits c) = (f1, Throw e) /\ f_hdus f1 = xs.
Proof. exact read_file_fail. Qed.
Print Assumptions C20_bad_unit.

(** Read, edit, write, read: every object that belongs in the place of its unit comes back. *)
Theorem C20_rewritten : forall fc c us names xs info st,
  units fc c 0 us -> (N.of_nat (length c) < 2 ^ 61)%N -> Forall (fun u => u_data u <> []) us ->
  length names = length xs -> Forall2 (fun u nx => belongs fc u (fst nx) (snd nx)) us (combine names xs) ->
  exists c', write_to (mk_fits st xs info) = (c', Ret tt) /\
    forall hf fuel, Forall (fun u => length (h_cards (u_header u)) <= hf) us -> length us < fuel ->
    exists s, read_entire_hdus fc hf fuel (open_fits c') = (mk_fits s xs (catalogue 0 us names []), Ret tt).
Proof. exact rewritten. Qed.
Print Assumptions C20_rewritten.

(** Which objects do: images of more than 8 bits, as read or with other pixels; *)
Theorem C20_primary_unedited : forall fc u name p, reached fc (u_header u) -> matching fc (u_header u) (u_data u) ->
  becomes fc (u_header u) (u_data u) name (HPrimary p) -> p_kind p <> B8 -> u_data u <> [] ->
  written_as (HPrimary p) (map raw (h_cards (u_header u))) (u_data u) /\ belongs fc u name (HPrimary p).
Proof. exact primary_unedited. Qed.
Print Assumptions C20_primary_unedited.

Theorem C20_primary_edited : forall fc u name p l, reached fc (u_header u) -> becomes fc (u_header u) (u_data u) name (HPrimary p) ->
  p_kind p <> B8 -> u_data u <> [] -> l <> [] -> Forall (fun w => (w < 256 ^ element_size (p_kind p))%N) l ->
  length l * N.to_nat (element_size (p_kind p)) = length (u_data u) ->
  belongs fc u name (HPrimary (with_pixels p l)).
Proof. exact primary_belongs. Qed.
Print Assumptions C20_primary_edited.

(** binary tables whose fields are without outer whitespace; *)
Theorem C20_binary_unedited : forall fc u name t ws rows, reached fc (u_header u) ->
  becomes fc (u_header u) (u_data u) name (HBinary t) ->
  layout bin_column_size fc (u_header u) ws -> nth_error (h_naxis (u_header u)) 1 = Some rows ->
  u_data u <> [] -> length (u_data u) = N.to_nat rows * total ws ->
  Forall (fun s => ~ has_outer_space s) (fields ws (N.to_nat rows) (u_data u)) ->
  written_as (HBinary t) (map raw (h_cards (u_header u))) (u_data u) /\ belongs fc u name (HBinary t).
Proof. exact binary_unedited. Qed.
Print Assumptions C20_binary_unedited.

Theorem C20_binary_edited : forall fc u name t ws rows data, reached fc (u_header u) ->
  becomes fc (u_header u) (u_data u) name (HBinary t) ->
  layout bin_column_size fc (u_header u) ws -> nth_error (h_naxis (u_header u)) 1 = Some rows -> (0 < rows < 2 ^ 31)%N ->
  u_data u <> [] -> length (u_data u) = N.to_nat rows * total ws ->
  length data = N.to_nat rows -> Forall (filling ws) data ->
  belongs fc u name (HBinary (with_cells t data)).
Proof. exact binary_belongs. Qed.
Print Assumptions C20_binary_edited.

(** and ASCII tables without gaps between the columns. *)
Theorem C20_ascii_unedited : forall fc u name t ws rows, reached fc (u_header u) ->
  becomes fc (u_header u) (u_data u) name (HAscii t) ->
  contiguous fc (u_header u) ws rows -> length (u_data u) = N.to_nat rows * total ws ->
  (N.of_nat (length (u_data u) + header_bytes (u_header u)) < 2 ^ 62)%N ->
  Forall (fun r => length r = 80) (map raw (h_cards (u_header u))) ->
  belongs fc u name (HAscii t).
Proof. exact ascii_unedited. Qed.
Print Assumptions C20_ascii_unedited.

Theorem C20_ascii_edited : forall fc u name t ws rows data, reached fc (u_header u) ->
  becomes fc (u_header u) (u_data u) name (HAscii t) ->
  contiguous fc (u_header u) ws rows -> length (u_data u) = N.to_nat rows * total ws ->
  (N.of_nat (length (u_data u) + header_bytes (u_header u)) < 2 ^ 62)%N ->
  Forall (fun r => length r = 80) (map raw (h_cards (u_header u))) ->
  length data = N.to_nat rows -> Forall (fitting ws) data ->
  belongs fc u name (HAscii (with_cells t data)).
Proof. exact ascii_belongs. Qed.
Print Assumptions C20_ascii_edited.

Lemma header_value_calc t h key v :
  match last_record key (map raw (h_cards h)) with Some r => text_value fc0 t r | None => Undef end = Ret v -> header_value fc0 t h key v.
Proof. unfold header_value. destruct (last_record key (map raw (h_cards h))) as [r|]; [|discriminate]. intros H. exists r. auto. Qed.

Lemma header_reached rs : read_ok rs = true -> reached fc0 (header_of rs).
Proof.
  unfold read_ok, header_of. intros H.
  destruct (read_header fc0 40 (open_stream (concat rs)) fresh_header) as [[s h] [[]| | |]] eqn:E; try discriminate.
  eapply reached_read; [|exact E]. reflexivity.
Qed.

(** The three units of the example, the cells of the ASCII table and the pixels replaced. *)
Definition first_unit : file_unit := mk_unit 0 2880 prim prim_data.
Definition third_unit : file_unit := mk_unit (4 * 2880) (5 * 2880) asct asct_data.
Definition the_primary : primary := match object prim prim_data with HPrimary p => p | _ => mk_primary fresh_header B8 empty_image false false end.
Definition the_table : table := match object asct asct_data with HAscii t => t | _ => mk_table fresh_header 0 [] [] end.

Example C20_edited_case :
  becomes fc0 prim prim_data (lit "primary_hdu") (HPrimary the_primary) /\ p_kind the_primary = B16 /\
  pixels (p_image the_primary) = [1; 515; 65534]%N /\
  belongs fc0 first_unit (lit "primary_hdu") (HPrimary (with_pixels the_primary [7; 8; 9]%N)) /\
  becomes fc0 asct asct_data (lit "TABLE") (HAscii the_table) /\
  t_data the_table = [[lit "abc"; lit "12"]; [lit "d"; lit "-7"]] /\
  contiguous fc0 asct [3; 4] 2 /\
  belongs fc0 third_unit (lit "TABLE") (HAscii (with_cells the_table [[lit "x"; lit "1"]; [lit "yy"; lit "2024"]])).
Proof.
  assert (B1 : becomes fc0 prim prim_data (lit "primary_hdu") (HPrimary the_primary)) by (apply built_becomes; vm_compute; reflexivity).
  assert (B2 : becomes fc0 asct asct_data (lit "TABLE") (HAscii the_table)) by (apply built_becomes; vm_compute; reflexivity).
  assert (Co : contiguous fc0 asct [3; 4] 2).
  { unfold contiguous. split; [|split; [vm_compute; reflexivity|split; [vm_compute; reflexivity|split; [|split; [|split; [discriminate|lia]]]]]].
    - split; [apply header_value_calc; vm_compute; reflexivity|]. intros [|[|[|c]]] w H; try discriminate; injection H as <-.
      + exists (lit "A3"). split; [apply header_value_calc; vm_compute; reflexivity|vm_compute; reflexivity].
      + exists (lit "I4"). split; [apply header_value_calc; vm_compute; reflexivity|vm_compute; reflexivity].
    - intros [|[|c]] Hc; cbn [length] in Hc; try lia; apply header_value_calc; vm_compute; reflexivity.
    - repeat constructor. }
  split; [exact B1|]. split; [vm_compute; reflexivity|]. split; [vm_compute; reflexivity|]. split.
  { apply C20_primary_edited; try exact B1; try discriminate.
    - apply header_reached. vm_compute. reflexivity.
    - repeat constructor.
    - vm_compute. reflexivity. }
  split; [exact B2|]. split; [vm_compute; reflexivity|]. split; [exact Co|].
  eapply C20_ascii_edited; try exact B2; try exact Co.
  - apply header_reached. vm_compute. reflexivity.
  - vm_compute. reflexivity.
  - apply N.ltb_lt. vm_compute. reflexivity.
  - apply Forall_forall. intros r Hr. apply Nat.eqb_eq. revert r Hr. apply forallb_forall. vm_compute. reflexivity.
  - reflexivity.
  - repeat constructor; try (apply trim_fixed; reflexivity); cbn; lia.
Qed.

(** ** C21 *)

Theorem C21_same_names_collide : forall fc c us hf fuel names xs, units fc c 0 us -> small c ->
  Forall (fun u => length (h_cards (u_header u)) <= hf) us -> length us < fuel ->
  Forall2 (fun u nx => becomes fc (u_header u) (u_data u) (fst nx) (snd nx)) us (combine names xs) -> length names = length xs ->
  exists f, read_entire_hdus fc hf fuel (open_fits c) = (f, Ret tt) /\ f_hdus f = xs /\
  (exists d, distinct names d /\ total_hdus f = length d) /\
  (forall n j x, last_position n names j -> nth_error xs j = Some x -> hdu_named n f = Ret x) /\
  (forall n, ~ In n names -> hdu_named n f = Throw OutOfRange) /\
  (forall i, hdu_at i f = match nth_error xs i with Some x => Ret x | None => Throw OutOfRange end).
Proof. exact file_control_block. Qed.
Print Assumptions C21_same_names_collide.

(** The name of an HDU is its XTENSION or primary_hdu. *)
Theorem C21_names : forall fc h h1 name, reached fc h -> get_hdu_name fc h = (h1, Ret name) ->
  header_text fc h (lit "XTENSION") name \/
  name = lit "primary_hdu" /\ exists b, header_value fc TBool h (lit "SIMPLE") (VBool b).
Proof. exact hdu_names. Qed.
Print Assumptions C21_names.

(** Two binary tables: two HDUs are counted for three, the first table is only reachable by position. *)
Definition colliding : list (header * str) := [(prim, prim_data); (bint, bint_data); (bint, map ascii_of_N [7; 7; 7; 7]%N ++ lit "xy" ++ map ascii_of_N [1; 2; 3; 4]%N ++ lit "cd")].
Definition colliding_file : str := concat (map (fun hd => unit_text (map raw (h_cards (fst hd))) (snd hd)) colliding).
Example C21_case :
  match read_entire_hdus fc0 20 4 (open_fits colliding_file) with
  | (f, Ret _) => total_hdus f = 2 /\ length (f_hdus f) = 3 /\ hdu_named (lit "BINTABLE") f = hdu_at 2 f /\ hdu_named (lit "TABLE") f = Throw OutOfRange
  | _ => False
  end.
Proof. vm_compute. auto. Qed.

(** ** C22 *)

Theorem C22_truncated_data_never_ends : forall fc c us q h b n name x, units_to fc c 0 us q -> small c -> q < length c -> readable fc c q h ->
  h_bitpix h = Some b -> data_size h <> 0%N -> N.of_nat n = (data_size h * element_size b)%N -> (N.of_nat n < 2 ^ 63)%N ->
  length c < next_block (q + header_bytes h) + n ->
  becomes fc h (filled c (next_block (q + header_bytes h)) n) name x ->
  forall hf fuel names xs,
  Forall (fun u => length (h_cards (u_header u)) <= hf) us -> length (h_cards h) <= hf ->
  Forall2 (fun u nx => becomes fc (u_header u) (u_data u) (fst nx) (snd nx)) us (combine names xs) -> length names = length xs ->
  snd (read_entire_hdus fc hf fuel (open_fits c)) = NoFuel.
Proof. exact truncated_file_forever. Qed.
Print Assumptions C22_truncated_data_never_ends.

(** If no HDU can be made of the incomplete data, the reader throws instead. *)
Theorem C22_truncated_data_throws : forall fc c us q h b n e, units_to fc c 0 us q -> small c -> q < length c -> readable fc c q h ->
  h_bitpix h = Some b -> data_size h <> 0%N -> N.of_nat n = (data_size h * element_size b)%N -> (N.of_nat n < 2 ^ 63)%N ->
  length c < next_block (q + header_bytes h) + n ->
  fails fc h (filled c (next_block (q + header_bytes h)) n) e ->
  forall hf fuel names xs,
  Forall (fun u => length (h_cards (u_header u)) <= hf) us -> length (h_cards h) <= hf -> length us < fuel ->
  Forall2 (fun u nx => becomes fc (u_header u) (u_data u) (fst nx) (snd nx)) us (combine names xs) -> length names = length xs ->
  exists f1, read_entire_hdus fc hf fuel (open_fits c) = (f1, Throw e) /\ f_hdus f1 = xs.
Proof. exact truncated_file_throws. Qed.
Print Assumptions C22_truncated_data_throws.

(** A file that ends after the fourth of six bytes of pixels. *)
Definition cut_file : str := concat prim_records ++ spaces (pad_len (length (concat prim_records))) ++ firstn 4 prim_data.
Lemma readable_here c p h : match read_header fc0 40 (positioned c p) fresh_header with
  | (_, h', Ret _) => Some h' = Some h /\ p + header_bytes h' <= length c | _ => False end -> readable fc0 c p h.
Proof.
  destruct (read_header fc0 40 (positioned c p) fresh_header) as [[s h'] [[]| | |]] eqn:E; try contradiction.
  intros [H1 H2]. injection H1 as ->. split; [|exact H2]. eauto.
Qed.

Example C22_case :
  readable fc0 cut_file 0 prim /\ h_bitpix prim = Some B16 /\ data_size prim = 3%N /\
  exists x, becomes fc0 prim (filled cut_file 2880 6) (lit "primary_hdu") x /\
  forall fuel, snd (read_entire_hdus fc0 20 fuel (open_fits cut_file)) = NoFuel.
Proof.
  assert (R : readable fc0 cut_file 0 prim) by (apply readable_here; vm_compute; split; [reflexivity|repeat constructor]).
  split; [exact R|]. split; [vm_compute; reflexivity|]. split; [vm_compute; reflexivity|].
  exists (object prim (filled cut_file 2880 6)).
  assert (B : becomes fc0 prim (filled cut_file 2880 6) (lit "primary_hdu") (object prim (filled cut_file 2880 6)))
    by (apply built_becomes; vm_compute; reflexivity).
  split; [exact B|]. intros fuel.
  eapply (C22_truncated_data_never_ends fc0 cut_file [] 0 prim B16 6 _ _ (no_unit fc0 cut_file 0)); try exact B; try exact R.
  - apply N.ltb_lt. vm_compute. reflexivity.
  - apply Nat.ltb_lt. vm_compute. reflexivity.
  - vm_compute. reflexivity.
  - vm_compute. discriminate.
  - vm_compute. reflexivity.
  - reflexivity.
  - apply Nat.ltb_lt. vm_compute. reflexivity.
  - constructor.
  - apply Nat.leb_le. vm_compute. reflexivity.
  - instantiate (2 := []). instantiate (1 := []). constructor.
  - reflexivity.
Qed.

(** ** C62 *)

Theorem C62_no_data_last : forall fc l h name x names xs hf fuel,
  Forall (fun hd => matching fc (fst hd) (snd hd) /\ snd hd <> []) l ->
  (exists c p, readable fc c p h) -> data_size h = 0%N -> becomes fc h [] name x ->
  let c := concat (map (fun hd => unit_text (map raw (h_cards (fst hd))) (snd hd)) (l ++ [(h, [])])) in
  small c -> Forall (fun hd => length (h_cards (fst hd)) <= hf) (l ++ [(h, [])]) ->
  Forall2 (fun hd nx => becomes fc (fst hd) (snd hd) (fst nx) (snd nx)) l (combine names xs) -> length names = length xs ->
  snd (read_entire_hdus fc hf fuel (open_fits c)) = NoFuel.
Proof. exact no_data_last. Qed.
Print Assumptions C62_no_data_last.

Theorem C62_next_header_grows : forall fc h h2 pre post h', length pre mod 2880 = 0 ->
  (exists c p, readable fc c p h) -> (exists c p, readable fc c p h2) ->
  let c := pre ++ unit_text (map raw (h_cards h)) [] ++ concat (map raw (h_cards h2)) ++ post in
  readable fc c (next_block (length pre + header_bytes h)) h' ->
  map raw (h_cards h') = repeat (spaces 80) 36 ++ map raw (h_cards h2).
Proof. exact no_data_next. Qed.
Print Assumptions C62_next_header_grows.

(** A primary HDU without axes, alone and before a table. *)
Definition bare_records : list str :=
  [line "SIMPLE" "T"; line "BITPIX" "8"; line "NAXIS" "0"; line "EXTEND" "T"; end_line].
Definition bare : header := header_of bare_records.
Example C62_case :
  becomes fc0 bare [] (lit "primary_hdu") (object bare []) /\
  (forall fuel, snd (read_entire_hdus fc0 20 fuel (open_fits (unit_text bare_records []))) = NoFuel) /\
  match write_to (mk_fits create_stream [object bare []; object asct asct_data] []) with
  | (c, Ret _) =>
      c = unit_text bare_records [] ++ unit_text asct_records (lit "abc  12  d  -7") /\
      match read_header fc0 99 (positioned c 2880) fresh_header with
      | (_, h', Ret _) => map raw (h_cards h') = repeat (spaces 80) 36 ++ map raw (h_cards asct)
      | _ => False
      end
  | _ => False
  end.
Proof.
  assert (B : becomes fc0 bare [] (lit "primary_hdu") (object bare [])) by (apply built_becomes; vm_compute; reflexivity).
  split; [exact B|]. split.
  - intros fuel.
    assert (E : unit_text bare_records [] = concat (map (fun hd => unit_text (map raw (h_cards (fst hd))) (snd hd)) ([] ++ [(bare, [])])))
      by (vm_compute; reflexivity).
    rewrite E. eapply (C62_no_data_last fc0 [] bare _ _ [] [] 20 fuel).
    + constructor.
    + apply readable_calc. vm_compute. reflexivity.
    + vm_compute. reflexivity.
    + exact B.
    + apply N.ltb_lt. vm_compute. reflexivity.
    + repeat constructor.
    + constructor.
    + reflexivity.
  - vm_compute. split; reflexivity.
Qed.

(** ** C63 *)

(** read_only_headers() finds the names and places read_entire_hdus() finds. *)
Theorem C63_same_places : forall fc c us hf fuel names xs, units fc c 0 us -> small c ->
  Forall (fun u => length (h_cards (u_header u)) <= hf) us -> length us < fuel ->
  Forall2 (fun u nx => becomes fc (u_header u) [] (fst nx) (snd nx)) us (combine names xs) -> length names = length xs ->
  exists s, read_only_headers fc hf fuel (open_fits c) = (mk_fits s xs (catalogue 0 us names []), Ret tt).
Proof. exact headers_same_places. Qed.
Print Assumptions C63_same_places.

(** It also ends where the data is cut short. *)
Theorem C63_ends_on_truncated : forall fc c us hf fuel names xs, announced_units fc c 0 us -> small c ->
  Forall (fun u => length (h_cards (u_header u)) <= hf) us -> length us < fuel ->
  Forall2 (fun u nx => becomes fc (u_header u) [] (fst nx) (snd nx)) us (combine names xs) -> length names = length xs ->
  exists s, read_only_headers fc hf fuel (open_fits c) = (mk_fits s xs (catalogue 0 us names []), Ret tt).
Proof. exact headers_truncated. Qed.
Print Assumptions C63_ends_on_truncated.

Example C63_case :
  snd (read_only_headers fc0 20 4 (open_fits three_file)) = Ret tt /\
  f_info (fst (read_only_headers fc0 20 4 (open_fits three_file))) = f_info (fst (read_entire_hdus fc0 20 4 (open_fits three_file))) /\
  snd (read_only_headers fc0 20 2 (open_fits cut_file)) = Ret tt.
Proof. vm_compute. auto. Qed.

Example C63_announced_case : announced_units fc0 cut_file 0 [mk_unit 0 2880 prim []].
Proof.
  apply (announced_next fc0 cut_file (mk_unit 0 2880 prim []) [] (next_block (2880 + 6))).
  - apply (announced_some fc0 cut_file 0 prim B16 6).
    + apply Nat.ltb_lt. vm_compute. reflexivity.
    + apply readable_here. vm_compute. split; [reflexivity|repeat constructor].
    + vm_compute. reflexivity.
    + vm_compute. discriminate.
    + vm_compute. reflexivity.
    + apply N.ltb_lt. vm_compute. reflexivity.
  - constructor. apply Nat.leb_le. vm_compute. reflexivity.
Qed.

(** ** C64 *)

Theorem C64_headers_only_loses_data : forall fc us names xs st info,
  Forall (fun u => reached fc (u_header u)) us -> length names = length xs ->
  Forall2 (fun u nx => becomes fc (u_header u) [] (fst nx) (snd nx)) us (combine names xs) -> ~ In HBlank xs ->
  (N.of_nat (length (concat (map (fun u => unit_text (map raw (h_cards (u_header u))) []) us))) < 2 ^ 62)%N ->
  write_to (mk_fits st xs info) = (concat (map (fun u => unit_text (map raw (h_cards (u_header u))) []) us), Ret tt).
Proof. exact headers_only_written. Qed.
Print Assumptions C64_headers_only_loses_data.

Example C64_case :
  write_to (fst (read_only_headers fc0 20 4 (open_fits three_file)))
  = (unit_text prim_records [] ++ unit_text bint_records [] ++ unit_text asct_records [], Ret tt).
Proof. vm_compute. reflexivity. Qed.

(** ** C65 *)

Theorem C65_unsupported_extension : forall fc h d h1 x, reached fc h -> get_hdu_name fc h = (h1, Ret x) ->
  contains_keyword (lit "SIMPLE") h = false -> x <> lit "TABLE" -> x <> lit "BINTABLE" ->
  becomes fc h d x HBlank.
Proof. exact unsupported_blank. Qed.
Print Assumptions C65_unsupported_extension.

Theorem C65_dropped_on_write : forall st xs info,
  write_to (mk_fits st xs info) =
  write_to (mk_fits st (filter (fun x => match x with HBlank => false | _ => true end) xs) info).
Proof. exact blank_not_written. Qed.
Print Assumptions C65_dropped_on_write.

Definition imag_records : list str :=
  [line "XTENSION" "'IMAGE'"; line "BITPIX" "16"; line "NAXIS" "1"; line "NAXIS1" "3"; line "PCOUNT" "0"; line "GCOUNT" "1"; end_line].
Definition imag : header := header_of imag_records.
Example C65_case :
  match read_entire_hdus fc0 20 4 (open_fits (unit_text prim_records prim_data ++ unit_text imag_records prim_data ++ unit_text asct_records asct_data)) with
  | (f, Ret _) => length (f_hdus f) = 3 /\ hdu_named (lit "IMAGE") f = Ret HBlank /\
      write_to f = (unit_text prim_records prim_data ++ unit_text asct_records (lit "abc  12  d  -7"), Ret tt)
  | _ => False
  end.
Proof. vm_compute. auto. Qed.

(** ** C66 *)

Theorem C66_bytes_zeroed : forall fc u name p, reached fc (u_header u) -> becomes fc (u_header u) (u_data u) name (HPrimary p) ->
  p_kind p = B8 -> u_data u <> [] ->
  written_as (HPrimary p) (map raw (h_cards (u_header u))) (repeat zero (length (u_data u))) /\ belongs fc u name (HPrimary p).
Proof. exact primary_b8. Qed.
Print Assumptions C66_bytes_zeroed.

Definition byte_records : list str := primary_records "8" "3" with_extend.
Example C66_case :
  match read_entire_hdus fc0 20 2 (open_fits (unit_text byte_records (lit "abc"))) with
  | (f, Ret _) => write_to f = (unit_text byte_records (repeat zero 3), Ret tt)
  | _ => False
  end.
Proof. vm_compute. auto. Qed.

(** ** C67 *)

Theorem C67_extend_required : forall fc h d b im h1 name, reached fc h -> h_bitpix h = Some b -> read_image b d empty_image = Ret im ->
  contains_keyword (lit "SIMPLE") h = true ->
  last_record (lit "XTENSION") (map raw (h_cards h)) = None -> last_record (lit "EXTEND") (map raw (h_cards h)) = None ->
  get_hdu_name fc h = (h1, Ret name) -> fails fc h d OutOfRange.
Proof. exact no_extend. Qed.
Print Assumptions C67_extend_required.

(** So a minimal valid FITS file cannot be opened. *)
Definition minimal_records : list str := primary_records "16" "3" [].
Example C67_case :
  snd (read_entire_hdus fc0 20 2 (open_fits (unit_text minimal_records prim_data))) = Throw OutOfRange /\
  read_ok minimal_records = true /\
  last_record (lit "EXTEND") (map raw (h_cards (header_of minimal_records))) = None /\
  snd (get_hdu_name fc0 (header_of minimal_records)) = Ret (lit "primary_hdu").
Proof. vm_compute. auto. Qed.

(** ** C68 *)

Theorem C68_reopened_object_keeps_hdus : forall fc c us hf fuel names xs f0, units fc c 0 us -> small c ->
  Forall (fun u => length (h_cards (u_header u)) <= hf) us -> length us < fuel ->
  Forall2 (fun u nx => becomes fc (u_header u) (u_data u) (fst nx) (snd nx)) us (combine names xs) -> length names = length xs ->
  exists f, read_entire_hdus fc hf fuel (initialize c f0) = (f, Ret tt) /\
  f_hdus f = f_hdus f0 ++ xs /\
  (forall i, i < length (f_hdus f0) -> hdu_at i f = hdu_at i f0) /\
  (exists d, distinct names d /\ total_hdus f = length d) /\
  (forall n j x, last_position n names j -> nth_error xs j = Some x -> hdu_named n f = Ret x) /\
  (forall n, ~ In n names -> hdu_named n f = Throw OutOfRange).
Proof. exact reopened_file. Qed.
Print Assumptions C68_reopened_object_keeps_hdus.

Example C68_case :
  match read_entire_hdus fc0 20 4 (open_fits three_file) with
  | (f0, Ret _) =>
      match read_entire_hdus fc0 20 2 (initialize (unit_text byte_records (lit "abc")) f0) with
      | (f, Ret _) => total_hdus f = 1 /\ length (f_hdus f) = 4 /\ hdu_at 0 f = hdu_at 0 f0 /\ hdu_named (lit "primary_hdu") f = hdu_at 3 f
      | _ => False
      end
  | _ => False
  end.
Proof. vm_compute. auto. Qed.

(** ** C81 *)

Theorem C81_flags : forall fc h d p, reached fc h -> make_primary fc h d = Ret p ->
  header_value fc TBool h (lit "SIMPLE") (VBool (p_simple p)) /\
  header_value fc TBool h (lit "EXTEND") (VBool (p_extend p)) /\
  map raw (h_cards (p_header p)) = map raw (h_cards h).
Proof. exact primary_flags. Qed.
Print Assumptions C81_flags.

Theorem C81_pixels : forall fc h d p, make_primary fc h d = Ret p ->
  exists b, h_bitpix h = Some b /\ read_image b d empty_image = Ret (p_image p) /\
    primary_data b p = Ret (p_image p) /\ forall b', b' <> b -> primary_data b' p = Undef.
Proof. exact primary_pixels. Qed.
Print Assumptions C81_pixels.

Definition made (h : header) (d : str) : option primary := match make_primary fc0 h d with Ret p => Some p | _ => None end.
Example C81_case :
  match made (header_of (primary_records "16" "3" [line "EXTEND" "F"])) prim_data with
  | Some p => p_simple p = true /\ p_extend p = false /\ primary_data B16 p = Ret (mk_image [1; 515; 65534]%N (width empty_image)) /\ primary_data F32 p = Undef
  | None => False
  end.
Proof. vm_compute. auto. Qed.

(** ** C82 *)

Theorem C82_object : forall fc h d x, reached fc h -> make_image_ext fc h d = Ret x ->
  (exists g, header_value fc TInt h (lit "GCOUNT") g) /\ (exists g, header_value fc TInt h (lit "PCOUNT") g) /\
  (exists n, header_value fc TStr h (lit "EXTNAME") n) /\
  map raw (h_cards (x_header x)) = map raw (h_cards h) /\
  h_bitpix h = Some (x_kind x) /\ read_image (x_kind x) d empty_image = Ret (x_image x).
Proof. exact image_ext_object. Qed.
Print Assumptions C82_object.

Theorem C82_written : forall fc h d x s, reached fc h -> make_image_ext fc h d = Ret x ->
  x_kind x <> B8 -> d <> [] -> length d mod N.to_nat (element_size (x_kind x)) = 0 ->
  appending s -> length (content s) mod 2880 = 0 ->
  (N.of_nat (length (content s) + length (unit_text (map raw (h_cards h)) d)) < 2 ^ 62)%N ->
  content (image_ext_write x s) = content s ++ unit_text (map raw (h_cards h)) d.
Proof. exact image_ext_roundtrip. Qed.
Print Assumptions C82_written.

Definition image_records (bitpix axis : string) (more : list str) : list str :=
  [line "XTENSION" "'IMAGE'"; line "BITPIX" bitpix; line "NAXIS" "1"; line "NAXIS1" axis; line "PCOUNT" "0"; line "GCOUNT" "1"] ++ more ++ [end_line].
Definition named_image (bitpix axis : string) : list str := image_records bitpix axis [line "EXTNAME" "'X'"].
Example C82_case :
  match make_image_ext fc0 (header_of (named_image "16" "3")) prim_data with
  | Ret x => x_kind x = B16 /\ pixels (x_image x) = [1; 515; 65534]%N /\
      content (image_ext_write x (open_stream [])) = unit_text (named_image "16" "3") prim_data
  | _ => False
  end /\
  read_ok (named_image "16" "3") = true.
Proof. vm_compute. auto. Qed.

(** Bytes are written back as zeros; an image extension without EXTNAME, which the standard allows, cannot be made. *)
Theorem C82_bytes_refuted : exists x, make_image_ext fc0 (header_of (named_image "8" "3")) (lit "abc") = Ret x /\
  content (image_ext_write x (open_stream [])) = unit_text (named_image "8" "3") (repeat zero 3) /\
  make_image_ext fc0 (header_of (image_records "16" "3" [])) prim_data = Throw OutOfRange.
Proof. eexists. split; [vm_compute; reflexivity|]. vm_compute. auto. Qed.
Print Assumptions C82_bytes_refuted.
