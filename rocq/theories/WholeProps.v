(** * Property theorems about whole files against their contents (C119). *)
From Verif Require Import ReaderImage WholeProofs.

(** ** Files of the examples *)
Definition fc0 : fcodec :=
  {| f32_show := show_N; f32_read := cast_unsigned 32; f64_show := show_N; f64_read := cast_unsigned 64 |}.
Definition line (k : string) (a : nat) (v comment : string) : str := record (lit k) (spaces a ++ lit v ++ spaces 1) (lit comment).

Definition image_records (axis : string) (more : list str) : list str :=
  [line "SIMPLE" 19 "T" " a FITS file"; line "BITPIX" 18 "16" ""; line "NAXIS" 19 "1" " one axis"; line "NAXIS1" 17 axis ""; line "EXTEND" 19 "T" ""]
  ++ more ++ [end_card].
Definition table_header (kind : string) (more : list str) : list str :=
  [line "XTENSION" 0 kind ""; line "BITPIX" 19 "8" ""; line "NAXIS" 19 "2" ""; line "NAXIS1" 19 "7" ""; line "NAXIS2" 19 "2" "";
   line "PCOUNT" 19 "0" ""; line "GCOUNT" 19 "1" ""; line "TFIELDS" 19 "2" ""; line "EXTNAME" 0 "'STARS   '" " the name"] ++ more ++ [end_card].
Definition cells_records : list str := table_header "'BINTABLE'"
  [line "TTYPE1" 0 "'FLUX    '" ""; line "TFORM1" 0 "'1J      '" ""; line "TUNIT1" 0 "'Jy      '" ""; line "TDISP1" 0 "'I8      '" "";
   line "TTYPE2" 0 "'CODE    '" ""; line "TFORM2" 0 "'3A      '" ""].
Definition lines_records : list str := table_header "'TABLE   '"
  [line "TTYPE1" 0 "'CODE    '" ""; line "TFORM1" 0 "'A3      '" ""; line "TBCOL1" 19 "1" "";
   line "TTYPE2" 0 "'MAG     '" ""; line "TFORM2" 0 "'F4.1    '" ""; line "TBCOL2" 19 "4" ""; line "TSCAL2" 19 "2" ""; line "COMMENT" 0 "x" "";
   line "CODE" 19 "7" " a keyword named like a column"].

Definition image_unit : stored := mk_stored (Image B16 [3%N] [1; 515; 65534]%N) (image_records "3" []) (map ascii_of_N [0; 1; 2; 3; 255; 254]%N) zero.
Definition cells_rows : list (list str) :=
  [[map ascii_of_N [1; 0; 1; 7]%N; lit "ab "]; [map ascii_of_N [1; 2; 3; 4]%N; lit "cde"]].
Definition cells_cols : list bin_col :=
  [mk_bin_col (mk_about (lit "FLUX") (lit "1J") (Some (lit "Jy")) None None) 1 4 (Some (lit "I8")) None;
   mk_bin_col (mk_about (lit "CODE") (lit "3A") None None None) 3 3 None None].
Definition cells_unit : stored :=
  mk_stored (Cells cells_cols cells_rows) cells_records (concat (map (@concat ascii) cells_rows)) zero.
Definition lines_rows : list str := [lit "abc 1.5"; lit "d  -7.0"].
Definition lines_cols : list text_col :=
  [mk_text_col (mk_about (lit "CODE") (lit "A3") None None None) 1 3; mk_text_col (mk_about (lit "MAG") (lit "F4.1") None (Some 2%N) None) 4 4].
Definition lines_unit : stored :=
  mk_stored (Lines lines_cols 7 lines_rows) lines_records (concat lines_rows) sp.

(** ** C119: a file laid out by the FITS rules is read to what it encodes *)
Theorem C119_standard_file fc l0 x0 l : l = l0 ++ [x0] -> Forall (fun x => encodes fc (s_content x) (s_records x) (s_data x)) l -> Forall tidy l0 ->
  header_inside x0 \/ s_data x0 = [] -> forall c, c = concat (map stored_bytes l) -> small c ->
  forall hf fuel, Forall (fun x => length (s_records x) <= hf) l -> length l < fuel ->
  exists f, read_entire_hdus fc hf fuel (open_fits c) = (f, Ret tt) /\
    Forall2 (fun x o => contains (s_content x) o) l (f_hdus f) /\
    (forall j x, last_position (content_name (s_content x)) (map (fun y => content_name (s_content y)) l) j -> nth_error l j = Some x ->
       exists o, hdu_named (content_name (s_content x)) f = Ret o /\ contains (s_content x) o) /\
    (forall n, ~ In n (map (fun y => content_name (s_content y)) l) -> hdu_named n f = Throw OutOfRange).
Proof. exact (standard_file fc l0 x0 l). Qed.
Print Assumptions C119_standard_file.

(** The condition on the last unit cannot be dropped: with a header that fills its blocks and with data, whatever it
    contains, reading never ends. *)
Theorem C119_full_header_never_ends fc l x : Forall (fun x => encodes fc (s_content x) (s_records x) (s_data x)) (l ++ [x]) -> Forall tidy l ->
  ~ header_inside x -> s_data x <> [] -> forall c, c = concat (map stored_bytes (l ++ [x])) -> small c ->
  forall hf fuel, Forall (fun x => length (s_records x) <= hf) (l ++ [x]) -> snd (read_entire_hdus fc hf fuel (open_fits c)) = NoFuel.
Proof. exact (full_header_forever fc l x). Qed.
Print Assumptions C119_full_header_never_ends.

Lemma no_slash s : forallb (fun c => negb (Ascii.eqb c "/"%char)) s = true -> slash_free s.
Proof. intros H K. rewrite forallb_forall in H. specialize (H _ K). vm_compute in H. discriminate. Qed.
Lemma no_outer s : match s with [] => true | c :: _ => negb (is_space c) end = true ->
  match rev s with [] => true | c :: _ => negb (is_space c) end = true -> no_outer_blanks s.
Proof.
  intros A B c [[r ->]|[r ->]]; [apply negb_true_iff; exact A|]. rewrite rev_app_distr in B. apply negb_true_iff; exact B.
Qed.
Lemma says_line rs k a v comment : last_record (lit k) rs = Some (line k a v comment) ->
  ((length (lit k) <=? 8) && (length (record_body (lit k) (spaces a ++ lit v ++ spaces 1) (lit comment)) <=? 80))%nat = true ->
  says rs (lit k) (lit v).
Proof.
  intros H F. apply andb_true_iff in F as [F1 F2]. apply Nat.leb_le in F1, F2. exists (line k a v comment). split; [exact H|].
  exists a, 1, (lit comment). split; [reflexivity|split; assumption].
Qed.
Lemma digits s : forallb (fun c => ((48 <=? N_of_ascii c) && (N_of_ascii c <=? 57))%N) s = true -> all_digits s.
Proof. intros H c Hc. rewrite forallb_forall in H. specialize (H _ Hc). apply andb_true_iff in H as [A B]. apply N.leb_le in A, B. auto. Qed.

Definition plain (r : str) : bool :=
  (length r =? 80)%nat && negb (str_eqb (firstn 8 r) (lit "END     ")) && str_eqb (firstn 2 (skipn 8 r)) (lit "= ").
Lemma plain_header body : forallb plain body = true -> header_records (body ++ [end_card]).
Proof.
  intros H. exists body. split; [reflexivity|]. rewrite Forall_forall. rewrite forallb_forall in H. intros r Hr. specialize (H r Hr).
  unfold plain in H. apply andb_true_iff in H as [H H3]. apply andb_true_iff in H as [H1 H2]. apply Nat.eqb_eq in H1.
  apply negb_true_iff in H2. apply str_eqb_eq in H3. split; [exact H1|]. split.
  - split; [lia|]. left. exists (firstn 8 r), (skipn 10 r). rewrite firstn_length. split; [lia|].
    rewrite <- H3. clear -H1. do 10 (destruct r as [|? r]; [discriminate|]). reflexivity.
  - intros K. unfold is_end_record in K. rewrite K in H2. vm_compute in H2. discriminate.
Qed.

Ltac sayline k a v c := apply (says_line _ k a v c); [vm_compute; reflexivity|vm_compute; reflexivity].
Ltac saynumber k a v c := exists (lit v); split; [split; [discriminate|split; [apply digits; vm_compute; reflexivity|vm_compute; reflexivity]]|sayline k a v c].
Ltac sayinteger k a v c :=
  exists (lit v); split; [left; split; [split; [discriminate|split; [apply digits; vm_compute; reflexivity|vm_compute; reflexivity]]|vm_compute; discriminate]|sayline k a v c].

Ltac saytext k v c :=
  split; [apply no_slash; vm_compute; reflexivity|split; [apply no_outer; vm_compute; reflexivity|]];
  match goal with |- exists n, says _ _ ("'"%char :: (?s ++ spaces n) ++ ["'"%char]) => exists (8 - length s); sayline k 0 v c end.

Example C119_image_encoded : encodes fc0 (s_content image_unit) (s_records image_unit) (s_data image_unit).
Proof.
  split; [apply (plain_header (removelast (image_records "3" []))); vm_compute; reflexivity|]. split; [vm_compute; reflexivity|].
  split; [sayline "SIMPLE"%string 19 "T"%string " a FITS file"%string|]. split; [exists true; sayline "EXTEND"%string 19 "T"%string ""%string|].
  split; [split; [|split]|].
  - sayinteger "BITPIX"%string 18 "16"%string ""%string.
  - saynumber "NAXIS"%string 19 "1"%string " one axis"%string.
  - intros [|[|i]] v E; try discriminate. injection E as <-. saynumber "NAXIS1"%string 17 "3"%string ""%string.
  - split; [repeat constructor|]. split; [vm_compute; reflexivity|]. split; [left; discriminate|]. split; [vm_compute; reflexivity|].
    exists [map ascii_of_N [0; 1]%N; map ascii_of_N [2; 3]%N; map ascii_of_N [255; 254]%N]. split; [reflexivity|].
    constructor; [split; vm_compute; reflexivity|]. constructor; [split; vm_compute; reflexivity|].
    constructor; [split; vm_compute; reflexivity|]. constructor.
Qed.

Lemma table_example kind kv more : says_text (table_header kv more) (lit "XTENSION") (lit kind) ->
  forallb plain (removelast (table_header kv more)) = true -> last (table_header kv more) [] = end_card ->
  last_record (lit "SIMPLE") (table_header kv more) = None ->
  (last_record (lit "BITPIX") (table_header kv more) = Some (line "BITPIX" 19 "8" "") /\
   last_record (lit "NAXIS") (table_header kv more) = Some (line "NAXIS" 19 "2" "") /\
   last_record (lit "NAXIS1") (table_header kv more) = Some (line "NAXIS1" 19 "7" "") /\
   last_record (lit "NAXIS2") (table_header kv more) = Some (line "NAXIS2" 19 "2" "") /\
   last_record (lit "PCOUNT") (table_header kv more) = Some (line "PCOUNT" 19 "0" "") /\
   last_record (lit "GCOUNT") (table_header kv more) = Some (line "GCOUNT" 19 "1" "") /\
   last_record (lit "TFIELDS") (table_header kv more) = Some (line "TFIELDS" 19 "2" "") /\
   last_record (lit "EXTNAME") (table_header kv more) = Some (line "EXTNAME" 0 "'STARS   '" " the name")) ->
  table_records kind 7 2 2 (table_header kv more).
Proof.
  intros X P L M (E1 & E2 & E3 & E4 & E5 & E6 & E7 & E8).
  split. { rewrite (app_removelast_last (l := table_header kv more) []) by discriminate. rewrite L. apply plain_header. exact P. }
  split; [exact M|]. split; [exact X|]. split; [split; [|split]|].
  - exists (lit "8"). split; [left; split; [split; [discriminate|split; [apply digits; reflexivity|reflexivity]]|discriminate]|]. apply (says_line _ _ _ _ _ E1); reflexivity.
  - exists (lit "2"). split; [split; [discriminate|split; [apply digits; reflexivity|reflexivity]]|]. apply (says_line _ _ _ _ _ E2); reflexivity.
  - intros [|[|[|i]]] v E; try discriminate; injection E as <-.
    + exists (lit "7"). split; [split; [discriminate|split; [apply digits; reflexivity|reflexivity]]|]. apply (says_line _ _ _ _ _ E3); reflexivity.
    + exists (lit "2"). split; [split; [discriminate|split; [apply digits; reflexivity|reflexivity]]|]. apply (says_line _ _ _ _ _ E4); reflexivity.
  - split; [|split; [|split; [|split; [|split; [lia|split; vm_compute; reflexivity]]]]].
    + exists 1%Z. split; [vm_compute; split; [discriminate|reflexivity]|]. exists (lit "1"). split; [left; split; [split; [discriminate|split; [apply digits; reflexivity|reflexivity]]|discriminate]|]. apply (says_line _ _ _ _ _ E6); reflexivity.
    + exists 0%Z. split; [vm_compute; split; [discriminate|reflexivity]|]. exists (lit "0"). split; [left; split; [split; [discriminate|split; [apply digits; reflexivity|reflexivity]]|discriminate]|]. apply (says_line _ _ _ _ _ E5); reflexivity.
    + exists (lit "STARS"). split; [apply no_slash; reflexivity|]. split; [apply no_outer; reflexivity|]. exists 3. apply (says_line _ _ _ _ _ E8); reflexivity.
    + exists (lit "2"). split; [split; [discriminate|split; [apply digits; reflexivity|reflexivity]]|]. apply (says_line _ _ _ _ _ E7); reflexivity.
Qed.

Example C119_cells_encoded : encodes fc0 (s_content cells_unit) (s_records cells_unit) (s_data cells_unit).
Proof.
  split; [|split; [|split; [|reflexivity]]].
  - apply table_example; try (vm_compute; reflexivity); [saytext "XTENSION"%string "'BINTABLE'"%string ""%string|].
    repeat (split; [vm_compute; reflexivity|]). vm_compute. reflexivity.
  - intros [|[|i]] c E; [| |destruct i; discriminate]; injection E as <-.
    + split; [|split; [saytext "TDISP1"%string "'I8      '"%string ""%string|split; [vm_compute; reflexivity|]]].
      * split; [left; split; [saytext "TTYPE1"%string "'FLUX    '"%string ""%string|left; vm_compute; reflexivity]|]. split; [saytext "TFORM1"%string "'1J      '"%string ""%string|].
        split; [saytext "TUNIT1"%string "'Jy      '"%string ""%string|]. split; vm_compute; reflexivity.
      * exists "J"%char, 4. split; [|split; [vm_compute; tauto|split; [reflexivity|cbn; lia]]].
        exists (lit "1"). split; [apply digits; reflexivity|]. split; [|reflexivity]. exists [], []. split; [reflexivity|intros c []].
    + split; [|split; [vm_compute; reflexivity|split; [vm_compute; reflexivity|]]].
      * split; [left; split; [saytext "TTYPE2"%string "'CODE    '"%string ""%string|left; vm_compute; reflexivity]|]. split; [saytext "TFORM2"%string "'3A      '"%string ""%string|].
        split; [vm_compute; reflexivity|]. split; vm_compute; reflexivity.
      * exists "A"%char, 1. split; [|split; [vm_compute; tauto|split; [reflexivity|cbn; lia]]].
        exists (lit "3"). split; [apply digits; reflexivity|]. split; [|reflexivity]. exists [], []. split; [reflexivity|intros c []].
  - constructor; [|constructor; [|constructor]]; (constructor; [reflexivity|constructor; [reflexivity|constructor]]).
Qed.

Example C119_lines_encoded : encodes fc0 (s_content lines_unit) (s_records lines_unit) (s_data lines_unit).
Proof.
  split; [|split; [|split; [lia|split; [|reflexivity]]]].
  - apply table_example; try (vm_compute; reflexivity); [saytext "XTENSION"%string "'TABLE   '"%string ""%string|].
    repeat (split; [vm_compute; reflexivity|]). vm_compute. reflexivity.
  - intros [|[|i]] c E; [| |destruct i; discriminate]; injection E as <-.
    + split; [|split; [saynumber "TBCOL1"%string 19 "1"%string ""%string|split; [|cbn; lia]]].
      * split; [left; split; [saytext "TTYPE1"%string "'CODE    '"%string ""%string|right]|].
        { split; [right; exists (lit "7"); split; [apply no_slash; reflexivity|split; [apply no_outer; reflexivity|split; [discriminate|]]]; sayline "CODE"%string 19 "7"%string " a keyword named like a column"%string|].
          split; [apply no_slash; reflexivity|]. intros [K|(base & r & K & E)]; [cbn in K; intuition discriminate|].
          cbn in K. repeat (destruct K as [<-|K]; [discriminate E|]). exact K. }
        split; [saytext "TFORM1"%string "'A3      '"%string ""%string|].
        split; [vm_compute; reflexivity|]. split; vm_compute; reflexivity.
      * exists "A"%char. split; [vm_compute; tauto|]. exists (lit "3"), []. split; [apply digits; reflexivity|]. split; [discriminate|]. split; [reflexivity|].
        split; [exists [], []; split; [reflexivity|intros c []]|left; reflexivity].
    + split; [|split; [saynumber "TBCOL2"%string 19 "4"%string ""%string|split; [|cbn; lia]]].
      * split; [left; split; [saytext "TTYPE2"%string "'MAG     '"%string ""%string|left; vm_compute; reflexivity]|]. split; [saytext "TFORM2"%string "'F4.1    '"%string ""%string|].
        split; [vm_compute; reflexivity|]. split; [|vm_compute; reflexivity].
        exists (lit "2"). split; [apply no_slash; reflexivity|]. split; [apply no_outer; reflexivity|]. split; [reflexivity|sayline "TSCAL2"%string 19 "2"%string ""%string].
      * exists "F"%char. split; [vm_compute; tauto|]. exists (lit "4"), (lit ".1"). split; [apply digits; reflexivity|]. split; [discriminate|]. split; [reflexivity|].
        split; [exists [], []; split; [reflexivity|intros c []]|right; exists (lit "1"); split; [reflexivity|split; [discriminate|apply digits; reflexivity]]].
  - constructor; [reflexivity|constructor; [reflexivity|constructor]].
Qed.

(** The three units in one file: the binary table is found by its name, with its columns and its cells. *)
Definition three : list stored := [image_unit; cells_unit; lines_unit].
Example C119_case : exists f, read_entire_hdus fc0 40 4 (open_fits (concat (map stored_bytes three))) = (f, Ret tt) /\
  exists t, hdu_named (lit "BINTABLE") f = Ret (HBinary t) /\ columns_are (is_bin_col cells_cols) cells_cols (t_columns t) /\
    t_data t = [[map ascii_of_N [1; 0; 1; 7]%N; lit "ab"]; [map ascii_of_N [1; 2; 3; 4]%N; lit "cde"]].
Proof.
  destruct (C119_standard_file fc0 [image_unit; cells_unit] lines_unit three) with (c := concat (map stored_bytes three)) (hf := 40) (fuel := 4) as (f & E & _ & N & _).
  - reflexivity.
  - constructor; [exact C119_image_encoded|]. constructor; [exact C119_cells_encoded|]. constructor; [exact C119_lines_encoded|constructor].
  - constructor; [|constructor; [|constructor]]; (split; [|right]; vm_compute; discriminate).
  - left. vm_compute. discriminate.
  - reflexivity.
  - unfold small. vm_compute. reflexivity.
  - repeat (constructor; [apply Nat.leb_le; vm_compute; reflexivity|]). constructor.
  - cbn. lia.
  - exists f. split; [exact E|]. destruct (N 1 cells_unit) as (o & O1 & t & -> & T1 & T2).
    + split; [reflexivity|]. intros [|[|[|[|j]]]] K; cbn; try lia; discriminate.
    + reflexivity.
    + exists t. split; [exact O1|]. split; [exact T1|]. rewrite T2. vm_compute. reflexivity.
Qed.

(** Not every file that follows the FITS rules is read. A header of 36 records: *)
Definition full_unit : stored :=
  mk_stored (Image B16 [3%N] [1; 515; 65534]%N) (image_records "3" (repeat (line "HISTORY" 0 "x" "") 30)) (map ascii_of_N [0; 1; 2; 3; 255; 254]%N) zero.
Lemma image_encoded axis n more values (d : str) bytes : forallb plain (removelast (image_records axis more)) = true ->
  last (image_records axis more) [] = end_card -> last_record (lit "XTENSION") (image_records axis more) = None ->
  (last_record (lit "SIMPLE") (image_records axis more) = Some (line "SIMPLE" 19 "T" " a FITS file") /\
   last_record (lit "EXTEND") (image_records axis more) = Some (line "EXTEND" 19 "T" "") /\
   last_record (lit "BITPIX") (image_records axis more) = Some (line "BITPIX" 18 "16" "") /\
   last_record (lit "NAXIS") (image_records axis more) = Some (line "NAXIS" 19 "1" " one axis")) ->
  says_number (image_records axis more) (lit "NAXIS1") n -> (n < 2 ^ 64)%N ->
  N.of_nat (length values) = product [n] -> d = concat bytes -> Forall2 (fun v s => length s = 2 /\ big_endian s = v) values bytes ->
  encodes fc0 (Image B16 [n] values) (image_records axis more) d.
Proof.
  intros P L M (E1 & E2 & E3 & E4) A Hn Hv Hd Hb.
  split. { rewrite (app_removelast_last (l := image_records axis more) []) by discriminate. rewrite L. apply plain_header. exact P. }
  split; [exact M|]. split; [apply (says_line _ _ _ _ _ E1); reflexivity|]. split; [exists true; apply (says_line _ _ _ _ _ E2); reflexivity|].
  split; [split; [|split]|].
  - exists (lit "16"). split; [left; split; [split; [discriminate|split; [apply digits; reflexivity|reflexivity]]|discriminate]|]. apply (says_line _ _ _ _ _ E3); reflexivity.
  - exists (lit "1"). split; [split; [discriminate|split; [apply digits; reflexivity|reflexivity]]|]. apply (says_line _ _ _ _ _ E4); reflexivity.
  - intros [|[|i]] v E; try discriminate. injection E as <-. exact A.
  - split; [constructor; [exact Hn|constructor]|]. split; [vm_compute; reflexivity|]. split; [left; discriminate|]. split; [exact Hv|].
    exists bytes. split; [exact Hd|exact Hb].
Qed.

Example C119_full_encoded : encodes fc0 (s_content full_unit) (s_records full_unit) (s_data full_unit).
Proof.
  apply image_encoded with (bytes := [map ascii_of_N [0; 1]%N; map ascii_of_N [2; 3]%N; map ascii_of_N [255; 254]%N]); try (vm_compute; reflexivity).
  - split; [vm_compute; reflexivity|]. split; [vm_compute; reflexivity|]. split; vm_compute; reflexivity.
  - saynumber "NAXIS1"%string 17 "3"%string ""%string.
  - constructor; [split; vm_compute; reflexivity|]. constructor; [split; vm_compute; reflexivity|].
    constructor; [split; vm_compute; reflexivity|]. constructor.
Qed.

Theorem C119_full_header_refuted :
  encodes fc0 (s_content full_unit) (s_records full_unit) (s_data full_unit) /\
  forall fuel, snd (read_entire_hdus fc0 36 fuel (open_fits (stored_bytes full_unit))) = NoFuel.
Proof.
  split; [exact C119_full_encoded|]. intros fuel. apply (C119_full_header_never_ends fc0 [] full_unit).
  - constructor; [exact C119_full_encoded|constructor].
  - constructor.
  - intros K. apply K. vm_compute. reflexivity.
  - discriminate.
  - cbn [app map concat]. rewrite app_nil_r. reflexivity.
  - unfold small. vm_compute. reflexivity.
  - constructor; [apply Nat.leb_le; vm_compute; reflexivity|constructor].
Qed.
Print Assumptions C119_full_header_refuted.

(** Data of one block, followed by a table: the header of the table is passed over and its data is taken for a header. *)
Definition full_data : stored :=
  mk_stored (Image B16 [1440%N] (repeat 0%N (N.to_nat 1440))) (image_records "1440" []) (concat (repeat [zero; zero] (N.to_nat 1440))) zero.
Theorem C119_full_data_refuted : exists x y,
  encodes fc0 (s_content x) (s_records x) (s_data x) /\ encodes fc0 (s_content y) (s_records y) (s_data y) /\ header_inside x /\ tidy y /\
  forall f, read_entire_hdus fc0 40 4 (open_fits (stored_bytes x ++ stored_bytes y)) <> (f, Ret tt).
Proof.
  exists full_data, cells_unit. split; [|split; [exact C119_cells_encoded|split; [vm_compute; discriminate|split]]].
  - unfold full_data. cbn [s_content s_records s_data].
    apply image_encoded with (bytes := repeat [zero; zero] (N.to_nat 1440)); try (vm_compute; reflexivity).
    + split; [vm_compute; reflexivity|]. split; [vm_compute; reflexivity|]. split; vm_compute; reflexivity.
    + saynumber "NAXIS1"%string 17 "1440"%string ""%string.
    + generalize (N.to_nat 1440). intros n. induction n; cbn [repeat]; constructor; [split; reflexivity|assumption].
  - split; [|right]; vm_compute; discriminate.
  - assert (H : snd (read_entire_hdus fc0 40 4 (open_fits (stored_bytes full_data ++ stored_bytes cells_unit))) = Throw InvalidCard) by (vm_compute; reflexivity).
    intros f E. rewrite E in H. clear E. cbn [snd] in H. discriminate H.
Qed.
Print Assumptions C119_full_data_refuted.
