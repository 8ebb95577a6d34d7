(** * Property theorems about files with extensions of other kinds (C123) and about reading headers only (C124). *)
From Coq Require Import Lia.
From Verif Require Import ReaderImage WholeProofs WholeProps CopySpec PartSpec PartProofs.

(** ** C123: extensions that the library has no class for do not disturb the others, and are not written *)
Theorem C123_other_extensions fc l0 x0 l : l = l0 ++ [x0] -> Forall (part_ok fc) l -> Forall part_tidy l0 -> part_header_inside x0 \/ part_data x0 = [] ->
  forall c, c = concat (map part_bytes l) -> small c -> forall hf fuel, Forall (fun p => length (part_records p) <= hf) l -> length l < fuel ->
  exists f, read_entire_hdus fc hf fuel (open_fits c) = (f, Ret tt) /\ Forall2 part_is l (f_hdus f) /\
    (forall j p, last_position (part_name p) (map part_name l) j -> nth_error l j = Some p -> exists o, hdu_named (part_name p) f = Ret o /\ part_is p o) /\
    (forall n, ~ In n (map part_name l) -> hdu_named n f = Throw OutOfRange) /\
    (small (concat (map part_copied l)) -> write_to f = (concat (map part_copied l), Ret tt)).
Proof. exact (parts_file fc l0 x0 l). Qed.
Print Assumptions C123_other_extensions.

(** ** C124: reading headers only *)

(** The file may end anywhere behind the last header, and anything may stand there. *)
Theorem C124_headers fc l0 x0 l rest : l = l0 ++ [x0] -> Forall (part_ok fc) l -> Forall part_tidy l0 ->
  (N.of_nat (length (concat (map part_bytes l))) < 2 ^ 61)%N ->
  forall c, c = concat (map part_bytes l0) ++ concat (part_records x0) ++ rest -> length c <= length (concat (map part_bytes l)) ->
  forall hf fuel, Forall (fun p => length (part_records p) <= hf) l -> length l < fuel ->
  exists f, read_only_headers fc hf fuel (open_fits c) = (f, Ret tt) /\ Forall2 head_is l (f_hdus f) /\
    (forall j p, last_position (part_name p) (map part_name l) j -> nth_error l j = Some p -> exists o, hdu_named (part_name p) f = Ret o /\ head_is p o) /\
    (forall n, ~ In n (map part_name l) -> hdu_named n f = Throw OutOfRange) /\
    (small (concat (map bare l)) -> write_to f = (concat (map bare l), Ret tt)).
Proof. exact (heads_file fc l0 x0 l rest). Qed.
Print Assumptions C124_headers.

(** ** Examples *)

(** An extension of the kind IMAGE between an image and a table. *)
Definition other_records : list str :=
  [line "XTENSION" 0 "'IMAGE   '" ""; line "BITPIX" 17 "-32" ""; line "NAXIS" 19 "2" ""; line "NAXIS1" 19 "2" ""; line "NAXIS2" 19 "1" ""; end_card].
Definition other : part := Other (lit "IMAGE") F32 [2; 1]%N other_records (map ascii_of_N [1; 2; 3; 4; 5; 6; 7; 8]%N) zero.
Example C123_other_ok : part_ok fc0 other.
Proof.
  split; [apply (plain_header (removelast other_records)); vm_compute; reflexivity|]. split; [vm_compute; reflexivity|].
  split; [saytext "XTENSION"%string "'IMAGE   '"%string ""%string|]. split; [discriminate|]. split; [discriminate|]. split; [split; [|split]|].
  - exists (lit "-32"). split; [right; exists (lit "32"); split; [reflexivity|split; [split; [discriminate|split; [apply digits; reflexivity|reflexivity]]|discriminate]]|].
    sayline "BITPIX"%string 17 "-32"%string ""%string.
  - saynumber "NAXIS"%string 19 "2"%string ""%string.
  - intros [|[|[|i]]] v E; try discriminate; injection E as <-; [saynumber "NAXIS1"%string 19 "2"%string ""%string|saynumber "NAXIS2"%string 19 "1"%string ""%string].
  - split; [repeat constructor|]. split; vm_compute; reflexivity.
Qed.

Definition mixed : list part := [Known image_unit; other; Known cells_unit].
Lemma mixed_ok : Forall (part_ok fc0) mixed.
Proof. constructor; [exact C119_image_encoded|]. constructor; [exact C123_other_ok|]. constructor; [exact C119_cells_encoded|constructor]. Qed.
Lemma mixed_tidy : Forall part_tidy [Known image_unit; other].
Proof. constructor; [|constructor; [|constructor]]; (split; [|right]; vm_compute; discriminate). Qed.

Example C123_case : exists f t, read_entire_hdus fc0 40 4 (open_fits (concat (map part_bytes mixed))) = (f, Ret tt) /\
  hdu_named (lit "IMAGE") f = Ret HBlank /\ hdu_named (lit "BINTABLE") f = Ret (HBinary t) /\
  t_data t = [[map ascii_of_N [1; 0; 1; 7]%N; lit "ab"]; [map ascii_of_N [1; 2; 3; 4]%N; lit "cde"]] /\
  write_to f = (copied image_unit ++ copied cells_unit, Ret tt).
Proof.
  destruct (C123_other_extensions fc0 [Known image_unit; other] (Known cells_unit) mixed) with (c := concat (map part_bytes mixed)) (hf := 40) (fuel := 4) as (f & E & _ & N & _ & W).
  - reflexivity.
  - exact mixed_ok.
  - exact mixed_tidy.
  - left. vm_compute. discriminate.
  - reflexivity.
  - unfold small. vm_compute. reflexivity.
  - repeat (constructor; [apply Nat.leb_le; vm_compute; reflexivity|]). constructor.
  - cbn. lia.
  - destruct (N 1 other) as (o & O1 & ->); [split; [reflexivity|]; intros [|[|[|[|j]]]] K; cbn; try lia; discriminate|reflexivity|].
    destruct (N 2 (Known cells_unit)) as (o & O2 & t & -> & _ & T2); [split; [reflexivity|]; intros [|[|[|[|j]]]] K; cbn; try lia; discriminate|reflexivity|].
    exists f, t. split; [exact E|]. split; [exact O1|]. split; [exact O2|]. split; [rewrite T2; vm_compute; reflexivity|].
    rewrite W by (unfold small; vm_compute; reflexivity). vm_compute. reflexivity.
Qed.

(** A file of an image of bytes, read to zeros; and one that ends with the header of a table. *)
Definition bytes_records : list str :=
  [line "SIMPLE" 19 "T" ""; line "BITPIX" 19 "8" ""; line "NAXIS" 19 "1" ""; line "NAXIS1" 19 "3" ""; line "EXTEND" 19 "T" ""; end_card].
Definition bytes_part : part := Bytes [3%N] bytes_records (map ascii_of_N [1; 2; 3]%N) zero.
Example C123_bytes_ok : part_ok fc0 bytes_part.
Proof.
  split; [apply (plain_header (removelast bytes_records)); vm_compute; reflexivity|]. split; [vm_compute; reflexivity|].
  split; [sayline "SIMPLE"%string 19 "T"%string ""%string|]. split; [exists true; sayline "EXTEND"%string 19 "T"%string ""%string|]. split; [split; [|split]|].
  - sayinteger "BITPIX"%string 19 "8"%string ""%string.
  - saynumber "NAXIS"%string 19 "1"%string ""%string.
  - intros [|[|i]] v E; try discriminate. injection E as <-. saynumber "NAXIS1"%string 19 "3"%string ""%string.
  - split; [repeat constructor|]. split; vm_compute; reflexivity.
Qed.
Theorem C123_bytes_refuted : part_ok fc0 bytes_part /\ exists f p, read_entire_hdus fc0 40 2 (open_fits (part_bytes bytes_part)) = (f, Ret tt) /\
  hdu_at 0 f = Ret (HPrimary p) /\ part_data bytes_part = map ascii_of_N [1; 2; 3]%N /\ pixels (p_image p) = [0; 0; 0]%N.
Proof.
  split; [exact C123_bytes_ok|]. eexists. eexists. split; [vm_compute; reflexivity|]. split; [vm_compute; reflexivity|]. split; [reflexivity|vm_compute; reflexivity].
Qed.
Print Assumptions C123_bytes_refuted.

Definition heads : list part := [bytes_part; other; Known cells_unit].
Definition cut_heads : str := concat (map part_bytes [bytes_part; other]) ++ concat cells_records ++ [].
Example C124_case : exists f t, read_only_headers fc0 40 4 (open_fits cut_heads) = (f, Ret tt) /\
  hdu_named (lit "BINTABLE") f = Ret (HBinary t) /\ columns_are (is_bin_col cells_cols) cells_cols (t_columns t) /\ t_data t = [] /\
  write_to f = (bare bytes_part ++ bare (Known cells_unit), Ret tt).
Proof.
  destruct (C124_headers fc0 [bytes_part; other] (Known cells_unit) heads []) with (c := cut_heads) (hf := 40) (fuel := 4) as (f & E & _ & N & _ & W).
  - reflexivity.
  - constructor; [exact C123_bytes_ok|]. constructor; [exact C123_other_ok|]. constructor; [exact C119_cells_encoded|constructor].
  - constructor; [|constructor; [|constructor]]; (split; [|right]; vm_compute; discriminate).
  - vm_compute. reflexivity.
  - reflexivity.
  - apply Nat.leb_le. vm_compute. reflexivity.
  - repeat (constructor; [apply Nat.leb_le; vm_compute; reflexivity|]). constructor.
  - cbn. lia.
  - destruct (N 2 (Known cells_unit)) as (o & O2 & t & -> & T1 & T2); [split; [reflexivity|]; intros [|[|[|[|j]]]] K; cbn; try lia; discriminate|reflexivity|].
    exists f, t. split; [exact E|]. split; [exact O2|]. split; [exact T1|]. split; [exact T2|].
    rewrite W by (unfold small; vm_compute; reflexivity). vm_compute. reflexivity.
Qed.

(** A file of which the headers were read is not to be written: the header of the copy announces data, and blanks are read
    in its place. *)
Theorem C124_written_refuted : exists f f' p, encodes fc0 (s_content image_unit) (s_records image_unit) (s_data image_unit) /\ tidy image_unit /\
  read_only_headers fc0 40 2 (open_fits (stored_bytes image_unit)) = (f, Ret tt) /\
  read_entire_hdus fc0 40 2 (open_fits (fst (write_to f))) = (f', Ret tt) /\
  hdu_at 0 f' = Ret (HPrimary p) /\ pixels (p_image p) = [8224; 8224; 8224]%N.
Proof.
  eexists. eexists. eexists. split; [exact C119_image_encoded|]. split; [split; [|right]; vm_compute; discriminate|].
  split; [vm_compute; reflexivity|]. split; [vm_compute; reflexivity|]. split; vm_compute; reflexivity.
Qed.
Print Assumptions C124_written_refuted.

