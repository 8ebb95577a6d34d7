(** * Property theorems about copying and editing whole files (C121). *)
From Verif Require Import ReaderImage CopyProofs WholeProps.

(** ** C121: reading a file and writing it *)

(** The bytes of the copy. *)
Theorem C121_copy fc l0 x0 l : l = l0 ++ [x0] -> Forall (fun x => encodes fc (s_content x) (s_records x) (s_data x)) l -> Forall tidy l0 ->
  header_inside x0 \/ s_data x0 = [] -> forall c, c = concat (map stored_bytes l) -> small c -> small (concat (map copied l)) ->
  forall hf fuel, Forall (fun x => length (s_records x) <= hf) l -> length l < fuel ->
  exists f, read_entire_hdus fc hf fuel (open_fits c) = (f, Ret tt) /\ write_to f = (concat (map copied l), Ret tt).
Proof. exact (copy_file fc l0 x0 l). Qed.
Print Assumptions C121_copy.

(** Files the copy of which is read to the same objects, *)
Theorem C121_same_objects fc l0 x0 l : l = l0 ++ [x0] -> Forall (fun x => encodes fc (s_content x) (s_records x) (s_data x)) l -> Forall tidy l0 ->
  header_inside x0 -> Forall (fun x => s_data x <> []) l -> Forall (fun x => copyable (s_content x)) l ->
  forall c, c = concat (map stored_bytes l) -> (N.of_nat (length c) < 2 ^ 61)%N ->
  forall hf fuel, Forall (fun x => length (s_records x) <= hf) l -> length l < fuel ->
  exists f s, read_entire_hdus fc hf fuel (open_fits c) = (f, Ret tt) /\ write_to f = (concat (map copied l), Ret tt) /\
    read_entire_hdus fc hf fuel (open_fits (concat (map copied l))) = (mk_fits s (f_hdus f) (f_info f), Ret tt) /\
    Forall2 (fun x o => contains (s_content x) o) l (f_hdus f).
Proof. exact (copy_same fc l0 x0 l). Qed.
Print Assumptions C121_same_objects.

(** and files the copy of which is the file. *)
Theorem C121_identical fc l0 x0 l : l = l0 ++ [x0] -> Forall (fun x => encodes fc (s_content x) (s_records x) (s_data x)) l -> Forall tidy l ->
  Forall (fun x => s_data x <> [] /\ s_fill x = sp /\ copyable (s_content x) /\ justified_right (s_content x)) l ->
  forall c, c = concat (map stored_bytes l) -> small c ->
  forall hf fuel, Forall (fun x => length (s_records x) <= hf) l -> length l < fuel ->
  exists f, read_entire_hdus fc hf fuel (open_fits c) = (f, Ret tt) /\ write_to f = (c, Ret tt).
Proof.
  intros El Fe Ft Fc c Ec Sm hf fuel Ff Hf. pose proof (copy_identical fc l Fe Ft Fc) as K. rewrite <- Ec in K.
  rewrite <- K. rewrite <- K in Sm. rewrite El in Ft. apply Forall_app in Ft as [Ft Tx]. inversion Tx as [|? ? [Th _] _]; subst x l1.
  destruct (copy_file fc l0 x0 l El Fe Ft (or_introl Th) c Ec ltac:(rewrite <- K; exact Sm) Sm hf fuel Ff Hf) as (f & R & W).
  exists f. rewrite K at 1. auto.
Qed.
Print Assumptions C121_identical.

(** Other pixels and other cells: the file written has their bytes in the place of the old ones, and is read to objects with
    them. *)
Theorem C121_edit fc l0 x0 l : l = l0 ++ [x0] -> Forall (fun x => encodes fc (s_content x) (s_records x) (s_data x)) l -> Forall tidy l0 ->
  header_inside x0 -> Forall (fun x => s_data x <> []) l -> forall c, c = concat (map stored_bytes l) -> (N.of_nat (length c) < 2 ^ 61)%N ->
  forall vs, Forall2 (fun x v => suit (s_content x) v) l vs ->
  forall hf fuel, Forall (fun x => length (s_records x) <= hf) l -> length l < fuel ->
  exists f ds, read_entire_hdus fc hf fuel (open_fits c) = (f, Ret tt) /\
    Forall2 (fun xv d => laid_out (s_content (fst xv)) (snd xv) d) (combine l vs) ds /\
    let c' := concat (map (fun xd => written_unit (s_records (fst xd)) (snd xd)) (combine l ds)) in
    write_to (mk_fits (f_stream f) (with_values (f_hdus f) vs) (f_info f)) = (c', Ret tt) /\
    exists s, read_entire_hdus fc hf fuel (open_fits c') = (mk_fits s (with_values (f_hdus f) vs) (f_info f), Ret tt) /\
      Forall2 has_values (with_values (f_hdus f) vs) vs.
Proof. exact (edit_file fc l0 x0 l). Qed.
Print Assumptions C121_edit.

(** ** Examples *)

Lemma other_cells (rows : list (list str)) : length rows = 2 -> Forall (Forall2 (fun c cell => length cell = bc_width c) cells_cols) rows ->
  encodes fc0 (Cells cells_cols rows) cells_records (concat (map (@concat ascii) rows)).
Proof. intros L F. destruct C119_cells_encoded as (A & B & _ & _). cbn [s_content cells_unit length cells_rows] in A. split; [red; rewrite L; exact A|]. split; [exact B|]. split; [exact F|reflexivity]. Qed.

Definition full_rows : list (list str) := [[map ascii_of_N [1; 0; 1; 7]%N; lit "abc"]; [map ascii_of_N [1; 2; 3; 4]%N; lit "cde"]].
Definition full_cells : stored := mk_stored (Cells cells_cols full_rows) cells_records (concat (map (@concat ascii) full_rows)) sp.
Definition blank_image : stored := mk_stored (s_content image_unit) (s_records image_unit) (s_data image_unit) sp.
Definition copyables : list stored := [blank_image; full_cells; lines_unit].

Lemma full_encoded : encodes fc0 (Cells cells_cols full_rows) cells_records (concat (map (@concat ascii) full_rows)).
Proof. apply other_cells; [reflexivity|]. constructor; [|constructor; [|constructor]]; (constructor; [reflexivity|constructor; [reflexivity|constructor]]). Qed.
Lemma copyables_encoded : Forall (fun x => encodes fc0 (s_content x) (s_records x) (s_data x)) copyables.
Proof. constructor; [exact C119_image_encoded|]. constructor; [exact full_encoded|]. constructor; [exact C119_lines_encoded|constructor]. Qed.

Lemma plain_field s : match s with [] => true | c :: _ => negb (is_space c) end = true ->
  match rev s with [] => true | c :: _ => negb (is_space c) end = true -> ~ has_outer_space s.
Proof.
  intros A B [(c & r & -> & H)|(c & r & -> & H)]; [rewrite H in A; discriminate|]. rewrite rev_app_distr in B. cbn [rev app] in B. rewrite H in B. discriminate.
Qed.
Lemma lines_gapless : gapless lines_cols 7.
Proof. split; [reflexivity|]. intros [|[|j]] c E; [injection E as <-; reflexivity|injection E as <-; reflexivity|destruct j; discriminate]. Qed.

(** All three kinds; the field "d  " of the ASCII table is moved to the right. *)
Example C121_case : exists f s c', read_entire_hdus fc0 40 4 (open_fits (concat (map stored_bytes copyables))) = (f, Ret tt) /\
  write_to f = (c', Ret tt) /\ read_entire_hdus fc0 40 4 (open_fits c') = (mk_fits s (f_hdus f) (f_info f), Ret tt) /\
  c' <> concat (map stored_bytes copyables).
Proof.
  destruct (C121_same_objects fc0 [blank_image; full_cells] lines_unit copyables) with (c := concat (map stored_bytes copyables)) (hf := 40) (fuel := 4) as (f & s & R & W & A & _).
  - reflexivity.
  - exact copyables_encoded.
  - constructor; [|constructor; [|constructor]]; (split; [|right]; vm_compute; discriminate).
  - vm_compute. discriminate.
  - constructor; [discriminate|]. constructor; [discriminate|]. constructor; [discriminate|constructor].
  - constructor; [exact I|]. constructor; [|constructor; [exact lines_gapless|constructor]].
    constructor; [|constructor; [|constructor]]; (constructor; [apply plain_field; reflexivity|constructor; [apply plain_field; reflexivity|constructor]]).
  - reflexivity.
  - vm_compute. reflexivity.
  - repeat (constructor; [apply Nat.leb_le; vm_compute; reflexivity|]). constructor.
  - cbn. lia.
  - exists f, s, (concat (map copied copyables)). split; [exact R|]. split; [exact W|]. split; [exact A|]. clear.
    intros E. apply (f_equal (fun x => nth_error x (N.to_nat 14407))) in E. vm_compute in E. discriminate E.
Qed.

Example C121_identical_case : exists f, read_entire_hdus fc0 40 3 (open_fits (concat (map stored_bytes [blank_image; full_cells]))) = (f, Ret tt) /\
  write_to f = (concat (map stored_bytes [blank_image; full_cells]), Ret tt).
Proof.
  apply (C121_identical fc0 [blank_image] full_cells [blank_image; full_cells]) with (hf := 40) (fuel := 3).
  - reflexivity.
  - constructor; [exact C119_image_encoded|]. constructor; [exact full_encoded|constructor].
  - constructor; [|constructor; [|constructor]]; (split; [|right]; vm_compute; discriminate).
  - constructor; [split; [discriminate|split; [reflexivity|split; exact I]]|]. constructor; [|constructor]. split; [discriminate|]. split; [reflexivity|]. split; [|exact I].
    constructor; [|constructor; [|constructor]]; (constructor; [apply plain_field; reflexivity|constructor; [apply plain_field; reflexivity|constructor]]).
  - reflexivity.
  - unfold small. vm_compute. reflexivity.
  - repeat (constructor; [apply Nat.leb_le; vm_compute; reflexivity|]). constructor.
  - cbn. lia.
Qed.

Definition new_values : list values :=
  [Pixels [7; 8; 9]%N; Rows [[map ascii_of_N [1; 0; 1; 1]%N; lit "x y"]; [map ascii_of_N [0; 0; 0; 0]%N; lit "uvw"]]; Rows [[lit "z"; []]; [lit "uvw"; lit "1.25"]]].
Example C121_edit_case : Forall2 (fun x v => suit (s_content x) v) copyables new_values /\
  exists d, laid_out (s_content lines_unit) (Rows [[lit "z"; []]; [lit "uvw"; lit "1.25"]]) d /\ d = lit "  z    uvw1.25".
Proof.
  split; [|eexists; split; reflexivity]. constructor; [|constructor; [|constructor; [|constructor]]].
  - split; [reflexivity|]. repeat constructor.
  - split; [reflexivity|]. constructor; [|constructor; [|constructor]];
      (constructor; [split; [apply plain_field; reflexivity|reflexivity]|constructor; [split; [apply plain_field; reflexivity|reflexivity]|constructor]]).
  - split; [exact lines_gapless|]. split; [reflexivity|]. constructor; [|constructor; [|constructor]];
      (constructor; [split; [apply plain_field; reflexivity|cbn; lia]|constructor; [split; [apply plain_field; reflexivity|cbn; lia]|constructor]]).
Qed.

(** The condition on the fields of a binary table cannot be dropped: "ab " is written as "ab", and the second row of the copy
    is read from one byte too far. *)
Theorem C121_blank_refuted : exists f f' t t', encodes fc0 (s_content cells_unit) (s_records cells_unit) (s_data cells_unit) /\ tidy cells_unit /\
  read_entire_hdus fc0 40 2 (open_fits (stored_bytes cells_unit)) = (f, Ret tt) /\
  read_entire_hdus fc0 40 2 (open_fits (fst (write_to f))) = (f', Ret tt) /\
  hdu_at 0 f = Ret (HBinary t) /\ hdu_at 0 f' = Ret (HBinary t') /\
  t_data t = [[map ascii_of_N [1; 0; 1; 7]%N; lit "ab"]; [map ascii_of_N [1; 2; 3; 4]%N; lit "cde"]] /\
  t_data t' = [[map ascii_of_N [1; 0; 1; 7]%N; lit "ab" ++ [ascii_of_N 1]]; [map ascii_of_N [2; 3; 4]%N ++ lit "c"; lit "de"]].
Proof.
  eexists. eexists. eexists. eexists. split; [exact C119_cells_encoded|]. split; [split; [|right]; vm_compute; discriminate|].
  split; [vm_compute; reflexivity|]. split; [vm_compute; reflexivity|]. split; [vm_compute; reflexivity|]. split; [vm_compute; reflexivity|]. split; vm_compute; reflexivity.
Qed.
Print Assumptions C121_blank_refuted.

(** Nor that on the columns of an ASCII table: with a column between them that belongs to no field, *)
Definition gap_records : list str := table_header "'TABLE   '"
  [line "TTYPE1" 0 "'CODE    '" ""; line "TFORM1" 0 "'A3      '" ""; line "TBCOL1" 19 "1" "";
   line "TTYPE2" 0 "'MAG     '" ""; line "TFORM2" 0 "'F3.1    '" ""; line "TBCOL2" 19 "5" ""].
Definition gap_cols : list text_col :=
  [mk_text_col (mk_about (lit "CODE") (lit "A3") None None None) 1 3; mk_text_col (mk_about (lit "MAG") (lit "F3.1") None None None) 5 3].
Definition gap_unit : stored := mk_stored (Lines gap_cols 7 [lit "abc 1.5"; lit "def 7.0"]) gap_records (lit "abc 1.5def 7.0") sp.

Lemma gap_encoded : encodes fc0 (s_content gap_unit) (s_records gap_unit) (s_data gap_unit).
Proof.
  split; [|split; [|split; [lia|split; [|reflexivity]]]].
  - apply table_example; try (vm_compute; reflexivity); [saytext "XTENSION"%string "'TABLE   '"%string ""%string|].
    repeat (split; [vm_compute; reflexivity|]). vm_compute. reflexivity.
  - intros [|[|i]] c E; [| |destruct i; discriminate]; injection E as <-.
    + split; [|split; [saynumber "TBCOL1"%string 19 "1"%string ""%string|split; [|cbn; lia]]].
      * split; [left; split; [saytext "TTYPE1"%string "'CODE    '"%string ""%string|left; vm_compute; reflexivity]|]. split; [saytext "TFORM1"%string "'A3      '"%string ""%string|].
        split; [vm_compute; reflexivity|]. split; vm_compute; reflexivity.
      * exists "A"%char. split; [vm_compute; tauto|]. exists (lit "3"), []. split; [apply digits; reflexivity|]. split; [discriminate|]. split; [reflexivity|].
        split; [exists [], []; split; [reflexivity|intros c []]|left; reflexivity].
    + split; [|split; [saynumber "TBCOL2"%string 19 "5"%string ""%string|split; [|cbn; lia]]].
      * split; [left; split; [saytext "TTYPE2"%string "'MAG     '"%string ""%string|left; vm_compute; reflexivity]|]. split; [saytext "TFORM2"%string "'F3.1    '"%string ""%string|].
        split; [vm_compute; reflexivity|]. split; vm_compute; reflexivity.
      * exists "F"%char. split; [vm_compute; tauto|]. exists (lit "3"), (lit ".1"). split; [apply digits; reflexivity|]. split; [discriminate|]. split; [reflexivity|].
        split; [exists [], []; split; [reflexivity|intros c []]|right; exists (lit "1"); split; [reflexivity|split; [discriminate|apply digits; reflexivity]]].
  - constructor; [reflexivity|constructor; [reflexivity|constructor]].
Qed.

Theorem C121_gap_refuted : exists f f' t t', encodes fc0 (s_content gap_unit) (s_records gap_unit) (s_data gap_unit) /\ tidy gap_unit /\
  read_entire_hdus fc0 40 2 (open_fits (stored_bytes gap_unit)) = (f, Ret tt) /\
  read_entire_hdus fc0 40 2 (open_fits (fst (write_to f))) = (f', Ret tt) /\
  hdu_at 0 f = Ret (HAscii t) /\ hdu_at 0 f' = Ret (HAscii t') /\
  t_data t = [[lit "abc"; lit "1.5"]; [lit "def"; lit "7.0"]] /\
  t_data t' = [[lit "abc"; lit ".5d"]; [lit "ef7"; lit "0"]].
Proof.
  eexists. eexists. eexists. eexists. split; [exact gap_encoded|]. split; [split; [|right]; vm_compute; discriminate|].
  split; [vm_compute; reflexivity|]. split; [vm_compute; reflexivity|]. split; [vm_compute; reflexivity|]. split; [vm_compute; reflexivity|]. split; vm_compute; reflexivity.
Qed.
Print Assumptions C121_gap_refuted.
