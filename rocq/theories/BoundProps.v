(** * Property theorems about the size of what is read (C126). *)
From Coq Require Import Lia.
From Verif Require Import ReaderImage ReaderProps BoundSpec BoundProofs.

(** ** C126: what reading a file makes of it is bounded by the size of the file *)

(** Every object has its share of the bytes of the file, and is made of no more than that. *)
Theorem C126_shares fc c hf fuel f : small c -> read_entire_hdus fc hf fuel (open_fits c) = (f, Ret tt) ->
  exists ns, Forall2 within ns (f_hdus f) /\ total ns <= length c.
Proof. exact (read_within fc c hf fuel f). Qed.
Print Assumptions C126_shares.

Theorem C126_count fc c hf fuel f : small c -> read_entire_hdus fc hf fuel (open_fits c) = (f, Ret tt) ->
  2880 * length (f_hdus f) < length c + 2880.
Proof. exact (read_count fc c hf fuel f). Qed.
Print Assumptions C126_count.

(** A file of three HDUs. *)
Definition three_read : fits := fst (read_entire_hdus fc0 40 5 (open_fits three_file)).
Example C126_case : small three_file /\ read_entire_hdus fc0 40 5 (open_fits three_file) = (three_read, Ret tt) /\ length (f_hdus three_read) = 3 /\
  length three_file = 6 * 2880.
Proof. split; [vm_compute; reflexivity|]. split; [vm_compute; reflexivity|]. split; vm_compute; reflexivity. Qed.

(** ** What is not bounded *)

Definition table_unit (kind axis1 axis2 : string) (cols : list (string * string)) (d : str) : str :=
  unit_text ([line "XTENSION" kind; line "BITPIX" "8"; line "NAXIS" "2"; line "NAXIS1" axis1; line "NAXIS2" axis2;
    line "PCOUNT" "0"; line "GCOUNT" "1"; line "EXTNAME" "'X'"] ++ map (fun p => line (fst p) (snd p)) cols ++ [end_line]) d.
Definition binary_read (c : str) : option table :=
  match read_entire_hdus fc0 40 5 (open_fits c) with (mk_fits _ [HBinary t] _, Ret _) => Some t | _ => None end.
Definition ascii_read (c : str) : option table :=
  match read_entire_hdus fc0 40 5 (open_fits c) with (mk_fits _ [HAscii t] _, Ret _) => Some t | _ => None end.
Lemma binary_read_file c t : binary_read c = Some t -> exists f, read_entire_hdus fc0 40 5 (open_fits c) = (f, Ret tt) /\ f_hdus f = [HBinary t].
Proof.
  unfold binary_read. destruct (read_entire_hdus fc0 40 5 (open_fits c)) as [[s hs m] [[]| | |]]; destruct hs as [|[| |u|] [|]]; try discriminate.
  intros H. eexists. split; [reflexivity|]. cbn [f_hdus]. congruence.
Qed.
Lemma ascii_read_file c t : ascii_read c = Some t -> exists f, read_entire_hdus fc0 40 5 (open_fits c) = (f, Ret tt) /\ f_hdus f = [HAscii t].
Proof.
  unfold ascii_read. destruct (read_entire_hdus fc0 40 5 (open_fits c)) as [[s hs m] [[]| | |]]; destruct hs as [|[| | |u] [|]]; try discriminate.
  intros H. eexists. split; [reflexivity|]. cbn [f_hdus]. congruence.
Qed.

(** Axes whose product wraps: 100003 empty rows from two blocks. *)
Definition many_rows : str := table_unit "'BINTABLE'" "13001797506428984587" "100003" [("TFIELDS", "1"); ("TFORM1", "'0A'")]%string (lit "x").
Theorem C126_rows_refuted : exists f t, read_entire_hdus fc0 40 5 (open_fits many_rows) = (f, Ret tt) /\ f_hdus f = [HBinary t] /\
  length many_rows = 2 * 2880 /\ N.of_nat (length (t_data t)) = 100003%N.
Proof.
  assert (H : option_map (fun t => N.of_nat (length (t_data t))) (binary_read many_rows) = Some 100003%N) by (vm_compute; reflexivity).
  destruct (binary_read many_rows) as [t|] eqn:E; [|discriminate H]. destruct (binary_read_file _ _ E) as (f & F1 & F2). exists f, t.
  split; [exact F1|]. split; [exact F2|]. split; [vm_compute; reflexivity|]. cbn [option_map] in H. congruence.
Qed.
Print Assumptions C126_rows_refuted.

(** Columns of an ASCII table that overlap: ten copies of the data. *)
Definition ten : list string := ["1"; "2"; "3"; "4"; "5"; "6"; "7"; "8"; "9"; "10"]%string.
Definition overlapping : str := table_unit "'TABLE'" "2880" "1"
  (("TFIELDS", "10") :: map (fun i => ("TFORM" ++ i, "'A2880'")) ten ++ map (fun i => ("TBCOL" ++ i, "1")) ten)%string (repeat "x"%char (N.to_nat 2880)).
Theorem C126_cells_refuted : exists f t, read_entire_hdus fc0 40 5 (open_fits overlapping) = (f, Ret tt) /\ f_hdus f = [HAscii t] /\
  N.of_nat (length overlapping) = (3 * 2880)%N /\ N.of_nat (cell_chars t) = (10 * 2880)%N.
Proof.
  assert (H : option_map (fun t => N.of_nat (cell_chars t)) (ascii_read overlapping) = Some (10 * 2880)%N) by (vm_compute; reflexivity).
  destruct (ascii_read overlapping) as [t|] eqn:E; [|discriminate H]. destruct (ascii_read_file _ _ E) as (f & F1 & F2). exists f, t.
  split; [exact F1|]. split; [exact F2|]. split; [vm_compute; reflexivity|]. cbn [option_map] in H. congruence.
Qed.
Print Assumptions C126_cells_refuted.

(** The buffer for the data is as large as the header says, however short the file is. *)
Definition boasting : list str := primary_records "8" "1099511627776" with_extend.
Theorem C126_buffer_refuted : let c := concat boasting ++ spaces (pad_len (length (concat boasting))) in
  length c = 2880 /\ exists h, readable fc0 c 0 h /\ data_bytes h = Ret (2 ^ 40)%N /\
    forall hf fuel, snd (read_entire_hdus fc0 hf fuel (open_fits c)) <> Ret tt.
Proof.
  intros c. assert (L : length c = 2880) by (vm_compute; reflexivity). split; [exact L|].
  exists (header_of boasting).
  assert (R : readable fc0 c 0 (header_of boasting)).
  { split; [exists 40; eexists; change (positioned c 0) with (open_stream c); vm_compute; reflexivity|]. apply Nat.leb_le. vm_compute. reflexivity. }
  split; [exact R|]. split; [vm_compute; reflexivity|]. intros hf fuel H.
  assert (Ds : data_size (header_of boasting) = (2 ^ 40)%N) by (vm_compute; reflexivity).
  assert (Hb : h_bitpix (header_of boasting) = Some B8) by (vm_compute; reflexivity).
  assert (Sm : small c) by (unfold small; rewrite L; vm_compute; reflexivity).
  destruct (read_entire_hdus fc0 hf fuel (open_fits c)) as [f r] eqn:E. cbn [snd] in H. subst r.
  destruct (proj1 (reads_iff fc0 c (f_hdus f) Sm)) as (us & names & (e & U & Le) & _); [eauto|].
  clearbody c. generalize dependent (header_of boasting). intros h R Ds Hb. clear E.
  inversion U as [p|u us' e1 e' U1 _ Eu]; subst; [lia|].
  inversion U1 as [p h' Hp R' Z|p h' b n Hp R' Hb' Z Hn Hl]; subst; cbn [u_at] in *; subst p;
    pose proof (readable_fun _ _ _ _ _ R R'); subst h'; rewrite Ds in *; [discriminate Z|].
  assert (b = B8) by congruence. subst b. change (element_size B8) with 1%N in Hn. rewrite N.mod_small in Hn by lia. lia.
Qed.
Print Assumptions C126_buffer_refuted.
