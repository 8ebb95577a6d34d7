(** * Property theorems about the whole life of a reader object (C125). *)
From Coq Require Import Lia.
From Verif Require Import AccessModel ReaderSpec ExnSpec ExnProps WholeProofs WholeProps CopySpec PartSpec PartProps LifeSpec LifeProofs.

(** ** C125: what stays true whatever is done with a reader *)

(** HDUs are never lost or replaced: a number once valid keeps its HDU. *)
Theorem C125_kept fc ks ks' : let f := fst (life fc ks no_fits) in let f' := fst (life fc (ks ++ ks') no_fits) in
  (exists more, f_hdus f' = f_hdus f ++ more) /\ forall i x, hdu_at i f = Ret x -> hdu_at i f' = Ret x.
Proof. exact (life_kept fc ks ks'). Qed.
Print Assumptions C125_kept.

(** A name never leads to an HDU from before the last file was opened. If all reading since then returned, it leads to one made of a unit of
    that name or throws. *)
Theorem C125_names fc ks c ks2 f1 f rs : f1 = fst (life fc ks no_fits) -> Forall opens_nothing ks2 -> life fc (Open (Some c) :: ks2) f1 = (f, rs) ->
  (forall n, hdu_named n f = Throw OutOfRange \/ hdu_named n f = Undef \/
     exists i x, length (f_hdus f1) <= i /\ hdu_at i f = Ret x /\ hdu_named n f = Ret x) /\
  (Forall2 read_well (Open (Some c) :: ks2) rs ->
     length (f_hdus f1) + total_hdus f <= length (f_hdus f) /\
     forall n, hdu_named n f = Throw OutOfRange \/
       exists i x h d, length (f_hdus f1) <= i /\ hdu_at i f = Ret x /\ hdu_named n f = Ret x /\ becomes fc h d n x).
Proof. exact (life_names fc ks c ks2 f1 f rs). Qed.
Print Assumptions C125_names.

(** What is written are whole blocks, the HDUs one after the other, each as it would be written alone. *)
Theorem C125_written fc ks : let f := fst (life fc ks no_fits) in (N.of_nat (length (concat (map alone (f_hdus f)))) < 2 ^ 61)%N ->
  write_to f = (concat (map alone (f_hdus f)), Ret tt) /\ length (fst (write_to f)) mod 2880 = 0.
Proof. exact (life_written fc ks). Qed.
Print Assumptions C125_written.

(** Reading more only adds to the end of what is written. *)
Theorem C125_written_later fc ks ks' : let f := fst (life fc ks no_fits) in let f' := fst (life fc (ks ++ ks') no_fits) in
  (N.of_nat (length (concat (map alone (f_hdus f')))) < 2 ^ 61)%N -> exists rest, fst (write_to f') = fst (write_to f) ++ rest.
Proof. exact (life_written_later fc ks ks'). Qed.
Print Assumptions C125_written_later.

(** ** Examples *)

(** A file read, a path that cannot be opened, then another file of which only the headers are read. *)
Definition first_calls : list call := [Open (Some (stored_bytes image_unit)); Read ReadEntireHdus 40 2; Open None].
Definition second_calls : list call := [Read ReadOnlyHeaders 40 2; Read ReadEntireHdus 40 2].
Definition whole_life : list call := first_calls ++ Open (Some (part_bytes other)) :: second_calls.

Example C125_case : let f1 := fst (life fc0 first_calls no_fits) in let r := life fc0 (Open (Some (part_bytes other)) :: second_calls) f1 in
  Forall opens_nothing second_calls /\ Forall2 read_well (Open (Some (part_bytes other)) :: second_calls) (snd r) /\
  length (f_hdus f1) = 1 /\ length (f_hdus (fst r)) = 2 /\ hdu_named (lit "IMAGE") (fst r) = Ret HBlank /\ hdu_named (lit "primary_hdu") f1 <> Throw OutOfRange /\
  hdu_named (lit "primary_hdu") (fst r) = Throw OutOfRange /\ hdu_at 0 (fst r) <> Throw OutOfRange /\
  length (concat (map alone (f_hdus (fst (life fc0 whole_life no_fits))))) = 2 * 2880.
Proof.
  assert (N : forall o : outcome hdu, match o with Ret _ => true | _ => false end = true -> o <> Throw OutOfRange) by (intros [| | |] H; discriminate).
  split; [repeat constructor|]. split.
  { assert (E : snd (life fc0 (Open (Some (part_bytes other)) :: second_calls) (fst (life fc0 first_calls no_fits))) = [Ret tt; Ret tt; Ret tt]) by (vm_compute; reflexivity).
    rewrite E. repeat constructor. }
  split; [vm_compute; reflexivity|]. split; [vm_compute; reflexivity|]. split; [vm_compute; reflexivity|].
  split; [apply N; vm_compute; reflexivity|]. split; [vm_compute; reflexivity|]. split; [apply N; vm_compute; reflexivity|]. vm_compute; reflexivity.
Qed.

(** After reading that threw, a name can lead nowhere: the access is undefined behaviour, not an exception. *)
Definition bad_records : list str := [line "XTENSION" 0 "'BINTABLE'" ""; line "BITPIX" 19 "8" ""; line "NAXIS" 19 "0" ""; end_card].
Theorem C125_names_refuted : exists f, life fc0 [Open (Some (file_of bad_records)); Read ReadEntireHdus 40 2] no_fits = (f, [Ret tt; Throw OutOfRange]) /\
  total_hdus f = 1 /\ f_hdus f = [] /\ hdu_named (lit "BINTABLE") f = Undef.
Proof. eexists. split; [vm_compute; reflexivity|]. split; [reflexivity|]. split; [reflexivity|vm_compute; reflexivity]. Qed.
Print Assumptions C125_names_refuted.
