(** * Property theorems about the records a file has to contain (C122). *)
From Coq Require Import Lia.
From Verif Require Import ReaderImage WholeProofs WholeProps NeedSpec NeedProofs.

(** ** C122: what becomes of a file when all records of a keyword are taken out of a header *)

(** A keyword that the kind of HDU needs: out_of_range, with the HDUs before it. *)
Theorem C122_needed fc l x key rest : Forall (fun x => encodes fc (s_content x) (s_records x) (s_data x)) (l ++ [x]) -> Forall tidy l ->
  needs (s_content x) key -> header_inside (deprived key x) \/ s_data x = [] ->
  forall c, c = concat (map stored_bytes l) ++ stored_bytes (deprived key x) ++ rest -> small c ->
  forall hf fuel, Forall (fun x => length (s_records x) <= hf) (l ++ [deprived key x]) -> length l < fuel ->
  exists f, read_entire_hdus fc hf fuel (open_fits c) = (f, Throw OutOfRange) /\ Forall2 (fun x o => contains (s_content x) o) l (f_hdus f).
Proof. exact (needed_file fc l x key rest). Qed.
Print Assumptions C122_needed.

(** BITPIX, NAXIS or an axis: invalid_cast, since the value of the first record is no number. *)
Theorem C122_sizes fc l x key rest : Forall (fun x => encodes fc (s_content x) (s_records x) (s_data x)) (l ++ [x]) -> Forall tidy l ->
  sizes (s_content x) key -> begins (s_content x) (s_records x) ->
  forall c, c = concat (map stored_bytes l) ++ stored_bytes (deprived key x) ++ rest -> small c ->
  forall hf fuel, Forall (fun x => length (s_records x) <= hf) (l ++ [deprived key x]) -> length l < fuel ->
  exists f, read_entire_hdus fc hf fuel (open_fits c) = (f, Throw InvalidCast) /\ Forall2 (fun x o => contains (s_content x) o) l (f_hdus f).
Proof. exact (size_file fc l x key rest). Qed.
Print Assumptions C122_sizes.

(** Any other keyword: the file is read to what is left of its contents, in as many HDUs as one likes. *)
Theorem C122_spare fc l l' l0 x0 : Forall (fun x => encodes fc (s_content x) (s_records x) (s_data x)) l -> Forall2 less l l' ->
  l' = l0 ++ [x0] -> Forall tidy l0 -> header_inside x0 \/ s_data x0 = [] -> forall c, c = concat (map stored_bytes l') -> small c ->
  forall hf fuel, Forall (fun x => length (s_records x) <= hf) l' -> length l' < fuel ->
  exists f, read_entire_hdus fc hf fuel (open_fits c) = (f, Ret tt) /\ Forall2 (fun x o => contains (s_content x) o) l' (f_hdus f).
Proof. exact (spare_file fc l l' l0 x0). Qed.
Print Assumptions C122_spare.

(** ** Examples: the three units of C119 *)
Lemma three_encoded : Forall (fun x => encodes fc0 (s_content x) (s_records x) (s_data x)) three.
Proof. constructor; [exact C119_image_encoded|]. constructor; [exact C119_cells_encoded|]. constructor; [exact C119_lines_encoded|constructor]. Qed.
Lemma image_tidy : tidy image_unit.
Proof. split; [|right]; vm_compute; discriminate. Qed.
Lemma cells_tidy : tidy cells_unit.
Proof. split; [|right]; vm_compute; discriminate. Qed.

(** EXTNAME is optional in FITS; a file with a table without it cannot be read. *)
Theorem C122_extname_refuted : exists f,
  read_entire_hdus fc0 40 4 (open_fits (stored_bytes image_unit ++ stored_bytes (deprived (lit "EXTNAME") cells_unit) ++ stored_bytes lines_unit)) = (f, Throw OutOfRange) /\
  exists o, f_hdus f = [o] /\ contains (s_content image_unit) o.
Proof.
  destruct (C122_needed fc0 [image_unit] cells_unit (lit "EXTNAME") (stored_bytes lines_unit)) with
    (c := stored_bytes image_unit ++ stored_bytes (deprived (lit "EXTNAME") cells_unit) ++ stored_bytes lines_unit) (hf := 40) (fuel := 4) as (f & E & F).
  - constructor; [exact C119_image_encoded|]. constructor; [exact C119_cells_encoded|constructor].
  - constructor; [exact image_tidy|constructor].
  - left. vm_compute. tauto.
  - left. vm_compute. discriminate.
  - cbn [map concat]. rewrite app_nil_r. reflexivity.
  - unfold small. vm_compute. reflexivity.
  - repeat (constructor; [apply Nat.leb_le; vm_compute; reflexivity|]). constructor.
  - cbn. lia.
  - exists f. split; [exact E|]. inversion F as [|? o ? ? H G]; subst. inversion G; subst. eauto.
Qed.
Print Assumptions C122_extname_refuted.

Example C122_sizes_case : exists f,
  read_entire_hdus fc0 40 4 (open_fits (concat (map stored_bytes [image_unit; cells_unit]) ++ stored_bytes (deprived (axis_key 2) lines_unit) ++ [])) = (f, Throw InvalidCast) /\
  length (f_hdus f) = 2.
Proof.
  destruct (C122_sizes fc0 [image_unit; cells_unit] lines_unit (axis_key 2) []) with
    (c := concat (map stored_bytes [image_unit; cells_unit]) ++ stored_bytes (deprived (axis_key 2) lines_unit) ++ []) (hf := 40) (fuel := 4) as (f & E & F).
  - exact three_encoded.
  - constructor; [exact image_tidy|constructor; [exact cells_tidy|constructor]].
  - right. right. exists 2. split; [cbn; lia|reflexivity].
  - vm_compute. reflexivity.
  - reflexivity.
  - unfold small. vm_compute. reflexivity.
  - repeat (constructor; [apply Nat.leb_le; vm_compute; reflexivity|]). constructor.
  - cbn. lia.
  - exists f. split; [exact E|]. inversion F as [|? o ? ? H G]; subst. inversion G as [|? o' ? ? H' G']; subst. inversion G'; subst. reflexivity.
Qed.

(** Without TTYPE2 the second column has no name; without TUNIT1 or TDISP1 it has no unit, no display format. *)
Example C122_spare_case : exists f t,
  read_entire_hdus fc0 40 4 (open_fits (concat (map stored_bytes [image_unit; deprived (lit "TTYPE2") cells_unit; lines_unit]))) = (f, Ret tt) /\
  nth_error (f_hdus f) 1 = Some (HBinary t) /\ map c_name (t_columns t) = [lit "FLUX"; []] /\
  t_data t = [[map ascii_of_N [1; 0; 1; 7]%N; lit "ab"]; [map ascii_of_N [1; 2; 3; 4]%N; lit "cde"]].
Proof.
  destruct (C122_spare fc0 three [image_unit; deprived (lit "TTYPE2") cells_unit; lines_unit] [image_unit; deprived (lit "TTYPE2") cells_unit] lines_unit) with
    (c := concat (map stored_bytes [image_unit; deprived (lit "TTYPE2") cells_unit; lines_unit])) (hf := 40) (fuel := 4) as (f & E & F).
  - exact three_encoded.
  - constructor; [left; reflexivity|]. constructor; [right|constructor; [left; reflexivity|constructor]].
    exists (lit "TTYPE2"). split; [|reflexivity]. split; [|split; [|discriminate]].
    + intros [K|(i & Hi & K)]; [cbn in K; intuition discriminate|discriminate K].
    + intros [K|[K|(i & Hi & K)]]; discriminate K.
  - reflexivity.
  - constructor; [exact image_tidy|constructor; [split; [|right]; vm_compute; discriminate|constructor]].
  - left. vm_compute. discriminate.
  - reflexivity.
  - unfold small. vm_compute. reflexivity.
  - repeat (constructor; [apply Nat.leb_le; vm_compute; reflexivity|]). constructor.
  - cbn. lia.
  - inversion F as [|? o ? os H G Ea Eb]. inversion G as [|? o' ? os' H' G' Ec Ed]. destruct H' as (t & -> & [L C] & D).
    exists f, t. split; [exact E|]. rewrite <- Eb, <- Ed. split; [reflexivity|]. split; [|rewrite D; vm_compute; reflexivity].
    clear -L C. destruct (t_columns t) as [|c1 [|c2 [|c3 cs]]]; try discriminate L.
    destruct (C 0 _ c1 eq_refl eq_refl) as ((_ & N1 & _) & _). destruct (C 1 _ c2 eq_refl eq_refl) as ((_ & N2 & _) & _).
    cbn [map]. rewrite N1, N2. reflexivity.
Qed.
