(** * Proofs about opening, creating and access. *)
From Verif Require Export AccessModel CutProofs.
From Coq Require Import Lia ZifyBool ZifyNat ZifyN.
Open Scope list_scope.

(** ** Writing to a file that could not be created *)

(** A failed stream that stays as it is. *)
Definition lost (s : stream) : Prop := good s = false /\ content s = [].

Lemma lost_write d s : lost s -> lost (stream_write d s).
Proof. intros [G C]. unfold stream_write. rewrite G. split; assumption. Qed.

Lemma lost_pos s : lost s -> lost (snd (get_current_pos s)).
Proof. intros [G C]. unfold get_current_pos. rewrite G. split; [unfold good; cbn; apply andb_false_r|exact C]. Qed.

Lemma lost_padding s : lost s -> lost (write_padding s).
Proof.
  intros L. unfold write_padding, find_unit_end. pose proof (lost_pos s L) as L1. destruct (get_current_pos s) as [p s1]. cbn [snd] in L1.
  pose proof (lost_pos s1 L1) as L2. destruct (get_current_pos s1) as [p2 s2]. cbn [snd] in L2. apply lost_write. exact L2.
Qed.

Lemma lost_fold {A} (g : A -> str) l : forall s, lost s -> lost (fold_left (fun s x => stream_write (g x) s) l s).
Proof. induction l as [|x l IH]; intros s L; [exact L|]. cbn [fold_left]. apply IH. apply lost_write. exact L. Qed.

Lemma lost_header h s : lost s -> lost (write_header h s).
Proof. intros L. unfold write_header. apply lost_padding. apply lost_write. exact L. Qed.

Lemma lost_rows cols rows : forall s, lost s -> lost (fst (ascii_write_rows cols rows s)).
Proof.
  induction rows as [|row rows IH]; intros s L; cbn [ascii_write_rows]; [exact L|].
  destruct (ascii_row_text cols row); try exact L. apply IH. apply lost_write. exact L.
Qed.

Lemma lost_hdu x s : lost s -> lost (fst (write_hdu x s)).
Proof.
  intros L. destruct x as [|p|t|t]; cbn [write_hdu fst].
  - exact L.
  - unfold primary_write, write_unit. apply lost_padding, lost_write, lost_header. exact L.
  - unfold bin_write. apply lost_padding. apply (lost_fold bin_row_text). apply lost_header. exact L.
  - unfold ascii_write. pose proof (lost_rows (t_columns t) (t_data t) _ (lost_header (t_header t) s L)) as R.
    destruct (ascii_write_rows _ _ _) as [s1 [[]| | |]]; cbn [fst] in *; try exact R. apply lost_padding. exact R.
Qed.

(** Whether writing an HDU ends normally does not depend on the stream. *)
Lemma rows_outcome cols rows : forall s s', snd (ascii_write_rows cols rows s) = snd (ascii_write_rows cols rows s').
Proof. induction rows as [|row rows IH]; intros s s'; cbn [ascii_write_rows]; [reflexivity|]. destruct (ascii_row_text cols row); try reflexivity. apply IH. Qed.

Lemma hdu_outcome x s s' : snd (write_hdu x s) = snd (write_hdu x s').
Proof.
  destruct x as [|p|t|t]; try reflexivity. cbn [write_hdu]. unfold ascii_write.
  pose proof (rows_outcome (t_columns t) (t_data t) (write_header (t_header t) s) (write_header (t_header t) s')) as E.
  destruct (ascii_write_rows _ _ (write_header _ s)) as [a r]. destruct (ascii_write_rows _ _ (write_header _ s')) as [b r'].
  cbn [snd] in E. subst r'. destruct r as [[]| | |]; reflexivity.
Qed.

Lemma hdus_outcome l : forall s s', snd (write_hdus l s) = snd (write_hdus l s').
Proof.
  induction l as [|x l IH]; intros s s'; [reflexivity|]. cbn [write_hdus]. pose proof (hdu_outcome x s s') as E.
  destruct (write_hdu x s) as [a r]. destruct (write_hdu x s') as [b r']. cbn [snd] in E. subst r'.
  destruct r as [[]| | |]; try reflexivity. apply IH.
Qed.

Lemma lost_hdus l : forall s, lost s -> lost (fst (write_hdus l s)).
Proof.
  induction l as [|x l IH]; intros s L; [exact L|]. cbn [write_hdus]. pose proof (lost_hdu x s L) as L1.
  destruct (write_hdu x s) as [a [[]| | |]]; cbn [fst] in *; try exact L1. apply IH. exact L1.
Qed.

Theorem write_unwritable f : write_to_path false f = ([], snd (write_to f)) /\ write_to_path true f = write_to f.
Proof.
  split; [|reflexivity]. unfold write_to_path, write_to. cbn [create_file].
  pose proof (lost_hdus (f_hdus f) failed_stream (conj eq_refl eq_refl)) as [_ C].
  pose proof (hdus_outcome (f_hdus f) failed_stream create_stream) as E.
  destruct (write_hdus (f_hdus f) failed_stream) as [a r]. destruct (write_hdus (f_hdus f) create_stream) as [b r'].
  cbn [fst snd] in *. subst. rewrite C. reflexivity.
Qed.

(** ** A path that cannot be opened *)

Theorem open_missing fc hf fuel o : fits_open fc hf fuel None o = Throw FileReading.
Proof. reflexivity. Qed.

Theorem initialize_missing f : exists f1, initialize_path None f = (f1, Throw FileReading) /\ f_hdus f1 = f_hdus f /\ f_info f1 = f_info f.
Proof. eexists. split; [reflexivity|]. split; reflexivity. Qed.

Theorem read_after_missing fc hf fuel f f1 r : initialize_path None f = (f1, r) ->
  snd (read_entire_hdus fc hf fuel f1) = NoFuel /\ snd (read_only_headers fc hf fuel f1) = NoFuel.
Proof.
  intros H. injection H as <- _. split; [apply dead_loop|apply dead_header_loop]; reflexivity.
Qed.

(** A reader without a file has no HDUs, however it is read. *)
Theorem read_nothing turn fuel : exists f, read_loop turn (S fuel) no_fits = (f, Ret tt) /\ f_hdus f = [] /\ f_info f = [].
Proof. eexists. split; [reflexivity|]. split; reflexivity. Qed.

(** ** Opening in one call *)

Theorem open_entire fc hf fuel c : fits_open fc hf fuel (Some c) ReadEntireHdus =
  match read_entire_hdus fc hf fuel (open_fits c) with
  | (f, Ret _) => Ret f | (_, Throw e) => Throw e | (_, Undef) => Undef | (_, NoFuel) => NoFuel end.
Proof. reflexivity. Qed.

Theorem open_reads fc c us names xs : small c -> reads_as fc c us names xs ->
  forall hf fuel, Forall (fun u => length (h_cards (u_header u)) <= hf) us -> length us < fuel ->
  exists f, fits_open fc hf fuel (Some c) ReadEntireHdus = Ret f /\ f_hdus f = xs.
Proof.
  intros Sm R hf fuel Hf Lf. destruct (reads_run fc c us names xs Sm R hf fuel Hf Lf) as (s & E).
  eexists. split; [rewrite open_entire, E; reflexivity|reflexivity].
Qed.

Theorem open_headers fc c us names xs : small c -> announced_units fc c 0 us -> length names = length xs ->
  Forall2 (fun u nx => becomes fc (u_header u) [] (fst nx) (snd nx)) us (combine names xs) ->
  forall hf fuel, Forall (fun u => length (h_cards (u_header u)) <= hf) us -> length us < fuel ->
  exists f, fits_open fc hf fuel (Some c) ReadOnlyHeaders = Ret f /\ f_hdus f = xs /\ f_info f = catalogue 0 us names [].
Proof.
  intros Sm U Ln F hf fuel Hf Lf. destruct (headers_truncated fc c us hf fuel names xs U Sm Hf Lf F Ln) as (s & E).
  exists (mk_fits s xs (catalogue 0 us names [])). split; [|split; reflexivity].
  change (match read_only_headers fc hf fuel (open_fits c) with
    | (f, Ret _) => Ret f | (_, Throw e) => Throw e | (_, Undef) => Undef | (_, NoFuel) => NoFuel end
    = Ret (mk_fits s xs (catalogue 0 us names []))).
  rewrite E. reflexivity.
Qed.

(** ** Access by number and conversion *)

Theorem at_int i f : (- 2 ^ 31 <= i < 2 ^ 31)%Z -> (N.of_nat (length (f_hdus f)) < 2 ^ 63)%N ->
  hdu_at_int i f = if (i <? 0)%Z then Throw OutOfRange else hdu_at (Z.to_nat i) f.
Proof.
  intros Hi Hl. unfold hdu_at_int. destruct (Z.ltb_spec i 0) as [H|H].
  - assert (E : (i mod 2 ^ 64 = i + 2 ^ 64)%Z) by (symmetry; apply (Z.mod_unique_pos _ _ (-1)); lia). rewrite E.
    destruct (N.ltb_spec (Z.to_N (i + 2 ^ 64)) (N.of_nat (length (f_hdus f)))); [lia|reflexivity].
  - rewrite Z.mod_small by lia. destruct (N.ltb_spec (Z.to_N i) (N.of_nat (length (f_hdus f)))) as [L|L].
    + f_equal. lia.
    + unfold hdu_at. destruct (nth_error (f_hdus f) (Z.to_nat i)) eqn:E; [|reflexivity].
      assert (Z.to_nat i < length (f_hdus f)) by (apply nth_error_Some; congruence). lia.
Qed.
