(** * Property theorems about opening, creating and access (C87, C88). *)
From Verif Require Import AccessProofs ReaderImage ReaderProps CutProps.

(** ** C87 *)

(** Writing to a path that cannot be created writes nothing and ends as if it had succeeded. *)
Theorem C87_unwritable : forall f, write_to_path false f = ([], snd (write_to f)) /\ write_to_path true f = write_to f.
Proof. exact write_unwritable. Qed.
Print Assumptions C87_unwritable.

Theorem C87_failure_reported_refuted : exists f c, c <> [] /\ write_to_path true f = (c, Ret tt) /\ write_to_path false f = ([], Ret tt).
Proof.
  exists (mk_fits create_stream [object prim prim_data] []), (fst (write_to_path true (mk_fits create_stream [object prim prim_data] []))).
  split; [|split]; vm_compute; [discriminate|reflexivity|reflexivity].
Qed.
Print Assumptions C87_failure_reported_refuted.

(** A path that cannot be opened: both ways of opening report it, and a reader that was in use keeps its HDUs and names. *)
Theorem C87_missing : forall fc hf fuel o f, fits_open fc hf fuel None o = Throw FileReading /\
  exists f1, initialize_path None f = (f1, Throw FileReading) /\ f_hdus f1 = f_hdus f /\ f_info f1 = f_info f.
Proof. intros fc hf fuel o f. split; [apply open_missing|apply initialize_missing]. Qed.
Print Assumptions C87_missing.

(** Reading on after that exception does not end. *)
Theorem C87_reading_after_missing : forall fc hf fuel f f1 r, initialize_path None f = (f1, r) ->
  snd (read_entire_hdus fc hf fuel f1) = NoFuel /\ snd (read_only_headers fc hf fuel f1) = NoFuel.
Proof. exact read_after_missing. Qed.
Print Assumptions C87_reading_after_missing.

(** A reader made without a file has nothing to read. *)
Theorem C87_no_file : forall fc hf fuel,
  (exists f, read_entire_hdus fc hf (S fuel) no_fits = (f, Ret tt) /\ f_hdus f = [] /\ f_info f = []) /\
  (exists f, read_only_headers fc hf (S fuel) no_fits = (f, Ret tt) /\ f_hdus f = [] /\ f_info f = []).
Proof. intros fc hf fuel. split; apply read_nothing. Qed.
Print Assumptions C87_no_file.

Example C87_case : exists f1, initialize_path None (mk_fits create_stream [object prim prim_data] []) = (f1, Throw FileReading) /\
  f_hdus f1 = [object prim prim_data] /\ snd (read_entire_hdus fc0 20 7 f1) = NoFuel.
Proof. eexists. split; [reflexivity|]. split; vm_compute; reflexivity. Qed.

(** ** C88 *)

(** Opening reads all HDUs of a readable file. *)
Theorem C88_open : forall fc c us names xs, small c -> reads_as fc c us names xs ->
  forall hf fuel, Forall (fun u => length (h_cards (u_header u)) <= hf) us -> length us < fuel ->
  exists f, fits_open fc hf fuel (Some c) ReadEntireHdus = Ret f /\ f_hdus f = xs.
Proof. exact open_reads. Qed.
Print Assumptions C88_open.

(** Opening for the headers alone makes the HDUs without their data, also where the file ends before the announced end of the data. *)
Theorem C88_open_headers : forall fc c us names xs, small c -> announced_units fc c 0 us -> length names = length xs ->
  Forall2 (fun u nx => becomes fc (u_header u) [] (fst nx) (snd nx)) us (combine names xs) ->
  forall hf fuel, Forall (fun u => length (h_cards (u_header u)) <= hf) us -> length us < fuel ->
  exists f, fits_open fc hf fuel (Some c) ReadOnlyHeaders = Ret f /\ f_hdus f = xs /\ f_info f = catalogue 0 us names [].
Proof. exact open_headers. Qed.
Print Assumptions C88_open_headers.

Example C88_headers_case : exists f, fits_open fc0 20 2 (Some cut_file) ReadOnlyHeaders = Ret f /\ f_hdus f = [object prim []].
Proof.
  assert (Sm : small cut_file) by (apply N.ltb_lt; vm_compute; reflexivity).
  assert (F : Forall2 (fun u nx => becomes fc0 (u_header u) [] (fst nx) (snd nx)) [mk_unit 0 2880 prim []] (combine [lit "primary_hdu"] [object prim []])).
  { apply Forall2_cons; [|apply Forall2_nil]. change (becomes fc0 prim [] (lit "primary_hdu") (object prim [])). apply built_becomes. vm_compute. reflexivity. }
  destruct (C88_open_headers fc0 cut_file _ [lit "primary_hdu"] [object prim []] Sm C63_announced_case eq_refl F 20 2) as (f & E & Ex & _).
  { apply Forall_cons; [|apply Forall_nil]. apply Nat.leb_le. vm_compute. reflexivity. } { cbn [length]. auto with arith. }
  exists f. split; assumption.
Qed.

(** Access by number: the HDU of that number or std::out_of_range; negative numbers are out of range. *)
Theorem C88_number : forall i f, (- 2 ^ 31 <= i < 2 ^ 31)%Z -> (N.of_nat (length (f_hdus f)) < 2 ^ 63)%N ->
  hdu_at_int i f =
  if (i <? 0)%Z then Throw OutOfRange else match nth_error (f_hdus f) (Z.to_nat i) with Some x => Ret x | None => Throw OutOfRange end.
Proof. exact at_int. Qed.
Print Assumptions C88_number.

(** Conversion gives the object of that kind or boost::bad_get. *)
Theorem C88_convert : forall x,
  (forall p, as_primary x = Ret p <-> x = HPrimary p) /\ (forall t, as_binary x = Ret t <-> x = HBinary t) /\ (forall t, as_ascii x = Ret t <-> x = HAscii t) /\
  ((forall p, x <> HPrimary p) -> as_primary x = Throw BadGet) /\ ((forall t, x <> HBinary t) -> as_binary x = Throw BadGet) /\
  ((forall t, x <> HAscii t) -> as_ascii x = Throw BadGet).
Proof.
  intros x. repeat split; try (intros H; destruct x; try discriminate; injection H as <-; reflexivity);
    try (intros ->; reflexivity); intros H; destruct x; try reflexivity; exfalso; eapply H; reflexivity.
Qed.
Print Assumptions C88_convert.

Example C88_case : exists f, fits_open fc0 20 4 (Some three_file) ReadEntireHdus = Ret f /\ f_hdus f = objects_of three /\
  hdu_at_int 2 f = Ret (object asct asct_data) /\ as_ascii (object asct asct_data) = Ret the_table /\
  as_binary (object asct asct_data) = Throw BadGet /\ hdu_at_int (-1) f = Throw OutOfRange /\ hdu_at_int 3 f = Throw OutOfRange.
Proof.
  assert (Sm : small three_file) by (apply N.ltb_lt; vm_compute; reflexivity).
  assert (Hf : Forall (fun u => length (h_cards (u_header u)) <= 20) (placed 0 three)) by (repeat constructor; apply Nat.leb_le; vm_compute; reflexivity).
  destruct (C88_open fc0 three_file _ _ _ Sm three_reads 20 4 Hf (ltac:(apply Nat.ltb_lt; vm_compute; reflexivity))) as (f & E & Ex).
  exists f. split; [exact E|]. split; [exact Ex|].
  assert (Ln : (N.of_nat (length (f_hdus f)) < 2 ^ 63)%N) by (rewrite Ex; apply N.ltb_lt; vm_compute; reflexivity).
  split; [|split; [|split; [|split]]].
  - rewrite C88_number by first [exact Ln|split; [discriminate|reflexivity]]. rewrite Ex. reflexivity.
  - vm_compute. reflexivity.
  - vm_compute. reflexivity.
  - rewrite C88_number by first [exact Ln|split; [discriminate|reflexivity]]. reflexivity.
  - rewrite C88_number by first [exact Ln|split; [discriminate|reflexivity]]. rewrite Ex. reflexivity.
Qed.
