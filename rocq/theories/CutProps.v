(** * Property theorems about which files can be read, files cut short, and reading histories (C84 - C86). *)
From Verif Require Import AccessProofs ReaderImage ReaderProps.

(** ** C84 *)

(** Exactly the files that are a sequence of complete units can be read. *)
Theorem C84_readable_files : forall fc c xs, small c ->
  ((exists hf fuel f, read_entire_hdus fc hf fuel (open_fits c) = (f, Ret tt) /\ f_hdus f = xs) <->
   (exists us names, reads_as fc c us names xs)).
Proof. exact reads_iff. Qed.
Print Assumptions C84_readable_files.

(** What the first [k] bytes of such a file read as: the units that are there in full, if nothing of another is there... *)
Theorem C84_cut_read : forall fc c us names xs, small c -> reads_as fc c us names xs -> forall k j, k <= length c -> cut_between us k j ->
  forall hf fuel, Forall (fun u => length (h_cards (u_header u)) <= hf) us -> length us < fuel ->
  exists s, read_entire_hdus fc hf fuel (open_fits (firstn k c)) =
    (mk_fits s (firstn j xs) (catalogue 0 (firstn j us) (firstn j names) []), Ret tt).
Proof. exact cut_reads_back. Qed.
Print Assumptions C84_cut_read.

(** ... and nothing else is ever returned. *)
Theorem C84_cut_only : forall fc c us names xs, small c -> reads_as fc c us names xs -> forall k hf fuel f, k <= length c ->
  read_entire_hdus fc hf fuel (open_fits (firstn k c)) = (f, Ret tt) ->
  exists j, cut_between us k j /\ f_hdus f = firstn j xs /\ f_info f = catalogue 0 (firstn j us) (firstn j names) [].
Proof. exact cut_reads. Qed.
Print Assumptions C84_cut_only.

Theorem C84_cut_inside : forall fc c us names xs, small c -> reads_as fc c us names xs -> forall k u, In u us -> u_at u < k < unit_last u ->
  k <= length c -> forall hf fuel, snd (read_entire_hdus fc hf fuel (open_fits (firstn k c))) <> Ret tt.
Proof. exact cut_inside. Qed.
Print Assumptions C84_cut_inside.

(** For any file whatever. *)
Theorem C84_cut_prefix : forall fc c k hf fuel f hf' fuel' f', small c -> read_entire_hdus fc hf fuel (open_fits c) = (f, Ret tt) ->
  read_entire_hdus fc hf' fuel' (open_fits (firstn k c)) = (f', Ret tt) -> exists j, f_hdus f' = firstn j (f_hdus f).
Proof. exact cut_prefix. Qed.
Print Assumptions C84_cut_prefix.

Theorem C84_cut_headers : forall fc c k hf fuel f hf' fuel' f', small c -> read_only_headers fc hf fuel (open_fits c) = (f, Ret tt) ->
  read_only_headers fc hf' fuel' (open_fits (firstn k c)) = (f', Ret tt) -> exists j, f_hdus f' = firstn j (f_hdus f).
Proof. exact cut_headers. Qed.
Print Assumptions C84_cut_headers.

(** The files the library writes (C20) are such files: the theorems above say what a crash while writing leaves. *)
Theorem C84_written : forall fc l names xs, Forall (fun hd => matching fc (fst hd) (snd hd) /\ snd hd <> []) l ->
  let c := concat (map (fun hd => unit_text (map raw (h_cards (fst hd))) (snd hd)) l) in
  small c -> length names = length xs ->
  Forall2 (fun hd nx => becomes fc (fst hd) (snd hd) (fst nx) (snd nx)) l (combine names xs) ->
  reads_as fc c (placed 0 l) names xs.
Proof. exact written_cut. Qed.
Print Assumptions C84_written.

Lemma three_reads : reads_as fc0 three_file (placed 0 three) (names_of three) (objects_of three).
Proof.
  apply (C84_written fc0 three (names_of three) (objects_of three) three_matching).
  - apply N.ltb_lt. vm_compute. reflexivity.
  - reflexivity.
  - apply all_built. vm_compute. reflexivity.
Qed.

Lemma cut_calc us k j : (j <=? length us) && forallb (fun u => unit_last u <=? k) (firstn j us) && forallb (fun u => k <=? u_at u) (skipn j us) = true ->
  cut_between us k j.
Proof.
  intros H. apply andb_prop in H as [H H3]. apply andb_prop in H as [H1 H2]. split; [apply Nat.leb_le; exact H1|].
  split; apply Forall_forall; intros u Hu.
  - rewrite forallb_forall in H2. apply Nat.leb_le, H2, Hu.
  - rewrite forallb_forall in H3. apply Nat.leb_le, H3, Hu.
Qed.

(** Three HDUs; the data of the second ends at 8652, the third begins at 11520. *)
Example C84_case :
  map (fun u => (N.of_nat (u_at u), N.of_nat (unit_last u))) (placed 0 three) = [(0, 2886); (5760, 8652); (11520, 14414)]%N /\
  (exists s m, read_entire_hdus fc0 20 4 (open_fits (firstn (3 * 2880 + 12) three_file)) = (mk_fits s (firstn 2 (objects_of three)) m, Ret tt)) /\
  (exists s m, read_entire_hdus fc0 20 4 (open_fits (firstn (4 * 2880) three_file)) = (mk_fits s (firstn 2 (objects_of three)) m, Ret tt)) /\
  (forall hf fuel, snd (read_entire_hdus fc0 hf fuel (open_fits (firstn (3 * 2880 + 11) three_file))) <> Ret tt) /\
  (forall hf fuel, snd (read_entire_hdus fc0 hf fuel (open_fits (firstn (2 * 2880 + 1) three_file))) <> Ret tt).
Proof.
  assert (Sm : small three_file) by (apply N.ltb_lt; vm_compute; reflexivity).
  assert (Hf : Forall (fun u => length (h_cards (u_header u)) <= 20) (placed 0 three)) by (repeat constructor; apply Nat.leb_le; vm_compute; reflexivity).
  split; [vm_compute; reflexivity|]. split; [|split; [|split]].
  - destruct (C84_cut_read fc0 three_file _ _ _ Sm three_reads (3 * 2880 + 12) 2 (ltac:(apply Nat.leb_le; vm_compute; reflexivity))
      (ltac:(apply cut_calc; vm_compute; reflexivity)) 20 4 Hf (ltac:(apply Nat.ltb_lt; vm_compute; reflexivity))) as (s & E). eauto.
  - destruct (C84_cut_read fc0 three_file _ _ _ Sm three_reads (4 * 2880) 2 (ltac:(apply Nat.leb_le; vm_compute; reflexivity))
      (ltac:(apply cut_calc; vm_compute; reflexivity)) 20 4 Hf (ltac:(apply Nat.ltb_lt; vm_compute; reflexivity))) as (s & E). eauto.
  - eapply (C84_cut_inside fc0 three_file _ _ _ Sm three_reads (3 * 2880 + 11) (nth 1 (placed 0 three) first_unit)).
    + right. left. reflexivity.
    + split; apply Nat.ltb_lt; vm_compute; reflexivity.
    + apply Nat.leb_le; vm_compute; reflexivity.
  - eapply (C84_cut_inside fc0 three_file _ _ _ Sm three_reads (2 * 2880 + 1) (nth 1 (placed 0 three) first_unit)).
    + right. left. reflexivity.
    + split; apply Nat.ltb_lt; vm_compute; reflexivity.
    + apply Nat.leb_le; vm_compute; reflexivity.
Qed.

(** ** C85 *)

(** After an exception the HDUs before the bad one are there, under their numbers and names; access by the name
    of the bad one is undefined. *)
Theorem C85_name_of_bad_unit : forall fc c us u q e names xs h1 name ex, small c -> units_read fc c 0 us q -> u_at u = q -> unit_read fc c u e ->
  length names = length xs -> Forall2 (fun u nx => becomes fc (u_header u) (u_data u) (fst nx) (snd nx)) us (combine names xs) ->
  get_hdu_name fc (u_header u) = (h1, Ret name) -> construct_hdu fc h1 (u_data u) = Throw ex ->
  forall hf fuel, Forall (fun u => length (h_cards (u_header u)) <= hf) (us ++ [u]) -> length us < fuel ->
  exists f, read_entire_hdus fc hf fuel (open_fits c) = (f, Throw ex) /\ f_hdus f = xs /\
    hdu_named name f = Undef /\
    (forall n j x, n <> name -> last_position n names j -> nth_error xs j = Some x -> hdu_named n f = Ret x) /\
    (forall n, n <> name -> ~ In n names -> hdu_named n f = Throw OutOfRange).
Proof. exact bad_unit_name. Qed.
Print Assumptions C85_name_of_bad_unit.

(** Reading on after the exception skips the bad unit, and its name becomes that of the HDU after it. *)
Theorem C85_reading_on : forall fc c us us2 u q e e2 names names2 xs x2 xs2 h1 name ex, small c ->
  units_read fc c 0 us q -> u_at u = q -> unit_read fc c u e -> units_read fc c e us2 e2 -> length c <= e2 ->
  length names = length xs -> Forall2 (fun u nx => becomes fc (u_header u) (u_data u) (fst nx) (snd nx)) us (combine names xs) ->
  length names2 = length (x2 :: xs2) -> Forall2 (fun u nx => becomes fc (u_header u) (u_data u) (fst nx) (snd nx)) us2 (combine names2 (x2 :: xs2)) ->
  get_hdu_name fc (u_header u) = (h1, Ret name) -> construct_hdu fc h1 (u_data u) = Throw ex -> ~ In name names2 ->
  forall hf fuel fuel2, Forall (fun u => length (h_cards (u_header u)) <= hf) (us ++ u :: us2) -> length us < fuel -> length us2 < fuel2 ->
  exists f f2, read_entire_hdus fc hf fuel (open_fits c) = (f, Throw ex) /\
    read_entire_hdus fc hf fuel2 f = (f2, Ret tt) /\ f_hdus f2 = xs ++ x2 :: xs2 /\ hdu_named name f2 = Ret x2.
Proof. exact bad_unit_resumed. Qed.
Print Assumptions C85_reading_on.

(** A binary table whose second column is missing between a primary HDU and an ASCII table. *)
Definition badt_records : list str := table_records "'BINTABLE'" "6" [("TFIELDS", "2"); ("TFORM1", "'1J'")]%string.
Definition badt : header := header_of badt_records.
Definition with_bad : list (header * str) := [(prim, prim_data); (badt, bint_data); (asct, asct_data)].
Definition with_bad_file : str := concat (map (fun hd => unit_text (map raw (h_cards (fst hd))) (snd hd)) with_bad).

Example with_bad_matching : Forall (fun hd => matching fc0 (fst hd) (snd hd) /\ snd hd <> []) with_bad.
Proof.
  repeat constructor; try discriminate; cbn [fst snd]; try (apply readable_calc; vm_compute; reflexivity).
  - exists B16. vm_compute. auto.
  - exists B8. vm_compute. auto.
  - exists B8. vm_compute. auto.
Qed.

Definition bad1 : file_unit := mk_unit 0 (next_block (0 + header_bytes prim)) prim prim_data.
Definition bad2 : file_unit :=
  let p := next_block (u_data_at bad1 + length prim_data) in mk_unit p (next_block (p + header_bytes badt)) badt bint_data.
Definition bad3 : file_unit :=
  let p := next_block (u_data_at bad2 + length bint_data) in mk_unit p (next_block (p + header_bytes asct)) asct asct_data.

Lemma with_bad_units : exists q e1 e2, units_read fc0 with_bad_file 0 [bad1] q /\
  u_at bad2 = q /\ unit_read fc0 with_bad_file bad2 e1 /\ units_read fc0 with_bad_file e1 [bad3] e2 /\ length with_bad_file <= e2.
Proof.
  destruct (units_written fc0 with_bad [] eq_refl with_bad_matching) as (e & U & He).
  change ([] ++ _)%list with with_bad_file in *. apply units_in_read in U; [|apply N.ltb_lt; vm_compute; reflexivity].
  change (placed (length (@nil ascii)) with_bad) with [bad1; bad2; bad3] in U. change (length (@nil ascii)) with 0 in U.
  revert U. generalize bad1 bad2 bad3. intros u1 u2 u3 U.
  inversion U as [|? ? q1 ? V1 W1 Z1]; subst. inversion W1 as [|? ? q2 ? V2 W2 Z2]; subst.
  exists (u_at u2), q2, e. split; [econstructor; [exact V1|constructor]|].
  split; [reflexivity|]. split; [exact V2|]. split; [exact W2|exact He].
Qed.

Lemma three_lengths : length (h_cards prim) <= 20 /\ length (h_cards bint) <= 20 /\ length (h_cards badt) <= 20 /\ length (h_cards asct) <= 20.
Proof. repeat split; apply Nat.leb_le; vm_compute; reflexivity. Qed.

Lemma fails_calc h d name ex : match get_hdu_name fc0 h with
    | (h1, Ret n) => Some (n, match construct_hdu fc0 h1 d with Throw e => Some e | _ => None end) | _ => None end = Some (name, Some ex) ->
  exists h1, get_hdu_name fc0 h = (h1, Ret name) /\ construct_hdu fc0 h1 d = Throw ex.
Proof.
  destruct (get_hdu_name fc0 h) as [h1 [n| | |]]; try discriminate. destruct (construct_hdu fc0 h1 d) as [x|e| |] eqn:E; try discriminate.
  intros Q. assert (n = name) by congruence. assert (e = ex) by congruence. subst. exists h1. auto.
Qed.

Example C85_case : exists f f2,
  read_entire_hdus fc0 20 4 (open_fits with_bad_file) = (f, Throw OutOfRange) /\ f_hdus f = [object prim prim_data] /\
  hdu_named (lit "BINTABLE") f = Undef /\ hdu_named (lit "primary_hdu") f = Ret (object prim prim_data) /\
  read_entire_hdus fc0 20 4 f = (f2, Ret tt) /\ hdu_named (lit "BINTABLE") f2 = Ret (object asct asct_data).
Proof.
  destruct with_bad_units as (q & e1 & e2 & U1 & Uq & U & U2 & He).
  assert (Sm : small with_bad_file) by (apply N.ltb_lt; vm_compute; reflexivity).
  assert (N2 : exists h1, get_hdu_name fc0 badt = (h1, Ret (lit "BINTABLE")) /\ construct_hdu fc0 h1 bint_data = Throw OutOfRange).
  { apply fails_calc. vm_compute. reflexivity. }
  destruct N2 as (h1 & N2a & N2b).
  assert (F1 : Forall2 (fun u nx => becomes fc0 (u_header u) (u_data u) (fst nx) (snd nx)) [bad1] (combine [lit "primary_hdu"] [object prim prim_data])).
  { apply Forall2_cons; [|apply Forall2_nil]. change (becomes fc0 prim prim_data (lit "primary_hdu") (object prim prim_data)).
    apply built_becomes. vm_compute. reflexivity. }
  assert (F2 : Forall2 (fun u nx => becomes fc0 (u_header u) (u_data u) (fst nx) (snd nx)) [bad3] (combine [lit "TABLE"] [object asct asct_data])).
  { apply Forall2_cons; [|apply Forall2_nil]. change (becomes fc0 asct asct_data (lit "TABLE") (object asct asct_data)).
    apply built_becomes. vm_compute. reflexivity. }
  destruct three_lengths as (T1 & _ & T3 & T4).
  destruct (C85_name_of_bad_unit fc0 with_bad_file [bad1] bad2 q e1 [lit "primary_hdu"] [object prim prim_data] h1 (lit "BINTABLE") OutOfRange
    Sm U1 Uq U eq_refl F1 N2a N2b 20 4) as (f & R1 & R2 & R3 & R4 & _).
  { apply Forall_cons; [exact T1|]. apply Forall_cons; [exact T3|apply Forall_nil]. } { cbn [length]. auto with arith. }
  destruct (C85_reading_on fc0 with_bad_file [bad1] [bad3] bad2 q e1 e2 [lit "primary_hdu"] [lit "TABLE"] [object prim prim_data]
    (object asct asct_data) [] h1 (lit "BINTABLE") OutOfRange Sm U1 Uq U U2 He eq_refl F1 eq_refl F2 N2a N2b) with (hf := 20) (fuel := 4) (fuel2 := 4)
    as (f' & f2 & S1 & S2 & S3 & S4).
  { intros [H|[]]. discriminate. }
  { apply Forall_cons; [exact T1|]. apply Forall_cons; [exact T3|]. apply Forall_cons; [exact T4|apply Forall_nil]. }
  { cbn [length]. auto with arith. } { cbn [length]. auto with arith. }
  rewrite R1 in S1. assert (f' = f) by congruence. subst f'. exists f, f2. split; [exact R1|]. split; [exact R2|]. split; [exact R3|]. split.
  - apply (R4 _ 0); [discriminate| |reflexivity]. split; [reflexivity|]. intros [|[|j]] Hj; [inversion Hj|discriminate|discriminate].
  - split; [exact S2|exact S4].
Qed.

(** ** C86 *)

(** After a reading call that returned, another one, of either kind, changes nothing. *)
Theorem C86_again : forall fc hf fuel f f1,
  read_entire_hdus fc hf fuel f = (f1, Ret tt) \/ read_only_headers fc hf fuel f = (f1, Ret tt) -> forall hf' fuel',
  (exists f2, read_entire_hdus fc hf' (S fuel') f1 = (f2, Ret tt) /\ f_hdus f2 = f_hdus f1 /\ f_info f2 = f_info f1) /\
  (exists f2, read_only_headers fc hf' (S fuel') f1 = (f2, Ret tt) /\ f_hdus f2 = f_hdus f1 /\ f_info f2 = f_info f1).
Proof.
  intros fc hf fuel f f1 [H|H] hf' fuel'; (split; [exact (loop_again _ _ _ _ (read_hdu fc hf') fuel' H)|exact (loop_again _ _ _ _ (read_hdu_header fc hf') fuel' H)]).
Qed.
Print Assumptions C86_again.

(** In particular the data skipped by read_only_headers() is not read by a later read_entire_hdus(). *)
Example C86_case :
  match read_only_headers fc0 20 4 (open_fits three_file) with
  | (f1, Ret _) => match read_entire_hdus fc0 20 4 f1 with
      | (f2, Ret _) => f_hdus f2 = f_hdus f1 /\ nth_error (f_hdus f2) 0 = Some (object prim []) /\ object prim [] <> object prim prim_data
      | _ => False end
  | _ => False
  end.
Proof. vm_compute. repeat split. discriminate. Qed.

(** A size that wraps around leads back to the same header: reading only the headers does not end. *)
Theorem C86_headers_wrap_refuted : forall fc c p h name x b, small c -> p < length c -> readable fc c p h -> h_bitpix h = Some b -> data_size h <> 0%N ->
  next_block (skip_to (next_block (p + header_bytes h)) h b) = p -> becomes fc h [] name x ->
  forall hf fuel f, length (h_cards h) <= hf -> f_stream f = positioned c p -> snd (read_only_headers fc hf fuel f) = NoFuel.
Proof. exact header_loop_back. Qed.
Print Assumptions C86_headers_wrap_refuted.

(** One axis of 2^64 - 5760 bytes, announced by a header at 2880. *)
Definition wrap_records : list str := primary_records "8" "18446744073709545856" with_extend.
Definition wrap : header := header_of wrap_records.
Definition wrap_file : str := spaces 2880 ++ concat wrap_records.
Example C86_wrap_case : forall fuel f, f_stream f = positioned wrap_file 2880 -> snd (read_only_headers fc0 20 fuel f) = NoFuel.
Proof.
  intros fuel f Hs. apply (C86_headers_wrap_refuted fc0 wrap_file 2880 wrap (lit "primary_hdu") (object wrap []) B8); try exact Hs.
  - apply N.ltb_lt; vm_compute; reflexivity.
  - apply Nat.ltb_lt; vm_compute; reflexivity.
  - apply readable_here. vm_compute. split; [reflexivity|repeat constructor].
  - vm_compute. reflexivity.
  - vm_compute. discriminate.
  - vm_compute. reflexivity.
  - apply built_becomes. vm_compute. reflexivity.
  - apply Nat.leb_le. vm_compute. reflexivity.
Qed.
