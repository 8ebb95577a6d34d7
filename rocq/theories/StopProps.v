(** * Property theorems about headers the reader refuses (C116). *)
From Verif Require Import AccessProofs ReaderImage ReaderProps CutProps StopProofs.
From Coq Require Import Lia.

(** ** C116 *)

(** A header is refused where a record is no card... *)
Theorem C116_no_card : forall fc c q n, (forall k, k < n -> acceptable (record_at c q k) /\ ~ is_end_record (record_at c q k)) ->
  ~ acceptable (record_at c q n) -> q + 80 * S n <= length c -> refused fc c q n InvalidCard.
Proof. exact refused_no_card. Qed.
Print Assumptions C116_no_card.

(** ... or after the END record, when BITPIX, NAXIS or an axis cannot be used (C13, C14 and C15 say when that is). *)
Theorem C116_values : forall fc c q n s h e fuel, header_at c q n -> q + 80 * S n <= length c -> n < fuel ->
  read_header fc fuel (positioned c q) fresh_header = (s, h, Throw e) -> refused fc c q n e.
Proof. exact refused_header. Qed.
Print Assumptions C116_values.

(** The exception leaves the reader with the HDUs before, and the file just after the last record that was read. *)
Theorem C116_entire : forall fc c us q n e names xs, small c -> units_read fc c 0 us q -> refused fc c q n e ->
  length names = length xs -> Forall2 (fun u nx => becomes fc (u_header u) (u_data u) (fst nx) (snd nx)) us (combine names xs) ->
  forall hf fuel, Forall (fun u => length (h_cards (u_header u)) <= hf) us -> n < hf -> length us < fuel ->
  read_entire_hdus fc hf fuel (open_fits c) = (mk_fits (positioned c (q + 80 * S n)) xs (catalogue 0 us names []), Throw e).
Proof. exact stop_entire. Qed.
Print Assumptions C116_entire.

Theorem C116_headers : forall fc c us q n e names xs, small c -> heads_read fc c 0 us q -> refused fc c q n e ->
  length names = length xs -> Forall2 (fun u nx => becomes fc (u_header u) [] (fst nx) (snd nx)) us (combine names xs) ->
  forall hf fuel, Forall (fun u => length (h_cards (u_header u)) <= hf) us -> n < hf -> length us < fuel ->
  read_only_headers fc hf fuel (open_fits c) = (mk_fits (positioned c (q + 80 * S n)) xs (catalogue 0 us names []), Throw e).
Proof. exact stop_headers. Qed.
Print Assumptions C116_headers.

(** Those HDUs are found by name, and no other name is. *)
Theorem C116_names : forall us names xs s, length us = length xs -> length names = length xs ->
  let f := mk_fits s xs (catalogue 0 us names []) in
  (forall n j x, last_position n names j -> nth_error xs j = Some x -> hdu_named n f = Ret x) /\
  (forall n, ~ In n names -> hdu_named n f = Throw OutOfRange).
Proof. exact stop_names. Qed.
Print Assumptions C116_names.

(** Headers only: a header that is read but of which no HDU can be made. *)
Theorem C116_headers_unit : forall fc c us q u e0 e names xs, small c -> heads_read fc c 0 us q -> head_read fc c u e0 -> u_at u = q -> fails fc (u_header u) [] e ->
  length names = length xs -> Forall2 (fun u nx => becomes fc (u_header u) [] (fst nx) (snd nx)) us (combine names xs) ->
  forall hf fuel, Forall (fun u => length (h_cards (u_header u)) <= hf) (us ++ [u]) -> length us < fuel ->
  exists f, read_only_headers fc hf fuel (open_fits c) = (f, Throw e) /\ f_hdus f = xs /\ f_stream f = positioned c (u_data_at u).
Proof. exact stop_headers_unit. Qed.
Print Assumptions C116_headers_unit.

Theorem C116_headers_name : forall fc c us q u e0 h1 name e names xs, small c -> heads_read fc c 0 us q -> head_read fc c u e0 -> u_at u = q ->
  get_hdu_name fc (u_header u) = (h1, Ret name) -> construct_hdu fc h1 [] = Throw e ->
  length names = length xs -> Forall2 (fun u nx => becomes fc (u_header u) [] (fst nx) (snd nx)) us (combine names xs) ->
  forall hf fuel, Forall (fun u => length (h_cards (u_header u)) <= hf) (us ++ [u]) -> length us < fuel ->
  exists f, read_only_headers fc hf fuel (open_fits c) = (f, Throw e) /\ hdu_named name f = Undef /\
    (forall n j x, n <> name -> last_position n names j -> nth_error xs j = Some x -> hdu_named n f = Ret x) /\
    (forall n, n <> name -> ~ In n names -> hdu_named n f = Throw OutOfRange).
Proof. exact stop_headers_name. Qed.
Print Assumptions C116_headers_name.

(** Exactly the files that are a sequence of headers, each followed by room for its data, can be read without it. *)
Theorem C116_headers_iff : forall fc c xs, small c ->
  ((exists hf fuel f, read_only_headers fc hf fuel (open_fits c) = (f, Ret tt) /\ f_hdus f = xs) <->
   (exists us names, headers_as fc c us names xs)).
Proof. exact headers_iff. Qed.
Print Assumptions C116_headers_iff.

(** Reading on looks for a header right after the last record that was read, not where the next HDU begins. *)
Theorem C116_reading_on : forall fc c us us2 q n e e2 names names2 xs xs2, small c -> units_read fc c 0 us q -> refused fc c q n e ->
  units_read fc c (q + 80 * S n) us2 e2 -> length c <= e2 ->
  length names = length xs -> Forall2 (fun u nx => becomes fc (u_header u) (u_data u) (fst nx) (snd nx)) us (combine names xs) ->
  length names2 = length xs2 -> Forall2 (fun u nx => becomes fc (u_header u) (u_data u) (fst nx) (snd nx)) us2 (combine names2 xs2) ->
  forall hf fuel fuel2, Forall (fun u => length (h_cards (u_header u)) <= hf) (us ++ us2) -> n < hf -> length us < fuel -> length us2 < fuel2 ->
  exists f f2, read_entire_hdus fc hf fuel (open_fits c) = (f, Throw e) /\ read_entire_hdus fc hf fuel2 f = (f2, Ret tt) /\
    f_hdus f2 = xs ++ xs2 /\ f_info f2 = catalogue (length xs) us2 names2 (f_info f).
Proof. exact stop_resumed. Qed.
Print Assumptions C116_reading_on.

Theorem C116_reading_on_refuted : forall fc c us q n e n2 e2 names xs, small c -> units_read fc c 0 us q -> refused fc c q n e -> refused fc c (q + 80 * S n) n2 e2 ->
  length names = length xs -> Forall2 (fun u nx => becomes fc (u_header u) (u_data u) (fst nx) (snd nx)) us (combine names xs) ->
  forall hf fuel fuel2, Forall (fun u => length (h_cards (u_header u)) <= hf) us -> n < hf -> n2 < hf -> length us < fuel ->
  exists f f2, read_entire_hdus fc hf fuel (open_fits c) = (f, Throw e) /\ read_entire_hdus fc hf (S fuel2) f = (f2, Throw e2) /\
    f_hdus f2 = xs /\ f_stream f2 = positioned c (q + 80 * S n + 80 * S n2).
Proof. exact stop_twice. Qed.
Print Assumptions C116_reading_on_refuted.

(** A table with BITPIX = 7 between a primary HDU and a good table. *)
Definition odd_records : list str :=
  [line "XTENSION" "'TABLE'"; line "BITPIX" "7"; line "NAXIS" "2"; line "NAXIS1" "6"; line "NAXIS2" "2";
   line "PCOUNT" "0"; line "GCOUNT" "1"; line "EXTNAME" "'X'"; end_line].
Definition odd_file : str := unit_text prim_records prim_data ++ unit_text odd_records bint_data ++ unit_text asct_records asct_data.

Definition is_endb (r : str) : bool := str_eqb (firstn 8 r) (lit "END     ").

(** Records [0] to [n - 1] are cards other than END. *)
Fixpoint cards_before (c : str) (q n : nat) : bool :=
  match n with
  | O => true
  | S k => cards_before c q k && match card_of_string (record_at c q k) with Ret _ => negb (is_endb (record_at c q k)) | _ => false end
  end.

Lemma cards_before_ok c q n : cards_before c q n = true -> forall k, k < n -> acceptable (record_at c q k) /\ ~ is_end_record (record_at c q k).
Proof.
  induction n as [|n IH]; intros H k Hk; [inversion Hk|]. cbn [cards_before] in H. apply andb_prop in H as [H1 H2].
  destruct (Nat.eq_dec k n) as [->|Hne].
  - split.
    + destruct (acceptable_dec (record_at c q n)) as [A|A]; [exact A|].
      rewrite card_of_string_bad in H2; [discriminate| |exact A]. rewrite record_at_length. lia.
    + intros E. unfold is_end_record in E. unfold is_endb in H2. rewrite E in H2. change (str_eqb (lit "END     ") (lit "END     ")) with true in H2.
      destruct (card_of_string _); discriminate.
  - apply IH; [exact H1|]. lia.
Qed.

Lemma not_acceptable_calc s : card_of_string s = Throw InvalidCard -> ~ acceptable s.
Proof. intros H A. rewrite (card_of_string_ok s A) in H. discriminate. Qed.

Lemma odd_refused : refused fc0 odd_file (2 * 2880) 8 FitsException.
Proof.
  assert (B : cards_before odd_file (2 * 2880) 8 = true) by (vm_compute; reflexivity).
  split; [exact (cards_before_ok _ _ _ B)|]. split; [left; vm_compute; reflexivity|]. split; [apply Nat.leb_le; vm_compute; reflexivity|].
  assert (E : snd (read_header fc0 40 (positioned odd_file (2 * 2880)) fresh_header) = Throw FitsException) by (vm_compute; reflexivity).
  destruct (read_header fc0 40 (positioned odd_file (2 * 2880)) fresh_header) as [[s h] r] eqn:Er. cbn [snd] in E. subst r.
  exists 40, s, h. split; [lia|exact Er].
Qed.

(** The 27 records after it are blank; the next one is data. *)
Lemma odd_refused_again : refused fc0 odd_file (2 * 2880 + 80 * 9) 27 InvalidCard.
Proof.
  assert (B : cards_before odd_file (2 * 2880 + 80 * 9) 27 = true) by (vm_compute; reflexivity).
  apply C116_no_card; [exact (cards_before_ok _ _ _ B)| |apply Nat.leb_le; vm_compute; reflexivity].
  apply not_acceptable_calc. vm_compute. reflexivity.
Qed.

Definition odd_first : file_unit := mk_unit 0 (next_block (0 + header_bytes prim)) prim prim_data.
Definition odd_head : file_unit := mk_unit 0 (next_block (0 + header_bytes prim)) prim [].

Lemma readable_there c p h : match read_header fc0 40 (positioned c p) fresh_header with (_, h, Ret _) => Some h | _ => None end = Some h ->
  p + header_bytes h <= length c -> readable fc0 c p h.
Proof.
  intros E B. split; [|exact B]. exists 40. destruct (read_header fc0 40 (positioned c p) fresh_header) as [[s h'] [[]| | |]]; try discriminate.
  assert (h' = h) by congruence. subst h'. exists s. reflexivity.
Qed.

Lemma odd_readable : 0 < length odd_file /\ readable fc0 odd_file 0 prim.
Proof.
  split; [apply Nat.ltb_lt; vm_compute; reflexivity|]. apply readable_there; [vm_compute; reflexivity|apply Nat.leb_le; vm_compute; reflexivity].
Qed.

Lemma odd_unit : units_read fc0 odd_file 0 [odd_first] (2 * 2880).
Proof.
  destruct odd_readable as [L R]. change 0 with (u_at odd_first) at 1. apply one_read with (e := 2 * 2880); [|constructor].
  pose proof (read_with_data fc0 odd_file 0 prim B16 6 L R) as H.
  replace (slice odd_file (next_block (0 + header_bytes prim)) 6) with prim_data in H by (vm_compute; reflexivity).
  replace (next_block (next_block (0 + header_bytes prim) + 6)) with (2 * 2880) in H by (apply Nat.eqb_eq; vm_compute; reflexivity).
  apply H; [vm_compute; reflexivity|vm_compute; discriminate|vm_compute; reflexivity|right; apply Nat.leb_le; vm_compute; reflexivity].
Qed.

Lemma odd_heads : heads_read fc0 odd_file 0 [odd_head] (2 * 2880).
Proof.
  destruct odd_readable as [L R]. change 0 with (u_at odd_head) at 1. apply one_head with (e := 2 * 2880); [|constructor].
  pose proof (head_with_data fc0 odd_file 0 prim B16 (2880 + 6) L R) as H.
  replace (next_block (2880 + 6)) with (2 * 2880) in H by (apply Nat.eqb_eq; vm_compute; reflexivity).
  apply H; [vm_compute; reflexivity|vm_compute; discriminate|vm_compute; reflexivity|vm_compute; reflexivity].
Qed.

(** The good table is never read, not even by a second call. *)
Example C116_case : exists f f2 f3,
  read_entire_hdus fc0 40 3 (open_fits odd_file) = (f, Throw FitsException) /\ f_hdus f = [object prim prim_data] /\
  hdu_named (lit "primary_hdu") f = Ret (object prim prim_data) /\ hdu_named (lit "TABLE") f = Throw OutOfRange /\
  read_entire_hdus fc0 40 3 f = (f2, Throw InvalidCard) /\ f_hdus f2 = f_hdus f /\
  read_only_headers fc0 40 3 (open_fits odd_file) = (f3, Throw FitsException) /\ f_hdus f3 = [object prim []].
Proof.
  assert (Sm : small odd_file) by (apply N.ltb_lt; vm_compute; reflexivity).
  assert (F1 : Forall2 (fun u nx => becomes fc0 (u_header u) (u_data u) (fst nx) (snd nx)) [odd_first] (combine [lit "primary_hdu"] [object prim prim_data])).
  { apply Forall2_cons; [|apply Forall2_nil]. change (becomes fc0 prim prim_data (lit "primary_hdu") (object prim prim_data)).
    apply built_becomes. vm_compute. reflexivity. }
  assert (F2 : Forall2 (fun u nx => becomes fc0 (u_header u) [] (fst nx) (snd nx)) [odd_head] (combine [lit "primary_hdu"] [object prim []])).
  { apply Forall2_cons; [|apply Forall2_nil]. change (becomes fc0 prim [] (lit "primary_hdu") (object prim [])).
    apply built_becomes. vm_compute. reflexivity. }
  assert (T1 : Forall (fun u => length (h_cards (u_header u)) <= 40) [odd_first]) by (constructor; [apply Nat.leb_le; vm_compute; reflexivity|constructor]).
  assert (T2 : Forall (fun u => length (h_cards (u_header u)) <= 40) [odd_head]) by (constructor; [apply Nat.leb_le; vm_compute; reflexivity|constructor]).
  pose proof (C116_entire fc0 odd_file _ _ _ _ [lit "primary_hdu"] [object prim prim_data] Sm odd_unit odd_refused eq_refl F1 40 3 T1 ltac:(lia) ltac:(cbn [length]; lia)) as E1.
  destruct (C116_reading_on_refuted fc0 odd_file _ _ _ _ _ _ [lit "primary_hdu"] [object prim prim_data] Sm odd_unit odd_refused odd_refused_again eq_refl F1
    40 3 2 T1 ltac:(lia) ltac:(lia) ltac:(cbn [length]; lia)) as (f & f2 & E & E2 & H2 & _).
  pose proof (C116_headers fc0 odd_file _ _ _ _ [lit "primary_hdu"] [object prim []] Sm odd_heads odd_refused eq_refl F2 40 3 T2 ltac:(lia) ltac:(cbn [length]; lia)) as E3.
  destruct (C116_names [odd_first] [lit "primary_hdu"] [object prim prim_data] (positioned odd_file (2 * 2880 + 80 * 9)) eq_refl eq_refl) as [N1 N2].
  rewrite E1 in E. assert (Ef : mk_fits (positioned odd_file (2 * 2880 + 80 * 9)) [object prim prim_data] (catalogue 0 [odd_first] [lit "primary_hdu"] []) = f) by congruence.
  rewrite <- Ef in E2. eexists _, f2, _. split; [exact E1|]. split; [reflexivity|]. split.
  { apply (N1 _ 0); [|reflexivity]. split; [reflexivity|]. intros [|[|j]] Hj; [inversion Hj|discriminate|discriminate]. }
  split; [apply N2; intros [H|[]]; discriminate|]. split; [exact E2|]. split; [exact H2|]. split; [exact E3|reflexivity].
Qed.

(** Three headers whose data is skipped. *)
Lemma headers_calc c xs : match read_only_headers fc0 40 5 (open_fits c) with (f, Ret _) => Some (f_hdus f) | _ => None end = Some xs ->
  exists hf fuel f, read_only_headers fc0 hf fuel (open_fits c) = (f, Ret tt) /\ f_hdus f = xs.
Proof.
  intros E. exists 40, 5. destruct (read_only_headers fc0 40 5 (open_fits c)) as [f [[]| | |]]; try discriminate.
  exists f. split; [reflexivity|congruence].
Qed.

Example C116_headers_case : exists us names, headers_as fc0 three_file us names [object prim []; object bint []; object asct []].
Proof.
  apply C116_headers_iff; [apply N.ltb_lt; vm_compute; reflexivity|]. apply headers_calc. vm_compute. reflexivity.
Qed.

(** A binary table without its second column, headers only. *)
Definition bad_head : file_unit := mk_unit (2 * 2880) (next_block (2 * 2880 + header_bytes badt)) badt [].
Example C116_headers_unit_case : exists f,
  read_only_headers fc0 40 3 (open_fits with_bad_file) = (f, Throw OutOfRange) /\ f_hdus f = [object prim []] /\
  f_stream f = positioned with_bad_file (3 * 2880) /\ hdu_named (lit "BINTABLE") f = Undef.
Proof.
  assert (L1 : 0 < length with_bad_file) by (apply Nat.ltb_lt; vm_compute; reflexivity).
  assert (L2 : 2 * 2880 < length with_bad_file) by (apply Nat.ltb_lt; vm_compute; reflexivity).
  assert (R1 : readable fc0 with_bad_file 0 prim) by (apply readable_there; [vm_compute; reflexivity|apply Nat.leb_le; vm_compute; reflexivity]).
  assert (R2 : readable fc0 with_bad_file (2 * 2880) badt) by (apply readable_there; [vm_compute; reflexivity|apply Nat.leb_le; vm_compute; reflexivity]).
  assert (H1 : heads_read fc0 with_bad_file 0 [odd_head] (2 * 2880)).
  { change 0 with (u_at odd_head) at 1. apply one_head with (e := 2 * 2880); [|constructor].
    pose proof (head_with_data fc0 with_bad_file 0 prim B16 (2880 + 6) L1 R1) as H.
    replace (next_block (2880 + 6)) with (2 * 2880) in H by (apply Nat.eqb_eq; vm_compute; reflexivity).
    apply H; [vm_compute; reflexivity|vm_compute; discriminate|vm_compute; reflexivity|vm_compute; reflexivity]. }
  assert (H2 : head_read fc0 with_bad_file bad_head (next_block (3 * 2880 + 12))).
  { apply (head_with_data fc0 with_bad_file (2 * 2880) badt B8 (3 * 2880 + 12) L2 R2);
      [vm_compute; reflexivity|vm_compute; discriminate|vm_compute; reflexivity|vm_compute; reflexivity]. }
  destruct (fails_calc badt [] (lit "BINTABLE") OutOfRange) as (h1 & A1 & A2); [vm_compute; reflexivity|].
  assert (F : fails fc0 badt [] OutOfRange).
  { right. exists h1, (lit "BINTABLE"). auto. }
  assert (B : Forall2 (fun u nx => becomes fc0 (u_header u) [] (fst nx) (snd nx)) [odd_head] (combine [lit "primary_hdu"] [object prim []])).
  { apply Forall2_cons; [|apply Forall2_nil]. change (becomes fc0 prim [] (lit "primary_hdu") (object prim [])).
    apply built_becomes. vm_compute. reflexivity. }
  destruct (C116_headers_unit fc0 with_bad_file [odd_head] (2 * 2880) bad_head _ OutOfRange [lit "primary_hdu"] [object prim []]
    ltac:(apply N.ltb_lt; vm_compute; reflexivity) H1 H2 eq_refl F eq_refl B 40 3) as (f & E1 & E2 & E3).
  - constructor; [apply Nat.leb_le; vm_compute; reflexivity|]. constructor; [apply Nat.leb_le; vm_compute; reflexivity|constructor].
  - cbn [length]. lia.
  - destruct (C116_headers_name fc0 with_bad_file [odd_head] (2 * 2880) bad_head _ h1 (lit "BINTABLE") OutOfRange [lit "primary_hdu"] [object prim []]
      ltac:(apply N.ltb_lt; vm_compute; reflexivity) H1 H2 eq_refl A1 A2 eq_refl B 40 3) as (f' & E1' & E4 & _).
    { constructor; [apply Nat.leb_le; vm_compute; reflexivity|]. constructor; [apply Nat.leb_le; vm_compute; reflexivity|constructor]. }
    { cbn [length]. lia. }
    rewrite E1 in E1'. assert (f' = f) by congruence. subst f'.
    exists f. split; [exact E1|]. split; [exact E2|]. split; [|exact E4]. replace (3 * 2880) with (u_data_at bad_head) by (apply Nat.eqb_eq; vm_compute; reflexivity). exact E3.
Qed.

(** A refused header of exactly one block, without data: reading on finds the table after it. *)
Definition block_records : list str := firstn 8 odd_records ++ repeat (spaces 80) 27 ++ [end_line].
Definition block_file : str := unit_text prim_records prim_data ++ concat block_records ++ unit_text asct_records asct_data.
Definition block_last : file_unit := mk_unit (3 * 2880) (next_block (3 * 2880 + header_bytes asct)) asct asct_data.

Example C116_reading_on_case : exists f f2, read_entire_hdus fc0 40 3 (open_fits block_file) = (f, Throw FitsException) /\
  read_entire_hdus fc0 40 3 f = (f2, Ret tt) /\ f_hdus f2 = [object prim prim_data; object asct asct_data].
Proof.
  assert (L1 : 0 < length block_file) by (apply Nat.ltb_lt; vm_compute; reflexivity).
  assert (L2 : 3 * 2880 < length block_file) by (apply Nat.ltb_lt; vm_compute; reflexivity).
  assert (R1 : readable fc0 block_file 0 prim) by (apply readable_there; [vm_compute; reflexivity|apply Nat.leb_le; vm_compute; reflexivity]).
  assert (R2 : readable fc0 block_file (3 * 2880) asct) by (apply readable_there; [vm_compute; reflexivity|apply Nat.leb_le; vm_compute; reflexivity]).
  assert (U1 : units_read fc0 block_file 0 [odd_first] (2 * 2880)).
  { change 0 with (u_at odd_first) at 1. apply one_read with (e := 2 * 2880); [|constructor].
    pose proof (read_with_data fc0 block_file 0 prim B16 6 L1 R1) as H.
    replace (slice block_file (next_block (0 + header_bytes prim)) 6) with prim_data in H by (vm_compute; reflexivity).
    replace (next_block (next_block (0 + header_bytes prim) + 6)) with (2 * 2880) in H by (apply Nat.eqb_eq; vm_compute; reflexivity).
    apply H; [vm_compute; reflexivity|vm_compute; discriminate|vm_compute; reflexivity|right; apply Nat.leb_le; vm_compute; reflexivity]. }
  assert (U2 : units_read fc0 block_file (2 * 2880 + 80 * 36) [block_last] (5 * 2880)).
  { replace (2 * 2880 + 80 * 36) with (u_at block_last) by (cbn [u_at block_last]; lia). apply one_read with (e := 5 * 2880); [|constructor].
    pose proof (read_with_data fc0 block_file (3 * 2880) asct B8 14 L2 R2) as H.
    replace (slice block_file (next_block (3 * 2880 + header_bytes asct)) 14) with asct_data in H by (vm_compute; reflexivity).
    replace (next_block (next_block (3 * 2880 + header_bytes asct) + 14)) with (5 * 2880) in H by (apply Nat.eqb_eq; vm_compute; reflexivity).
    apply H; [vm_compute; reflexivity|vm_compute; discriminate|vm_compute; reflexivity|right; apply Nat.leb_le; vm_compute; reflexivity]. }
  assert (R : refused fc0 block_file (2 * 2880) 35 FitsException).
  { assert (B : cards_before block_file (2 * 2880) 35 = true) by (vm_compute; reflexivity).
    split; [exact (cards_before_ok _ _ _ B)|]. split; [left; vm_compute; reflexivity|]. split; [apply Nat.leb_le; vm_compute; reflexivity|].
    assert (E : snd (read_header fc0 40 (positioned block_file (2 * 2880)) fresh_header) = Throw FitsException) by (vm_compute; reflexivity).
    destruct (read_header fc0 40 (positioned block_file (2 * 2880)) fresh_header) as [[s h] r] eqn:Er. cbn [snd] in E. subst r.
    exists 40, s, h. split; [lia|exact Er]. }
  assert (F1 : Forall2 (fun u nx => becomes fc0 (u_header u) (u_data u) (fst nx) (snd nx)) [odd_first] (combine [lit "primary_hdu"] [object prim prim_data])).
  { apply Forall2_cons; [|apply Forall2_nil]. change (becomes fc0 prim prim_data (lit "primary_hdu") (object prim prim_data)).
    apply built_becomes. vm_compute. reflexivity. }
  assert (F2 : Forall2 (fun u nx => becomes fc0 (u_header u) (u_data u) (fst nx) (snd nx)) [block_last] (combine [lit "TABLE"] [object asct asct_data])).
  { apply Forall2_cons; [|apply Forall2_nil]. change (becomes fc0 asct asct_data (lit "TABLE") (object asct asct_data)).
    apply built_becomes. vm_compute. reflexivity. }
  destruct (C116_reading_on fc0 block_file [odd_first] [block_last] (2 * 2880) 35 FitsException (5 * 2880) [lit "primary_hdu"] [lit "TABLE"] [object prim prim_data] [object asct asct_data]
    ltac:(apply N.ltb_lt; vm_compute; reflexivity) U1 R U2 ltac:(apply Nat.leb_le; vm_compute; reflexivity) eq_refl F1 eq_refl F2 40 3 3) as (f & f2 & E1 & E2 & E3 & _).
  - constructor; [apply Nat.leb_le; vm_compute; reflexivity|]. constructor; [apply Nat.leb_le; vm_compute; reflexivity|constructor].
  - lia.
  - cbn [length]. lia.
  - cbn [length]. lia.
  - exists f, f2. split; [exact E1|]. split; [exact E2|exact E3].
Qed.
