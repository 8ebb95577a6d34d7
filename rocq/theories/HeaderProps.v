(** * Property theorems about headers and streams (C12 - C19, C56). *)
From Verif Require Import HeaderLookup.

Definition fc0 : fcodec :=
  {| f32_show := show_N; f32_read := cast_unsigned 32; f64_show := show_N; f64_read := cast_unsigned 64 |}.

(** A small file for the examples: a 3 x 2 image of 16-bit pixels. *)
Definition int_card (k v : string) : str := record (lit k) (lit v) [].
Definition end_card : str := lit "END" ++ spaces 77.
Definition sample_records : list str :=
  [int_card "SIMPLE" "                   T"; int_card "BITPIX" "                  16";
   int_card "NAXIS" "                   2"; int_card "NAXIS1" "                   3";
   int_card "NAXIS2" "                   2"; record (lit "OBJECT") (lit "'M 31'") (lit "a/b"); end_card].
Definition sample : str := concat sample_records ++ spaces (2880 - 560) ++ repeat zero 12.
Definition sample_read := read_header fc0 10 (open_stream sample) fresh_header.

Example sample_readable :
  exists s h, sample_read = (s, h, Ret tt) /\ h_bitpix h = Some B16 /\ h_naxis h = [3; 2]%N /\ length (h_cards h) = 7.
Proof. eexists _, _. vm_compute. auto. Qed.

(** ** C12 *)

Theorem C12_header_roundtrip : forall fc fuel s s' h h',
  good s = true -> read_header fc fuel s fresh_header = (s', h, Ret tt) ->
  map raw (h_cards h') = map raw (h_cards h) ->
  (N.of_nat (length (concat (map raw (h_cards h)))) < 2 ^ 63)%N ->
  content (write_header h' create_stream) =
    concat (map raw (h_cards h)) ++ spaces (pad_len (80 * length (h_cards h))) /\
  exists s2, read_header fc fuel (open_stream (content (write_header h' create_stream))) fresh_header
             = (s2, h, Ret tt) /\ good s2 = true /\ pos s2 = N.of_nat (80 * length (h_cards h)).
Proof. exact header_roundtrip. Qed.
Print Assumptions C12_header_roundtrip.
Example C12_case : good (open_stream sample) = true /\ snd sample_read = Ret tt /\
  (N.of_nat (length (concat (map raw (h_cards (snd (fst sample_read)))))) < 2 ^ 63)%N.
Proof. vm_compute. auto. Qed.

(** Looking values up in between does not matter. *)
Theorem C12_queries_keep_equality : forall fc qs h,
  header_eq (fold_left (fun h q => fst (value_of fc (fst q) (snd q) h)) qs h) h.
Proof. exact queries_header_eq. Qed.
Print Assumptions C12_queries_keep_equality.

Theorem C12_padding_to_block : forall p, 0 < pad_len p <= 2880 /\ (p + pad_len p) mod 2880 = 0.
Proof. exact pad_len_bounds. Qed.
Print Assumptions C12_padding_to_block.

(** Asking for the name of an extension does: it is stored and takes part in ==. *)
Theorem C12_name_query_breaks_equality_refuted :
  exists h, snd (get_hdu_name fc0 h) = Ret (lit "IMAGE") /\ ~ header_eq (fst (get_hdu_name fc0 h)) h.
Proof.
  exists (push_card fresh_header (mk_card (int_card "XTENSION" "'IMAGE'") None)).
  split; [reflexivity|]. intros (_ & _ & H & _). discriminate.
Qed.
Print Assumptions C12_name_query_breaks_equality_refuted.

(** ** C13 *)

Theorem C13_consumes_records : forall fc fuel s s' h,
  good s = true -> read_header fc fuel s fresh_header = (s', h, Ret tt) ->
  exists n, length (h_cards h) = S n /\ header_at (content s) (N.to_nat (pos s)) n /\
    map raw (h_cards h) = records (content s) (N.to_nat (pos s)) n /\
    content s' = content s /\
    ((pos s + 80 * N.of_nat (S n) <= N.of_nat (length (content s)))%N ->
       good s' = true /\ pos s' = (pos s + 80 * N.of_nat (S n))%N /\
       concat (map raw (h_cards h)) = firstn (80 * S n) (skipn (N.to_nat (pos s)) (content s))) /\
    ((N.of_nat (length (content s)) < pos s + 80 * N.of_nat (S n))%N -> good s' = false).
Proof. exact read_header_consumes. Qed.
Print Assumptions C13_consumes_records.

Theorem C13_first_bad_record_rejected : forall fc n fuel s, good s = true ->
  (forall j, j < n -> acceptable (record_at (content s) (N.to_nat (pos s)) j) /\
                      ~ is_end_record (record_at (content s) (N.to_nat (pos s)) j)) ->
  ~ acceptable (record_at (content s) (N.to_nat (pos s)) n) -> n < fuel ->
  snd (read_header fc fuel s fresh_header) = Throw InvalidCard.
Proof. exact read_header_bad_record. Qed.
Print Assumptions C13_first_bad_record_rejected.

Example C13_case : header_at sample 0 6.
Proof.
  assert (E : map (record_at sample 0) (seq 0 7) = sample_records) by (vm_compute; reflexivity).
  assert (A : forall k, k <= 6 -> record_at sample 0 k = nth k sample_records []).
  { intros k Hk. rewrite <- E. rewrite nth_indep with (d' := record_at sample 0 0) by (cbn; lia).
    rewrite map_nth. rewrite seq_nth by lia. reflexivity. }
  split; [|split].
  - intros k Hk. rewrite A by exact Hk.
    assert (H : card_of_string (nth k sample_records []) = Ret (mk_card (nth k sample_records []) None)).
    { do 7 (destruct k as [|k]; [vm_compute; reflexivity|]). lia. }
    apply card_of_string_ret in H. apply H.
  - intros k Hk. rewrite A by lia. do 6 (destruct k as [|k]; [vm_compute; discriminate|]). lia.
  - rewrite A by lia. reflexivity.
Qed.

(** A file that ends within the END record is accepted all the same. *)
Theorem C13_truncated_end_accepted_refuted :
  exists c, length c mod 80 <> 0 /\ snd (read_header fc0 10 (open_stream c) fresh_header) = Ret tt.
Proof. exists (firstn 484 sample). vm_compute. split; [discriminate|reflexivity]. Qed.
Print Assumptions C13_truncated_end_accepted_refuted.

(** ** C14 *)

Theorem C14_contains_keyword : forall key h,
  contains_keyword key h = true <-> exists c, In c (h_cards h) /\ record_key (raw c) = key.
Proof.
  intros key h. unfold contains_keyword. rewrite existsb_exists. split; intros (c & H1 & H2); exists c.
  - split; [exact H1|apply str_eqb_eq; exact H2].
  - split; [exact H1|apply str_eqb_eq; exact H2].
Qed.
Print Assumptions C14_contains_keyword.

(** The members set while reading are the values of the last records with those keywords
    (of the first record if there is none), and other keywords give the value of their last record. *)
Theorem C14_read_header_values : forall fc fuel s s' h,
  good s = true -> read_header fc fuel s fresh_header = (s', h, Ret tt) ->
  exists b, h_bitpix h = Some b /\ h_name h = [] /\
  let rs := map raw (h_cards h) in
  text_value fc TInt (mandatory_record (lit "BITPIX") rs) = Ret (VInt (bitpix_code b)) /\
  text_value fc TSize (mandatory_record (lit "NAXIS") rs) = Ret (VSize (N.of_nat (length (h_naxis h)))) /\
  (forall i v, nth_error (h_naxis h) i = Some v ->
     text_value fc TSize (mandatory_record (axis_key (S i)) rs) = Ret (VSize v)) /\
  (forall t, snd (value_of fc t (lit "BITPIX") h) =
     if cty_eqb TInt t then Ret (VInt (bitpix_code b)) else Throw BadGet) /\
  (forall t, snd (value_of fc t (lit "NAXIS") h) =
     if cty_eqb TSize t then Ret (VSize (N.of_nat (length (h_naxis h)))) else Throw BadGet) /\
  (forall i v t, nth_error (h_naxis h) i = Some v ->
     snd (value_of fc t (axis_key (S i)) h) = if cty_eqb TSize t then Ret (VSize v) else Throw BadGet) /\
  (forall key, ~ mandatory_key (length (h_naxis h)) key ->
     (last_record key rs = None -> forall t, value_of fc t key h = (h, Throw OutOfRange)) /\
     (forall r, last_record key rs = Some r ->
        (forall k, mandatory_key (length (h_naxis h)) k -> last_record k rs <> None) ->
        forall t, snd (value_of fc t key h) = text_value fc t r)).
Proof. exact read_header_values. Qed.
Print Assumptions C14_read_header_values.

(** Conversely a header whose mandatory records are proper is accepted. *)
Theorem C14_proper_header_accepted : forall fc fuel s n b vs rb rn,
  good s = true -> header_at (content s) (N.to_nat (pos s)) n -> n < fuel ->
  let rs := records (content s) (N.to_nat (pos s)) n in
  last_record (lit "BITPIX") rs = Some rb -> text_value fc TInt rb = Ret (VInt (bitpix_code b)) ->
  last_record (lit "NAXIS") rs = Some rn -> text_value fc TSize rn = Ret (VSize (N.of_nat (length vs))) ->
  (N.of_nat (length vs) < 2 ^ 60)%N ->
  (forall i v, nth_error vs i = Some v ->
     exists r, last_record (axis_key (S i)) rs = Some r /\ text_value fc TSize r = Ret (VSize v)) ->
  exists s' h, read_header fc fuel s fresh_header = (s', h, Ret tt) /\
    map raw (h_cards h) = rs /\ h_bitpix h = Some b /\ h_naxis h = vs.
Proof. exact read_header_complete. Qed.
Print Assumptions C14_proper_header_accepted.

(** More axes than a vector can have are an error, found before any NAXISn is looked for. *)
Theorem C14_too_many_axes : forall fc fuel s n b m rb rn,
  good s = true -> header_at (content s) (N.to_nat (pos s)) n -> n < fuel ->
  let rs := records (content s) (N.to_nat (pos s)) n in
  last_record (lit "BITPIX") rs = Some rb -> text_value fc TInt rb = Ret (VInt (bitpix_code b)) ->
  last_record (lit "NAXIS") rs = Some rn -> text_value fc TSize rn = Ret (VSize m) -> (2 ^ 60 <= m)%N ->
  exists s' h, read_header fc fuel s fresh_header = (s', h, Throw LengthError).
Proof. exact read_header_too_many. Qed.
Print Assumptions C14_too_many_axes.

Example C14_too_many_axes_case : let r := lit "NAXIS   =  1152921504606846976" ++ spaces 50 in
  length r = 80 /\ last_record (lit "NAXIS") [r] = Some r /\ text_value fc0 TSize r = Ret (VSize (2 ^ 60)).
Proof. vm_compute. repeat split; reflexivity. Qed.

Example C14_case :
  snd (value_of fc0 TStr (lit "OBJECT") (snd (fst sample_read))) = Ret (VStr (lit "M 31")) /\
  snd (value_of fc0 TStr (lit "FOO") (snd (fst sample_read))) = Throw OutOfRange.
Proof. vm_compute. auto. Qed.

(** ** C15 *)

Theorem C15_missing_keywords_use_first_card : forall fc fuel s s' h,
  good s = true -> read_header fc fuel s fresh_header = (s', h, Ret tt) ->
  let first := record_at (content s) (N.to_nat (pos s)) 0 in
  (contains_keyword (lit "BITPIX") h = false ->
     exists b, h_bitpix h = Some b /\ text_value fc TInt first = Ret (VInt (bitpix_code b)) /\
               snd (value_of fc TInt (lit "BITPIX") h) = text_value fc TInt first) /\
  (contains_keyword (lit "NAXIS") h = false ->
     text_value fc TSize first = Ret (VSize (N.of_nat (length (h_naxis h))))) /\
  (forall i v, nth_error (h_naxis h) i = Some v -> contains_keyword (axis_key (S i)) h = false ->
     text_value fc TSize first = Ret (VSize v)).
Proof.
  intros fc fuel s s' h Hg H. cbv zeta.
  destruct (read_header_consumes _ _ _ _ _ Hg H) as (n & Hlen & _ & Hrs & _).
  destruct (read_header_values _ _ _ _ _ Hg H) as (b & Hb & _ & V1 & V2 & V3 & W1 & _).
  assert (M : forall key, contains_keyword key h = false ->
    mandatory_record key (map raw (h_cards h)) = record_at (content s) (N.to_nat (pos s)) 0).
  { intros key Hk. unfold mandatory_record.
    destruct (last_record key (map raw (h_cards h))) eqn:E.
    - assert (T : contains_keyword key h = true) by (apply contains_spec; congruence). congruence.
    - rewrite Hrs. reflexivity. }
  split; [|split].
  - intros Hk. exists b. rewrite (M _ Hk) in V1. split; [exact Hb|]. split; [exact V1|].
    rewrite V1. apply (W1 TInt).
  - intros Hk. rewrite (M _ Hk) in V2. exact V2.
  - intros i v Hi Hk. specialize (V3 i v Hi). rewrite (M _ Hk) in V3. exact V3.
Qed.
Print Assumptions C15_missing_keywords_use_first_card.

Theorem C15_missing_bitpix_error_of_first_card : forall fc fuel s n e,
  good s = true -> header_at (content s) (N.to_nat (pos s)) n -> n < fuel ->
  last_record (lit "BITPIX") (records (content s) (N.to_nat (pos s)) n) = None ->
  text_value fc TInt (record_at (content s) (N.to_nat (pos s)) 0) = Throw e ->
  snd (read_header fc fuel s fresh_header) = Throw e.
Proof. exact missing_bitpix_outcome. Qed.
Print Assumptions C15_missing_bitpix_error_of_first_card.

(** A header without BITPIX that is accepted with 16 bits per pixel. *)
Definition no_bitpix : str :=
  concat [int_card "FOO" "                  16"; int_card "NAXIS" "                   0"; end_card].
Theorem C15_missing_bitpix_rejected_refuted :
  let '(_, h, r) := read_header fc0 10 (open_stream no_bitpix) fresh_header in
  r = Ret tt /\ contains_keyword (lit "BITPIX") h = false /\ h_bitpix h = Some B16 /\
  snd (value_of fc0 TInt (lit "BITPIX") h) = Ret (VInt 16).
Proof. vm_compute. auto. Qed.
Print Assumptions C15_missing_bitpix_rejected_refuted.
Definition text_first : str := concat [int_card "FOO" "                 'x'"; int_card "NAXIS" "                   0"; end_card].
Example C15_case : header_at text_first 0 2 /\ last_record (lit "BITPIX") (records text_first 0 2) = None /\
  text_value fc0 TInt (record_at text_first 0 0) = Throw InvalidCast.
Proof.
  split; [|vm_compute; auto].
  assert (A : forall k, k <= 2 -> card_of_string (record_at text_first 0 k) = Ret (mk_card (record_at text_first 0 k) None)).
  { intros k Hk. do 3 (destruct k as [|k]; [vm_compute; reflexivity|]). lia. }
  split; [|split].
  - intros k Hk. exact (proj1 (card_of_string_ret _ _ (A k Hk))).
  - intros k Hk. do 2 (destruct k as [|k]; [vm_compute; discriminate|]). lia.
  - vm_compute. reflexivity.
Qed.

(** ** C16 *)

Theorem C16_no_end_reads_forever : forall s, good s = true ->
  (forall k, N.to_nat (pos s) + 80 * k < length (content s) ->
     acceptable (record_at (content s) (N.to_nat (pos s)) k) /\
     ~ is_end_record (record_at (content s) (N.to_nat (pos s)) k)) ->
  forall fc fuel h, snd (read_header fc fuel s h) = NoFuel.
Proof. exact forever_inside. Qed.
Print Assumptions C16_no_end_reads_forever.

Theorem C16_terminates_exactly : forall fc s, good s = true ->
  ((exists fuel, snd (read_header fc fuel s fresh_header) <> NoFuel) <->
   (exists n, is_end_record (record_at (content s) (N.to_nat (pos s)) n) \/
              ~ acceptable (record_at (content s) (N.to_nat (pos s)) n))).
Proof. exact read_header_termination. Qed.
Print Assumptions C16_terminates_exactly.

Example C16_empty_file : forall fc fuel h, snd (read_header fc fuel (open_stream []) h) = NoFuel.
Proof. apply C16_no_end_reads_forever; [reflexivity|]. intros k H. cbn in H. lia. Qed.
Example C16_terminating : exists fuel, snd (read_header fc0 fuel (open_stream sample) fresh_header) <> NoFuel.
Proof. apply C16_terminates_exactly; [reflexivity|]. exists 6. left. vm_compute. reflexivity. Qed.

(** ** C17 *)

Theorem C17_data_size : forall h,
  data_size h = match h_naxis h with [] => 0%N | l => (product l mod 2 ^ 64)%N end.
Proof. exact data_size_product. Qed.
Print Assumptions C17_data_size.

Theorem C17_exact_when_it_fits : forall h, h_naxis h <> [] -> (product (h_naxis h) < 2 ^ 64)%N ->
  data_size h = product (h_naxis h).
Proof.
  intros h H1 H2. rewrite data_size_product. destruct (h_naxis h); [contradiction|]. apply N.mod_small, H2.
Qed.
Print Assumptions C17_exact_when_it_fits.

Theorem C17_zero_axis : forall h, In 0%N (h_naxis h) -> data_size h = 0%N.
Proof.
  intros h H. rewrite data_size_product. destruct (h_naxis h) as [|x l]; [contradiction|].
  rewrite (product_zero _ H). reflexivity.
Qed.
Print Assumptions C17_zero_axis.

Example C17_case : data_size (snd (fst sample_read)) = 6%N.
Proof. vm_compute. reflexivity. Qed.
(** The product of huge axes wraps around: such a header claims to have no data. *)
Theorem C17_overflow_refuted : exists h, ~ In 0%N (h_naxis h) /\ h_naxis h <> [] /\ data_size h = 0%N.
Proof.
  exists (mk_header None [4294967296; 4294967296]%N [] [] []).
  split; [intros [H|[H|[]]]; discriminate|]. split; [discriminate|reflexivity].
Qed.
Print Assumptions C17_overflow_refuted.

(** ** C18 *)

Theorem C18_unit_end : forall s, good s = true -> (pos s < 2 ^ 64 - 2880)%N ->
  snd (find_unit_end s) = s /\ next_unit (pos s) (fst (find_unit_end s)).
Proof.
  intros s Hg Hp. unfold find_unit_end, get_current_pos. rewrite Hg. cbn [fst snd].
  split; [reflexivity|]. apply unit_end_next. exact Hp.
Qed.
Print Assumptions C18_unit_end.

Theorem C18_aligned_skips_block : forall s k, good s = true -> pos s = (2880 * k)%N -> (pos s < 2 ^ 64 - 2880)%N ->
  fst (find_unit_end s) = (pos s + 2880)%N.
Proof.
  intros s k Hg Hp Hl. unfold find_unit_end, get_current_pos. rewrite Hg. cbn [fst]. rewrite Hp in *.
  apply unit_end_aligned. exact Hl.
Qed.
Print Assumptions C18_aligned_skips_block.

(** It agrees with the FITS rule exactly at positions that are not on a block boundary. *)
Theorem C18_fits_rule_exactly_unaligned : forall s, good s = true -> (pos s < 2 ^ 64 - 2880)%N ->
  (fits_unit (pos s) (fst (find_unit_end s)) <-> ~ exists k, pos s = (2880 * k)%N).
Proof.
  intros s Hg Hp. unfold find_unit_end, get_current_pos. rewrite Hg. apply unit_end_fits. exact Hp.
Qed.
Print Assumptions C18_fits_rule_exactly_unaligned.

Example C18_case : fst (find_unit_end (mk_stream sample 560 false false)) = 2880%N /\
                   fst (find_unit_end (mk_stream sample 2880 false false)) = 5760%N.
Proof. vm_compute. auto. Qed.

(** ** C19 *)

Theorem C19_read_chars : forall n s, good s = true -> (n <= max_size)%N ->
  exists d s', stream_read n s = (Ret d, s') /\
    length d = N.to_nat n /\ content s' = content s /\
    (forall i, i < N.to_nat n -> nth_error d i = Some (char_at (content s) (N.to_nat (pos s) + i))) /\
    ((pos s + n <= N.of_nat (length (content s)))%N ->
       good s' = true /\ pos s' = (pos s + n)%N /\ d = firstn (N.to_nat n) (skipn (N.to_nat (pos s)) (content s))) /\
    ((N.of_nat (length (content s)) < pos s + n)%N -> (0 < n)%N -> failb s' = true).
Proof. exact stream_read_chars. Qed.
Print Assumptions C19_read_chars.

(** On a stream in a failed state every read delivers blanks. *)
Theorem C19_failed_stream_reads_blanks : forall n s, good s = false -> (n <= max_size)%N ->
  stream_read n s = (Ret (spaces (N.to_nat n)), mk_stream (content s) (pos s) (eofb s) true).
Proof. exact stream_read_bad. Qed.
Print Assumptions C19_failed_stream_reads_blanks.

Example C19_case : fst (stream_read 5 (open_stream (lit "abc"))) = Ret (lit "abc  ").
Proof. reflexivity. Qed.

(** ** C56 *)

Theorem C56_mandatory_value_types : forall fc fuel s s' h,
  good s = true -> read_header fc fuel s fresh_header = (s', h, Ret tt) ->
  (forall t, t <> TInt -> snd (value_of fc t (lit "BITPIX") h) = Throw BadGet) /\
  (forall t, t <> TSize -> snd (value_of fc t (lit "NAXIS") h) = Throw BadGet) /\
  (forall i t, i < length (h_naxis h) -> t <> TSize -> snd (value_of fc t (axis_key (S i)) h) = Throw BadGet) /\
  (forall i v, nth_error (h_naxis h) i = Some v -> snd (value_of fc TSize (axis_key (S i)) h) = Ret (VSize v)).
Proof.
  intros fc fuel s s' h Hg H.
  destruct (read_header_values _ _ _ _ _ Hg H) as (b & _ & _ & _ & _ & _ & W1 & W2 & W3 & _).
  split; [|split; [|split]].
  - intros t Ht. rewrite W1. destruct t; reflexivity || contradiction.
  - intros t Ht. rewrite W2. destruct t; reflexivity || contradiction.
  - intros i t Hi Ht. destruct (nth_error (h_naxis h) i) as [v|] eqn:E.
    + rewrite (W3 i v t E). destruct t; reflexivity || contradiction.
    + apply nth_error_None in E. lia.
  - intros i v E. exact (W3 i v TSize E).
Qed.
Print Assumptions C56_mandatory_value_types.

Example C56_case : snd (value_of fc0 TInt (lit "NAXIS1") (snd (fst sample_read))) = Throw BadGet /\
                   snd (value_of fc0 TSize (lit "NAXIS1") (snd (fst sample_read))) = Ret (VSize 3).
Proof. vm_compute. auto. Qed.

(** ** C79 *)

(** The axes: as many as NAXIS says, naxis(n) that of NAXISn; any other n is undefined behaviour. *)
Theorem C79_axes : forall fc fuel s s' h,
  good s = true -> read_header fc fuel s fresh_header = (s', h, Ret tt) ->
  let rs := map raw (h_cards h) in
  text_value fc TSize (mandatory_record (lit "NAXIS") rs) = Ret (VSize (N.of_nat (total_dimensions h))) /\
  (forall n, 1 <= n <= total_dimensions h -> exists v, naxis n h = Ret v /\ nth_error (all_naxis h) (n - 1) = Some v /\
     text_value fc TSize (mandatory_record (axis_key n) rs) = Ret (VSize v)) /\
  (forall n, n = 0 \/ total_dimensions h < n -> naxis n h = Undef).
Proof.
  intros fc fuel s s' h Hg H. destruct (read_header_values _ _ _ _ _ Hg H) as (b & _ & _ & _ & W & V & _).
  cbv zeta. split; [exact W|]. unfold total_dimensions, all_naxis. split.
  - intros [|n] Hn; [lia|]. destruct (nth_error (h_naxis h) n) as [v|] eqn:E; [|apply nth_error_None in E; lia].
    exists v. cbn [naxis]. rewrite E. replace (S n - 1) with n by lia. auto.
  - intros [|n] Hn; [reflexivity|]. cbn [naxis]. rewrite (proj2 (nth_error_None (h_naxis h) n)) by lia. reflexivity.
Qed.
Print Assumptions C79_axes.

(** card_count() is the number of records before END. *)
Theorem C79_card_count : forall fc fuel s s' h,
  good s = true -> read_header fc fuel s fresh_header = (s', h, Ret tt) -> (N.of_nat (length (h_cards h)) < 2 ^ 64)%N ->
  exists n, header_at (content s) (N.to_nat (pos s)) n /\ card_count h = N.of_nat n.
Proof.
  intros fc fuel s s' h Hg H L. destruct (read_header_consumes _ _ _ _ _ Hg H) as (n & E & Ha & _).
  exists n. split; [exact Ha|]. unfold card_count. rewrite E in *. rewrite sub64_small by (unfold two64; lia). lia.
Qed.
Print Assumptions C79_card_count.

(** A header without cards claims to have 2^64 - 1. *)
Theorem C79_card_count_empty_refuted : card_count fresh_header = (2 ^ 64 - 1)%N /\ h_cards fresh_header = [].
Proof. split; reflexivity. Qed.
Print Assumptions C79_card_count_empty_refuted.

Example C79_case : naxis 1 (snd (fst sample_read)) = Ret 3%N /\ naxis 2 (snd (fst sample_read)) = Ret 2%N /\
  naxis 3 (snd (fst sample_read)) = Undef /\ total_dimensions (snd (fst sample_read)) = 2 /\ card_count (snd (fst sample_read)) = 6%N.
Proof. vm_compute. auto. Qed.
