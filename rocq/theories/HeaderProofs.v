(** * Lemmas about streams and headers. *)
From Verif Require Export CardProofs StreamModel HeaderModel HeaderSpec.

(** ** Streams *)

Lemma good_true s : good s = true <-> eofb s = false /\ failb s = false.
Proof. unfold good. destruct (eofb s), (failb s); cbn; split; intuition congruence. Qed.

Lemma remaining_length s : length (remaining s) = length (content s) - N.to_nat (pos s).
Proof. unfold remaining. apply skipn_length. Qed.

(** firstn, completed with blanks, is the sequence of visible characters. *)
Lemma visible_chars c p n :
  firstn n (skipn p c) ++ spaces (n - length (skipn p c)) =
  map (fun j => char_at c (p + j)) (seq 0 n).
Proof.
  revert c p; induction n as [|n IH]; intros c p; [reflexivity|].
  cbn [seq map]. rewrite <- seq_shift, map_map. rewrite Nat.add_0_r.
  rewrite (map_ext _ (fun j => char_at c (S p + j))) by (intros j; f_equal; lia).
  rewrite <- IH. unfold char_at at 1.
  destruct (Nat.ltb_spec p (length c)) as [H|H].
  - assert (E : skipn p c = nth p c sp :: skipn (S p) c).
    { revert c H; induction p as [|p IHp]; intros [|x c] H; cbn in H; try lia; [reflexivity|].
      cbn [skipn nth]. rewrite IHp by lia. reflexivity. }
    rewrite E. cbn [firstn length app]. rewrite Nat.sub_succ. reflexivity.
  - rewrite !skipn_all2 by lia. rewrite nth_overflow by lia. rewrite !firstn_nil.
    cbn [length app]. rewrite !Nat.sub_0_r. reflexivity.
Qed.

Lemma stream_read_good n s : good s = true -> (n <= max_size)%N ->
  exists s', stream_read n s =
    (Ret (map (fun j => char_at (content s) (N.to_nat (pos s) + j)) (seq 0 (N.to_nat n))), s') /\
    content s' = content s /\
    (if (pos s + n <=? N.of_nat (length (content s)))%N || (n =? 0)%N
     then good s' = true /\ pos s' = (pos s + n)%N
     else eofb s' = true /\ failb s' = true).
Proof.
  intros Hg Hn. unfold stream_read.
  destruct (N.ltb_spec max_size n) as [|_]; [lia|]. rewrite Hg.
  pose proof (remaining_length s) as Hr.
  rewrite <- visible_chars. fold (remaining s).
  destruct (N.leb_spec n (N.of_nat (length (remaining s)))) as [H|H].
  - eexists. split.
    + f_equal. f_equal. replace (N.to_nat n - length (remaining s)) with 0 by lia.
      cbn [spaces repeat]. rewrite app_nil_r. reflexivity.
    + cbn [content]. split; [reflexivity|].
      assert (E : ((pos s + n <=? N.of_nat (length (content s)))%N || (n =? 0)%N) = true) by lia.
      rewrite E. split; reflexivity.
  - eexists. split.
    + f_equal. f_equal. rewrite firstn_all2 by lia. reflexivity.
    + cbn [content]. split; [reflexivity|].
      assert (E : ((pos s + n <=? N.of_nat (length (content s)))%N || (n =? 0)%N) = false) by lia.
      rewrite E. split; reflexivity.
Qed.

Lemma stream_read_bad n s : good s = false -> (n <= max_size)%N ->
  stream_read n s = (Ret (spaces (N.to_nat n)), mk_stream (content s) (pos s) (eofb s) true).
Proof.
  intros Hg Hn. unfold stream_read. destruct (N.ltb_spec max_size n) as [|_]; [lia|].
  rewrite Hg. reflexivity.
Qed.

Lemma stream_read_chars n s : good s = true -> (n <= max_size)%N ->
  exists d s', stream_read n s = (Ret d, s') /\
    length d = N.to_nat n /\ content s' = content s /\
    (forall i, i < N.to_nat n -> nth_error d i = Some (char_at (content s) (N.to_nat (pos s) + i))) /\
    ((pos s + n <= N.of_nat (length (content s)))%N ->
       good s' = true /\ pos s' = (pos s + n)%N /\ d = firstn (N.to_nat n) (skipn (N.to_nat (pos s)) (content s))) /\
    ((N.of_nat (length (content s)) < pos s + n)%N -> (0 < n)%N -> failb s' = true).
Proof.
  intros Hg Hn. destruct (stream_read_good n s Hg Hn) as (s' & E & Hc & Hif).
  eexists _, s'. split; [exact E|]. split; [rewrite map_length, seq_length; reflexivity|].
  split; [exact Hc|]. split; [|split].
  - intros i Hi. rewrite nth_error_map.
    rewrite (nth_error_nth' _ 0) by (rewrite seq_length; exact Hi).
    rewrite seq_nth by exact Hi. reflexivity.
  - intros Hle. assert (E2 : ((pos s + n <=? N.of_nat (length (content s)))%N || (n =? 0)%N) = true) by lia.
    rewrite E2 in Hif. destruct Hif as [H1 H2]. split; [exact H1|]. split; [exact H2|].
    rewrite <- visible_chars. rewrite skipn_length.
    replace (N.to_nat n - (length (content s) - N.to_nat (pos s))) with 0 by lia.
    apply app_nil_r.
  - intros Hlt H0. assert (E2 : ((pos s + n <=? N.of_nat (length (content s)))%N || (n =? 0)%N) = false) by lia.
    rewrite E2 in Hif. apply Hif.
Qed.

(** ** End of unit *)

Lemma unit_end_next p : (p < two64 - 2880)%N -> next_unit p (unit_end p).
Proof.
  unfold two64. intros H. unfold unit_end, next_unit, two64.
  rewrite N.mod_small.
  - split.
    + exists (p / 2880 + 1)%N. pose proof (N.div_mod' p 2880). lia.
    + pose proof (N.mod_lt p 2880). lia.
  - pose proof (N.mod_lt p 2880). lia.
Qed.

Lemma next_unit_unique p e1 e2 : next_unit p e1 -> next_unit p e2 -> e1 = e2.
Proof. intros [[k1 ->] H1] [[k2 ->] H2]. f_equal. lia. Qed.

Lemma unit_end_aligned k : (2880 * k < two64 - 2880)%N -> unit_end (2880 * k) = (2880 * k + 2880)%N.
Proof.
  intros H. eapply next_unit_unique; [apply unit_end_next; exact H|].
  split; [exists (k + 1)%N; lia|lia].
Qed.

Lemma unit_end_fits p : (p < two64 - 2880)%N ->
  (fits_unit p (unit_end p) <-> ~ exists k, p = (2880 * k)%N).
Proof.
  intros H. destruct (unit_end_next p H) as [[k Hk] Hb]. split.
  - intros [_ H2] [j ->]. rewrite unit_end_aligned in H2 by exact H. lia.
  - intros Hn. split; [exists k; exact Hk|]. split; [lia|].
    destruct (N.eq_dec (unit_end p) (p + 2880)) as [E|E]; [|lia].
    exfalso. apply Hn. exists (k - 1)%N. lia.
Qed.

(** ** Reading records *)

(** The stream stands before record k of the header at offset p. *)
Definition before (s : stream) (c : str) (p k : nat) : Prop :=
  content s = c /\
  ((good s = true /\ pos s = N.of_nat (p + 80 * k)) \/
   (good s = false /\ failb s = true /\ length c < p + 80 * k)).

Lemma char_at_beyond c i : length c <= i -> char_at c i = sp.
Proof. intros H. apply nth_overflow. exact H. Qed.

Lemma record_at_beyond c p k : length c <= p + 80 * k -> record_at c p k = spaces 80.
Proof.
  intros H. unfold record_at, spaces.
  rewrite (map_ext _ (fun _ => sp)) by (intros j; apply char_at_beyond; lia).
  reflexivity.
Qed.

Lemma record_at_length c p k : length (record_at c p k) = 80.
Proof. unfold record_at. rewrite map_length, seq_length. reflexivity. Qed.

Lemma read_record s c p k : before s c p k ->
  exists s', stream_read 80 s = (Ret (record_at c p k), s') /\ before s' c p (S k).
Proof.
  intros [Hc [[Hg Hp]|[Hg [Hf Hl]]]].
  - destruct (stream_read_good 80 s Hg) as (s' & E & Hc' & Hif); [unfold max_size; lia|].
    exists s'. split.
    + rewrite E. f_equal. f_equal. unfold record_at. rewrite Hc, Hp, Nat2N.id.
      change (N.to_nat 80) with 80. reflexivity.
    + split; [congruence|]. rewrite Hc, Hp in Hif.
      destruct ((N.of_nat (p + 80 * k) + 80 <=? N.of_nat (length c))%N || (80 =? 0)%N) eqn:Eb.
      * left. destruct Hif as [H1 H2]. split; [exact H1|]. rewrite H2. lia.
      * right. destruct Hif as [H1 H2]. unfold good. rewrite H1. cbn [andb negb].
        split; [reflexivity|]. split; [exact H2|]. lia.
  - rewrite stream_read_bad by (assumption || (unfold max_size; lia)).
    eexists. split.
    + f_equal. f_equal. rewrite record_at_beyond by lia. reflexivity.
    + split; [exact Hc|]. right. unfold good. cbn [eofb failb content].
      rewrite andb_false_r. repeat split; lia.
Qed.

Lemma end_keyword r cc : str_eqb (keyword_whole (mk_card r cc)) (lit "END     ") = true <-> is_end_record r.
Proof. rewrite str_eqb_eq. reflexivity. Qed.

Lemma end_record_dec r : is_end_record r \/ ~ is_end_record r.
Proof.
  unfold is_end_record. destruct (str_eqb (firstn 8 r) (lit "END     ")) eqn:E.
  - left; apply str_eqb_eq; exact E.
  - right; apply str_eqb_neq; exact E.
Qed.

Definition push_all (rs : list str) (h : header) : header :=
  fold_left push_card (map (fun r => mk_card r None) rs) h.

Lemma read_cards_step f s h c p k s' :
  stream_read 80 s = (Ret (record_at c p k), s') -> acceptable (record_at c p k) ->
  read_cards (S f) s h =
  let h' := push_card h (mk_card (record_at c p k) None) in
  if str_eqb (keyword_whole (mk_card (record_at c p k) None)) (lit "END     ") then (s', h', Ret tt)
  else read_cards f s' h'.
Proof.
  intros E Ha. cbn [read_cards]. rewrite E. rewrite card_of_string_ok by exact Ha. reflexivity.
Qed.

Lemma read_cards_run n : forall fuel s h c p k,
  before s c p k ->
  (forall j, j <= n -> acceptable (record_at c p (k + j))) ->
  (forall j, j < n -> ~ is_end_record (record_at c p (k + j))) ->
  is_end_record (record_at c p (k + n)) ->
  n < fuel ->
  exists s', read_cards fuel s h =
    (s', push_all (map (record_at c p) (seq k (S n))) h, Ret tt) /\ before s' c p (k + S n).
Proof.
  induction n as [|n IH]; intros fuel s h c p k Hb Ha Hn He Hf.
  - destruct fuel as [|f]; [lia|]. destruct (read_record s c p k Hb) as (s' & E & Hb').
    exists s'. rewrite Nat.add_0_r in He. specialize (Ha 0). rewrite Nat.add_0_r in Ha.
    rewrite (read_cards_step _ _ _ _ _ _ _ E) by (apply Ha; lia). cbv zeta.
    apply (end_keyword _ None) in He. rewrite He. split; [reflexivity|].
    replace (k + 1) with (S k) by lia. exact Hb'.
  - destruct fuel as [|f]; [lia|]. destruct (read_record s c p k Hb) as (s1 & E & Hb').
    assert (Ha0 : acceptable (record_at c p k)) by (specialize (Ha 0); rewrite Nat.add_0_r in Ha; apply Ha; lia).
    assert (Hn0 : ~ is_end_record (record_at c p k)) by (specialize (Hn 0); rewrite Nat.add_0_r in Hn; apply Hn; lia).
    rewrite (read_cards_step _ _ _ _ _ _ _ E Ha0). cbv zeta.
    destruct (str_eqb _ _) eqn:Ek; [apply end_keyword in Ek; contradiction|].
    destruct (IH f s1 (push_card h (mk_card (record_at c p k) None)) c p (S k) Hb') as (s' & E' & Hb2).
    + intros j Hj. replace (S k + j) with (k + S j) by lia. apply Ha; lia.
    + intros j Hj. replace (S k + j) with (k + S j) by lia. apply Hn; lia.
    + replace (S k + n) with (k + S n) by lia. exact He.
    + lia.
    + exists s'. split.
      * rewrite E'. reflexivity.
      * replace (k + S (S n)) with (S k + S n) by lia. exact Hb2.
Qed.

Lemma read_cards_inv fuel : forall s h c p k s' h',
  before s c p k -> read_cards fuel s h = (s', h', Ret tt) ->
  exists n, n < fuel /\
  (forall j, j <= n -> acceptable (record_at c p (k + j))) /\
  (forall j, j < n -> ~ is_end_record (record_at c p (k + j))) /\
  is_end_record (record_at c p (k + n)) /\
  h' = push_all (map (record_at c p) (seq k (S n))) h /\ before s' c p (k + S n).
Proof.
  induction fuel as [|f IH]; intros s h c p k s' h' Hb H; [discriminate|].
  destruct (read_record s c p k Hb) as (s1 & E & Hb').
  destruct (acceptable_dec (record_at c p k)) as [Ha|Ha].
  - rewrite (read_cards_step _ _ _ _ _ _ _ E Ha) in H. cbv zeta in H.
    destruct (str_eqb _ _) eqn:Ek.
    + injection H as <- <-. apply end_keyword in Ek. exists 0.
      rewrite Nat.add_0_r. split; [lia|].
      split; [intros j Hj; replace (k + j) with k by lia; exact Ha|].
      split; [intros j Hj; lia|]. split; [exact Ek|]. split; [reflexivity|].
      replace (k + 1) with (S k) by lia. exact Hb'.
    + destruct (IH _ _ _ _ _ _ _ Hb' H) as (n & Hn & H1 & H2 & H3 & H4 & H5).
      exists (S n). split; [lia|]. split.
      { intros [|j] Hj; [rewrite Nat.add_0_r; exact Ha|].
        replace (k + S j) with (S k + j) by lia. apply H1; lia. }
      split.
      { intros [|j] Hj.
        - rewrite Nat.add_0_r. intros K. apply (end_keyword _ None) in K. congruence.
        - replace (k + S j) with (S k + j) by lia. apply H2; lia. }
      split; [replace (k + S n) with (S k + n) by lia; exact H3|].
      split; [rewrite H4; reflexivity|].
      replace (k + S (S n)) with (S k + S n) by lia. exact H5.
  - exfalso. cbn [read_cards] in H. rewrite E in H.
    rewrite card_of_string_bad in H; [discriminate| |exact Ha].
    rewrite record_at_length; lia.
Qed.

(** The first unacceptable record is reported. *)
Lemma read_cards_invalid n : forall fuel s h c p k,
  before s c p k ->
  (forall j, j < n -> acceptable (record_at c p (k + j)) /\ ~ is_end_record (record_at c p (k + j))) ->
  ~ acceptable (record_at c p (k + n)) -> n < fuel ->
  exists s', read_cards fuel s h =
    (s', push_all (map (record_at c p) (seq k n)) h, Throw InvalidCard).
Proof.
  induction n as [|n IH]; intros fuel s h c p k Hb Ha Hn Hf;
    (destruct fuel as [|f]; [lia|]); destruct (read_record s c p k Hb) as (s1 & E & Hb').
  - exists s1. rewrite Nat.add_0_r in Hn. cbn [read_cards]. rewrite E.
    rewrite card_of_string_bad; [reflexivity| |exact Hn]. rewrite record_at_length; lia.
  - assert (Ha0 : acceptable (record_at c p k) /\ ~ is_end_record (record_at c p k))
      by (specialize (Ha 0); rewrite Nat.add_0_r in Ha; apply Ha; lia).
    rewrite (read_cards_step _ _ _ _ _ _ _ E (proj1 Ha0)). cbv zeta.
    destruct (str_eqb _ _) eqn:Ek; [apply end_keyword in Ek; destruct Ha0; contradiction|].
    destruct (IH f s1 (push_card h (mk_card (record_at c p k) None)) c p (S k) Hb') as (s' & E').
    + intros j Hj. replace (S k + j) with (k + S j) by lia. apply Ha; lia.
    + replace (S k + n) with (k + S n) by lia. exact Hn.
    + lia.
    + exists s'. rewrite E'. reflexivity.
Qed.

(** No END: the loop never finishes. *)
Lemma read_cards_forever fuel : forall s h c p k,
  before s c p k ->
  (forall j, acceptable (record_at c p (k + j)) /\ ~ is_end_record (record_at c p (k + j))) ->
  snd (read_cards fuel s h) = NoFuel /\
  length (h_cards (snd (fst (read_cards fuel s h)))) = length (h_cards h) + fuel.
Proof.
  induction fuel as [|f IH]; intros s h c p k Hb Ha.
  - cbn. split; [reflexivity|lia].
  - destruct (read_record s c p k Hb) as (s1 & E & Hb').
    pose proof (Ha 0) as Ha0. rewrite Nat.add_0_r in Ha0.
    rewrite (read_cards_step _ _ _ _ _ _ _ E (proj1 Ha0)). cbv zeta.
    destruct (str_eqb _ _) eqn:Ek; [apply end_keyword in Ek; destruct Ha0; contradiction|].
    destruct (IH s1 (push_card h (mk_card (record_at c p k) None)) c p (S k) Hb') as [H1 H2].
    + intros j. replace (S k + j) with (k + S j) by lia. apply Ha.
    + split; [exact H1|]. rewrite H2. cbn [push_card h_cards]. rewrite app_length. cbn. lia.
Qed.

Lemma before_start s : good s = true -> before s (content s) (N.to_nat (pos s)) 0.
Proof. intros H. split; [reflexivity|]. left. split; [exact H|]. lia. Qed.

(** ** What push_all builds *)

Lemma push_all_cards rs h : h_cards (push_all rs h) = h_cards h ++ map (fun r => mk_card r None) rs.
Proof.
  unfold push_all. revert h; induction rs as [|r rs IH]; intros h; cbn [map fold_left].
  - symmetry; apply app_nil_r.
  - rewrite IH. cbn [push_card h_cards]. rewrite <- app_assoc. reflexivity.
Qed.

Lemma push_all_rest rs h :
  h_bitpix (push_all rs h) = h_bitpix h /\ h_naxis (push_all rs h) = h_naxis h /\ h_name (push_all rs h) = h_name h.
Proof.
  unfold push_all. revert h; induction rs as [|r rs IH]; intros h; cbn [map fold_left]; [auto|].
  destruct (IH (push_card h (mk_card r None))) as (H1 & H2 & H3).
  rewrite H1, H2, H3. auto.
Qed.

(** The index points to the last card of each keyword. *)
Definition index_ok (h : header) : Prop :=
  forall key, match map_find key (h_index h) with
              | Some i => nth_error (h_cards h) i = last_with key (h_cards h) /\
                          last_with key (h_cards h) <> None
              | None => last_with key (h_cards h) = None
              end.

Lemma last_with_snoc key cs c :
  last_with key (cs ++ [c]) = if str_eqb (keyword c) key then Some c else last_with key cs.
Proof. unfold last_with. rewrite fold_left_app. reflexivity. Qed.

Lemma push_card_index_ok h c : index_ok h -> index_ok (push_card h c).
Proof.
  intros H key. cbn [push_card h_cards h_index]. rewrite last_with_snoc.
  destruct (str_eqb (keyword c) key) eqn:E.
  - apply str_eqb_eq in E. subst key. rewrite map_find_set_same.
    rewrite nth_error_app2 by lia. rewrite Nat.sub_diag. split; [reflexivity|discriminate].
  - apply str_eqb_neq in E. rewrite map_find_set_other by congruence.
    specialize (H key). destruct (map_find key (h_index h)) as [i|]; [|exact H].
    destruct H as [H1 H2]. split; [|exact H2].
    rewrite nth_error_app1; [exact H1|]. apply nth_error_Some. rewrite H1. exact H2.
Qed.

Lemma push_all_index_ok rs h : index_ok h -> index_ok (push_all rs h).
Proof.
  unfold push_all. revert h; induction rs as [|r rs IH]; intros h H; cbn [map fold_left]; [exact H|].
  apply IH, push_card_index_ok, H.
Qed.

Lemma fresh_index_ok : index_ok fresh_header.
Proof. intros key. reflexivity. Qed.

(** ** Interpretation keeps the record texts *)

Lemma replace_nth_map {A B} (f : A -> B) i a (l : list A) x :
  nth_error l i = Some x -> f a = f x -> map f (replace_nth i a l) = map f l.
Proof.
  revert i; induction l as [|y l IH]; intros [|i] H E; cbn in *; try discriminate.
  - injection H as ->. congruence.
  - f_equal. eapply IH; eassumption.
Qed.

Lemma value_raw fc t c : raw (fst (value fc t c)) = raw c.
Proof.
  unfold value. destruct (cache c); [reflexivity|]. destruct (value_imp fc t c); reflexivity.
Qed.

Lemma value_at_raws fc t i h : map raw (h_cards (fst (value_at fc t i h))) = map raw (h_cards h).
Proof.
  unfold value_at. destruct (nth_error (h_cards h) i) as [c|] eqn:E; [|reflexivity].
  pose proof (value_raw fc t c) as Hr. destruct (value fc t c) as [c' r]. cbn [fst set_cards h_cards] in *.
  eapply replace_nth_map; eassumption.
Qed.

Lemma value_at_rest fc t i h :
  let h' := fst (value_at fc t i h) in
  h_bitpix h' = h_bitpix h /\ h_naxis h' = h_naxis h /\ h_name h' = h_name h /\ h_index h' = h_index h.
Proof.
  unfold value_at. destruct (nth_error (h_cards h) i) as [c|]; [|cbn; auto].
  destruct (value fc t c). cbn. auto.
Qed.

Lemma lookup_raws fc t key h : map raw (h_cards (fst (lookup_value fc t key h))) = map raw (h_cards h).
Proof.
  unfold lookup_value, index_or_insert. destruct (map_find key (h_index h)); rewrite value_at_raws; reflexivity.
Qed.

Lemma read_bitpix_raws fc h : map raw (h_cards (fst (read_bitpix fc h))) = map raw (h_cards h).
Proof.
  unfold read_bitpix. pose proof (lookup_raws fc TInt (lit "BITPIX") h) as H.
  destruct (lookup_value fc TInt (lit "BITPIX") h) as [h1 [v|e| |]]; cbn [fst] in *; try exact H.
  destruct v; try exact H. destruct (bitpix_of_int z); exact H.
Qed.

Lemma read_axes_raws fc n i h : map raw (h_cards (fst (read_axes fc n i h))) = map raw (h_cards h).
Proof.
  revert i h; induction n as [|n IH]; intros i h; cbn [read_axes]; [reflexivity|].
  pose proof (lookup_raws fc TSize (naxis_key i) h) as H.
  destruct (lookup_value fc TSize (naxis_key i) h) as [h1 [v|e| |]]; cbn [fst] in *; try exact H.
  destruct v; try exact H. rewrite IH. exact H.
Qed.

Lemma read_naxis_raws fc h : map raw (h_cards (fst (read_naxis fc h))) = map raw (h_cards h).
Proof.
  unfold read_naxis. pose proof (lookup_raws fc TSize (lit "NAXIS") h) as H.
  destruct (lookup_value fc TSize (lit "NAXIS") h) as [h1 [v|e| |]]; cbn [fst] in *; try exact H.
  destruct v; try exact H. destruct (2 ^ 60 <=? n)%N; [exact H|]. rewrite read_axes_raws. exact H.
Qed.

Lemma interpret_raws fc h : map raw (h_cards (fst (interpret_cards fc h))) = map raw (h_cards h).
Proof.
  unfold interpret_cards. pose proof (read_bitpix_raws fc h) as H.
  destruct (read_bitpix fc h) as [h1 [u|e| |]]; cbn [fst] in *; try exact H.
  rewrite read_naxis_raws. exact H.
Qed.

(** ** read_header *)

Lemma read_header_inv fc fuel s s' h :
  good s = true -> read_header fc fuel s fresh_header = (s', h, Ret tt) ->
  exists n, n < fuel /\ header_at (content s) (N.to_nat (pos s)) n /\
    interpret_cards fc (push_all (records (content s) (N.to_nat (pos s)) n) fresh_header) = (h, Ret tt) /\
    before s' (content s) (N.to_nat (pos s)) (S n).
Proof.
  intros Hg H. unfold read_header in H.
  destruct (read_cards fuel s fresh_header) as [[s1 h1] r] eqn:E.
  assert (Hr : r = Ret tt) by (destruct r as [[]| | |]; [reflexivity|discriminate..]). subst r.
  destruct (read_cards_inv fuel s fresh_header _ _ _ _ _ (before_start s Hg) E)
    as (n & Hn & H1 & H2 & H3 & H4 & H5).
  exists n. split; [exact Hn|]. split; [exact (conj H1 (conj H2 H3))|].
  destruct (interpret_cards fc h1) as [h2 r2] eqn:Ei. injection H as <- <- ->.
  split; [|exact H5]. rewrite H4 in Ei. exact Ei.
Qed.

Lemma read_header_run fc fuel s n :
  good s = true -> header_at (content s) (N.to_nat (pos s)) n -> n < fuel ->
  exists s', before s' (content s) (N.to_nat (pos s)) (S n) /\
    read_header fc fuel s fresh_header =
    (s', fst (interpret_cards fc (push_all (records (content s) (N.to_nat (pos s)) n) fresh_header)),
     snd (interpret_cards fc (push_all (records (content s) (N.to_nat (pos s)) n) fresh_header))).
Proof.
  intros Hg (H1 & H2 & H3) Hf. unfold read_header.
  destruct (read_cards_run n fuel s fresh_header _ _ _ (before_start s Hg)) as (s' & E & Hb).
  - exact H1.
  - exact H2.
  - exact H3.
  - exact Hf.
  - exists s'. split; [exact Hb|]. rewrite E. fold (records (content s) (N.to_nat (pos s)) n).
    destruct (interpret_cards fc _); reflexivity.
Qed.

Lemma read_header_raws fc fuel s s' h :
  good s = true -> read_header fc fuel s fresh_header = (s', h, Ret tt) ->
  exists n, header_at (content s) (N.to_nat (pos s)) n /\
            map raw (h_cards h) = records (content s) (N.to_nat (pos s)) n.
Proof.
  intros Hg H. destruct (read_header_inv _ _ _ _ _ Hg H) as (n & _ & Hh & Hi & _).
  exists n. split; [exact Hh|]. apply (f_equal fst) in Hi. cbn [fst] in Hi.
  rewrite <- Hi, interpret_raws, push_all_cards. cbn [fresh_header h_cards app].
  rewrite map_map. cbn [raw]. apply map_id.
Qed.

(** ** Writing *)

Lemma overwrite_end c p d : length c = p -> overwrite c p d = c ++ d.
Proof.
  intros H. unfold overwrite. destruct d as [|x d]; [rewrite app_nil_r; reflexivity|]. rewrite firstn_all2 by lia.
  replace (p - length c) with 0 by lia. cbn [repeat app].
  rewrite skipn_all2 by lia. rewrite app_nil_r. reflexivity.
Qed.

(** The stream is being appended to. *)
Definition appending (s : stream) : Prop :=
  good s = true /\ pos s = N.of_nat (length (content s)).

Lemma write_append s d : appending s ->
  appending (stream_write d s) /\ content (stream_write d s) = content s ++ d.
Proof.
  intros [Hg Hp]. unfold stream_write. rewrite Hg.
  assert (E : overwrite (content s) (N.to_nat (pos s)) d = content s ++ d)
    by (apply overwrite_end; lia).
  split; [|exact E]. split; [reflexivity|]. cbn [pos content]. rewrite E, app_length. lia.
Qed.

Lemma pad_len_unit p : (N.of_nat p < 2 ^ 63)%N -> N.to_nat (sub64 (unit_end (N.of_nat p)) (N.of_nat p)) = pad_len p.
Proof.
  intros H. unfold pad_len.
  assert (E : unit_end (N.of_nat p) = (N.of_nat p + (2880 - N.of_nat p mod 2880))%N).
  { unfold unit_end, two64. apply N.mod_small. pose proof (N.mod_lt (N.of_nat p) 2880). lia. }
  rewrite E. rewrite sub64_small by (unfold two64; pose proof (N.mod_lt (N.of_nat p) 2880); lia).
  pose proof (N.mod_lt (N.of_nat p) 2880).
  replace (N.of_nat p mod 2880)%N with (N.of_nat (p mod 2880)) in * by (rewrite Nat2N.inj_mod; reflexivity).
  lia.
Qed.

Lemma write_padding_append s : appending s -> (N.of_nat (length (content s)) < 2 ^ 63)%N ->
  appending (write_padding s) /\
  content (write_padding s) = content s ++ spaces (pad_len (length (content s))).
Proof.
  intros Ha Hl. pose proof Ha as [Hg Hp]. unfold write_padding, find_unit_end, get_current_pos.
  rewrite Hg. cbv beta iota. rewrite Hg. cbv beta iota. rewrite Hp, pad_len_unit by exact Hl.
  apply write_append. exact Ha.
Qed.

Lemma pad_len_bounds p : 0 < pad_len p <= 2880 /\ (p + pad_len p) mod 2880 = 0.
Proof.
  unfold pad_len. pose proof (Nat.mod_upper_bound p 2880).
  split; [lia|].
  pose proof (Nat.div_mod p 2880).
  replace (p + (2880 - p mod 2880)) with ((p / 2880 + 1) * 2880) by lia.
  apply Nat.mod_mul. lia.
Qed.

Lemma write_header_append h s : appending s ->
  (N.of_nat (length (content s) + length (concat (map raw (h_cards h)))) < 2 ^ 63)%N ->
  appending (write_header h s) /\
  content (write_header h s) = content s ++ concat (map raw (h_cards h)) ++
    spaces (pad_len (length (content s) + length (concat (map raw (h_cards h))))).
Proof.
  intros Ha Hl. destruct (write_append s (concat (map raw (h_cards h))) Ha) as [Ha1 Hc1].
  unfold write_header.
  destruct (write_padding_append _ Ha1) as [Ha2 Hc2].
  - rewrite Hc1, app_length. exact Hl.
  - split; [exact Ha2|]. rewrite Hc2, Hc1, app_length, <- app_assoc. reflexivity.
Qed.

Lemma create_appending : appending create_stream.
Proof. split; reflexivity. Qed.

(** Records found again in what was written. *)
Lemma char_at_app1 a b i : i < length a -> char_at (a ++ b) i = char_at a i.
Proof. intros H. apply app_nth1. exact H. Qed.

Lemma char_at_app2 a b i : length a <= i -> char_at (a ++ b) i = char_at b (i - length a).
Proof. intros H. apply app_nth2. exact H. Qed.

Lemma map_char_at r : map (fun j => char_at r j) (seq 0 (length r)) = r.
Proof.
  pose proof (visible_chars r 0 (length r)) as H.
  rewrite skipn_O, Nat.sub_diag, firstn_all in H. cbn [spaces repeat plus] in H. rewrite app_nil_r in H.
  symmetry. exact H.
Qed.

Lemma record_at_concat rs : forall pre post k r,
  Forall (fun x => length x = 80) rs -> nth_error rs k = Some r ->
  record_at (pre ++ concat rs ++ post) (length pre) k = r.
Proof.
  intros pre post k r Hf Hk. revert pre k Hk.
  induction Hf as [|x rs Hx Hf IH]; intros pre [|k] Hk; cbn in Hk; try discriminate.
  - injection Hk as ->. unfold record_at.
    etransitivity; [|exact (map_char_at r)]. rewrite Hx.
    apply map_ext_in. intros j Hj. apply in_seq in Hj.
    rewrite char_at_app2 by lia. cbn [concat]. rewrite <- app_assoc.
    rewrite char_at_app1 by lia. f_equal. lia.
  - cbn [concat]. rewrite <- app_assoc.
    replace (record_at (pre ++ x ++ concat rs ++ post) (length pre) (S k))
      with (record_at ((pre ++ x) ++ concat rs ++ post) (length (pre ++ x)) k).
    + apply IH. exact Hk.
    + unfold record_at. rewrite <- app_assoc. apply map_ext. intros j. f_equal.
      rewrite app_length. lia.
Qed.

Lemma records_concat pre rs post n :
  Forall (fun x => length x = 80) rs -> length rs = S n ->
  records (pre ++ concat rs ++ post) (length pre) n = rs.
Proof.
  intros Hf Hl. unfold records. rewrite <- Hl.
  apply nth_ext with (d := []) (d' := []).
  - rewrite map_length, seq_length. reflexivity.
  - intros k Hk. rewrite map_length, seq_length in Hk.
    rewrite (nth_indep _ [] (record_at (pre ++ concat rs ++ post) (length pre) 0))
      by (rewrite map_length, seq_length; exact Hk).
    rewrite map_nth. rewrite seq_nth by exact Hk. cbn [plus].
    apply record_at_concat; [exact Hf|]. apply nth_error_nth'. exact Hk.
Qed.

Lemma records_lengths c p n : Forall (fun x => length x = 80) (records c p n).
Proof.
  unfold records. apply Forall_forall. intros x Hx. apply in_map_iff in Hx.
  destruct Hx as (k & <- & _). apply record_at_length.
Qed.

Lemma records_length c p n : length (records c p n) = S n.
Proof. unfold records. rewrite map_length, seq_length. reflexivity. Qed.

Lemma records_nth c p n k : k <= n -> nth_error (records c p n) k = Some (record_at c p k).
Proof.
  intros H. unfold records. rewrite nth_error_map.
  rewrite (nth_error_nth' _ 0) by (rewrite seq_length; lia). rewrite seq_nth by lia. reflexivity.
Qed.

(** The header found at p is found again wherever its records are copied. *)
Lemma header_at_copy c p n pre post :
  header_at c p n -> header_at (pre ++ concat (records c p n) ++ post) (length pre) n /\
  records (pre ++ concat (records c p n) ++ post) (length pre) n = records c p n.
Proof.
  intros (H1 & H2 & H3).
  assert (E : forall k, k <= n ->
    record_at (pre ++ concat (records c p n) ++ post) (length pre) k = record_at c p k).
  { intros k Hk. apply record_at_concat; [apply records_lengths|apply records_nth; exact Hk]. }
  split.
  - split; [|split].
    + intros k Hk. rewrite E by exact Hk. apply H1. exact Hk.
    + intros k Hk. rewrite E by lia. apply H2; exact Hk.
    + rewrite E by lia. exact H3.
  - apply records_concat; [apply records_lengths|apply records_length].
Qed.

Lemma concat_length80 rs : Forall (fun x : str => length x = 80) rs -> length (concat rs) = 80 * length rs.
Proof. induction 1 as [|x rs Hx _ IH]; cbn [concat length]; [reflexivity|]. rewrite app_length. lia. Qed.

Lemma header_roundtrip fc fuel s s' h h' :
  good s = true -> read_header fc fuel s fresh_header = (s', h, Ret tt) ->
  map raw (h_cards h') = map raw (h_cards h) ->
  (N.of_nat (length (concat (map raw (h_cards h)))) < 2 ^ 63)%N ->
  content (write_header h' create_stream) =
    concat (map raw (h_cards h)) ++ spaces (pad_len (80 * length (h_cards h))) /\
  exists s2, read_header fc fuel (open_stream (content (write_header h' create_stream))) fresh_header
             = (s2, h, Ret tt) /\ good s2 = true /\ pos s2 = N.of_nat (80 * length (h_cards h)).
Proof.
  intros Hg H Hraw Hl.
  destruct (read_header_inv _ _ _ _ _ Hg H) as (n & Hn & Hh & Hi & _).
  assert (Hrs : map raw (h_cards h) = records (content s) (N.to_nat (pos s)) n).
  { apply (f_equal fst) in Hi. cbn [fst] in Hi.
    rewrite <- Hi, interpret_raws, push_all_cards. cbn [fresh_header h_cards app].
    rewrite map_map. cbn [raw]. apply map_id. }
  assert (Hlen : length (h_cards h) = S n).
  { rewrite <- (map_length raw), Hrs. apply records_length. }
  assert (Hcl : length (concat (map raw (h_cards h))) = 80 * length (h_cards h)).
  { rewrite Hrs, concat_length80 by apply records_lengths. rewrite records_length, Hlen. reflexivity. }
  destruct (write_header_append h' create_stream create_appending) as [_ Hc].
  { cbn [create_stream content length plus]. rewrite Hraw. exact Hl. }
  cbn [create_stream content length plus app] in Hc. rewrite Hraw, Hcl in Hc.
  split; [exact Hc|].
  set (post := spaces _) in Hc. set (st := open_stream _).
  assert (Hst : content st = [] ++ concat (records (content s) (N.to_nat (pos s)) n) ++ post).
  { unfold st. cbn [open_stream content]. rewrite Hc, Hrs. reflexivity. }
  destruct (header_at_copy _ _ _ [] post Hh) as [Hh2 Hr2]. cbn [length] in Hh2, Hr2.
  rewrite <- Hst in Hh2, Hr2.
  destruct (read_header_run fc fuel st n) as (s2 & Hb & E).
  - reflexivity.
  - exact Hh2.
  - exact Hn.
  - exists s2. change (N.to_nat (pos st)) with 0 in *. rewrite Hr2, Hi in E. cbn [fst snd] in E.
    split; [exact E|]. destruct Hb as [_ [[Hg2 Hp2]|[_ [_ Hbad]]]].
    + split; [exact Hg2|]. rewrite Hp2. f_equal. lia.
    + exfalso. rewrite Hst in Hbad. cbn [app] in Hbad. rewrite app_length, <- Hrs, Hcl in Hbad. lia.
Qed.

(** ** Termination of the header loop *)

Lemma read_header_forever fc fuel s h :
  good s = true ->
  (forall k, acceptable (record_at (content s) (N.to_nat (pos s)) k) /\
             ~ is_end_record (record_at (content s) (N.to_nat (pos s)) k)) ->
  snd (read_header fc fuel s h) = NoFuel.
Proof.
  intros Hg H. destruct (read_cards_forever fuel s h _ _ _ (before_start s Hg)) as [E _]; [exact H|].
  unfold read_header. destruct (read_cards fuel s h) as [[s1 h1] r]. cbn [snd] in E. subst r. reflexivity.
Qed.

Lemma blank_acceptable : acceptable (spaces 80).
Proof. split; [cbn; lia|]. right; right. exists (spaces 72). reflexivity. Qed.

(** It suffices to look at the records that start inside the file. *)
Lemma forever_inside s : good s = true ->
  (forall k, N.to_nat (pos s) + 80 * k < length (content s) ->
     acceptable (record_at (content s) (N.to_nat (pos s)) k) /\
     ~ is_end_record (record_at (content s) (N.to_nat (pos s)) k)) ->
  forall fc fuel h, snd (read_header fc fuel s h) = NoFuel.
Proof.
  intros Hg H fc fuel h. apply read_header_forever; [exact Hg|]. intros k.
  destruct (Nat.ltb_spec (N.to_nat (pos s) + 80 * k) (length (content s))) as [Hlt|Hge].
  - apply H; exact Hlt.
  - rewrite record_at_beyond by exact Hge. split; [apply blank_acceptable|]. discriminate.
Qed.

(** ** Data size *)

Lemma fold_mul64 l a : fold_left mul64 l a = if (length l =? 0) then a else ((a * product l) mod two64)%N.
Proof.
  revert a; induction l as [|x l IH]; intros a; cbn [fold_left length Nat.eqb]; [reflexivity|].
  rewrite IH. unfold mul64. cbn [product]. destruct l as [|y l]; cbn [length Nat.eqb product].
  - f_equal. lia.
  - unfold two64. rewrite N.mul_mod_idemp_l by lia. f_equal. lia.
Qed.

Lemma data_size_product h :
  data_size h = match h_naxis h with [] => 0%N | l => (product l mod two64)%N end.
Proof.
  unfold data_size. destruct (h_naxis h) as [|x l]; [reflexivity|].
  rewrite fold_mul64. cbn [length Nat.eqb]. rewrite N.mul_1_l. reflexivity.
Qed.

Lemma product_zero l : In 0%N l -> product l = 0%N.
Proof. induction l as [|x l IH]; cbn; intros []; [subst; lia|]. rewrite IH by assumption. lia. Qed.

(** ** Keyword lookup *)

Lemma contains_last key cs : existsb (fun c => str_eqb (keyword c) key) cs = true <-> last_with key cs <> None.
Proof.
  induction cs as [|c cs IH] using rev_ind; [cbn; split; congruence|].
  rewrite existsb_app, last_with_snoc. cbn [existsb]. rewrite orb_false_r, orb_true_iff.
  destruct (str_eqb (keyword c) key); [split; [discriminate|auto]|]. rewrite IH.
  split; [intros [K|K]; [exact K|discriminate]|auto].
Qed.

Lemma read_header_bad_record fc n fuel s : good s = true ->
  (forall j, j < n -> acceptable (record_at (content s) (N.to_nat (pos s)) j) /\
                      ~ is_end_record (record_at (content s) (N.to_nat (pos s)) j)) ->
  ~ acceptable (record_at (content s) (N.to_nat (pos s)) n) -> n < fuel ->
  snd (read_header fc fuel s fresh_header) = Throw InvalidCard.
Proof.
  intros Hg Ha Hn Hf.
  destruct (read_cards_invalid n fuel s fresh_header _ _ _ (before_start s Hg)) as (s' & E);
    [exact Ha|exact Hn|exact Hf|].
  unfold read_header. rewrite E. reflexivity.
Qed.
