(** * Lemmas about streams. *)
From Verif Require Export HeaderProofs StreamSpec.

Lemma skipn_cons_nth {A} (l : list A) : forall k x, nth_error l k = Some x -> skipn k l = x :: skipn (S k) l.
Proof. induction l as [|y l IH]; intros [|k] x H; cbn in *; try discriminate; [congruence|]. apply IH, H. Qed.

Lemma stream_get_inside s x : good s = true -> byte_at (content s) (N.to_nat (pos s)) = Some x ->
  stream_get s = (x, mk_stream (content s) (pos s + 1) false false).
Proof.
  intros G H. unfold stream_get, remaining. rewrite G, (skipn_cons_nth _ _ _ H). reflexivity.
Qed.

Lemma stream_get_end s : good s = true -> (N.of_nat (length (content s)) <= pos s)%N ->
  stream_get s = (zero, mk_stream (content s) (pos s) true true).
Proof.
  intros G H. unfold stream_get, remaining. rewrite G, skipn_all2 by lia. reflexivity.
Qed.

Lemma gets_inside n : forall s, good s = true -> (pos s + N.of_nat n <= N.of_nat (length (content s)))%N ->
  gets n s = (firstn n (skipn (N.to_nat (pos s)) (content s)), mk_stream (content s) (pos s + N.of_nat n) false false).
Proof.
  induction n as [|n IH]; intros s G H.
  - cbn [gets firstn]. apply good_true in G as [E F]. destruct s as [c p e f]; cbn in *. subst. rewrite N.add_0_r. reflexivity.
  - destruct (nth_error (content s) (N.to_nat (pos s))) as [x|] eqn:E; [|apply nth_error_None in E; lia].
    cbn [gets]. rewrite (stream_get_inside s x G E). cbv iota beta. rewrite IH; cbn [content pos]; [|reflexivity|lia].
    cbv iota beta. rewrite (skipn_cons_nth _ _ _ E). replace (N.to_nat (pos s + 1)) with (S (N.to_nat (pos s))) by lia.
    f_equal. f_equal. lia.
Qed.

Theorem gets_are_read n s : good s = true -> (pos s + N.of_nat n <= N.of_nat (length (content s)))%N -> (N.of_nat n <= max_size)%N ->
  stream_read (N.of_nat n) s = (Ret (fst (gets n s)), snd (gets n s)).
Proof.
  intros G H B. rewrite gets_inside by assumption. unfold stream_read. cbn [fst snd].
  destruct (N.ltb_spec max_size (N.of_nat n)); [lia|]. rewrite G. rewrite remaining_length.
  destruct (N.leb_spec (N.of_nat n) (N.of_nat (length (content s) - N.to_nat (pos s)))); [|lia].
  rewrite Nat2N.id. reflexivity.
Qed.

Lemma firstn_plus {A} n m (l : list A) : firstn (n + m) l = firstn n l ++ firstn m (skipn n l).
Proof.
  revert l; induction n as [|n IH]; intros l; [reflexivity|]. destruct l as [|x l]; [cbn; rewrite firstn_nil; reflexivity|].
  cbn. rewrite IH. reflexivity.
Qed.

Lemma skipn_plus {A} n m (l : list A) : skipn n (skipn m l) = skipn (m + n) l.
Proof. revert l; induction m as [|m IH]; intros l; [reflexivity|]. destruct l; [rewrite !skipn_nil; reflexivity|]. apply IH. Qed.

Lemma read_inside n s : good s = true -> (pos s + n <= N.of_nat (length (content s)))%N -> (n <= max_size)%N ->
  stream_read n s = (Ret (firstn (N.to_nat n) (skipn (N.to_nat (pos s)) (content s))), mk_stream (content s) (pos s + n) false false).
Proof.
  intros G H B. unfold stream_read. rewrite G, remaining_length. destruct (N.ltb_spec max_size n); [lia|].
  destruct (N.leb_spec n (N.of_nat (length (content s) - N.to_nat (pos s)))); [reflexivity|lia].
Qed.

Theorem reads_compose n m s : good s = true -> (pos s + n + m <= N.of_nat (length (content s)))%N -> (n + m <= max_size)%N ->
  exists a b s1 s2, stream_read n s = (Ret a, s1) /\ stream_read m s1 = (Ret b, s2) /\ stream_read (n + m) s = (Ret (a ++ b), s2) /\
    good s2 = true.
Proof.
  intros G H B. eexists _, _, _, _. split; [apply read_inside; [exact G|lia|lia]|].
  split; [apply read_inside; cbn [content pos]; [reflexivity|lia|lia]|]. cbn [content pos].
  rewrite (read_inside (n + m) s G) by lia. split; [|reflexivity].
  rewrite (N2Nat.inj_add n m), firstn_plus, skipn_plus, <- N2Nat.inj_add, N.add_assoc. reflexivity.
Qed.

Theorem at_end_spec s : good s = true ->
  fst (at_end s) = (N.of_nat (length (content s)) <=? pos s)%N /\ content (snd (at_end s)) = content s /\ pos (snd (at_end s)) = pos s /\
  failb (snd (at_end s)) = false.
Proof.
  intros G. unfold at_end. rewrite G. pose proof (remaining_length s) as L. apply good_true in G as [_ F].
  destruct (remaining s) as [|x r]; cbn [length fst snd content pos failb] in *.
  - split; [|auto]. symmetry. apply N.leb_le. lia.
  - split; [|auto]. symmetry. apply N.leb_gt. lia.
Qed.

(** Seeking works again after the end was noticed by at_end(), *)
Theorem seek_after_end s p : good s = true -> (p <= max_size)%N ->
  set_reading_pos p (snd (at_end s)) = mk_stream (content s) p false false.
Proof.
  intros G B. destruct (at_end_spec s G) as (_ & C & _ & F). unfold set_reading_pos. rewrite F, C.
  destruct (N.ltb_spec max_size p); [lia|]. reflexivity.
Qed.

(** but nothing brings back a stream on which a read failed. *)
Lemma failed_stays o s : failb s = true -> failb (stream_step o s) = true /\ content (stream_step o s) = content s /\ pos (stream_step o s) = pos s.
Proof.
  intros F. assert (G : good s = false) by (unfold good; rewrite F, Bool.andb_false_r; reflexivity).
  destruct o as [n| | | |p|]; cbn [stream_step].
  - unfold stream_read. destruct (max_size <? n)%N; cbn [snd]; [auto|]. rewrite G. cbn. auto.
  - unfold stream_get. rewrite G. cbn. auto.
  - unfold at_end. rewrite G. cbn. auto.
  - unfold get_current_pos. rewrite G. cbn. auto.
  - unfold set_reading_pos. rewrite F. cbn. auto.
  - unfold set_unit_end, find_unit_end, get_current_pos. rewrite G. cbn [set_reading_pos failb].
    unfold set_reading_pos. cbn. auto.
Qed.

Theorem failed_forever ops : forall s, failb s = true ->
  let s' := fold_left (fun s o => stream_step o s) ops s in
  failb s' = true /\ content s' = content s /\ pos s' = pos s.
Proof.
  induction ops as [|o ops IH]; intros s F; [auto|]. cbn [fold_left]. destruct (failed_stays o s F) as (F' & C & P).
  destruct (IH _ F') as (A1 & A2 & A3). cbv zeta. rewrite A1, A2, A3. auto.
Qed.

(** ** Writing *)

Lemma nth_repeat_zero n i : i < n -> nth_error (repeat zero n) i = Some zero.
Proof. revert i; induction n as [|n IH]; intros [|i] H; try lia; [reflexivity|]. cbn. apply IH. lia. Qed.

Lemma nth_skipn {A} (l : list A) n i : nth_error (skipn n l) i = nth_error l (n + i).
Proof. revert l; induction n as [|n IH]; intros l; [reflexivity|]. destruct l; [destruct i; reflexivity|]. apply IH. Qed.

Lemma nth_firstn {A} (l : list A) n i : i < n -> nth_error (firstn n l) i = nth_error l i.
Proof. revert l i; induction n as [|n IH]; intros l i H; [lia|]. destruct l; [reflexivity|]. destruct i; [reflexivity|]. cbn. apply IH. lia. Qed.

Theorem overwrite_bytes c p d i : d <> [] -> byte_at (overwrite c p d) i =
  if (p <=? i) && (i <? p + length d) then byte_at d (i - p)
  else if i <? length c then byte_at c i
  else if i <? p then Some zero else None.
Proof.
  intros N. unfold overwrite, byte_at. destruct d as [|x d]; [contradiction|]. set (w := x :: d).
  assert (F : length (firstn p c) = Nat.min p (length c)) by apply firstn_length.
  destruct (Nat.ltb_spec i (length (firstn p c))) as [H|H].
  { rewrite nth_error_app1 by exact H. rewrite nth_firstn by lia.
    destruct (Nat.leb_spec p i); [lia|]. cbn [andb]. destruct (Nat.ltb_spec i (length c)); [reflexivity|lia]. }
  rewrite nth_error_app2 by exact H.
  destruct (Nat.ltb_spec (i - length (firstn p c)) (p - length c)) as [Z|Z].
  { rewrite nth_error_app1 by (rewrite repeat_length; exact Z). rewrite nth_repeat_zero by exact Z.
    destruct (Nat.leb_spec p i); [lia|]. cbn [andb]. destruct (Nat.ltb_spec i (length c)); [lia|].
    destruct (Nat.ltb_spec i p); [reflexivity|lia]. }
  rewrite nth_error_app2 by (rewrite repeat_length; exact Z). rewrite repeat_length.
  assert (E : i - length (firstn p c) - (p - length c) = i - p) by lia. rewrite E.
  assert (P : p <= i) by lia. destruct (Nat.leb_spec p i); [|lia]. cbn [andb].
  destruct (Nat.ltb_spec i (p + length w)) as [W|W].
  { rewrite nth_error_app1 by lia. reflexivity. }
  rewrite nth_error_app2 by lia. rewrite nth_skipn.
  replace (p + length w + (i - p - length w)) with i by lia.
  destruct (Nat.ltb_spec i (length c)); [reflexivity|]. destruct (Nat.ltb_spec i p); [lia|]. apply nth_error_None. lia.
Qed.

Lemma overwrite_length c p d : d <> [] -> length (overwrite c p d) = Nat.max (length c) (p + length d).
Proof.
  intros N. unfold overwrite. destruct d as [|x d]; [contradiction|].
  rewrite !app_length, firstn_length, repeat_length, skipn_length. lia.
Qed.

Theorem write_at_ok d p s : good s = true -> (p <= max_size)%N ->
  stream_write_at d p s = (true, mk_stream (overwrite (content s) (N.to_nat p) d) (p + N.of_nat (length d)) false false).
Proof.
  intros G B. unfold stream_write_at, set_writing_pos. pose proof G as G'. apply good_true in G' as [E F]. rewrite F, E.
  destruct (N.ltb_spec max_size p); [lia|]. reflexivity.
Qed.

Theorem write_at_bad d p s : good s = false \/ (max_size < p)%N ->
  fst (stream_write_at d p s) = false /\ content (snd (stream_write_at d p s)) = content s /\ good (snd (stream_write_at d p s)) = false.
Proof.
  intros H. unfold stream_write_at, set_writing_pos. cbn [fst snd].
  destruct (failb s) eqn:F.
  { assert (G : good s = false) by (unfold good; rewrite F, Bool.andb_false_r; reflexivity).
    unfold stream_write. rewrite G. auto. }
  destruct (N.ltb_spec max_size p) as [L|L].
  { unfold stream_write, good. cbn. rewrite Bool.andb_false_r. cbn. rewrite Bool.andb_false_r. auto. }
  destruct H as [H|H]; [|lia]. unfold good in H. rewrite F in H. destruct (eofb s) eqn:E; [|discriminate].
  unfold stream_write, good. cbn. auto.
Qed.

Lemma nth_ext_error {A} (l m : list A) : (forall i, nth_error l i = nth_error m i) -> l = m.
Proof.
  revert m; induction l as [|x l IH]; intros [|y m] H; [reflexivity| | |].
  - specialize (H 0). discriminate.
  - specialize (H 0). discriminate.
  - f_equal; [specialize (H 0); cbn in H; congruence|]. apply IH. intros i. exact (H (S i)).
Qed.

(** What was written is read back. *)
Theorem read_back d p s : good s = true -> (p <= max_size)%N -> (N.of_nat (length d) <= max_size)%N ->
  fst (stream_read (N.of_nat (length d)) (set_reading_pos p (snd (stream_write_at d p s)))) = Ret d.
Proof.
  intros G B L. rewrite write_at_ok by assumption. cbn [snd]. unfold set_reading_pos. cbn [failb content].
  destruct (N.ltb_spec max_size p); [lia|]. unfold stream_read. destruct (N.ltb_spec max_size (N.of_nat (length d))); [lia|].
  cbn [good eofb failb negb andb]. unfold remaining. cbn [content pos].
  destruct d as [|x d].
  { cbn [length]. rewrite (proj2 (N.leb_le _ _)) by lia. reflexivity. }
  set (w := x :: d) in *. assert (W : w <> []) by discriminate. rewrite skipn_length, overwrite_length by exact W.
  destruct (N.leb_spec (N.of_nat (length w)) (N.of_nat (Nat.max (length (content s)) (N.to_nat p + length w) - N.to_nat p))); [|lia].
  cbn [fst]. f_equal. rewrite Nat2N.id. apply nth_ext_error. intros i.
  destruct (Nat.ltb_spec i (length w)) as [I|I].
  - rewrite nth_firstn by exact I. rewrite nth_skipn. fold (byte_at (overwrite (content s) (N.to_nat p) w) (N.to_nat p + i)).
    rewrite overwrite_bytes by exact W. rewrite (proj2 (Nat.leb_le _ _)) by lia. rewrite (proj2 (Nat.ltb_lt _ _)) by lia.
    cbn [andb]. unfold byte_at. f_equal. lia.
  - rewrite (proj2 (nth_error_None w i)) by lia. apply nth_error_None. rewrite firstn_length. lia.
Qed.

(** Two writes in a row are one. *)
Theorem writes_compose a b s : good s = true -> stream_write b (stream_write a s) = stream_write (a ++ b) s.
Proof.
  intros G. unfold stream_write at 2 3. rewrite G. unfold stream_write. cbn [good eofb failb negb andb content pos].
  destruct a as [|x a].
  { cbn [length app overwrite]. rewrite N.add_0_r. reflexivity. }
  destruct b as [|y b].
  { rewrite app_nil_r. cbn [length overwrite]. rewrite N.add_0_r. reflexivity. }
  set (u := x :: a). set (v := y :: b). assert (U : u <> []) by discriminate. assert (V : v <> []) by discriminate.
  assert (W : u ++ v <> []) by discriminate.
  f_equal; [|rewrite app_length; lia].
  apply nth_ext_error. intros i. change (byte_at (overwrite (overwrite (content s) (N.to_nat (pos s)) u) (N.to_nat (pos s + N.of_nat (length u))) v) i
    = byte_at (overwrite (content s) (N.to_nat (pos s)) (u ++ v)) i).
  rewrite !overwrite_bytes by assumption. rewrite overwrite_length by exact U. rewrite app_length.
  replace (N.to_nat (pos s + N.of_nat (length u))) with (N.to_nat (pos s) + length u) by lia.
  set (p := N.to_nat (pos s)). unfold byte_at.
  destruct (Nat.leb_spec (p + length u) i) as [A|A]; cbn [andb].
  - rewrite (proj2 (Nat.leb_le p i)) by lia. cbn [andb].
    replace (i <? p + (length u + length v)) with (i <? p + length u + length v) by (f_equal; lia).
    destruct (Nat.ltb_spec i (p + length u + length v)) as [B|B].
    + rewrite nth_error_app2 by lia. f_equal. lia.
    + rewrite (proj2 (Nat.ltb_ge i (p + length u))) by lia.
      destruct (Nat.ltb_spec i (length (content s))) as [C|C].
      * rewrite (proj2 (Nat.ltb_lt _ _)) by lia. reflexivity.
      * rewrite (proj2 (Nat.ltb_ge _ _)) by lia. rewrite !(proj2 (Nat.ltb_ge _ _)) by lia. reflexivity.
  - destruct (Nat.leb_spec p i) as [B|B]; cbn [andb].
    + rewrite (proj2 (Nat.ltb_lt i (p + length u))) by lia. rewrite (proj2 (Nat.ltb_lt i (p + (length u + length v)))) by lia.
      rewrite (proj2 (Nat.ltb_lt i (Nat.max _ _))) by lia. rewrite nth_error_app1 by lia. reflexivity.
    + rewrite (proj2 (Nat.ltb_lt i (Nat.max _ _))) by lia. reflexivity.
Qed.
