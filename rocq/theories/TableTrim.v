(** * What trimming a field does to the number stored in it. *)
From Verif Require Export TableCells.

Lemma shift_zero w t : w :: t = t ++ [zero] -> w = zero.
Proof.
  revert w. induction t as [|x t IH]; intros w H; cbn in H.
  - injection H. auto.
  - injection H as -> H. apply IH. exact H.
Qed.

Lemma trim_shifted s : trim s <> s -> trim s ++ [zero] <> s.
Proof.
  intros Hn E. destruct (trim_split s) as (a & b & Hs & Ha & Hb).
  assert (L : length s = length a + (length (trim s) + length b)) by (rewrite Hs at 1; rewrite !app_length; reflexivity).
  assert (L2 : length s = length (trim s) + 1) by (rewrite <- E at 1; rewrite app_length; reflexivity).
  rewrite Hs in E at 2. destruct a as [|w [|w2 a]]; [| |cbn in L; lia].
  - destruct b as [|w [|w2 b]]; [cbn in L; lia| |cbn in L; lia]. cbn [app] in E.
    apply app_inj_tail in E. destruct E as [_ <-]. specialize (Hb zero (or_introl eq_refl)). discriminate.
  - destruct b as [|w2 b]; [|cbn in L; lia]. rewrite app_nil_r in E. cbn [app] in E.
    symmetry in E. apply shift_zero in E. subst w. specialize (Ha zero (or_introl eq_refl)). discriminate.
Qed.

Lemma be_val_inj a b : length a = length b -> be_val a = be_val b -> a = b.
Proof. intros L E. rewrite <- (be_bytes_val a), <- (be_bytes_val b), L, E. reflexivity. Qed.

Lemma words_inj k : forall n a b, length a = n * k -> length b = n * k ->
  (forall i, i < n -> be_val (firstn k (skipn (i * k) a)) = be_val (firstn k (skipn (i * k) b))) -> a = b.
Proof.
  induction n as [|n IH]; intros a b La Lb H.
  - destruct a; [|discriminate]. destruct b; [|discriminate]. reflexivity.
  - cbn [Nat.mul] in La, Lb. rewrite <- (firstn_skipn k a), <- (firstn_skipn k b). f_equal.
    + apply be_val_inj; [rewrite !firstn_length; lia|]. exact (H 0 (Nat.lt_0_succ n)).
    + apply IH; [rewrite skipn_length; lia..|]. intros i Hi. rewrite !skipn_add.
      exact (H (S i) (proj1 (Nat.succ_lt_mono i n) Hi)).
Qed.

Lemma word_at_inside k i s : i * k + k <= length s -> word_at k i s = Ret (be_val (firstn k (skipn (i * k) s))).
Proof.
  intros H. unfold word_at. destruct (Nat.leb_spec (i * k + k) (length s + 1)); [|lia]. do 2 f_equal.
  rewrite skipn_app, firstn_app, skipn_length. replace (k - (length s - i * k)) with 0 by lia. apply app_nil_r.
Qed.

(** All words are the same only if nothing was trimmed. *)
Lemma trim_words k n s : 1 <= k -> 1 <= n -> length s = n * k ->
  (forall i, i < n -> word_at k i (trim s) = word_at k i s) -> trim s = s.
Proof.
  intros Hk Hn L H. destruct (list_eq_dec ascii_dec (trim s) s) as [E|N]; [exact E|exfalso].
  assert (Hin : forall i, i < n -> i * k + k <= length s).
  { intros i Hi. rewrite L. replace (i * k + k) with ((i + 1) * k) by lia. apply Nat.mul_le_mono_r. lia. }
  assert (Hlast : n * k <= length (trim s) + 1).
  { assert (Hl : n - 1 < n) by lia. specialize (H (n - 1) Hl). rewrite (word_at_inside k (n - 1) s) in H by auto.
    unfold word_at in H. destruct (Nat.leb_spec ((n - 1) * k + k) (length (trim s) + 1)) as [Hle|]; [|discriminate].
    replace (n * k) with ((n - 1) * k + k); [exact Hle|]. replace n with (n - 1 + 1) at 2 by lia. lia. }
  destruct (trim_shorter s) as [S1 S2].
  assert (Lt : length (trim s) + 1 = n * k).
  { destruct (Nat.eq_dec (length (trim s)) (length s)) as [E|]; [exfalso; apply N, S2, E|lia]. }
  apply (trim_shifted s N). apply (words_inj k n); [rewrite app_length; exact Lt|exact L|].
  intros i Hi. pose proof (H i Hi) as Hw. rewrite (word_at_inside k i s) in Hw by auto.
  unfold word_at in Hw. destruct (Nat.leb_spec (i * k + k) (length (trim s) + 1)) as [_|]; [|discriminate].
  apply ret_inj in Hw. exact Hw.
Qed.

Lemma bind_ret_inj {A B} (f : A -> B) (x y : outcome A) : (forall a b, f a = f b -> a = b) ->
  (let! a := x in Ret (f a)) = (let! a := y in Ret (f a)) -> x = y.
Proof.
  intros Hf. destruct x, y; cbn [bind]; intros E; try discriminate; auto; try congruence.
  apply ret_inj in E. f_equal. auto.
Qed.

Lemma two_words k s : length s = 2 * k ->
  element_to_two k s = Ret (XTwo (be_val (firstn k (skipn (0 * k) s))) (be_val (firstn k (skipn (1 * k) s)))).
Proof.
  intros L. unfold element_to_two. rewrite !word_at_inside by lia. reflexivity.
Qed.

Lemma two_inj x y u v : (let! a := x in let! b := y in Ret (XTwo a b)) = Ret (XTwo u v) -> x = Ret u /\ y = Ret v.
Proof.
  destruct x as [a| | |]; cbn [bind]; try discriminate. destruct y as [b| | |]; cbn [bind]; try discriminate.
  intros H. apply ret_inj in H. injection H as -> ->. auto.
Qed.

Theorem trim_single t s : ~ In t [EBool; EI8] -> length s = elem_size t ->
  (bin_deserialize t (trim s) = bin_deserialize t s <-> ~ has_outer_space s).
Proof.
  intros Ht L. rewrite <- trim_fixed. split; [|intros ->; reflexivity].
  assert (One : forall k, 1 <= k -> length s = k ->
    (let! w := element_to_numeric k (trim s) in Ret (XNum w)) = (let! w := element_to_numeric k s in Ret (XNum w)) -> trim s = s).
  { intros k Hk Lk E. apply bind_ret_inj in E; [|intros a b X; injection X; auto].
    apply (trim_words k 1); [lia|lia|lia|]. intros i Hi. assert (i = 0) by lia. subst i. exact E. }
  assert (Two : forall k, 1 <= k -> length s = 2 * k -> element_to_two k (trim s) = element_to_two k s -> trim s = s).
  { intros k Hk Lk E. rewrite (two_words k s Lk) in E. apply two_inj in E. destruct E as [E0 E1].
    apply (trim_words k 2); [lia|lia|lia|]. intros i Hi. rewrite (word_at_inside k i s) by nia.
    assert (Hc : i = 0 \/ i = 1) by lia. destruct Hc as [-> | ->]; assumption. }
  destruct t; cbn [bin_deserialize elem_size word_size] in *; try (exfalso; apply Ht; cbn; tauto);
    try (apply One; lia); try (apply Two; lia).
  destruct s as [|c [|c2 s]]; try discriminate. intros E. unfold trim, trim_right, trim_left in *. cbn in *.
  destruct (is_space c) eqn:Ec; [discriminate|]. cbn. rewrite Ec. reflexivity.
Qed.

Lemma seq_outcomes_pointwise {A} (f g : nat -> outcome A) n l :
  seq_outcomes (map f (seq 0 n)) = Ret l -> seq_outcomes (map g (seq 0 n)) = Ret l ->
  forall i, i < n -> f i = g i.
Proof.
  intros H1 H2 i Hi. apply seq_outcomes_inv in H1, H2.
  assert (E : nth_error (map f (seq 0 n)) i = nth_error (map g (seq 0 n)) i) by congruence.
  rewrite !nth_map_seq in E by exact Hi. injection E. auto.
Qed.

Lemma numeric_inside k n s : length s = n * k ->
  numeric_collection k s n = Ret (map (fun i => be_val (firstn k (skipn (i * k) s))) (seq 0 n)).
Proof.
  intros L. unfold numeric_collection. apply seq_outcomes_ret; [rewrite map_length, seq_length; reflexivity|].
  intros i a H. assert (Hi : i < n).
  { assert (X : nth_error (map (fun i => be_val (firstn k (skipn (i * k) s))) (seq 0 n)) i <> None) by congruence.
    apply nth_error_Some in X. rewrite map_length, seq_length in X. exact X. }
  rewrite nth_map_seq in H by exact Hi. injection H as <-. cbn [plus]. apply word_at_inside.
  rewrite L. replace (i * k + k) with ((i + 1) * k) by lia. apply Nat.mul_le_mono_r. lia.
Qed.

Lemma complex_inside k n s : length s = n * (2 * k) ->
  complex_collection k s n = Ret (map (fun i => XTwo (be_val (firstn k (skipn (2 * i * k) s))) (be_val (firstn k (skipn ((2 * i + 1) * k) s)))) (seq 0 n)).
Proof.
  intros L. unfold complex_collection. apply seq_outcomes_ret; [rewrite map_length, seq_length; reflexivity|].
  intros i a H. assert (Hi : i < n).
  { match type of H with ?l = _ => assert (X : l <> None) by congruence end.
    apply nth_error_Some in X. rewrite map_length, seq_length in X. exact X. }
  rewrite nth_map_seq in H by exact Hi. injection H as <-. cbn [plus].
  assert ((i + 1) * (2 * k) <= n * (2 * k)) by (apply Nat.mul_le_mono_r; lia).
  rewrite !word_at_inside by lia. reflexivity.
Qed.

Theorem trim_vector t s n : In t [EByte; EI16; EI32; EF32; EF64; EC32; EC64] -> 1 <= n -> length s = n * elem_size t ->
  (bin_deserialize_vec t (trim s) n = bin_deserialize_vec t s n <-> ~ has_outer_space s).
Proof.
  intros Ht Hn L. rewrite <- trim_fixed. split; [|intros ->; reflexivity].
  assert (Num : forall k, 1 <= k -> length s = n * k ->
    (let! l := numeric_collection k (trim s) n in Ret (map XNum l)) = (let! l := numeric_collection k s n in Ret (map XNum l)) -> trim s = s).
  { intros k Hk Lk E. apply bind_ret_inj in E.
    2:{ intros a. induction a as [|x a IH]; intros [|y b] X; try discriminate; [reflexivity|]. injection X as -> X. f_equal. auto. }
    apply (trim_words k n); [lia|lia|exact Lk|]. rewrite (numeric_inside k n s Lk) in E.
    exact (seq_outcomes_pointwise _ _ n _ E (numeric_inside k n s Lk)). }
  assert (Cpx : forall k, 1 <= k -> length s = n * (2 * k) -> complex_collection k (trim s) n = complex_collection k s n -> trim s = s).
  { intros k Hk Lk E. apply (trim_words k (2 * n)); [lia|lia|lia|]. rewrite (complex_inside k n s Lk) in E.
    pose proof (seq_outcomes_pointwise _ _ n _ E (complex_inside k n s Lk)) as P.
    intros i Hi. assert (Hh : i / 2 < n) by (apply Nat.div_lt_upper_bound; lia).
    specialize (P (i / 2) Hh). cbv beta in P.
    assert ((i / 2 + 1) * (2 * k) <= n * (2 * k)) by (apply Nat.mul_le_mono_r; lia).
    rewrite (word_at_inside k (2 * (i / 2)) s), (word_at_inside k (2 * (i / 2) + 1) s) in P by lia. cbn [bind] in P.
    apply two_inj in P. destruct P as [P0 P1].
    pose proof (Nat.div_mod i 2 ltac:(discriminate)) as Dm. pose proof (Nat.mod_upper_bound i 2 ltac:(discriminate)) as Mb.
    assert (Hc : i = 2 * (i / 2) \/ i = 2 * (i / 2) + 1) by lia.
    remember (i / 2) as q. clear Dm Mb Heqq. destruct Hc as [-> | ->]; [rewrite P0|rewrite P1]; symmetry; apply word_at_inside; lia. }
  destruct t; cbn [bin_deserialize_vec elem_size word_size] in *;
    try (exfalso; cbn in Ht; repeat (destruct Ht as [Ht|Ht]; [discriminate Ht|]); exact Ht);
    try (apply Num; lia); try (apply Cpx; lia).
  intros E. apply trim_shorter. unfold byte_collection in E. rewrite L in *.
  destruct (trim_shorter s) as [S1 _].
  destruct (Nat.leb_spec n (n * 1)); [|lia]. destruct (Nat.leb_spec n (length (trim s))); [lia|discriminate].
Qed.

(** Two or more characters trimmed: the conversion reads behind the end of the field. *)
Theorem trim_undefined t s : In t [EI16; EI32; EF32; EF64; EC32; EC64; EPair] -> length s = elem_size t ->
  length (trim s) + 1 < length s -> bin_deserialize t (trim s) = Undef.
Proof.
  intros Ht L H.
  assert (W : forall k i, length s = (i + 1) * k -> word_at k i (trim s) = Undef).
  { intros k i Lk. unfold word_at. destruct (Nat.leb_spec (i * k + k) (length (trim s) + 1)); [lia|reflexivity]. }
  assert (T : forall k, length s = 2 * k -> element_to_two k (trim s) = Undef).
  { intros k Lk. unfold element_to_two. rewrite (W k 1) by lia. destruct (word_at k 0 (trim s)) eqn:E; try reflexivity;
      exfalso; unfold word_at in E; destruct (_ <=? _); discriminate. }
  destruct t; cbn [bin_deserialize elem_size word_size] in *; unfold element_to_numeric;
    try (exfalso; cbn in Ht; repeat (destruct Ht as [Ht|Ht]; [discriminate Ht|]); exact Ht);
    try (rewrite (W _ 0) by lia; reflexivity); apply T; lia.
Qed.
