(** * Lemmas about the converter. *)
From Verif Require Export CppProofs ConvModel ConvSpec.

Lemma ascii_N c : ascii_of_N (N_of_ascii c) = c.
Proof. apply ascii_N_embedding. Qed.

Lemma N_ascii n : (n < 256)%N -> N_of_ascii (ascii_of_N n) = n.
Proof. apply N_ascii_embedding. Qed.

Lemma N_of_ascii_lt c : (N_of_ascii c < 256)%N.
Proof. destruct c as [[] [] [] [] [] [] [] []]; reflexivity. Qed.

Lemma be_bytes_length k w : length (be_bytes k w) = k.
Proof. revert w; induction k as [|k IH]; intros w; cbn [be_bytes]; [reflexivity|]. rewrite app_length, IH. cbn. lia. Qed.

Lemma be_val_snoc s c : be_val (s ++ [c]) = (be_val s * 256 + N_of_ascii c)%N.
Proof. unfold be_val. rewrite fold_left_app. reflexivity. Qed.

Lemma pow_succ k : (256 ^ N.of_nat (S k) = 256 * 256 ^ N.of_nat k)%N.
Proof. rewrite Nat2N.inj_succ, N.pow_succ_r'. reflexivity. Qed.

Lemma be_val_bytes k w : (w < 256 ^ N.of_nat k)%N -> be_val (be_bytes k w) = w.
Proof.
  revert w; induction k as [|k IH]; intros w H.
  - change (256 ^ N.of_nat 0)%N with 1%N in H. assert (w = 0)%N by lia. subst. reflexivity.
  - cbn [be_bytes]. rewrite be_val_snoc. rewrite pow_succ in H. rewrite IH.
    + rewrite N_ascii by (apply N.mod_lt; lia). pose proof (N.div_mod' w 256). lia.
    + apply N.div_lt_upper_bound; lia.
Qed.

Lemma be_bytes_val s : be_bytes (length s) (be_val s) = s.
Proof.
  induction s as [|c s IH] using rev_ind; [reflexivity|].
  rewrite app_length, Nat.add_comm. cbn [length plus be_bytes]. rewrite be_val_snoc.
  pose proof (N_of_ascii_lt c).
  replace ((be_val s * 256 + N_of_ascii c) / 256)%N with (be_val s).
  2:{ apply N.div_unique with (r := N_of_ascii c); lia. }
  replace ((be_val s * 256 + N_of_ascii c) mod 256)%N with (N_of_ascii c).
  2:{ apply N.mod_unique with (q := be_val s); lia. }
  rewrite IH, ascii_N. reflexivity.
Qed.

Lemma be_val_lt s : (be_val s < 256 ^ N.of_nat (length s))%N.
Proof.
  induction s as [|c s IH] using rev_ind; [reflexivity|].
  rewrite be_val_snoc, app_length, Nat.add_comm. cbn [length plus]. rewrite pow_succ.
  pose proof (N_of_ascii_lt c). lia.
Qed.

(** The digits are those of the byte order. *)
Lemma be_bytes_nth k i w : i < k -> nth_error (be_bytes k w) i = Some (ascii_of_N (be_byte k i w)).
Proof.
  revert i w; induction k as [|k IH]; intros i w H; [lia|]. cbn [be_bytes].
  destruct (Nat.eq_dec i k) as [->|Hne].
  - rewrite nth_error_app2 by (rewrite be_bytes_length; lia). rewrite be_bytes_length, Nat.sub_diag.
    cbn [nth_error]. f_equal. f_equal. unfold be_byte. replace (S k - 1 - k) with 0 by lia.
    change (256 ^ N.of_nat 0)%N with 1%N. rewrite N.div_1_r. reflexivity.
  - rewrite nth_error_app1 by (rewrite be_bytes_length; lia). rewrite IH by lia.
    f_equal. f_equal. unfold be_byte. replace (S k - 1 - i) with (S (k - 1 - i)) by lia.
    rewrite pow_succ. rewrite N.div_div by (try apply N.pow_nonzero; lia). reflexivity.
Qed.

(** ** Reading words *)

Lemma word_at_exact k i s pre w post :
  s = pre ++ w ++ post -> length pre = i * k -> length w = k -> word_at k i s = Ret (be_val w).
Proof.
  intros -> Hp Hw. unfold word_at.
  assert (E : (i * k + k <=? length (pre ++ w ++ post) + 1) = true)
    by (apply Nat.leb_le; rewrite !app_length; lia).
  rewrite E. rewrite <- Hp, <- !app_assoc. rewrite skipn_app, skipn_all, Nat.sub_diag. cbn [app skipn].
  rewrite firstn_app, Hw, Nat.sub_diag, firstn_O, app_nil_r, <- Hw, firstn_all. reflexivity.
Qed.

(** Reading the i-th word of a concatenation of k-byte words. *)
Lemma word_at_concat k ws i w : Forall (fun x => (x < 256 ^ N.of_nat k)%N) ws ->
  nth_error ws i = Some w -> word_at k i (concat (map (be_bytes k) ws)) = Ret w.
Proof.
  intros Hf Hi. destruct (nth_error_split ws i Hi) as (a & b & -> & Ha).
  rewrite map_app, concat_app. cbn [map concat].
  assert (L : length (concat (map (be_bytes k) a)) = length a * k).
  { clear. induction a as [|x a IH]; [reflexivity|]. cbn [map concat length]. rewrite app_length, be_bytes_length, IH. lia. }
  erewrite word_at_exact; [|reflexivity|rewrite L; congruence|apply be_bytes_length].
  rewrite be_val_bytes; [reflexivity|].
  rewrite Forall_forall in Hf. apply Hf. apply in_or_app. right. left. reflexivity.
Qed.

Lemma seq_outcomes_ret {A} (f : nat -> outcome A) n : forall k (g : list A),
  length g = n -> (forall i a, nth_error g i = Some a -> f (k + i) = Ret a) ->
  seq_outcomes (map f (seq k n)) = Ret g.
Proof.
  induction n as [|n IH]; intros k g Hl H.
  - destruct g; [reflexivity|discriminate].
  - destruct g as [|a g]; [discriminate|]. cbn [seq map seq_outcomes].
    pose proof (H 0 a eq_refl) as H0. rewrite Nat.add_0_r in H0. rewrite H0. cbn [bind].
    rewrite (IH (S k) g); [reflexivity|cbn in Hl; lia|].
    intros i b Hb. replace (S k + i) with (k + S i) by lia. apply H. exact Hb.
Qed.

Lemma seq_outcomes_inv {A} (l : list (outcome A)) g : seq_outcomes l = Ret g -> l = map Ret g.
Proof.
  revert g; induction l as [|m l IH]; intros g H; cbn in H.
  - injection H as <-. reflexivity.
  - destruct m as [a| | |]; cbn [bind] in H; try discriminate.
    destruct (seq_outcomes l) as [x| | |]; cbn [bind] in H; try discriminate.
    injection H as <-. cbn [map]. f_equal. apply IH. reflexivity.
Qed.

(** ** Single elements *)

Lemma bin_serialize_length t x : has_type t x -> length (bin_serialize t x) = elem_size t.
Proof.
  destruct t, x as [b|w|u v]; cbn [has_type bin_serialize elem_size]; try contradiction; intros _;
    rewrite ?app_length, ?be_bytes_length; try reflexivity; destruct b; reflexivity.
Qed.

Lemma single_roundtrip t x : t <> EI8 -> has_type t x -> bin_deserialize t (bin_serialize t x) = Ret x.
Proof.
  intros Ht H.
  destruct t; try contradiction; destruct x as [b|w|u v]; cbn [has_type] in H; try contradiction;
    cbn [bin_serialize bin_deserialize word_size] in *.
  - destruct b; reflexivity.
  - change (N.of_nat 1) with 1%N in H. change (256 ^ 1)%N with 256%N in H.
    cbn [be_bytes app element_to_byte]. rewrite N.mod_small by exact H. rewrite N_ascii by exact H. reflexivity.
  - unfold element_to_numeric. erewrite word_at_exact with (pre := []) (post := []);
      [|cbn [app]; rewrite app_nil_r; reflexivity|reflexivity|apply be_bytes_length].
    rewrite be_val_bytes by exact H. reflexivity.
  - unfold element_to_numeric. erewrite word_at_exact with (pre := []) (post := []);
      [|cbn [app]; rewrite app_nil_r; reflexivity|reflexivity|apply be_bytes_length].
    rewrite be_val_bytes by exact H. reflexivity.
  - unfold element_to_numeric. erewrite word_at_exact with (pre := []) (post := []);
      [|cbn [app]; rewrite app_nil_r; reflexivity|reflexivity|apply be_bytes_length].
    rewrite be_val_bytes by exact H. reflexivity.
  - unfold element_to_numeric. erewrite word_at_exact with (pre := []) (post := []);
      [|cbn [app]; rewrite app_nil_r; reflexivity|reflexivity|apply be_bytes_length].
    rewrite be_val_bytes by exact H. reflexivity.
  - unfold element_to_two. destruct H as [H1 H2].
    rewrite (word_at_exact 4 0 _ [] (be_bytes 4 u) (be_bytes 4 v)); [|reflexivity..|apply be_bytes_length]. cbn [bind].
    rewrite (word_at_exact 4 1 _ (be_bytes 4 u) (be_bytes 4 v) []);
      [|rewrite app_nil_r; reflexivity|rewrite be_bytes_length; reflexivity|apply be_bytes_length].
    rewrite !be_val_bytes by assumption. reflexivity.
  - unfold element_to_two. destruct H as [H1 H2].
    rewrite (word_at_exact 8 0 _ [] (be_bytes 8 u) (be_bytes 8 v)); [|reflexivity..|apply be_bytes_length]. cbn [bind].
    rewrite (word_at_exact 8 1 _ (be_bytes 8 u) (be_bytes 8 v) []);
      [|rewrite app_nil_r; reflexivity|rewrite be_bytes_length; reflexivity|apply be_bytes_length].
    rewrite !be_val_bytes by assumption. reflexivity.
  - unfold element_to_two. destruct H as [H1 H2].
    rewrite (word_at_exact 4 0 _ [] (be_bytes 4 u) (be_bytes 4 v)); [|reflexivity..|apply be_bytes_length]. cbn [bind].
    rewrite (word_at_exact 4 1 _ (be_bytes 4 u) (be_bytes 4 v) []);
      [|rewrite app_nil_r; reflexivity|rewrite be_bytes_length; reflexivity|apply be_bytes_length].
    rewrite !be_val_bytes by assumption. reflexivity.
Qed.

(** A full-size field is decoded bit for bit. *)
Lemma numeric_decode t s : In t [EI16; EI32; EF32; EF64] -> length s = word_size t ->
  bin_deserialize t s = Ret (XNum (be_val s)) /\ bin_serialize t (XNum (be_val s)) = s.
Proof.
  intros Ht Hl. split.
  - assert (E : word_at (word_size t) 0 s = Ret (be_val s)).
    { apply word_at_exact with (pre := []) (post := []); [rewrite app_nil_r; reflexivity|reflexivity|exact Hl]. }
    cbn in Ht. destruct Ht as [<-|[<-|[<-|[<-|[]]]]]; cbn [bin_deserialize]; unfold element_to_numeric; rewrite E; reflexivity.
  - cbn [bin_serialize]. rewrite <- Hl. apply be_bytes_val.
Qed.

(** ** Vectors *)

Definition num_of (x : elem) : N := match x with XNum w => w | _ => 0 end.

Lemma bin_serialize_vec_length t l : Forall (has_type t) l -> length (bin_serialize_vec t l) = length l * elem_size t.
Proof.
  unfold bin_serialize_vec. induction 1 as [|x l Hx _ IH]; [reflexivity|].
  cbn [map concat length]. rewrite app_length, IH, bin_serialize_length by exact Hx. lia.
Qed.

Lemma vec_num t l : In t [EByte; EI16; EI32; EF32; EF64] -> Forall (has_type t) l ->
  exists ws, l = map XNum ws /\ Forall (fun w => (w < 256 ^ N.of_nat (word_size t))%N) ws /\
             bin_serialize_vec t l = concat (map (be_bytes (word_size t)) ws).
Proof.
  intros Ht. induction 1 as [|x l Hx _ (ws & -> & Hf & E)].
  - exists []. repeat split; constructor.
  - assert (X : exists w, x = XNum w /\ (w < 256 ^ N.of_nat (word_size t))%N).
    { cbn in Ht. destruct Ht as [<-|[<-|[<-|[<-|[<-|[]]]]]]; destruct x; cbn [has_type] in Hx; try contradiction;
        eexists; split; try reflexivity; exact Hx. }
    destruct X as (w & -> & Hw). exists (w :: ws). split; [reflexivity|]. split; [constructor; assumption|].
    unfold bin_serialize_vec in *. cbn [map concat]. rewrite E. reflexivity.
Qed.

Lemma numeric_vec_roundtrip t l : In t [EI16; EI32; EF32; EF64] -> Forall (has_type t) l ->
  bin_deserialize_vec t (bin_serialize_vec t l) (length l) = Ret l.
Proof.
  intros Ht Hf. destruct (vec_num t l) as (ws & -> & Hw & E); [cbn in *; tauto|exact Hf|].
  rewrite map_length, E.
  assert (N : numeric_collection (word_size t) (concat (map (be_bytes (word_size t)) ws)) (length ws) = Ret ws).
  { unfold numeric_collection. apply seq_outcomes_ret; [reflexivity|].
    intros i a Hi. apply word_at_concat; assumption. }
  cbn in Ht. destruct Ht as [<-|[<-|[<-|[<-|[]]]]]; cbn [bin_deserialize_vec]; rewrite N; reflexivity.
Qed.

Lemma byte_vec_roundtrip l : Forall (has_type EByte) l ->
  bin_deserialize_vec EByte (bin_serialize_vec EByte l) (length l) = Ret l.
Proof.
  intros Hf. pose proof (bin_serialize_vec_length _ _ Hf) as Hl. cbn [elem_size word_size] in Hl.
  cbn [bin_deserialize_vec]. unfold byte_collection. rewrite Hl.
  replace (length l <=? length l * 1) with true by (symmetry; apply Nat.leb_le; lia).
  rewrite firstn_all2 by lia. cbn [bind]. f_equal. clear Hl.
  induction Hf as [|x l Hx _ IH]; [reflexivity|]. unfold bin_serialize_vec in *. cbn [map concat]. 
  destruct x as [b|w|u v]; cbn [has_type] in Hx; try contradiction.
  change (256 ^ N.of_nat (word_size EByte))%N with 256%N in Hx.
  cbn [bin_serialize word_size be_bytes app map]. rewrite N.mod_small, N_ascii by exact Hx. f_equal. exact IH.
Qed.

Lemma bool_vec_roundtrip l n : Forall (has_type EBool) l ->
  bin_deserialize_vec EBool (bin_serialize_vec EBool l) n = Ret l.
Proof.
  intros Hf. cbn [bin_deserialize_vec]. f_equal. unfold bin_serialize_vec.
  induction Hf as [|x l Hx _ IH]; [reflexivity|]. cbn [map concat].
  destruct x as [b|w|u v]; cbn [has_type] in Hx; try contradiction.
  rewrite map_app, IH. destruct b; reflexivity.
Qed.

Lemma vec_two t l : In t [EC32; EC64; EPair] -> Forall (has_type t) l ->
  length (parts l) = 2 * length l /\
  Forall (fun w => (w < 256 ^ N.of_nat (word_size t))%N) (parts l) /\
  bin_serialize_vec t l = concat (map (be_bytes (word_size t)) (parts l)) /\
  (forall i x, nth_error l i = Some x -> exists a b, x = XTwo a b /\
      nth_error (parts l) (2 * i) = Some a /\ nth_error (parts l) (2 * i + 1) = Some b).
Proof.
  intros Ht. induction 1 as [|x l Hx _ (H1 & H2 & H3 & H4)].
  - split; [reflexivity|]. split; [constructor|]. split; [reflexivity|]. intros [|i] x; discriminate.
  - assert (X : exists a b, x = XTwo a b /\ (a < 256 ^ N.of_nat (word_size t))%N /\ (b < 256 ^ N.of_nat (word_size t))%N).
    { cbn in Ht. destruct Ht as [<-|[<-|[<-|[]]]]; destruct x; cbn [has_type] in Hx; try contradiction;
        eexists _, _; split; try reflexivity; exact Hx. }
    destruct X as (a & b & -> & Ha & Hb). unfold parts in *. cbn [map concat app].
    split; [cbn [length]; lia|]. split; [repeat constructor; assumption|]. split.
    + unfold bin_serialize_vec in *. cbn [map concat bin_serialize]. rewrite H3, <- app_assoc. reflexivity.
    + intros [|i] x Hi.
      * cbn in Hi. injection Hi as <-. exists a, b. auto.
      * cbn in Hi. destruct (H4 i x Hi) as (a' & b' & E & E1 & E2). exists a', b'. split; [exact E|].
        replace (2 * S i) with (S (S (2 * i))) by lia. replace (2 * S i + 1) with (S (S (2 * i + 1))) by lia. auto.
Qed.

Lemma complex_vec_roundtrip t l : In t [EC32; EC64] -> Forall (has_type t) l ->
  bin_deserialize_vec t (bin_serialize_vec t l) (length l) = Ret l.
Proof.
  intros Ht Hf. destruct (vec_two t l) as (H1 & H2 & H3 & H4); [cbn in *; tauto|exact Hf|].
  assert (C : complex_collection (word_size t) (bin_serialize_vec t l) (length l) = Ret l).
  { unfold complex_collection. apply seq_outcomes_ret; [reflexivity|]. intros i x Hi.
    destruct (H4 i x Hi) as (a & b & -> & E1 & E2). cbn [plus]. rewrite H3.
    rewrite (word_at_concat _ _ _ _ H2 E1). cbn [bind]. rewrite (word_at_concat _ _ _ _ H2 E2). reflexivity. }
  cbn in Ht. destruct Ht as [<-|[<-|[]]]; exact C.
Qed.

(** Descriptor vectors: what the overlapping reads give. *)
Lemma pair_vec_reads l : Forall (has_type EPair) l ->
  exists r, bin_deserialize_vec EPair (bin_serialize_vec EPair l) (length l) = Ret r /\ length r = length l /\
  forall i x, nth_error r i = Some x ->
    exists a b, nth_error (parts l) i = Some a /\ nth_error (parts l) (i + 1) = Some b /\ x = XTwo a b.
Proof.
  intros Hf. destruct (vec_two EPair l) as (H1 & H2 & H3 & H4); [cbn; tauto|exact Hf|].
  set (ps := parts l) in *.
  set (r := map (fun i => XTwo (nth i ps 0%N) (nth (i + 1) ps 0%N)) (seq 0 (length l))).
  exists r. split.
  - cbn [bin_deserialize_vec]. unfold pair_collection. apply seq_outcomes_ret.
    + unfold r. rewrite map_length, seq_length. reflexivity.
    + intros i x Hi. cbn [plus].
      assert (Hlt : i < length l) by (assert (K : nth_error r i <> None) by congruence; apply nth_error_Some in K; unfold r in K; rewrite map_length, seq_length in K; exact K).
      unfold r in Hi. rewrite nth_error_map, (nth_error_nth' _ 0), seq_nth in Hi by (rewrite ?seq_length; exact Hlt).
      cbn in Hi. injection Hi as <-. rewrite H3.
      rewrite (word_at_concat _ _ _ (nth i ps 0%N) H2) by (apply nth_error_nth'; lia). cbn [bind].
      rewrite (word_at_concat _ _ _ (nth (i + 1) ps 0%N) H2) by (apply nth_error_nth'; lia). reflexivity.
  - split; [unfold r; rewrite map_length, seq_length; reflexivity|].
    intros i x Hi.
    assert (Hlt : i < length l) by (assert (K : nth_error r i <> None) by congruence; apply nth_error_Some in K; unfold r in K; rewrite map_length, seq_length in K; exact K).
    unfold r in Hi. rewrite nth_error_map, (nth_error_nth' _ 0), seq_nth in Hi by (rewrite ?seq_length; exact Hlt).
    cbn in Hi. injection Hi as <-. exists (nth i ps 0%N), (nth (i + 1) ps 0%N).
    split; [apply nth_error_nth'; lia|]. split; [apply nth_error_nth'; lia|reflexivity].
Qed.

(** It is the original exactly if all words but the first agree. *)
Lemma pair_vec_exact l : Forall (has_type EPair) l ->
  (bin_deserialize_vec EPair (bin_serialize_vec EPair l) (length l) = Ret l <->
   length l <= 1 \/ forall w, In w (tl (parts l)) -> nth_error (parts l) 1 = Some w).
Proof.
  intros Hf. destruct (pair_vec_reads l Hf) as (r & -> & Hlen & Hr).
  destruct (vec_two EPair l) as (H1 & _ & _ & H4); [cbn; tauto|exact Hf|].
  set (ps := parts l) in *. split.
  - intros E. injection E as ->.
    assert (G : forall i, i < length l ->
      nth_error ps i = nth_error ps (2 * i) /\ nth_error ps (i + 1) = nth_error ps (2 * i + 1)).
    { intros i Hi. destruct (nth_error l i) as [x|] eqn:Ex; [|apply nth_error_None in Ex; lia].
      destruct (Hr i x Ex) as (a & b & A1 & A2 & ->). destruct (H4 i _ Ex) as (a' & b' & E & B1 & B2).
      injection E as <- <-. split; congruence. }
    right. intros w Hw.
    assert (Q : forall j, 1 <= j < length ps -> nth_error ps j = nth_error ps 1).
    { induction j as [j IH] using (well_founded_induction lt_wf). intros Hj.
      destruct (Nat.eq_dec j 1) as [->|Hj1]; [reflexivity|].
      destruct (Nat.Even_or_Odd j) as [[i ->]|[i ->]].
      - destruct (G i ltac:(lia)) as [<- _]. apply IH; lia.
      - destruct (G i ltac:(lia)) as [_ <-]. apply IH; lia. }
    apply In_nth_error in Hw. destruct Hw as (j & Hj).
    assert (Hj' : nth_error ps (S j) = Some w) by (destruct ps; [destruct j; discriminate|exact Hj]).
    rewrite <- (Q (S j)); [exact Hj'|]. split; [lia|]. apply nth_error_Some. congruence.
  - intros H. f_equal. destruct H as [H|H].
    + destruct l as [|x [|y l]]; cbn in H; try lia.
      * destruct r; [reflexivity|discriminate].
      * destruct r as [|z [|? ?]]; try discriminate. f_equal.
        destruct (Hr 0 z eq_refl) as (a & b & A1 & A2 & ->).
        destruct (H4 0 x eq_refl) as (a' & b' & -> & B1 & B2). cbn [Nat.mul plus] in *. congruence.
    + assert (Q : forall j w, 1 <= j -> nth_error ps j = Some w -> nth_error ps 1 = Some w).
      { intros j w Hj E. apply H. destruct j as [|j]; [lia|]. destruct ps as [|p0 ps0]; [discriminate|].
        cbn [tl]. eapply nth_error_In. exact E. }
      assert (X : forall i, nth_error r i = nth_error l i).
      { intros i. destruct (nth_error r i) as [x|] eqn:Ex.
        - assert (Hi : i < length l) by (rewrite <- Hlen; apply nth_error_Some; congruence).
          destruct (nth_error l i) as [y|] eqn:Ey; [|apply nth_error_None in Ey; lia].
          f_equal. destruct (Hr i x Ex) as (a & b & A1 & A2 & ->).
          destruct (H4 i y Ey) as (a' & b' & -> & B1 & B2).
          pose proof (Q (i + 1) _ ltac:(lia) A2) as K1. pose proof (Q (2 * i + 1) _ ltac:(lia) B2) as K2.
          destruct i as [|i]; [cbn [Nat.mul plus] in *; congruence|].
          pose proof (Q (S i) _ ltac:(lia) A1) as K3. pose proof (Q (2 * S i) _ ltac:(lia) B1) as K4. congruence.
        - symmetry. apply nth_error_None. apply nth_error_None in Ex. lia. }
      clear - X. revert l X. induction r as [|x r IH]; intros [|y l] X.
      * reflexivity.
      * discriminate (X 0).
      * discriminate (X 0).
      * pose proof (X 0) as X0. cbn in X0. injection X0 as ->. f_equal. apply IH. intros i. exact (X (S i)).
Qed.

(** ** Signed integers *)

Lemma pow256 k : (256 ^ Z.of_nat k = 2 ^ (8 * Z.of_nat k))%Z.
Proof. change 256%Z with (2 ^ 8)%Z. rewrite <- Z.pow_mul_r by lia. reflexivity. Qed.

Lemma pattern_lt k z : (pattern_of k z < 256 ^ N.of_nat k)%N.
Proof.
  unfold pattern_of. assert (P : (0 < 256 ^ Z.of_nat k)%Z) by (apply Z.pow_pos_nonneg; lia).
  pose proof (Z.mod_pos_bound z _ P).
  assert (E : Z.of_N (256 ^ N.of_nat k) = (256 ^ Z.of_nat k)%Z) by (rewrite N2Z.inj_pow, nat_N_Z; reflexivity).
  lia.
Qed.

Lemma signed_pattern k z : 1 <= k -> signed_range k z -> signed_of k (pattern_of k z) = z.
Proof.
  unfold signed_range, signed_of, pattern_of. intros Hk H. rewrite pow256.
  assert (E : (2 ^ (8 * Z.of_nat k) = 2 * 2 ^ (8 * Z.of_nat k - 1))%Z).
  { rewrite <- Z.pow_succ_r by lia. f_equal. lia. }
  rewrite E. set (M := (2 ^ (8 * Z.of_nat k - 1))%Z) in *.
  assert (0 < M)%Z by (unfold M; apply Z.pow_pos_nonneg; lia).
  pose proof (Z.mod_pos_bound z (2 * M) ltac:(lia)) as B.
  rewrite Z2N.id by lia.
  destruct (Z_lt_le_dec z 0) as [Hz|Hz].
  - assert (E2 : (z mod (2 * M) = z + 2 * M)%Z).
    { clear B. symmetry. apply Z.mod_unique_pos with (q := (-1)%Z); lia. }
    rewrite E2. clear B E2. destruct (Z.ltb_spec (z + 2 * M) M); lia.
  - rewrite Z.mod_small by lia. destruct (Z.ltb_spec z M); lia.
Qed.

Lemma be_val_big_endian s : be_val s = big_endian s.
Proof.
  assert (G : forall s a, fold_left (fun a c => (a * 256 + N_of_ascii c)%N) s a
                          = (a * 256 ^ N.of_nat (length s) + big_endian s)%N).
  { clear. induction s as [|c s IH]; intros a; cbn [fold_left big_endian].
    - change (256 ^ N.of_nat (length (@nil ascii)))%N with 1%N. lia.
    - rewrite IH. cbn [length]. rewrite Nat2N.inj_succ, N.pow_succ_r by lia. lia. }
  unfold be_val. rewrite G. lia.
Qed.

(** ** Arbitrary bytes *)

Lemma word_at_number k i s : i * k + k <= length s -> word_at k i s = Ret (number_at s (i * k) k).
Proof.
  intros H. unfold word_at, number_at. destruct (Nat.leb_spec (i * k + k) (length s + 1)); [|lia].
  rewrite be_val_big_endian, skipn_app, firstn_app, skipn_length.
  replace (k - (length s - i * k)) with 0 by lia. rewrite firstn_O, app_nil_r. reflexivity.
Qed.

Lemma word_at_short k i s : length s + 1 < i * k + k -> word_at k i s = Undef.
Proof. intros H. unfold word_at. destruct (Nat.leb_spec (i * k + k) (length s + 1)); [lia|reflexivity]. Qed.

Lemma nth_of_seq {A} (f : nat -> A) n i a : nth_error (map f (seq 0 n)) i = Some a -> i < n /\ a = f i.
Proof.
  intros H. assert (L : i < n).
  { assert (K : nth_error (map f (seq 0 n)) i <> None) by congruence. apply nth_error_Some in K.
    rewrite map_length, seq_length in K. exact K. }
  split; [exact L|]. rewrite nth_error_map, (nth_error_nth' _ 0), seq_nth in H by (rewrite ?seq_length; exact L).
  cbn in H. congruence.
Qed.

Lemma collect {A} (f : nat -> outcome A) (g : nat -> A) n : (forall i, i < n -> f i = Ret (g i)) ->
  seq_outcomes (map f (seq 0 n)) = Ret (map g (seq 0 n)).
Proof.
  intros H. apply seq_outcomes_ret; [rewrite map_length, seq_length; reflexivity|].
  intros i a E. apply nth_of_seq in E. destruct E as [L ->]. apply H, L.
Qed.

Lemma collect_undef {A} (f : nat -> outcome A) (n : nat) :
  (forall i, i < n -> f i = Undef \/ exists a, f i = Ret a) -> (exists i, i < n /\ f i = Undef) ->
  seq_outcomes (map f (seq 0 n)) = Undef.
Proof.
  assert (G : forall n k, (forall i, i < n -> f (k + i) = Undef \/ exists a, f (k + i) = Ret a) -> (exists i, i < n /\ f (k + i) = Undef) ->
    seq_outcomes (map f (seq k n)) = Undef).
  { clear n. induction n as [|n IH]; intros k T (i & L & U); [lia|]. cbn [seq map seq_outcomes].
    destruct (T 0 ltac:(lia)) as [E|(a & E)]; rewrite Nat.add_0_r in E; rewrite E; [reflexivity|]. cbn [bind].
    destruct i as [|i]; [rewrite Nat.add_0_r in U; congruence|].
    rewrite IH; [reflexivity| |].
    - intros j Lj. replace (S k + j) with (k + S j) by lia. apply T. lia.
    - exists i. split; [lia|]. replace (S k + i) with (k + S i) by lia. exact U. }
  intros T U. apply (G n 0); assumption.
Qed.

Lemma word_at_total k i s : word_at k i s = Undef \/ exists a, word_at k i s = Ret a.
Proof. unfold word_at. destruct (_ <=? _); eauto. Qed.

Theorem single_any t s : t <> EI8 -> elem_size t <= length s -> (t = EByte -> length s = 1) ->
  bin_deserialize t s = Ret (element_of t s 0).
Proof.
  intros H8 L B.
  assert (W : forall k, k <= length s -> word_at k 0 s = Ret (number_at s 0 k)) by (intros k Lk; apply (word_at_number k 0 s); exact Lk).
  assert (W1 : forall k, 2 * k <= length s -> word_at k 1 s = Ret (number_at s k k)).
  { intros k Lk. rewrite (word_at_number k 1 s) by lia. rewrite Nat.mul_1_l. reflexivity. }
  destruct t; try congruence; cbn [bin_deserialize elem_size word_size element_of] in *;
    unfold element_to_numeric, element_to_two; cbn [Nat.mul Nat.add];
    try (rewrite W by lia; cbn [bind]; try reflexivity; rewrite W1 by lia; reflexivity).
  - destruct s as [|c s]; [cbn in L; lia|]. reflexivity.
  - specialize (B eq_refl). destruct s as [|c [|d s]]; try discriminate. reflexivity.
Qed.

Theorem vector_any t s n : ~ In t [EI8; EBool; EPair] -> n * elem_size t <= length s ->
  bin_deserialize_vec t s n = Ret (map (element_of t s) (seq 0 n)).
Proof.
  intros Ht L.
  assert (Num : forall k, n * k <= length s -> numeric_collection k s n = Ret (map (fun i => number_at s (i * k) k) (seq 0 n))).
  { intros k Lk. apply collect. intros i Li. apply word_at_number. nia. }
  assert (Two : forall k, n * (2 * k) <= length s -> complex_collection k s n =
    Ret (map (fun i => XTwo (number_at s (i * (2 * k)) k) (number_at s (i * (2 * k) + k) k)) (seq 0 n))).
  { intros k Lk. apply collect. intros i Li. rewrite word_at_number by nia. cbn [bind]. rewrite word_at_number by nia. cbn [bind].
    replace (2 * i * k) with (i * (2 * k)) by lia. replace ((2 * i + 1) * k) with (i * (2 * k) + k) by lia. reflexivity. }
  destruct t; try (exfalso; apply Ht; cbn; tauto); cbn [bin_deserialize_vec elem_size word_size] in *;
    try (rewrite Num by exact L; cbn [bind]; rewrite map_map; reflexivity); try (apply Two; exact L).
  unfold byte_collection. destruct (Nat.leb_spec n (length s)); [|lia]. cbn [bind]. rewrite map_map. f_equal.
  clear -H. revert s H. induction n as [|n IH]; intros s H; [reflexivity|]. destruct s as [|c s]; [cbn in H; lia|].
  cbn [firstn map seq]. f_equal. rewrite IH by (cbn in H; lia). rewrite <- seq_shift, map_map. reflexivity.
Qed.

Theorem bool_vector_any s n : bin_deserialize_vec EBool s n = Ret (map (element_of EBool s) (seq 0 (length s))).
Proof.
  cbn [bin_deserialize_vec]. f_equal. induction s as [|c s IH]; [reflexivity|]. cbn [map length seq]. f_equal.
  rewrite IH, <- seq_shift, map_map. reflexivity.
Qed.

Theorem pair_vector_any s n : n * 4 + 4 <= length s ->
  bin_deserialize_vec EPair s n = Ret (map (fun i => XTwo (number_at s (i * 4) 4) (number_at s (i * 4 + 4) 4)) (seq 0 n)).
Proof.
  intros L. apply collect. intros i Li. rewrite word_at_number by lia. cbn [bind]. rewrite word_at_number by lia. cbn [bind].
  replace ((i + 1) * 4) with (i * 4 + 4) by lia. reflexivity.
Qed.

Theorem vector_short t s n : ~ In t [EI8; EBool; EPair; EByte] -> 0 < n -> length s + 1 < n * elem_size t ->
  bin_deserialize_vec t s n = Undef.
Proof.
  intros Ht N L.
  assert (Num : forall k, length s + 1 < n * k -> numeric_collection k s n = Undef).
  { intros k Lk. apply collect_undef; [intros i _; apply word_at_total|]. exists (n - 1). split; [lia|]. apply word_at_short. nia. }
  assert (Two : forall k, length s + 1 < n * (2 * k) -> complex_collection k s n = Undef).
  { intros k Lk. apply collect_undef.
    - intros i _. destruct (word_at_total k (2 * i) s) as [->|(a & ->)]; [left; reflexivity|].
      destruct (word_at_total k (2 * i + 1) s) as [->|(b & ->)]; [left; reflexivity|]. right. eexists. reflexivity.
    - exists (n - 1). split; [lia|]. rewrite (word_at_short k (2 * (n - 1) + 1)) by nia.
      destruct (word_at_total k (2 * (n - 1)) s) as [->|(a & ->)]; reflexivity. }
  destruct t; try (exfalso; apply Ht; cbn; tauto); cbn [bin_deserialize_vec elem_size word_size] in *;
    try (rewrite Num by exact L; reflexivity); apply Two; exact L.
Qed.

Theorem vector_short_by_one t s n : In t [EI16; EI32; EF32; EF64; EC32; EC64] -> length s + 1 = n * elem_size t ->
  bin_deserialize_vec t s n = Ret (map (element_of t (s ++ [zero])) (seq 0 n)).
Proof.
  intros Ht L.
  assert (E : forall k i, word_at k i s = if i * k + k <=? length s + 1 then word_at k i (s ++ [zero]) else Undef).
  { intros k i. unfold word_at. rewrite app_length. cbn [length]. destruct (Nat.leb_spec (i * k + k) (length s + 1)); [|reflexivity].
    destruct (Nat.leb_spec (i * k + k) (length s + 1 + 1)); [|lia]. f_equal. f_equal.
    rewrite (skipn_app (i * k) (s ++ [zero])), firstn_app, skipn_length, app_length. cbn [length].
    replace (k - (length s + 1 - i * k)) with 0 by lia. rewrite firstn_O, app_nil_r. reflexivity. }
  rewrite <- vector_any.
  - assert (Num : forall k, n * k = length s + 1 -> numeric_collection k s n = numeric_collection k (s ++ [zero]) n).
    { intros k Lk. unfold numeric_collection. f_equal. apply map_ext_in. intros i Hi. apply in_seq in Hi. rewrite E.
      destruct (Nat.leb_spec (i * k + k) (length s + 1)); [reflexivity|nia]. }
    assert (Two : forall k, n * (2 * k) = length s + 1 -> complex_collection k s n = complex_collection k (s ++ [zero]) n).
    { intros k Lk. unfold complex_collection. f_equal. apply map_ext_in. intros i Hi. apply in_seq in Hi. rewrite !E.
      destruct (Nat.leb_spec (2 * i * k + k) (length s + 1)); [|nia].
      destruct (Nat.leb_spec ((2 * i + 1) * k + k) (length s + 1)); [reflexivity|nia]. }
    cbn in Ht. destruct Ht as [<-|[<-|[<-|[<-|[<-|[<-|[]]]]]]]; cbn [bin_deserialize_vec elem_size word_size] in *;
      try (rewrite Num by lia; reflexivity); apply Two; lia.
  - cbn in Ht |- *. intuition (subst; discriminate).
  - rewrite app_length. cbn [length]. lia.
Qed.
