(** * What the lookups of read_header do. *)
From Verif Require Export HeaderProofs.

(** Index used for a key: 0 if absent. *)
Definition idx (key : str) (h : header) : nat :=
  match map_find key (h_index h) with Some i => i | None => 0 end.

(** Every cached value is what a fresh card of that text yields. *)
Definition cache_sound (fc : fcodec) (c : card) : Prop :=
  match cache c with None => True | Some v => value_imp fc (ty_of v) (mk_card (raw c) None) = Ret v end.

Definition cached_at (h : header) (i : nat) (v : cval) : Prop :=
  exists c, nth_error (h_cards h) i = Some c /\ cache c = Some v.

Record ext (fc : fcodec) (K : str -> Prop) (h0 h : header) : Prop := mk_ext {
  ext_raw : map raw (h_cards h) = map raw (h_cards h0);
  ext_idx : forall key, idx key h = idx key h0;
  ext_some : forall key i, map_find key (h_index h0) = Some i -> map_find key (h_index h) = Some i;
  ext_none : forall key, ~ K key -> map_find key (h_index h0) = None -> map_find key (h_index h) = None;
  ext_sound : Forall (cache_sound fc) (h_cards h0) -> Forall (cache_sound fc) (h_cards h);
  ext_cache : forall i v, cached_at h0 i v -> cached_at h i v;
  ext_untouched : forall i, (forall key, K key -> idx key h0 <> i) ->
      nth_error (h_cards h) i = nth_error (h_cards h0) i
}.

Lemma ext_refl fc K h : ext fc K h h.
Proof. split; auto. Qed.

Lemma ext_trans fc K a b c : ext fc K a b -> ext fc K b c -> ext fc K a c.
Proof.
  intros [A1 A2 A3 A4 A5 A6 A7] [B1 B2 B3 B4 B5 B6 B7]. split; intros; try congruence; auto.
  rewrite B7, A7; auto. intros key Hk. rewrite A2. auto.
Qed.

(** Only cards and index matter. *)
Lemma ext_same fc K a b b' : h_cards b' = h_cards b -> h_index b' = h_index b ->
  ext fc K a b -> ext fc K a b'.
Proof.
  intros E1 E2 [A1 A2 A3 A4 A5 A6 A7].
  assert (Ei : forall key, idx key b' = idx key b) by (intros; unfold idx; rewrite E2; reflexivity).
  split; intros; rewrite ?E1, ?E2, ?Ei; auto.
  destruct (A6 i v H) as (c & H1 & H2). exists c. rewrite E1. auto.
Qed.

Lemma nth_replace_same {A} i (a x : A) l : nth_error l i = Some x -> nth_error (replace_nth i a l) i = Some a.
Proof. revert i; induction l as [|y l IH]; intros [|i] H; cbn in *; try discriminate; auto. Qed.

Lemma nth_replace_other {A} i j (a : A) l : i <> j -> nth_error (replace_nth i a l) j = nth_error l j.
Proof.
  revert i j; induction l as [|y l IH]; intros [|i] [|j] H; cbn; try reflexivity; try lia.
  apply IH. lia.
Qed.

Lemma value_fst fc t c : fst (value fc t c) = c \/
  exists v, cache c = None /\ value_imp fc t c = Ret v /\ fst (value fc t c) = mk_card (raw c) (Some v).
Proof.
  unfold value. destruct (cache c); [left; reflexivity|].
  destruct (value_imp fc t c); [right|left; reflexivity..].
  eexists; repeat split; reflexivity.
Qed.

Lemma value_imp_raw fc t c1 c2 : raw c1 = raw c2 -> value_imp fc t c1 = value_imp fc t c2.
Proof. intros E. unfold value_imp, value_imp_str. rewrite E. destruct t; reflexivity. Qed.

Lemma forall_replace {A} (P : A -> Prop) i a l : Forall P l -> P a -> Forall P (replace_nth i a l).
Proof.
  intros H Ha. revert i; induction H as [|x l Hx H IH]; intros [|i]; cbn; constructor; auto.
Qed.

Lemma value_at_ext fc (K : str -> Prop) t key h : K key -> ext fc K h (fst (value_at fc t (idx key h) h)).
Proof.
  intros HK. unfold value_at. destruct (nth_error (h_cards h) (idx key h)) as [c|] eqn:E; [|apply ext_refl].
  pose proof (value_fst fc t c) as Hv. pose proof (value_raw fc t c) as Hr.
  destruct (value fc t c) as [c' r]. cbn [fst] in Hv, Hr |- *.
  assert (Hidx : forall k, idx k (set_cards h (replace_nth (idx key h) c' (h_cards h))) = idx k h) by reflexivity.
  split; try (intros; cbn [set_cards h_cards h_index]; auto; fail).
  - cbn [set_cards h_cards]. eapply replace_nth_map; eassumption.
  - cbn [set_cards h_cards]. intros Hs. apply forall_replace; [exact Hs|].
    assert (Hc : cache_sound fc c) by (eapply Forall_forall; [exact Hs|eapply nth_error_In; exact E]).
    destruct Hv as [->|(v & H1 & H2 & ->)]; [exact Hc|].
    unfold cache_sound. cbn [cache raw].
    pose proof (value_imp_type _ _ _ _ H2) as Ht. rewrite Ht, <- H2. apply value_imp_raw. reflexivity.
  - intros i v (x & H1 & H2). unfold cached_at. cbn [set_cards h_cards].
    destruct (Nat.eq_dec (idx key h) i) as [<-|Hne].
    + rewrite E in H1. injection H1 as <-. exists c'.
      split; [eapply nth_replace_same; exact E|].
      destruct Hv as [->|(v2 & H3 & _)]; congruence.
    + exists x. rewrite nth_replace_other by exact Hne. auto.
  - intros i Hi. cbn [set_cards h_cards]. apply nth_replace_other. apply Hi, HK.
Qed.

Lemma index_or_insert_fst key h : fst (index_or_insert key h) = idx key h.
Proof. unfold index_or_insert, idx. destruct (map_find key (h_index h)); reflexivity. Qed.

Lemma index_or_insert_ext fc (K : str -> Prop) key h : K key -> ext fc K h (snd (index_or_insert key h)).
Proof.
  intros HK. unfold index_or_insert. destruct (map_find key (h_index h)) as [i|] eqn:E; [apply ext_refl|].
  cbn [snd]. split; try (intros; cbn [h_cards]; auto; fail).
  - intros k. unfold idx. cbn [h_index].
    destruct (str_eqb k key) eqn:Ek.
    + apply str_eqb_eq in Ek. subst k. rewrite map_find_set_same, E. reflexivity.
    + apply str_eqb_neq in Ek. rewrite map_find_set_other by congruence. reflexivity.
  - intros k i Hk. cbn [h_index].
    rewrite map_find_set_other; [exact Hk|]. congruence.
  - intros k Hk Hn. cbn [h_index]. rewrite map_find_set_other; [exact Hn|].
    intros ->. contradiction.
Qed.

Lemma index_or_insert_idx key k h : idx k (snd (index_or_insert key h)) = idx k h.
Proof. apply (ext_idx _ _ _ _ (index_or_insert_ext
  {| f32_show := fun _ => []; f32_read := fun _ => None; f64_show := fun _ => []; f64_read := fun _ => None |}
  (fun _ => True) key h I)). Qed.

Lemma lookup_ext fc (K : str -> Prop) t key h : K key -> ext fc K h (fst (lookup_value fc t key h)).
Proof.
  intros HK. unfold lookup_value.
  pose proof (index_or_insert_ext fc K key h HK) as He.
  pose proof (index_or_insert_fst key h) as Hf. pose proof (index_or_insert_idx key key h) as Hi.
  destruct (index_or_insert key h) as [i h1]. cbn [fst snd] in He, Hf, Hi. subst i.
  eapply ext_trans; [exact He|]. rewrite <- Hi. apply value_at_ext. exact HK.
Qed.

Lemma value_at_ret fc t i h v : snd (value_at fc t i h) = Ret v ->
  ty_of v = t /\ cached_at (fst (value_at fc t i h)) i v.
Proof.
  unfold value_at. destruct (nth_error (h_cards h) i) as [c|] eqn:E; [|discriminate].
  destruct (value fc t c) as [c' r] eqn:Ev. cbn [snd fst]. intros ->.
  assert (H : snd (value fc t c) = Ret v) by (rewrite Ev; reflexivity).
  apply value_ret_caches in H. rewrite Ev in H. cbn [fst] in H.
  split; [apply H|]. exists c'. cbn [set_cards h_cards].
  split; [eapply nth_replace_same; exact E|apply H].
Qed.

Lemma lookup_ret fc t key h v : snd (lookup_value fc t key h) = Ret v ->
  ty_of v = t /\ cached_at (fst (lookup_value fc t key h)) (idx key h) v.
Proof.
  unfold lookup_value. pose proof (index_or_insert_fst key h) as Hf.
  destruct (index_or_insert key h) as [i h1]. cbn [fst] in Hf. subst i.
  apply value_at_ret.
Qed.

(** The keys stay available after a lookup. *)
Lemma lookup_finds fc t key h : map_find key (h_index (fst (lookup_value fc t key h))) = Some (idx key h).
Proof.
  unfold lookup_value, index_or_insert, idx. destruct (map_find key (h_index h)) as [i|] eqn:E.
  - destruct (value_at_rest fc t i h) as (_ & _ & _ & ->). exact E.
  - match goal with |- context [value_at fc t 0 ?x] => destruct (value_at_rest fc t 0 x) as (_ & _ & _ & ->) end.
    apply map_find_set_same.
Qed.

Lemma bitpix_of_int_spec z b : bitpix_of_int z = Some b <-> z = bitpix_code b.
Proof.
  unfold bitpix_of_int. split.
  - repeat match goal with |- context [(z =? ?k)%Z] => destruct (Z.eqb_spec z k) end;
      intros H; try discriminate; injection H as <-; assumption.
  - intros ->. destruct b; reflexivity.
Qed.

(** What a successful lookup establishes and every later step keeps. *)
Definition got (fc : fcodec) (h0 h : header) (key : str) (v : cval) : Prop :=
  cached_at h (idx key h0) v /\ map_find key (h_index h) = Some (idx key h0).

Lemma got_ext fc K h0 h h' key v : ext fc K h0 h -> ext fc K h h' -> got fc h0 h key v -> got fc h0 h' key v.
Proof.
  intros E0 E [H1 H2]. split; [eapply ext_cache; eassumption|eapply ext_some; eassumption].
Qed.

Lemma lookup_rest fc t key h : let h' := fst (lookup_value fc t key h) in
  h_bitpix h' = h_bitpix h /\ h_naxis h' = h_naxis h /\ h_name h' = h_name h.
Proof.
  unfold lookup_value, index_or_insert. destruct (map_find key (h_index h)) as [i|].
  - destruct (value_at_rest fc t i h) as (-> & -> & -> & _). auto.
  - match goal with |- context [value_at fc t 0 ?x] => destruct (value_at_rest fc t 0 x) as (-> & -> & -> & _) end. auto.
Qed.

Lemma lookup_got fc (K : str -> Prop) t key h0 h v h' : ext fc K h0 h ->
  lookup_value fc t key h = (h', Ret v) -> got fc h0 h' key v.
Proof.
  intros He E. pose proof (ext_idx _ _ _ _ He key) as Hi.
  assert (H : snd (lookup_value fc t key h) = Ret v) by (rewrite E; reflexivity).
  pose proof (lookup_finds fc t key h) as Hf.
  apply lookup_ret in H. rewrite E in *. cbn [fst snd] in *. rewrite Hi in *.
  split; [apply H|exact Hf].
Qed.

Lemma read_axes_got fc (K : str -> Prop) n : forall i h0 h h',
  ext fc K h0 h -> (forall j, i <= j < i + n -> K (naxis_key j)) ->
  read_axes fc n i h = (h', Ret tt) ->
  ext fc K h h' /\ h_bitpix h' = h_bitpix h /\ h_name h' = h_name h /\
  exists l, h_naxis h' = h_naxis h ++ l /\ length l = n /\
    forall j v, nth_error l j = Some v -> got fc h0 h' (naxis_key (i + j)) (VSize v).
Proof.
  induction n as [|n IH]; intros i h0 h h' He HK H; cbn [read_axes] in H.
  - apply (f_equal fst) in H. cbn in H. subst h'.
    split; [apply ext_refl|]. split; [reflexivity|]. split; [reflexivity|].
    exists []. rewrite app_nil_r. split; [reflexivity|]. split; [reflexivity|]. intros [|j] v Hj; discriminate.
  - destruct (lookup_value fc TSize (naxis_key i) h) as [h1 r] eqn:E.
    assert (HKi : K (naxis_key i)) by (apply HK; lia).
    pose proof (lookup_ext fc K TSize (naxis_key i) h HKi) as He1. rewrite E in He1. cbn [fst] in He1.
    destruct r as [v| | |]; try discriminate. destruct v; try discriminate. rename n0 into m.
    pose proof (lookup_got _ _ _ _ _ _ _ _ He E) as Hg.
    pose proof (lookup_rest fc TSize (naxis_key i) h) as Hrest. rewrite E in Hrest. cbn [fst] in Hrest.
    destruct Hrest as (R1 & R2 & R3).
    assert (He1' : ext fc K h (push_naxis h1 m)) by (eapply ext_same; [| |exact He1]; reflexivity).
    assert (HK' : forall j, S i <= j < S i + n -> K (naxis_key j)) by (intros j Hj; apply HK; lia).
    destruct (IH (S i) h0 _ h' (ext_trans _ _ _ _ _ He He1') HK' H) as (X1 & X2 & X3 & l & X4 & X5 & X6).
    split; [eapply ext_trans; eassumption|]. split; [rewrite X2; exact R1|]. split; [rewrite X3; exact R3|].
    exists (m :: l). split.
    { rewrite X4. cbn [push_naxis h_naxis]. rewrite R2, <- app_assoc. reflexivity. }
    split; [cbn; lia|].
    intros [|j] v Hj; cbn in Hj.
    + injection Hj as ->. rewrite Nat.add_0_r.
      eapply got_ext; [eapply ext_trans; [exact He|exact He1']|exact X1|].
      destruct Hg as [G1 G2]. split; [exact G1|exact G2].
    + replace (i + S j) with (S i + j) by lia. apply X6. exact Hj.
Qed.

(** Everything a successful interpretation establishes. *)
Lemma interpret_got fc h0 h : interpret_cards fc h0 = (h, Ret tt) ->
  exists b l, h_bitpix h = Some b /\ h_naxis h = h_naxis h0 ++ l /\ h_name h = h_name h0 /\
    ext fc (mandatory_key (length l)) h0 h /\
    got fc h0 h (lit "BITPIX") (VInt (bitpix_code b)) /\
    got fc h0 h (lit "NAXIS") (VSize (N.of_nat (length l))) /\
    forall i v, nth_error l i = Some v -> got fc h0 h (axis_key (S i)) (VSize v).
Proof.
  unfold interpret_cards, read_bitpix. intros H.
  destruct (lookup_value fc TInt (lit "BITPIX") h0) as [h1 r1] eqn:E1.
  destruct r1 as [v1| | |]; try discriminate. destruct v1; try discriminate.
  destruct (bitpix_of_int z) as [b|] eqn:Eb; [|discriminate].
  apply bitpix_of_int_spec in Eb. unfold read_naxis in H.
  destruct (lookup_value fc TSize (lit "NAXIS") (set_bitpix h1 b)) as [h2 r2] eqn:E2.
  destruct r2 as [v2| | |]; try discriminate. destruct v2; try discriminate.
  destruct (N.leb_spec (2 ^ 60) n) as [|Hn]; [discriminate|].
  set (d := N.to_nat n) in *. set (K := mandatory_key d).
  assert (Hk1 : K (lit "BITPIX")) by (left; reflexivity).
  assert (Hk2 : K (lit "NAXIS")) by (right; left; reflexivity).
  assert (X1 : ext fc K h0 (set_bitpix h1 b)).
  { eapply ext_same with (b := h1); try reflexivity.
    pose proof (lookup_ext fc K TInt _ h0 Hk1) as L. rewrite E1 in L. exact L. }
  assert (X2 : ext fc K (set_bitpix h1 b) h2).
  { pose proof (lookup_ext fc K TSize _ (set_bitpix h1 b) Hk2) as L. rewrite E2 in L. exact L. }
  pose proof (ext_trans _ _ _ _ _ X1 X2) as X3.
  destruct (read_axes_got fc K d 1 h0 h2 h X3) as (Y1 & Y2 & Y3 & l & Y4 & Y5 & Y6).
  { intros j Hj. right; right. exists j. split; [lia|reflexivity]. }
  { exact H. }
  pose proof (lookup_rest fc TInt (lit "BITPIX") h0) as R1. rewrite E1 in R1. cbn [fst] in R1.
  pose proof (lookup_rest fc TSize (lit "NAXIS") (set_bitpix h1 b)) as R2. rewrite E2 in R2. cbn [fst] in R2.
  destruct R1 as (_ & R1b & R1c). destruct R2 as (R2a & R2b & R2c).
  cbn [set_bitpix h_bitpix h_naxis h_name] in R2a, R2b, R2c.
  exists b, l. split; [rewrite Y2; exact R2a|]. split; [rewrite Y4, R2b, R1b; reflexivity|].
  split; [rewrite Y3, R2c; exact R1c|].
  rewrite Y5. split; [eapply ext_trans; eassumption|]. split.
  { eapply got_ext; [exact X3|exact Y1|]. eapply got_ext; [exact X1|exact X2|].
    rewrite <- Eb. pose proof (lookup_got fc K TInt _ h0 h0 _ _ (ext_refl _ _ _) E1) as [G1 G2].
    split; [exact G1|exact G2]. }
  split.
  { eapply got_ext; [exact X3|exact Y1|]. replace (N.of_nat d) with n by (unfold d; lia).
    exact (lookup_got fc K TSize _ h0 _ _ _ X1 E2). }
  intros i v Hi. apply (Y6 i v) in Hi. exact Hi.
Qed.

(** ** Which card the index designates *)

Lemma last_with_map key rs :
  last_with key (map (fun r => mk_card r None) rs) =
  match last_record key rs with Some r => Some (mk_card r None) | None => None end.
Proof.
  unfold last_record. induction rs as [|r rs IH] using rev_ind; [reflexivity|].
  rewrite map_app. cbn [map]. rewrite last_with_snoc, rev_app_distr. cbn [rev app find].
  change (keyword (mk_card r None)) with (record_key r).
  destruct (str_eqb (record_key r) key); [reflexivity|exact IH].
Qed.

Lemma push_all_idx key rs : rs <> [] ->
  nth_error rs (idx key (push_all rs fresh_header)) = Some (mandatory_record key rs).
Proof.
  intros Hne. pose proof (push_all_index_ok rs fresh_header fresh_index_ok key) as H.
  rewrite push_all_cards in H. cbn [fresh_header h_cards app] in H.
  rewrite last_with_map in H. unfold idx, mandatory_record.
  destruct (map_find key (h_index (push_all rs fresh_header))) as [i|].
  - destruct H as [H1 H2]. destruct (last_record key rs) as [r|]; [|congruence].
    rewrite nth_error_map in H1. destruct (nth_error rs i) as [x|]; [|discriminate].
    cbn in H1. injection H1 as ->. reflexivity.
  - destruct (last_record key rs); [discriminate|]. destruct rs; [contradiction|reflexivity].
Qed.

Lemma push_all_find key rs :
  map_find key (h_index (push_all rs fresh_header)) = None <-> last_record key rs = None.
Proof.
  pose proof (push_all_index_ok rs fresh_header fresh_index_ok key) as H.
  rewrite push_all_cards in H. cbn [fresh_header h_cards app] in H. rewrite last_with_map in H.
  destruct (map_find key (h_index (push_all rs fresh_header))) as [i|].
  - destruct H as [_ H2]. destruct (last_record key rs); [split; discriminate|congruence].
  - destruct (last_record key rs); [discriminate|]. split; reflexivity.
Qed.

Lemma push_all_sound fc rs : Forall (cache_sound fc) (h_cards (push_all rs fresh_header)).
Proof.
  rewrite push_all_cards. cbn [fresh_header h_cards app]. apply Forall_forall. intros c Hc.
  apply in_map_iff in Hc. destruct Hc as (r & <- & _). exact I.
Qed.

(** A cached value is the value of the record text. *)
Lemma cached_text fc h i v r : Forall (cache_sound fc) (h_cards h) -> cached_at h i v ->
  nth_error (map raw (h_cards h)) i = Some r -> text_value fc (ty_of v) r = Ret v.
Proof.
  intros Hs (c & H1 & H2) Hr. rewrite nth_error_map, H1 in Hr. cbn in Hr. injection Hr as <-.
  rewrite Forall_forall in Hs. specialize (Hs c (nth_error_In _ _ H1)). unfold cache_sound in Hs.
  rewrite H2 in Hs. unfold text_value. rewrite value_uncached by reflexivity. exact Hs.
Qed.

Lemma cached_value_of fc h key i v t : map_find key (h_index h) = Some i -> cached_at h i v ->
  snd (value_of fc t key h) = if cty_eqb (ty_of v) t then Ret v else Throw BadGet.
Proof.
  intros H1 (c & H2 & H3). unfold value_of, value_at, value. rewrite H1, H2, H3. reflexivity.
Qed.

(** The reading of a header, in terms of its records. *)
Lemma read_header_values fc fuel s s' h :
  good s = true -> read_header fc fuel s fresh_header = (s', h, Ret tt) ->
  exists b, h_bitpix h = Some b /\ h_name h = [] /\
  let rs := map raw (h_cards h) in
  text_value fc TInt (mandatory_record (lit "BITPIX") rs) = Ret (VInt (bitpix_code b)) /\
  text_value fc TSize (mandatory_record (lit "NAXIS") rs) = Ret (VSize (N.of_nat (length (h_naxis h)))) /\
  (forall i v, nth_error (h_naxis h) i = Some v ->
     text_value fc TSize (mandatory_record (axis_key (S i)) rs) = Ret (VSize v)) /\
  (forall t, snd (value_of fc t (lit "BITPIX") h) =
     if cty_eqb TInt t then Ret (VInt (bitpix_code b)) else Throw BadGet) /\
  (forall t, snd (value_of fc t (lit "NAXIS") h) =
     if cty_eqb TSize t then Ret (VSize (N.of_nat (length (h_naxis h)))) else Throw BadGet) /\
  (forall i v t, nth_error (h_naxis h) i = Some v ->
     snd (value_of fc t (axis_key (S i)) h) = if cty_eqb TSize t then Ret (VSize v) else Throw BadGet) /\
  (forall key, ~ mandatory_key (length (h_naxis h)) key ->
     (last_record key rs = None -> forall t, value_of fc t key h = (h, Throw OutOfRange)) /\
     (forall r, last_record key rs = Some r ->
        (forall k, mandatory_key (length (h_naxis h)) k -> last_record k rs <> None) ->
        forall t, snd (value_of fc t key h) = text_value fc t r)).
Proof.
  intros Hg H. destruct (read_header_inv _ _ _ _ _ Hg H) as (n & _ & _ & Hi & _).
  set (rs := records (content s) (N.to_nat (pos s)) n) in *.
  assert (Hne : rs <> []) by (intros E; pose proof (records_length (content s) (N.to_nat (pos s)) n) as L; unfold rs in E; rewrite E in L; discriminate).
  set (h0 := push_all rs fresh_header) in *.
  destruct (interpret_got _ _ _ Hi) as (b & l & Hb & Hn & Hm & He & G1 & G2 & G3).
  destruct (push_all_rest rs fresh_header) as (_ & P2 & P3). fold h0 in P2, P3.
  cbn [fresh_header h_naxis h_name] in P2, P3. rewrite P2 in Hn. cbn [app] in Hn. rewrite P3 in Hm.
  exists b. split; [exact Hb|]. split; [exact Hm|]. rewrite Hn in *. clear Hn. cbv zeta.
  assert (Hraw : map raw (h_cards h) = rs).
  { rewrite (ext_raw _ _ _ _ He). unfold h0. rewrite push_all_cards. cbn [fresh_header h_cards app].
    rewrite map_map. cbn [raw]. apply map_id. }
  rewrite Hraw.
  pose proof (ext_sound _ _ _ _ He (push_all_sound fc rs)) as Hs.
  assert (Ht : forall key v, got fc h0 h key v -> text_value fc (ty_of v) (mandatory_record key rs) = Ret v).
  { intros key v [C1 C2]. eapply cached_text; [exact Hs|exact C1|]. rewrite Hraw. apply push_all_idx. exact Hne. }
  assert (Hv : forall key v t, got fc h0 h key v ->
    snd (value_of fc t key h) = if cty_eqb (ty_of v) t then Ret v else Throw BadGet).
  { intros key v t [C1 C2]. eapply cached_value_of; eassumption. }
  split; [apply (Ht _ _ G1)|]. split; [apply (Ht _ _ G2)|].
  split; [intros i v Hiv; apply (Ht _ _ (G3 i v Hiv))|].
  split; [intros t; apply (Hv _ _ t G1)|]. split; [intros t; apply (Hv _ _ t G2)|].
  split; [intros i v t Hiv; apply (Hv _ _ t (G3 i v Hiv))|].
  intros key Hk. split.
  - intros Hl t. apply push_all_find in Hl. fold h0 in Hl.
    apply (ext_none _ _ _ _ He key Hk) in Hl. unfold value_of. rewrite Hl. reflexivity.
  - intros r Hr Hall t.
    destruct (map_find key (h_index h0)) as [i|] eqn:Ei.
    2:{ apply push_all_find in Ei. congruence. }
    pose proof (ext_some _ _ _ _ He key i Ei) as Ei'.
    assert (Hri : nth_error rs i = Some r).
    { pose proof (push_all_idx key rs Hne) as P. unfold idx in P. fold h0 in P. rewrite Ei in P.
      unfold mandatory_record in P. rewrite Hr in P. exact P. }
    assert (Hc : nth_error (h_cards h) i = Some (mk_card r None)).
    { rewrite (ext_untouched _ _ _ _ He i).
      - unfold h0. rewrite push_all_cards. cbn [fresh_header h_cards app]. rewrite nth_error_map, Hri. reflexivity.
      - intros k Hkm Hik. specialize (Hall k Hkm).
        pose proof (push_all_idx k rs Hne) as P. fold h0 in P. rewrite Hik, Hri in P.
        unfold mandatory_record in P. destruct (last_record k rs) as [r'|] eqn:El; [|congruence].
        injection P as <-.
        assert (K1 : record_key r = k).
        { apply find_some in El. apply str_eqb_eq. apply El. }
        assert (K2 : record_key r = key).
        { apply find_some in Hr. apply str_eqb_eq. apply Hr. }
        subst k key. contradiction. }
    unfold value_of, value_at. rewrite Ei', Hc. unfold text_value.
    destruct (value fc t (mk_card r None)); reflexivity.
Qed.

Lemma contains_spec key h :
  contains_keyword key h = true <-> last_record key (map raw (h_cards h)) <> None.
Proof.
  unfold contains_keyword, last_record. rewrite existsb_exists. split.
  - intros (c & H1 & H2) E.
    pose proof (find_none _ _ E (raw c)) as F. cbv beta in F.
    rewrite <- in_rev in F. specialize (F (in_map raw _ _ H1)).
    change (keyword c) with (record_key (raw c)) in H2. congruence.
  - intros E. destruct (find _ _) as [r|] eqn:F; [|congruence].
    apply find_some in F. destruct F as [F1 F2]. rewrite <- in_rev in F1.
    apply in_map_iff in F1. destruct F1 as (c & <- & Hc). exists c. auto.
Qed.

Lemma last_record_in key rs r : last_record key rs = Some r -> In r rs /\ record_key r = key.
Proof.
  intros H. apply find_some in H. rewrite <- in_rev in H. rewrite str_eqb_eq in H. exact H.
Qed.

Lemma last_record_none key rs : last_record key rs = None <-> forall r, In r rs -> record_key r <> key.
Proof.
  unfold last_record. split.
  - intros H r Hr. apply str_eqb_neq. apply (find_none _ _ H). rewrite <- in_rev. exact Hr.
  - intros H. destruct (find _ _) as [r|] eqn:F; [|reflexivity].
    apply find_some in F. destruct F as [F1 F2]. rewrite <- in_rev in F1.
    apply str_eqb_eq in F2. exfalso. exact (H r F1 F2).
Qed.

(** ** Completeness: a header with proper mandatory records is accepted *)

Lemma ext_mono fc (K K' : str -> Prop) a b : (forall k, K k -> K' k) -> ext fc K a b -> ext fc K' a b.
Proof.
  intros HK [A1 A2 A3 A4 A5 A6 A7]. split; auto.
Qed.

Lemma axis_key_inj i j : axis_key i = axis_key j -> i = j.
Proof.
  unfold axis_key. intros H. apply app_inv_head in H.
  apply (f_equal parse_digits) in H. rewrite !parse_show_N in H. injection H as H. lia.
Qed.

Lemma axis_key_naxis i : axis_key i <> lit "NAXIS".
Proof.
  unfold axis_key. intros H. rewrite <- (app_nil_r (lit "NAXIS")) in H at 2.
  apply app_inv_head in H. exact (show_N_nonempty _ H).
Qed.

Lemma axis_key_bitpix i : axis_key i <> lit "BITPIX".
Proof. discriminate. Qed.

Lemma lookup_fresh fc (K : str -> Prop) rs key r t v h :
  rs <> [] -> ext fc K (push_all rs fresh_header) h -> ~ K key ->
  (forall k, K k -> last_record k rs <> None) ->
  last_record key rs = Some r -> text_value fc t r = Ret v ->
  snd (lookup_value fc t key h) = Ret v.
Proof.
  intros Hne He Hk Hall Hr Hv. set (h0 := push_all rs fresh_header) in *.
  destruct (map_find key (h_index h0)) as [i|] eqn:Ei.
  2:{ apply push_all_find in Ei. congruence. }
  assert (Hri : nth_error rs i = Some r).
  { pose proof (push_all_idx key rs Hne) as P. unfold idx in P. fold h0 in P. rewrite Ei in P.
    unfold mandatory_record in P. rewrite Hr in P. exact P. }
  assert (Hc : nth_error (h_cards h) i = Some (mk_card r None)).
  { rewrite (ext_untouched _ _ _ _ He i).
    - unfold h0. rewrite push_all_cards. cbn [fresh_header h_cards app]. rewrite nth_error_map, Hri. reflexivity.
    - intros k Hkm Hik. specialize (Hall k Hkm).
      pose proof (push_all_idx k rs Hne) as P. fold h0 in P. rewrite Hik, Hri in P.
      unfold mandatory_record in P. destruct (last_record k rs) as [r'|] eqn:El; [|congruence].
      injection P as <-. apply last_record_in in El. apply last_record_in in Hr.
      destruct El as [_ El], Hr as [_ Hr]. subst k key. contradiction. }
  unfold lookup_value, index_or_insert. rewrite (ext_some _ _ _ _ He key i Ei).
  unfold value_at. rewrite Hc. unfold text_value in Hv.
  destruct (value fc t (mk_card r None)); exact Hv.
Qed.

Lemma read_axes_complete fc rs (Hne : rs <> []) vs : forall i (K : str -> Prop) h,
  ext fc K (push_all rs fresh_header) h ->
  (forall k, K k -> last_record k rs <> None) ->
  (forall j, i <= j -> ~ K (axis_key j)) ->
  (forall j v, nth_error vs j = Some v ->
     exists r, last_record (axis_key (i + j)) rs = Some r /\ text_value fc TSize r = Ret (VSize v)) ->
  snd (read_axes fc (length vs) i h) = Ret tt.
Proof.
  induction vs as [|v vs IH]; intros i K h He Hall HK Hv; [reflexivity|].
  cbn [length read_axes].
  destruct (Hv 0 v eq_refl) as (r & Hr & Ht). rewrite Nat.add_0_r in Hr.
  pose proof (lookup_fresh fc K rs (axis_key i) r TSize _ h Hne He (HK i (le_n _)) Hall Hr Ht) as Hl.
  set (K' := fun k => K k \/ k = axis_key i).
  pose proof (lookup_ext fc K' TSize (axis_key i) h (or_intror eq_refl)) as He'.
  change (axis_key i) with (naxis_key i) in *.
  destruct (lookup_value fc TSize (naxis_key i) h) as [h1 r1]. cbn [fst snd] in *. subst r1. cbv beta iota.
  apply (IH (S i) K').
  - eapply ext_same with (b := h1); try reflexivity. eapply ext_trans; [|exact He'].
    eapply ext_mono; [|exact He]. intros k Hk. left. exact Hk.
  - intros k [Hk| ->]; [exact (Hall k Hk)|]. rewrite Hr. discriminate.
  - intros j Hj [Hk|Hk]; [exact (HK j ltac:(lia) Hk)|]. apply axis_key_inj in Hk. lia.
  - intros j w Hw. replace (S i + j) with (i + S j) by lia. apply Hv. exact Hw.
Qed.

Lemma interpret_complete fc rs b vs rb rn :
  rs <> [] ->
  last_record (lit "BITPIX") rs = Some rb -> text_value fc TInt rb = Ret (VInt (bitpix_code b)) ->
  last_record (lit "NAXIS") rs = Some rn -> text_value fc TSize rn = Ret (VSize (N.of_nat (length vs))) ->
  (N.of_nat (length vs) < 2 ^ 60)%N ->
  (forall i v, nth_error vs i = Some v ->
     exists r, last_record (axis_key (S i)) rs = Some r /\ text_value fc TSize r = Ret (VSize v)) ->
  snd (interpret_cards fc (push_all rs fresh_header)) = Ret tt.
Proof.
  intros Hne Hb Hbt Hn Hnt Hlen Hv. set (h0 := push_all rs fresh_header).
  unfold interpret_cards, read_bitpix.
  set (K0 := fun _ : str => False). set (K1 := fun k : str => k = lit "BITPIX").
  set (K2 := fun k : str => k = lit "BITPIX" \/ k = lit "NAXIS").
  pose proof (lookup_fresh fc K0 rs (lit "BITPIX") rb TInt _ h0 Hne (ext_refl _ _ _)
    (fun x => x) (fun k (x : False) => match x with end) Hb Hbt) as L1.
  pose proof (lookup_ext fc K1 TInt (lit "BITPIX") h0 eq_refl) as E1.
  destruct (lookup_value fc TInt (lit "BITPIX") h0) as [h1 r1]. cbn [fst snd] in *. subst r1. cbv beta iota.
  replace (bitpix_of_int (bitpix_code b)) with (Some b) by (destruct b; reflexivity). cbv beta iota.
  unfold read_naxis.
  assert (E1' : ext fc K1 h0 (set_bitpix h1 b)) by (eapply ext_same with (b := h1); try reflexivity; exact E1).
  assert (N1 : ~ K1 (lit "NAXIS")) by discriminate.
  assert (A1 : forall k, K1 k -> last_record k rs <> None) by (intros k Hk; hnf in Hk; rewrite Hk, Hb; discriminate).
  pose proof (lookup_fresh fc K1 rs (lit "NAXIS") rn TSize _ _ Hne E1' N1 A1 Hn Hnt) as L2.
  pose proof (lookup_ext fc K2 TSize (lit "NAXIS") (set_bitpix h1 b) (or_intror eq_refl)) as E2.
  destruct (lookup_value fc TSize (lit "NAXIS") (set_bitpix h1 b)) as [h2 r2]. cbn [fst snd] in *. subst r2.
  cbv beta iota. destruct (N.leb_spec (2 ^ 60) (N.of_nat (length vs))) as [|_]; [lia|].
  rewrite Nat2N.id. apply (read_axes_complete fc rs Hne vs 1 K2).
  - eapply ext_trans; [|exact E2]. eapply ext_mono; [|exact E1']. intros k Hk. left. exact Hk.
  - intros k [Hk|Hk]; rewrite Hk, ?Hb, ?Hn; discriminate.
  - intros j _ [H|H]; [exact (axis_key_bitpix j H)|exact (axis_key_naxis j H)].
  - intros j v Hj. apply Hv. exact Hj.
Qed.

Lemma read_header_complete fc fuel s n b vs rb rn :
  good s = true -> header_at (content s) (N.to_nat (pos s)) n -> n < fuel ->
  let rs := records (content s) (N.to_nat (pos s)) n in
  last_record (lit "BITPIX") rs = Some rb -> text_value fc TInt rb = Ret (VInt (bitpix_code b)) ->
  last_record (lit "NAXIS") rs = Some rn -> text_value fc TSize rn = Ret (VSize (N.of_nat (length vs))) ->
  (N.of_nat (length vs) < 2 ^ 60)%N ->
  (forall i v, nth_error vs i = Some v ->
     exists r, last_record (axis_key (S i)) rs = Some r /\ text_value fc TSize r = Ret (VSize v)) ->
  exists s' h, read_header fc fuel s fresh_header = (s', h, Ret tt) /\
    map raw (h_cards h) = rs /\ h_bitpix h = Some b /\ h_naxis h = vs.
Proof.
  cbv zeta. intros Hg Hh Hf Hb Hbt Hn Hnt Hlen Hv.
  destruct (read_header_run fc fuel s n Hg Hh Hf) as (s' & _ & E).
  set (rs := records (content s) (N.to_nat (pos s)) n) in *.
  assert (Hne : rs <> []) by (intros E0; pose proof (records_length (content s) (N.to_nat (pos s)) n) as L; unfold rs in E0; rewrite E0 in L; discriminate).
  pose proof (interpret_complete fc rs b vs rb rn Hne Hb Hbt Hn Hnt Hlen Hv) as Hi.
  rewrite Hi in E. eexists _, _. split; [exact E|].
  assert (Hraw : map raw (h_cards (fst (interpret_cards fc (push_all rs fresh_header)))) = rs).
  { rewrite interpret_raws, push_all_cards. cbn [fresh_header h_cards app]. rewrite map_map. cbn [raw]. apply map_id. }
  split; [exact Hraw|].
  destruct (read_header_values _ _ _ _ _ Hg E) as (b' & B1 & _ & V1 & V2 & V3 & _).
  set (h := fst (interpret_cards fc (push_all rs fresh_header))) in *. rewrite Hraw in V1, V2, V3.
  assert (M : forall key r, last_record key rs = Some r -> mandatory_record key rs = r)
    by (intros key r Hr; unfold mandatory_record; rewrite Hr; reflexivity).
  rewrite (M _ _ Hb) in V1. rewrite (M _ _ Hn) in V2. rewrite Hbt in V1. rewrite Hnt in V2.
  injection V1 as V1. injection V2 as V2. apply Nat2N.inj in V2.
  split.
  - rewrite B1. f_equal. destruct b, b'; cbn in V1; congruence || discriminate.
  - apply nth_ext with (d := 0%N) (d' := 0%N); [congruence|]. intros i Hi'.
    destruct (nth_error (h_naxis h) i) as [x|] eqn:Ex.
    2:{ apply nth_error_None in Ex. lia. }
    destruct (nth_error vs i) as [y|] eqn:Ey.
    2:{ apply nth_error_None in Ey. lia. }
    rewrite (nth_error_nth _ _ _ Ex), (nth_error_nth _ _ _ Ey).
    specialize (V3 i x Ex). destruct (Hv i y Ey) as (r & Hr & Ht). rewrite (M _ _ Hr), Ht in V3.
    injection V3 as ->. reflexivity.
Qed.

Lemma read_header_too_many fc fuel s n b m rb rn :
  good s = true -> header_at (content s) (N.to_nat (pos s)) n -> n < fuel ->
  let rs := records (content s) (N.to_nat (pos s)) n in
  last_record (lit "BITPIX") rs = Some rb -> text_value fc TInt rb = Ret (VInt (bitpix_code b)) ->
  last_record (lit "NAXIS") rs = Some rn -> text_value fc TSize rn = Ret (VSize m) -> (2 ^ 60 <= m)%N ->
  exists s' h, read_header fc fuel s fresh_header = (s', h, Throw LengthError).
Proof.
  cbv zeta. intros Hg Hh Hf Hb Hbt Hn Hnt Hm.
  destruct (read_header_run fc fuel s n Hg Hh Hf) as (s' & _ & E).
  set (rs := records (content s) (N.to_nat (pos s)) n) in *.
  assert (Hne : rs <> []) by (intros E0; pose proof (records_length (content s) (N.to_nat (pos s)) n) as L; unfold rs in E0; rewrite E0 in L; discriminate).
  set (h0 := push_all rs fresh_header) in *.
  assert (Hi : snd (interpret_cards fc h0) = Throw LengthError).
  { unfold interpret_cards, read_bitpix.
    set (K0 := fun _ : str => False). set (K1 := fun k : str => k = lit "BITPIX").
    pose proof (lookup_fresh fc K0 rs (lit "BITPIX") rb TInt _ h0 Hne (ext_refl _ _ _)
      (fun x => x) (fun k (x : False) => match x with end) Hb Hbt) as L1.
    pose proof (lookup_ext fc K1 TInt (lit "BITPIX") h0 eq_refl) as E1.
    destruct (lookup_value fc TInt (lit "BITPIX") h0) as [h1 r1]. cbn [fst snd] in *. subst r1. cbv beta iota.
    replace (bitpix_of_int (bitpix_code b)) with (Some b) by (destruct b; reflexivity). cbv beta iota.
    unfold read_naxis.
    assert (E1' : ext fc K1 h0 (set_bitpix h1 b)) by (eapply ext_same with (b := h1); try reflexivity; exact E1).
    assert (N1 : ~ K1 (lit "NAXIS")) by discriminate.
    assert (A1 : forall k, K1 k -> last_record k rs <> None) by (intros k Hk; hnf in Hk; rewrite Hk, Hb; discriminate).
    pose proof (lookup_fresh fc K1 rs (lit "NAXIS") rn TSize _ _ Hne E1' N1 A1 Hn Hnt) as L2.
    destruct (lookup_value fc TSize (lit "NAXIS") (set_bitpix h1 b)) as [h2 r2]. cbn [fst snd] in *. subst r2.
    cbv beta iota. destruct (N.leb_spec (2 ^ 60) m) as [_|]; [reflexivity|lia]. }
  rewrite Hi in E. eexists _, _. exact E.
Qed.

(** ** Odds and ends for the property theorems *)

Lemma value_of_raws fc t key h : map raw (h_cards (fst (value_of fc t key h))) = map raw (h_cards h).
Proof. unfold value_of. destruct (map_find key (h_index h)); [apply value_at_raws|reflexivity]. Qed.

Lemma value_of_header_eq fc t key h : header_eq (fst (value_of fc t key h)) h.
Proof.
  unfold value_of. destruct (map_find key (h_index h)) as [i|]; cbn [fst].
  - destruct (value_at_rest fc t i h) as (H1 & H2 & H3 & H4).
    unfold header_eq. rewrite H1, H2, H3, H4, value_at_raws. repeat split; reflexivity.
  - repeat split; reflexivity.
Qed.

Lemma header_eq_refl h : header_eq h h.
Proof. repeat split. Qed.

Lemma header_eq_trans a b c : header_eq a b -> header_eq b c -> header_eq a c.
Proof.
  intros (A1 & A2 & A3 & A4 & A5) (B1 & B2 & B3 & B4 & B5).
  repeat split; try congruence.
Qed.

Lemma queries_header_eq fc qs h :
  header_eq (fold_left (fun h q => fst (value_of fc (fst q) (snd q) h)) qs h) h.
Proof.
  revert h; induction qs as [|[t k] qs IH]; intros h; cbn [fold_left fst snd]; [apply header_eq_refl|].
  eapply header_eq_trans; [apply IH|apply value_of_header_eq].
Qed.

(** Every stream position inside the header. *)
Lemma read_header_consumes fc fuel s s' h :
  good s = true -> read_header fc fuel s fresh_header = (s', h, Ret tt) ->
  exists n, length (h_cards h) = S n /\ header_at (content s) (N.to_nat (pos s)) n /\
    map raw (h_cards h) = records (content s) (N.to_nat (pos s)) n /\
    content s' = content s /\
    ((pos s + 80 * N.of_nat (S n) <= N.of_nat (length (content s)))%N ->
       good s' = true /\ pos s' = (pos s + 80 * N.of_nat (S n))%N /\
       concat (map raw (h_cards h)) = firstn (80 * S n) (skipn (N.to_nat (pos s)) (content s))) /\
    ((N.of_nat (length (content s)) < pos s + 80 * N.of_nat (S n))%N -> good s' = false).
Proof.
  intros Hg H. destruct (read_header_inv _ _ _ _ _ Hg H) as (n & Hn & Hh & Hi & Hb).
  assert (Hrs : map raw (h_cards h) = records (content s) (N.to_nat (pos s)) n).
  { apply (f_equal fst) in Hi. cbn [fst] in Hi.
    rewrite <- Hi, interpret_raws, push_all_cards. cbn [fresh_header h_cards app].
    rewrite map_map. cbn [raw]. apply map_id. }
  exists n. split; [rewrite <- (map_length raw), Hrs; apply records_length|].
  split; [exact Hh|]. split; [exact Hrs|].
  destruct Hb as [Hc Hb]. split; [exact Hc|]. split.
  - intros Hle. destruct Hb as [[H1 H2]|[_ [_ Hbad]]]; [|lia].
    split; [exact H1|]. split; [rewrite H2; lia|]. rewrite Hrs.
    clear - Hle. set (p := N.to_nat (pos s)) in *.
    assert (Hp : p + 80 * S n <= length (content s)) by (unfold p; lia). clearbody p. clear Hle.
    unfold records. revert p Hp. generalize (content s) as c. intros c.
    assert (G : forall m k p, p + 80 * (k + m) <= length c ->
      concat (map (record_at c p) (seq k m)) = firstn (80 * m) (skipn (p + 80 * k) c)).
    { induction m as [|m IH]; intros k p Hp; [rewrite Nat.mul_0_r; reflexivity|].
      cbn [seq map concat]. rewrite IH by lia.
      assert (E : record_at c p k = firstn 80 (skipn (p + 80 * k) c)).
      { unfold record_at. rewrite <- visible_chars. rewrite skipn_length.
        replace (80 - (length c - (p + 80 * k))) with 0 by lia. apply app_nil_r. }
      rewrite E. replace (80 * S m) with (80 + 80 * m) by lia.
      rewrite <- (firstn_skipn 80 (firstn (80 + 80 * m) _)). rewrite firstn_firstn.
      replace (Nat.min 80 (80 + 80 * m)) with 80 by lia. f_equal.
      rewrite skipn_firstn_comm. replace (80 + 80 * m - 80) with (80 * m) by lia. f_equal.
      assert (SS : forall a b (l : str), skipn a (skipn b l) = skipn (b + a) l).
      { clear. intros a b l. revert l; induction b as [|b IHb]; intros l; [reflexivity|].
        destruct l as [|x l]; [cbn; apply skipn_nil|]. apply IHb. }
      rewrite SS. f_equal. lia. }
    intros p Hp. rewrite G by lia. f_equal. f_equal. lia.
  - intros Hlt. destruct Hb as [[H1 H2]|[Hbad _]]; [|exact Hbad].
    exfalso. (* a good stream cannot have passed the end of the file: the END record exists *)
    clear - Hg H H1 H2 Hlt. revert H. unfold read_header.
    destruct (read_cards fuel s fresh_header) as [[s1 h1] r] eqn:E.
    destruct r as [u| | |]; intros H; try discriminate.
    destruct (interpret_cards fc h1) as [h2 r2]. injection H as -> _ _.
    assert (G : forall fuel a ha b hb, (good a = true -> (pos a <= N.of_nat (length (content a)))%N \/ True) ->
      read_cards fuel a ha = (b, hb, Ret u) -> good b = true -> (pos b <= N.of_nat (length (content b)))%N).
    { clear. induction fuel as [|f IH]; intros a ha b hb _ H Hb; [discriminate|].
      cbn [read_cards] in H. destruct (stream_read 80 a) as [r a'] eqn:Er.
      assert (Hp : good a' = true -> (pos a' <= N.of_nat (length (content a')))%N).
      { unfold stream_read in Er. destruct (max_size <? 80)%N; [injection Er as <- <-|]; [discriminate H|].
        destruct (good a) eqn:Ea.
        - destruct (N.leb_spec 80 (N.of_nat (length (remaining a)))) as [Hle|].
          + apply (f_equal snd) in Er. cbn [snd] in Er. subst a'. intros _. cbn [pos content].
            rewrite remaining_length in Hle. lia.
          + apply (f_equal snd) in Er. cbn [snd] in Er. subst a'. discriminate.
        - apply (f_equal snd) in Er. cbn [snd] in Er. subst a'.
          unfold good. cbn [eofb failb]. rewrite andb_false_r. discriminate. }
      destruct r as [buf| | |]; try discriminate.
      destruct (card_of_string buf) as [c| | |]; try discriminate.
      destruct (str_eqb _ _).
      - injection H as <- _ _. apply Hp. exact Hb.
      - eapply IH; [|exact H|exact Hb]. intros _. right. exact I. }
    pose proof (G fuel s fresh_header s' h1 (fun _ => or_intror I) E H1) as HG.
    assert (Hc : content s' = content s).
    { destruct u. destruct (read_cards_inv _ _ _ _ _ _ _ _ (before_start s Hg) E) as (? & _ & _ & _ & _ & _ & [Hc _]). exact Hc. }
    rewrite Hc in HG. lia.
Qed.

(** A missing BITPIX makes the first record decide. *)
Lemma missing_bitpix_outcome fc fuel s n e :
  good s = true -> header_at (content s) (N.to_nat (pos s)) n -> n < fuel ->
  last_record (lit "BITPIX") (records (content s) (N.to_nat (pos s)) n) = None ->
  text_value fc TInt (record_at (content s) (N.to_nat (pos s)) 0) = Throw e ->
  snd (read_header fc fuel s fresh_header) = Throw e.
Proof.
  intros Hg Hh Hf Hl Ht. destruct (read_header_run fc fuel s n Hg Hh Hf) as (s' & _ & ->). cbn [snd].
  set (rs := records _ _ _) in *. apply push_all_find in Hl.
  unfold interpret_cards, read_bitpix, lookup_value, index_or_insert. rewrite Hl.
  unfold value_at. cbn [h_cards]. rewrite push_all_cards. cbn [fresh_header h_cards app].
  assert (E0 : nth_error rs 0 = Some (record_at (content s) (N.to_nat (pos s)) 0)) by (apply records_nth; lia).
  rewrite nth_error_map, E0. cbn [option_map]. unfold text_value in Ht.
  destruct (value fc TInt _) as [c r]. cbn [snd] in Ht. subst r. reflexivity.
Qed.

(** The header loop ends as soon as there is an END record or an unacceptable one. *)
Lemma value_imp_terminates fc t c : value_imp fc t c <> NoFuel.
Proof.
  assert (S : forall s p n, substr s p n <> NoFuel) by (intros; unfold substr; destruct (_ <? _); discriminate).
  unfold value_imp, value_imp_str, extract_value.
  specialize (S (raw c) 9 (sub64 (str_find "/"%char (raw c)) 10)).
  destruct (substr _ _ _) as [e| | |]; [|destruct t; discriminate..|destruct t; contradiction].
  assert (C : forall A (o : option A), cast_or_throw o <> NoFuel) by (intros A []; discriminate).
  destruct t; cbn [bind parse_to];
    repeat match goal with
    | |- context [str_eqb ?a ?b] => destruct (str_eqb a b)
    | |- context [cast_or_throw ?o] => destruct o; cbn [cast_or_throw bind]
    | |- context [split_complex ?o] => unfold split_complex; destruct (find_idx sp o); cbn [bind fst snd]
    end; try discriminate.
  destruct (trim e) as [|x r]; [discriminate|]. destruct (Ascii.eqb _ _); [|discriminate].
  destruct r; discriminate.
Qed.

Lemma lookup_terminates fc t key h : snd (lookup_value fc t key h) <> NoFuel.
Proof.
  unfold lookup_value. destruct (index_or_insert key h) as [i h1]. unfold value_at.
  destruct (nth_error (h_cards h1) i) as [c|]; [|discriminate].
  assert (V : snd (value fc t c) <> NoFuel).
  { unfold value, get_as. destruct (cache c); [destruct (cty_eqb _ _); discriminate|].
    pose proof (value_imp_terminates fc t c) as T. destruct (value_imp fc t c); try discriminate;
      [destruct (cty_eqb _ _); discriminate|contradiction]. }
  destruct (value fc t c). exact V.
Qed.

Lemma read_axes_terminates fc n i h : snd (read_axes fc n i h) <> NoFuel.
Proof.
  revert i h; induction n as [|n IH]; intros i h; [discriminate|]. cbn [read_axes].
  pose proof (lookup_terminates fc TSize (naxis_key i) h) as L.
  destruct (lookup_value fc TSize (naxis_key i) h) as [h1 r]. cbn [snd] in L.
  destruct r as [v| | |]; try discriminate; [|contradiction]. destruct v; try discriminate. apply IH.
Qed.

Lemma interpret_terminates fc h : snd (interpret_cards fc h) <> NoFuel.
Proof.
  unfold interpret_cards, read_bitpix.
  pose proof (lookup_terminates fc TInt (lit "BITPIX") h) as L.
  destruct (lookup_value fc TInt (lit "BITPIX") h) as [h1 r]. cbn [snd] in L.
  destruct r as [v| | |]; try discriminate; [|contradiction]. destruct v; try discriminate.
  destruct (bitpix_of_int z) as [b|]; [|discriminate]. unfold read_naxis.
  pose proof (lookup_terminates fc TSize (lit "NAXIS") (set_bitpix h1 b)) as L2.
  destruct (lookup_value fc TSize (lit "NAXIS") (set_bitpix h1 b)) as [h2 r2]. cbn [snd] in L2.
  destruct r2 as [v| | |]; try discriminate; [|contradiction]. destruct v; try discriminate.
  destruct (_ <=? _)%N; [discriminate|]. apply read_axes_terminates.
Qed.

Lemma acceptable_run_dec c p m :
  (exists n, n < m /\ (forall j, j < n -> acceptable (record_at c p j) /\ ~ is_end_record (record_at c p j)) /\
     (is_end_record (record_at c p n) \/ ~ acceptable (record_at c p n))) \/
  (forall j, j < m -> acceptable (record_at c p j) /\ ~ is_end_record (record_at c p j)).
Proof.
  induction m as [|m [(n & H1 & H2)|IH]].
  - right. lia.
  - left. exists n. split; [lia|exact H2].
  - destruct (acceptable_dec (record_at c p m)) as [Ha|Ha].
    + destruct (end_record_dec (record_at c p m)) as [He|He].
      * left. exists m. auto.
      * right. intros j Hj. destruct (Nat.eq_dec j m) as [->|]; [auto|apply IH; lia].
    + left. exists m. auto.
Qed.

Lemma read_header_stops fc s n fuel :
  good s = true ->
  (forall j, j < n -> acceptable (record_at (content s) (N.to_nat (pos s)) j) /\
                      ~ is_end_record (record_at (content s) (N.to_nat (pos s)) j)) ->
  is_end_record (record_at (content s) (N.to_nat (pos s)) n) \/
  ~ acceptable (record_at (content s) (N.to_nat (pos s)) n) ->
  n < fuel -> snd (read_header fc fuel s fresh_header) <> NoFuel.
Proof.
  intros Hg Hall Hn Hf.
  destruct (acceptable_dec (record_at (content s) (N.to_nat (pos s)) n)) as [Ha|Ha].
  - destruct Hn as [He|Hn]; [|contradiction].
    destruct (read_header_run fc fuel s n Hg) as (s' & _ & ->); [|exact Hf|apply interpret_terminates].
    split; [|split; [|exact He]].
    + intros k Hk. destruct (Nat.eq_dec k n) as [->|]; [exact Ha|apply Hall; lia].
    + intros k Hk. apply Hall. exact Hk.
  - destruct (read_cards_invalid n fuel s fresh_header _ _ _ (before_start s Hg)) as (s' & E); [exact Hall|exact Ha|exact Hf|].
    unfold read_header. rewrite E. discriminate.
Qed.

(** read_header terminates exactly if some record ends it. *)
Lemma read_header_termination fc s : good s = true ->
  ((exists fuel, snd (read_header fc fuel s fresh_header) <> NoFuel) <->
   (exists n, is_end_record (record_at (content s) (N.to_nat (pos s)) n) \/
              ~ acceptable (record_at (content s) (N.to_nat (pos s)) n))).
Proof.
  intros Hg. split.
  - intros (fuel & H). destruct (acceptable_run_dec (content s) (N.to_nat (pos s)) fuel) as [(n & _ & _ & Hn)|Hall].
    + exists n. exact Hn.
    + exfalso. apply H.
      assert (G : forall f a ha k, before a (content s) (N.to_nat (pos s)) k -> k + f <= fuel -> snd (read_cards f a ha) = NoFuel).
      { induction f as [|f IH]; intros a ha k Hb Hk; [reflexivity|].
        destruct (read_record a _ _ k Hb) as (a1 & E & Hb').
        destruct (Hall k ltac:(lia)) as [Ha Hne].
        rewrite (read_cards_step _ _ _ _ _ _ _ E Ha). cbv zeta.
        destruct (str_eqb _ _) eqn:Ek; [apply end_keyword in Ek; contradiction|].
        apply (IH _ _ (S k)); [exact Hb'|lia]. }
      specialize (G fuel s fresh_header 0 (before_start s Hg) (le_n _)).
      unfold read_header. destruct (read_cards fuel s fresh_header) as [[s1 h1] r]. cbn [snd] in G. subst r. reflexivity.
  - intros (n & Hn).
    destruct (acceptable_run_dec (content s) (N.to_nat (pos s)) (S n)) as [(m & _ & Hm & He)|Hall].
    + exists (S m). apply (read_header_stops fc s m); [exact Hg|exact Hm|exact He|lia].
    + exfalso. destruct (Hall n (Nat.lt_succ_diag_r n)) as [H1 H2]. destruct Hn; contradiction.
Qed.
