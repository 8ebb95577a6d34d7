(** * Which files can be read, and what is left of a file that was cut short. *)
From Verif Require Export ReaderMore CutSpec.
From Coq Require Import Lia ZifyBool ZifyNat ZifyN.
Open Scope list_scope.

(** ** A failed stream *)

Definition dead (s : stream) : Prop := failb s = true /\ eofb s = false.

Lemma dead_good s : dead s -> good s = false.
Proof. intros [F E]. unfold good. rewrite F, E. reflexivity. Qed.

Lemma set_unit_end_dead s : good s = false -> dead (set_unit_end s).
Proof.
  intros G. unfold set_unit_end, find_unit_end, get_current_pos. rewrite G. unfold set_reading_pos. cbn [failb].
  split; reflexivity.
Qed.

Lemma get_pos_dead s : dead s -> dead (snd (get_current_pos s)).
Proof. intros D. unfold get_current_pos. rewrite (dead_good s D). destruct D as [F E]. split; [reflexivity|exact E]. Qed.

Lemma extract_data_dead h s s1 d : dead s -> extract_data h s = (s1, Ret d) -> dead s1.
Proof.
  intros D. unfold extract_data. destruct (data_size h =? 0)%N; [intros H; injection H as <- _; exact D|].
  destruct (data_bytes h) as [n| | |]; try discriminate. unfold stream_read. destruct (max_size <? n)%N; [discriminate|].
  rewrite (dead_good s D). intros H. injection H as <- _. apply set_unit_end_dead. unfold good. cbn. apply andb_false_r.
Qed.

(** ** One turn *)

Lemma set_unit_end_near s : good s = true -> (pos s < 2 ^ 63 - 2881)%N ->
  set_unit_end s = positioned (content s) (next_block (N.to_nat (pos s))).
Proof.
  intros G P. unfold set_unit_end, find_unit_end, get_current_pos. rewrite G.
  rewrite <- (N2Nat.id (pos s)) at 1. rewrite unit_end_block by lia.
  unfold set_reading_pos. apply good_true in G as [_ F]. rewrite F.
  destruct (next_block_spec (N.to_nat (pos s))) as [B _].
  destruct (N.ltb_spec max_size (N.of_nat (next_block (N.to_nat (pos s))))) as [L|_]; [unfold max_size in L; lia|].
  reflexivity.
Qed.

Lemma extract_header_inv fc hf c p s h : p < length c -> small c -> extract_header fc hf (positioned c p) = (s, Ret h) ->
  dead s \/ (readable fc c p h /\ length (h_cards h) <= hf /\ s = positioned c (next_block (p + header_bytes h))).
Proof.
  intros Hp Sm. unfold extract_header. destruct (read_header fc hf (positioned c p) fresh_header) as [[s1 h1] [[]| | |]] eqn:E; try discriminate.
  intros H. injection H as <- <-. destruct (read_header_consumes _ _ _ _ _ (good_positioned c p) E) as (n & Ln & _ & _ & C & I1 & I2).
  cbn [content pos positioned] in *. destruct (Nat.leb_spec (p + header_bytes h1) (length c)) as [L|L]; unfold header_bytes in L; rewrite Ln in L.
  - right. destruct I1 as (G & P & _); [lia|]. split; [split; [eauto|unfold header_bytes; lia]|]. split.
    + destruct (read_header_inv _ _ _ _ _ (good_positioned c p) E) as (n' & Hn' & _ & Hi & _).
      pose proof (interpret_raws fc (push_all (records c p n') fresh_header)) as R.
      cbn [content pos positioned] in Hi. rewrite Nat2N.id in Hi. rewrite Hi in R. cbn [fst] in R.
      apply (f_equal (@length str)) in R. rewrite !map_length, push_all_cards, app_length, map_length, records_length in R.
      cbn in R. lia.
    + unfold small in Sm. rewrite set_unit_end_good by (first [exact G|lia]). rewrite C, P. unfold header_bytes. rewrite Ln. f_equal. f_equal. lia.
  - left. apply set_unit_end_dead. apply I2. lia.
Qed.

Lemma header_end fc c p h : readable fc c p h -> p + header_bytes h <= length c.
Proof. intros [_ H]. exact H. Qed.

Lemma extract_data_inv h c q s d : small c -> q <= length c + 2880 -> extract_data h (positioned c q) = (s, Ret d) ->
  dead s \/
  (data_size h = 0%N /\ d = [] /\ s = positioned c q) \/
  (exists b n, h_bitpix h = Some b /\ data_size h <> 0%N /\ N.of_nat n = ((data_size h * element_size b) mod 2 ^ 64)%N /\
    (n = 0 \/ q + n <= length c) /\ d = slice c q n /\ s = positioned c (next_block (q + n))).
Proof.
  intros Sm Hq. unfold small in Sm. unfold extract_data. destruct (N.eqb_spec (data_size h) 0) as [Z|Z].
  - intros H. injection H as <- <-. right. left. auto.
  - unfold data_bytes, get_bitpix. destruct (h_bitpix h) as [b|] eqn:Eb; [|discriminate]. cbn [bind].
    set (n := mul64 (data_size h) (element_size b)). unfold stream_read. destruct (max_size <? n)%N; [discriminate|].
    cbn [good positioned eofb failb negb andb]. unfold remaining. cbn [pos content positioned]. rewrite Nat2N.id, skipn_length.
    destruct (N.leb_spec n (N.of_nat (length c - q))) as [L|L].
    + intros H. injection H as <- <-. right. right. exists b, (N.to_nat n). split; [reflexivity|]. split; [exact Z|].
      split; [rewrite N2Nat.id; reflexivity|]. split; [lia|]. split; [reflexivity|].
      rewrite set_unit_end_near by (cbn; first [reflexivity|lia]). cbn [pos content]. f_equal. f_equal. lia.
    + intros H. injection H as <- _. left. apply set_unit_end_dead. reflexivity.
Qed.

(** A turn of the loop that ends normally either met a complete unit or left the stream failed. *)
Lemma turn_inv fc hf c p f f1 : f_stream f = positioned c p -> p < length c -> small c -> read_hdu fc hf f = (f1, Ret tt) ->
  dead (f_stream f1) \/
  exists u e name x, unit_read fc c u e /\ u_at u = p /\ length (h_cards (u_header u)) <= hf /\
    becomes fc (u_header u) (u_data u) name x /\
    f1 = mk_fits (positioned c e) (f_hdus f ++ [x]) (map_set name (mk_info (N.of_nat p) (N.of_nat (u_data_at u)) (length (f_hdus f))) (f_info f)).
Proof.
  intros Hs Hp Sm. unfold read_hdu. rewrite Hs, get_pos_positioned.
  destruct (extract_header fc hf (positioned c p)) as [s2 [h| | |]] eqn:Eh; try discriminate.
  destruct (get_current_pos s2) as [dl s3] eqn:Ep. destruct (extract_data h s3) as [s4 [d| | |]] eqn:Ed; try discriminate.
  destruct (get_hdu_name fc h) as [h1 [name| | |]] eqn:En; try discriminate.
  destruct (construct_hdu fc h1 d) as [x| | |] eqn:Ex; try discriminate.
  intros H. injection H as <-. cbn [push_hdu record_info at_stream f_stream f_hdus f_info].
  destruct (extract_header_inv _ _ _ _ _ _ Hp Sm Eh) as [D|(R & L & ->)].
  - left. apply get_pos_dead in D. rewrite Ep in D. cbn [snd] in D. exact (extract_data_dead _ _ _ _ D Ed).
  - rewrite get_pos_positioned in Ep. injection Ep as <- <-. pose proof (header_end _ _ _ _ R) as He.
    assert (Hq : next_block (p + header_bytes h) <= length c + 2880) by (destruct (next_block_spec (p + header_bytes h)); lia).
    destruct (extract_data_inv _ _ _ _ _ Sm Hq Ed) as [D|[(Z & -> & ->)|(b & n & Hb & Z & Hn & Hl & -> & ->)]].
    + left. exact D.
    + right. exists (mk_unit p (next_block (p + header_bytes h)) h []), (next_block (p + header_bytes h)), name, x.
      split; [constructor; assumption|]. split; [reflexivity|]. split; [exact L|]. split; [exists h1; auto|]. reflexivity.
    + right. exists (mk_unit p (next_block (p + header_bytes h)) h (slice c (next_block (p + header_bytes h)) n)),
        (next_block (next_block (p + header_bytes h) + n)), name, x.
      split; [econstructor; eassumption|]. split; [reflexivity|]. split; [exact L|]. split; [exists h1; auto|]. reflexivity.
Qed.

Lemma turn_run fc hf c u e f name x : unit_read fc c u e -> f_stream f = positioned c (u_at u) -> small c ->
  length (h_cards (u_header u)) <= hf -> becomes fc (u_header u) (u_data u) name x ->
  read_hdu fc hf f =
  (mk_fits (positioned c e) (f_hdus f ++ [x]) (map_set name (mk_info (N.of_nat (u_at u)) (N.of_nat (u_data_at u)) (length (f_hdus f))) (f_info f)), Ret tt).
Proof.
  intros U Hs Sm L B. destruct U as [p h Hp R Z|p h b n Hp R Hb Z Hn Hl]; cbn [u_at u_data_at u_header u_data] in *.
  - rewrite (read_hdu_no_data _ _ _ _ _ _ Hs Sm R L Z). apply turn_becomes. exact B.
  - unfold read_hdu. rewrite Hs, get_pos_positioned, (extract_header_ok fc c p h hf R Sm L), get_pos_positioned.
    pose proof (header_end _ _ _ _ R) as He. destruct (next_block_spec (p + header_bytes h)) as [Hq _].
    set (q := next_block (p + header_bytes h)) in *. unfold small in Sm.
    assert (Ed : extract_data h (positioned c q) = (positioned c (next_block (q + n)), Ret (slice c q n))).
    { unfold extract_data. destruct (N.eqb_spec (data_size h) 0) as [|_]; [contradiction|].
      unfold data_bytes, get_bitpix. rewrite Hb. cbn [bind]. unfold mul64, two64. change 18446744073709551616%N with (2 ^ 64)%N. rewrite <- Hn.
      unfold stream_read. destruct (N.ltb_spec max_size (N.of_nat n)) as [Lm|_]; [unfold max_size in Lm; lia|].
      cbn [good positioned eofb failb negb andb]. unfold remaining. cbn [pos content positioned]. rewrite Nat2N.id, skipn_length.
      destruct (N.leb_spec (N.of_nat n) (N.of_nat (length c - q))) as [_|]; [|lia].
      rewrite set_unit_end_near by (cbn; first [reflexivity|lia]). cbn [pos content]. rewrite Nat2N.id.
      replace (N.to_nat (N.of_nat q + N.of_nat n)) with (q + n) by lia. reflexivity. }
    rewrite Ed. destruct B as (h1 & E1 & E2). rewrite E1, E2. reflexivity.
Qed.

(** ** All turns *)

Lemma unit_read_inside fc c u e : unit_read fc c u e -> u_at u < length c.
Proof. intros U. destruct U; assumption. Qed.

Lemma at_here s f : f_stream f = s -> at_stream s f = f.
Proof. destruct f. cbn. intros ->. reflexivity. Qed.

Lemma loop_inv fc hf c : small c -> forall fuel p f f', f_stream f = positioned c p ->
  read_entire_hdus fc hf fuel f = (f', Ret tt) ->
  exists us names xs e, units_read fc c p us e /\ length c <= e /\ length names = length xs /\
    Forall2 (becoming fc) us (combine names xs) /\ Forall (fun u => length (h_cards (u_header u)) <= hf) us /\ length us < fuel /\
    f' = mk_fits (mk_stream c (N.of_nat e) true false) (f_hdus f ++ xs) (catalogue (length (f_hdus f)) us names (f_info f)).
Proof.
  intros Sm. induction fuel as [|fuel IH]; intros p f f' Hs H; [discriminate|].
  unfold read_entire_hdus in H. cbn [read_loop] in H. rewrite Hs in H. destruct (Nat.leb_spec (length c) p) as [Hp|Hp].
  - rewrite at_end_outside in H by exact Hp. injection H as <-. exists [], [], [], p.
    split; [constructor|]. split; [exact Hp|]. split; [reflexivity|]. split; [constructor|]. split; [constructor|]. split; [cbn; lia|].
    unfold at_stream. cbn. rewrite app_nil_r. reflexivity.
  - rewrite at_end_inside, (at_here _ _ Hs) in H by exact Hp.
    destruct (read_hdu fc hf f) as [f1 [[]| | |]] eqn:Et; try discriminate.
    destruct (turn_inv _ _ _ _ _ _ Hs Hp Sm Et) as [D|(u & e & name & x & U & Hu & Hl & B & ->)].
    + pose proof (dead_loop fc hf fuel f1 (dead_good _ D) (proj2 D)) as N. unfold read_entire_hdus in N. rewrite H in N. discriminate.
    + fold (read_entire_hdus fc hf fuel) in H. apply (IH e) in H; [|reflexivity]. destruct H as (us & names & xs & e' & U' & He & Ln & F & Fh & Lf & ->).
      exists (u :: us), (name :: names), (x :: xs), e'. split; [rewrite <- Hu; econstructor; eassumption|]. split; [exact He|].
      split; [cbn; lia|]. split; [constructor; [exact B|exact F]|]. split; [constructor; assumption|]. split; [cbn; lia|].
      cbn [f_hdus f_info catalogue]. rewrite <- app_assoc, app_length. cbn [length app]. rewrite Hu, Nat.add_1_r. reflexivity.
Qed.

Lemma loop_run fc hf c : small c -> forall us p e names xs fuel f, units_read fc c p us e -> length c <= e ->
  f_stream f = positioned c p -> Forall (fun u => length (h_cards (u_header u)) <= hf) us -> length us < fuel ->
  length names = length xs -> Forall2 (becoming fc) us (combine names xs) ->
  read_entire_hdus fc hf fuel f =
  (mk_fits (mk_stream c (N.of_nat e) true false) (f_hdus f ++ xs) (catalogue (length (f_hdus f)) us names (f_info f)), Ret tt).
Proof.
  intros Sm. induction us as [|u us IH]; intros p e names xs fuel f U He Hs Hf Lf Ln F; (destruct fuel as [|fuel]; [cbn in Lf; lia|]);
    inversion U as [|? ? e1 ? U1 U2]; subst; unfold read_entire_hdus; cbn [read_loop]; rewrite Hs.
  - inversion F as [E|]; subst. destruct names as [|name names]; destruct xs as [|x xs]; cbn in Ln, E; try discriminate.
    rewrite at_end_outside by exact He. rewrite app_nil_r. reflexivity.
  - destruct names as [|name names]; destruct xs as [|x xs]; cbn in Ln; try discriminate; cbn [combine] in F; inversion F as [|? ? ? ? B1 B2]; subst.
    inversion Hf as [|? ? Hf1 Hf2]; subst.
    rewrite at_end_inside, (at_here _ _ Hs) by exact (unit_read_inside _ _ _ _ U1).
    rewrite (turn_run _ _ _ _ _ _ _ _ U1 Hs Sm Hf1 B1).
    fold (read_entire_hdus fc hf fuel). cbn in Lf. rewrite (IH e1 e names xs fuel); try assumption; try reflexivity; try lia.
    cbn [f_hdus f_info catalogue]. rewrite <- app_assoc, app_length. cbn [length app]. rewrite Nat.add_1_r. reflexivity.
Qed.

Theorem reads_inv fc c : small c -> forall hf fuel f, read_entire_hdus fc hf fuel (open_fits c) = (f, Ret tt) ->
  exists us names, reads_as fc c us names (f_hdus f) /\ f_info f = catalogue 0 us names [].
Proof.
  intros Sm hf fuel f H. destruct (loop_inv fc hf c Sm fuel 0 (open_fits c) f eq_refl H) as (us & names & xs & e & U & He & Ln & F & _ & _ & ->).
  exists us, names. split; [|reflexivity]. split; [eauto|]. split; [exact Ln|exact F].
Qed.

Theorem reads_run fc c us names xs : small c -> reads_as fc c us names xs ->
  forall hf fuel, Forall (fun u => length (h_cards (u_header u)) <= hf) us -> length us < fuel ->
  exists s, read_entire_hdus fc hf fuel (open_fits c) = (mk_fits s xs (catalogue 0 us names []), Ret tt).
Proof.
  intros Sm [(e & U & He) [Ln F]] hf fuel Hf Lf. eexists.
  rewrite (loop_run fc hf c Sm us 0 e names xs fuel (open_fits c) U He eq_refl Hf Lf Ln F). reflexivity.
Qed.

Lemma enough_cards (us : list file_unit) : exists hf, Forall (fun u => length (h_cards (u_header u)) <= hf) us.
Proof.
  induction us as [|u us (hf & IH)]; [exists 0; constructor|]. exists (Nat.max hf (length (h_cards (u_header u)))).
  constructor; [lia|]. eapply Forall_impl; [|exact IH]. cbn. intros a Ha. lia.
Qed.

Theorem reads_iff fc c xs : small c ->
  ((exists hf fuel f, read_entire_hdus fc hf fuel (open_fits c) = (f, Ret tt) /\ f_hdus f = xs) <->
   (exists us names, reads_as fc c us names xs)).
Proof.
  intros Sm. split.
  - intros (hf & fuel & f & H & <-). destruct (reads_inv fc c Sm hf fuel f H) as (us & names & R & _). eauto.
  - intros (us & names & R). destruct (enough_cards us) as (hf & Hf).
    destruct (reads_run fc c us names xs Sm R hf (S (length us)) Hf (Nat.lt_succ_diag_r _)) as (s & E). exists hf, (S (length us)). eauto.
Qed.

(** ** Cutting a file *)

Lemma char_at_cut (c : str) k i : i < k -> char_at (firstn k c) i = char_at c i.
Proof.
  intros H. unfold char_at. revert k i H. induction c as [|a c IH]; intros [|k] i H; try lia; [reflexivity|].
  destruct i as [|i]; [reflexivity|]. cbn. apply IH. lia.
Qed.

Lemma record_at_cut c k p i : p + 80 * S i <= k -> record_at (firstn k c) p i = record_at c p i.
Proof.
  intros H. unfold record_at. apply map_ext_in. intros j Hj. apply in_seq in Hj. apply char_at_cut. lia.
Qed.

Lemma records_cut c k p n : p + 80 * S n <= k -> records (firstn k c) p n = records c p n.
Proof. intros H. unfold records. apply map_ext_in. intros i Hi. apply in_seq in Hi. apply record_at_cut. lia. Qed.

Lemma header_at_cut c k p n : p + 80 * S n <= k -> (header_at (firstn k c) p n <-> header_at c p n).
Proof.
  intros H. unfold header_at. split; intros (A & B & C); (split; [|split]).
  - intros i Hi. rewrite <- (record_at_cut c k) by lia. apply A. exact Hi.
  - intros i Hi. rewrite <- (record_at_cut c k) by lia. apply B. exact Hi.
  - rewrite <- (record_at_cut c k) by lia. exact C.
  - intros i Hi. rewrite (record_at_cut c k) by lia. apply A. exact Hi.
  - intros i Hi. rewrite (record_at_cut c k) by lia. apply B. exact Hi.
  - rewrite (record_at_cut c k) by lia. exact C.
Qed.

(** The header of a file is determined by its records. *)
Lemma readable_iff fc c p h : readable fc c p h <->
  exists n, header_at c p n /\ interpret_cards fc (push_all (records c p n) fresh_header) = (h, Ret tt) /\
    length (h_cards h) = S n /\ p + 80 * S n <= length c.
Proof.
  split.
  - intros [(fuel & s & E) L]. destruct (read_header_inv _ _ _ _ _ (good_positioned c p) E) as (n & _ & Hh & Hi & _).
    cbn [content pos positioned] in *. rewrite Nat2N.id in *. exists n. split; [exact Hh|]. split; [exact Hi|].
    assert (Lc : length (h_cards h) = S n).
    { pose proof (interpret_raws fc (push_all (records c p n) fresh_header)) as R. rewrite Hi in R. cbn [fst] in R.
      apply (f_equal (@length str)) in R. rewrite !map_length, push_all_cards, app_length, map_length, records_length in R. exact R. }
    split; [exact Lc|]. unfold header_bytes in L. rewrite Lc in L. exact L.
  - intros (n & Hh & Hi & Lc & L). split; [|unfold header_bytes; rewrite Lc; exact L].
    destruct (read_header_run fc (S n) (positioned c p) n (good_positioned c p)) as (s' & _ & E).
    { cbn [content pos positioned]. rewrite Nat2N.id. exact Hh. } { lia. }
    cbn [content pos positioned] in *. rewrite Nat2N.id, Hi in E. cbn [fst snd] in E. eauto.
Qed.

Lemma readable_cut fc c k p h : p + header_bytes h <= k -> k <= length c -> (readable fc (firstn k c) p h <-> readable fc c p h).
Proof.
  intros Hk Hc. rewrite !readable_iff. unfold header_bytes in Hk. rewrite firstn_length_le by exact Hc.
  split; intros (n & Hh & Hi & Lc & L); rewrite Lc in Hk; exists n.
  - apply header_at_cut in Hh; [|exact Hk]. rewrite records_cut in Hi by exact Hk. split; [exact Hh|]. split; [exact Hi|]. split; [exact Lc|lia].
  - rewrite records_cut by exact Hk. split; [apply header_at_cut; assumption|]. split; [exact Hi|]. split; [exact Lc|lia].
Qed.

Lemma slice_cut (c : str) k q n : q + n <= k -> slice (firstn k c) q n = slice c q n.
Proof. intros H. unfold slice. rewrite skipn_firstn_comm, firstn_firstn. f_equal. lia. Qed.

Lemma slice_none (c : str) q : slice c q 0 = [].
Proof. reflexivity. Qed.

Lemma slice_len (c : str) q n : q + n <= length c -> length (slice c q n) = n.
Proof. intros H. unfold slice. rewrite firstn_length, skipn_length. lia. Qed.

Lemma header_bytes_pos fc c p h : readable fc c p h -> 80 <= header_bytes h.
Proof. intros R. apply readable_iff in R as (n & _ & _ & L & _). unfold header_bytes. lia. Qed.

Lemma unit_read_cut fc c k u e : k <= length c -> (unit_read fc (firstn k c) u e <-> unit_read fc c u e /\ unit_last u <= k).
Proof.
  intros Hc. split.
  - intros U. destruct U as [p h Hp R Z|p h b n Hp R Hb Z Hn Hl]; pose proof (header_end _ _ _ _ R) as He;
      pose proof (header_bytes_pos _ _ _ _ R) as H80; rewrite firstn_length_le in * by exact Hc.
    + split; [|exact He]. apply read_no_data; [lia|apply (readable_cut fc c k); assumption|exact Z].
    + set (q := next_block (p + header_bytes h)) in *.
      assert (Es : slice (firstn k c) q n = slice c q n) by (destruct Hl as [->|Hl]; [reflexivity|apply slice_cut; exact Hl]).
      rewrite Es. split.
      * apply read_with_data with (b := b); try assumption; [lia|apply (readable_cut fc c k); assumption|fold q; lia].
      * unfold unit_last. cbn [u_data u_at u_header u_data_at]. destruct Hl as [->|Hl]; [exact He|].
        destruct (slice c q n) eqn:E; [exact He|]. rewrite <- E, slice_len by lia. exact Hl.
  - intros [U Hlast]. destruct U as [p h Hp R Z|p h b n Hp R Hb Z Hn Hl]; pose proof (header_end _ _ _ _ R) as He;
      pose proof (header_bytes_pos _ _ _ _ R) as H80; unfold unit_last in Hlast; cbn [u_data u_at u_header u_data_at] in Hlast.
    + apply read_no_data; [rewrite firstn_length_le by exact Hc; lia|apply readable_cut; assumption|exact Z].
    + destruct (next_block_spec (p + header_bytes h)) as [Hq _]. set (q := next_block (p + header_bytes h)) in *.
      assert (Hk : p + header_bytes h <= k /\ (n = 0 \/ q + n <= k)).
      { destruct Hl as [->|Hl]; [rewrite slice_none in Hlast; auto|]. destruct (slice c q n) eqn:E.
        - apply (f_equal (@length ascii)) in E. rewrite slice_len in E by exact Hl. cbn in E. auto.
        - rewrite <- E, slice_len in Hlast by exact Hl. split; [lia|]. right. exact Hlast. }
      destruct Hk as [Hk1 Hk2].
      assert (Es : slice (firstn k c) q n = slice c q n) by (destruct Hk2 as [->|Hk2]; [reflexivity|apply slice_cut; exact Hk2]).
      rewrite <- Es. apply read_with_data with (b := b); try assumption; rewrite ?firstn_length_le by exact Hc; [lia|apply readable_cut; assumption|].
      fold q. exact Hk2.
Qed.

(** ** The units of a file are determined *)

Lemma readable_fun fc c p h h' : readable fc c p h -> readable fc c p h' -> h = h'.
Proof.
  rewrite !readable_iff. intros (n & (A & B & C) & Hi & _) (n' & (A' & B' & C') & Hi' & _).
  assert (n = n').
  { destruct (Nat.lt_trichotomy n n') as [H|[H|H]]; [|exact H|]; exfalso.
    - exact (B' n H C).
    - exact (B n' H C'). }
  subst n'. rewrite Hi in Hi'. injection Hi' as <-. reflexivity.
Qed.

Lemma unit_read_fun fc c u e u' e' : unit_read fc c u e -> unit_read fc c u' e' -> u_at u = u_at u' -> u = u' /\ e = e'.
Proof.
  intros U U' E. destruct U as [p h Hp R Z|p h b n Hp R Hb Z Hn Hl]; destruct U' as [p' h' Hp' R' Z'|p' h' b' n' Hp' R' Hb' Z' Hn' Hl'];
    cbn [u_at] in E; subst p'; pose proof (readable_fun _ _ _ _ _ R R') as <-; try contradiction.
  - split; reflexivity.
  - rewrite Hb in Hb'. injection Hb' as <-. assert (n = n') by lia. subst n'. split; reflexivity.
Qed.

Lemma unit_read_next fc c u e : unit_read fc c u e -> unit_last u <= e /\ u_at u < e.
Proof.
  intros U. destruct U as [p h Hp R Z|p h b n Hp R Hb Z Hn Hl]; unfold unit_last; cbn [u_data u_at u_header u_data_at];
    destruct (next_block_spec (p + header_bytes h)) as [Hq _].
  - lia.
  - set (q := next_block (p + header_bytes h)) in *. destruct (next_block_spec (q + n)) as [Hr _].
    pose proof (firstn_le_length n (skipn q c)) as L. unfold slice in *.
    destruct (firstn n (skipn q c)) eqn:E; [lia|]. split; [|lia]. lia.
Qed.

Lemma units_read_later fc c p us e : units_read fc c p us e -> Forall (fun u => p <= u_at u) us /\ p <= e.
Proof.
  intros U. induction U as [p|u us e e' U Us [IH1 IH2]]; [split; [constructor|lia]|].
  destruct (unit_read_next _ _ _ _ U) as [_ L]. split; [|lia]. constructor; [lia|].
  eapply Forall_impl; [|exact IH1]. cbn. intros a Ha. lia.
Qed.

(** Cutting the units of a file: what can be read of the rest. *)
Lemma units_read_cut fc c k : k <= length c -> forall p us e us' e', units_read fc c p us e -> length c <= e ->
  units_read fc (firstn k c) p us' e' -> k <= e' -> exists j, us' = firstn j us /\ cut_between us k j.
Proof.
  intros Hc p us e us' e' U. revert us' e'. induction U as [p|u us e e2 U Us IH]; intros us' e' He U' He'.
  - inversion U' as [|u1 us1 e1 ? U1 Us1]; subst.
    + exists 0. split; [reflexivity|]. split; [lia|]. split; constructor.
    + apply unit_read_cut in U1 as [U1 _]; [|exact Hc]. apply unit_read_inside in U1. lia.
  - inversion U' as [|u1 us1 e1 ? U1 Us1 Hu]; subst.
    + exists 0. split; [reflexivity|]. split; [lia|]. split; [constructor|]. cbn [skipn].
      destruct (units_read_later fc c (u_at u) (u :: us) e2 ltac:(econstructor; eassumption)) as [L _].
      eapply Forall_impl; [|exact L]. cbn. intros a Ha. lia.
    + apply unit_read_cut in U1 as [U1 L1]; [|exact Hc]. destruct (unit_read_fun _ _ _ _ _ _ U1 U Hu) as [-> ->].
      destruct (IH us1 e' He Us1 He') as (j & -> & (J1 & J2 & J3)). exists (S j). split; [reflexivity|].
      split; [cbn; lia|]. split; [constructor; assumption|exact J3].
Qed.

Lemma units_read_keep fc c k : k <= length c -> forall p us e, units_read fc c p us e -> length c <= e -> forall j, cut_between us k j ->
  exists e', units_read fc (firstn k c) p (firstn j us) e' /\ k <= e'.
Proof.
  intros Hc p us e U. induction U as [p|u us e e2 U Us IH]; intros He j (J1 & J2 & J3).
  - replace j with 0 by (cbn in J1; lia). exists p. split; [constructor|lia].
  - destruct j as [|j].
    + exists (u_at u). split; [constructor|]. cbn [skipn] in J3. inversion J3; subst. assumption.
    + cbn [firstn skipn] in *. inversion J2 as [|? ? J2a J2b]; subst. cbn in J1.
      destruct (IH He j (conj (ltac:(lia) : j <= length us) (conj J2b J3))) as (e' & U' & K). exists e'. split; [|exact K].
      econstructor; [|exact U']. apply unit_read_cut; [exact Hc|]. split; assumption.
Qed.

Lemma small_cut c k : small c -> small (firstn k c).
Proof. unfold small. intros H. pose proof (firstn_length k c). lia. Qed.

Lemma combine_firstn' {A B} j (l : list A) (m : list B) : combine (firstn j l) (firstn j m) = firstn j (combine l m).
Proof. revert l m; induction j as [|j IH]; intros [|a l] [|b m]; try reflexivity. cbn. rewrite IH. reflexivity. Qed.

Lemma Forall2_firstn {A B} (P : A -> B -> Prop) j l m : Forall2 P l m -> Forall2 P (firstn j l) (firstn j m).
Proof.
  intros F. revert j. induction F as [|a b l m H F IH]; intros [|j]; cbn [firstn]; try constructor; [exact H|apply IH].
Qed.

Lemma becomes_fun fc h d n x n' x' : becomes fc h d n x -> becomes fc h d n' x' -> n = n' /\ x = x'.
Proof.
  intros (h1 & A & B) (h2 & A' & B'). rewrite A in A'. injection A' as <- <-. rewrite B in B'. injection B' as <-. split; reflexivity.
Qed.

Lemma becoming_fun fc us l m : Forall2 (becoming fc) us l -> Forall2 (becoming fc) us m -> l = m.
Proof.
  intros F. revert m. induction F as [|u [n x] us l H F IH]; intros m F'; inversion F' as [|? [n' x'] ? ? H' F'']; subst; [reflexivity|].
  destruct (becomes_fun _ _ _ _ _ _ _ H H') as [E1 E2]. cbn [fst snd] in E1, E2. subst. f_equal. apply IH. exact F''.
Qed.

Lemma combine_inj {A B} (l l' : list A) (m m' : list B) : length l = length m -> length l' = length m' ->
  combine l m = combine l' m' -> l = l' /\ m = m'.
Proof.
  revert l' m m'; induction l as [|a l IH]; intros [|a' l'] [|b m] [|b' m'] L L'; cbn in *; try discriminate; auto.
  intros H. injection H as -> -> H. destruct (IH l' m m' ltac:(lia) ltac:(lia) H) as [-> ->]. auto.
Qed.

(** What is read of the first [k] bytes of a file. *)
Theorem reads_cut fc c us names xs : reads_as fc c us names xs -> forall k, k <= length c -> forall us' names' xs',
  reads_as fc (firstn k c) us' names' xs' <->
  exists j, cut_between us k j /\ us' = firstn j us /\ names' = firstn j names /\ xs' = firstn j xs.
Proof.
  intros [(e & U & He) [Ln F]] k Hk us' names' xs'. assert (Lc : length (firstn k c) = k) by (apply firstn_length_le; exact Hk). split.
  - intros [(e' & U' & He') [Ln' F']]. rewrite Lc in He'.
    destruct (units_read_cut fc c k Hk 0 us e us' e' U He U' He') as (j & -> & J). exists j. split; [exact J|]. split; [reflexivity|].
    apply (combine_inj names' (firstn j names) xs' (firstn j xs)); [exact Ln'|rewrite !firstn_length; lia|].
    rewrite combine_firstn'. eapply becoming_fun; [exact F'|]. apply Forall2_firstn. exact F.
  - intros (j & J & -> & -> & ->). destruct (units_read_keep fc c k Hk 0 us e U He j J) as (e' & U' & He').
    split; [exists e'; rewrite Lc; auto|]. split; [rewrite !firstn_length; lia|].
    rewrite combine_firstn'. apply Forall2_firstn. exact F.
Qed.

Theorem cut_reads fc c us names xs : small c -> reads_as fc c us names xs -> forall k hf fuel f, k <= length c ->
  read_entire_hdus fc hf fuel (open_fits (firstn k c)) = (f, Ret tt) ->
  exists j, cut_between us k j /\ f_hdus f = firstn j xs /\ f_info f = catalogue 0 (firstn j us) (firstn j names) [].
Proof.
  intros Sm R k hf fuel f Hk H. destruct (reads_inv _ _ (small_cut c k Sm) _ _ _ H) as (us' & names' & R' & I).
  apply (reads_cut fc c us names xs R k Hk) in R' as (j & J & -> & -> & E). exists j. auto.
Qed.

Theorem cut_reads_back fc c us names xs : small c -> reads_as fc c us names xs -> forall k j, k <= length c -> cut_between us k j ->
  forall hf fuel, Forall (fun u => length (h_cards (u_header u)) <= hf) us -> length us < fuel ->
  exists s, read_entire_hdus fc hf fuel (open_fits (firstn k c)) =
    (mk_fits s (firstn j xs) (catalogue 0 (firstn j us) (firstn j names) []), Ret tt).
Proof.
  intros Sm R k j Hk J hf fuel Hf Lf. apply (reads_run fc (firstn k c) (firstn j us) (firstn j names) (firstn j xs)).
  - apply small_cut. exact Sm.
  - apply (reads_cut fc c us names xs R k Hk). exists j. auto.
  - clear - Hf. revert j. induction Hf as [|u us H Hf IH]; intros [|j]; cbn [firstn]; constructor; [exact H|apply IH].
  - pose proof (firstn_length j us). lia.
Qed.

(** No hypothesis on the file: if both the file and the cut file can be read, the HDUs are the first ones. *)
Theorem cut_prefix fc c k hf fuel f hf' fuel' f' : small c -> read_entire_hdus fc hf fuel (open_fits c) = (f, Ret tt) ->
  read_entire_hdus fc hf' fuel' (open_fits (firstn k c)) = (f', Ret tt) -> exists j, f_hdus f' = firstn j (f_hdus f).
Proof.
  intros Sm H H'. destruct (Nat.leb_spec k (length c)) as [Hk|Hk].
  - destruct (reads_inv fc c Sm hf fuel f H) as (us & names & R & _).
    destruct (cut_reads fc c us names _ Sm R k hf' fuel' f' Hk H') as (j & _ & E & _). eauto.
  - rewrite firstn_all2 in H' by lia. destruct (reads_inv fc c Sm _ _ _ H) as (us & names & R & _).
    destruct (reads_inv fc c Sm _ _ _ H') as (us' & names' & R' & _).
    assert (R2 : reads_as fc (firstn (length c) c) us' names' (f_hdus f')) by (rewrite firstn_all; exact R').
    apply (reads_cut fc c us names _ R (length c) (Nat.le_refl _)) in R2 as (j & _ & _ & _ & E). eauto.
Qed.

(** ** Files whose units are described by [units], in particular written files *)

Lemma unit_in_read fc c u e : small c -> unit_in fc c u e -> unit_read fc c u e.
Proof.
  intros Sm U. unfold small in Sm. destruct U as [p h Hp R Z|p h b n Hp R Hb Z Hn Hl].
  - constructor; assumption.
  - apply read_with_data with (b := b); try assumption; [|right; exact Hl]. rewrite <- Hn, N.mod_small; lia.
Qed.

Lemma units_in_read fc c p us e : small c -> units_to fc c p us e -> units_read fc c p us e.
Proof. intros Sm U. induction U as [p|u us e e' U Us IH]; [constructor|]. econstructor; [apply unit_in_read; eassumption|exact IH]. Qed.

Lemma units_reads_as fc c us names xs : small c -> units fc c 0 us -> length names = length xs ->
  Forall2 (fun u nx => becomes fc (u_header u) (u_data u) (fst nx) (snd nx)) us (combine names xs) -> reads_as fc c us names xs.
Proof. intros Sm (e & U & He) Ln F. split; [exists e; split; [apply units_in_read; assumption|exact He]|]. split; assumption. Qed.

Lemma becoming_placed fc l : forall p nx, Forall2 (fun hd n => becomes fc (fst hd) (snd hd) (fst n) (snd n)) l nx ->
  Forall2 (becoming fc) (placed p l) nx.
Proof.
  induction l as [|[h d] l IH]; intros p nx F; inversion F as [|? ? ? ? H F']; subst; cbn [placed]; constructor; [exact H|].
  apply IH. exact F'.
Qed.

(** A file write_to() makes (C20), of which only the first [k] bytes are there. *)
Theorem written_cut fc l names xs : Forall (fun hd => matching fc (fst hd) (snd hd) /\ snd hd <> []) l ->
  let c := concat (map (fun hd => unit_text (map raw (h_cards (fst hd))) (snd hd)) l) in
  small c -> length names = length xs ->
  Forall2 (fun hd nx => becomes fc (fst hd) (snd hd) (fst nx) (snd nx)) l (combine names xs) ->
  reads_as fc c (placed 0 l) names xs.
Proof.
  intros Fm c Sm Ln F. apply units_reads_as; [exact Sm| |exact Ln|apply becoming_placed; exact F].
  exact (units_written fc l [] eq_refl Fm).
Qed.

(** A cut inside the header or the data of a unit. *)
Theorem cut_inside fc c us names xs : small c -> reads_as fc c us names xs -> forall k u, In u us -> u_at u < k < unit_last u ->
  k <= length c -> forall hf fuel, snd (read_entire_hdus fc hf fuel (open_fits (firstn k c))) <> Ret tt.
Proof.
  intros Sm R k u Hu Hk Hc hf fuel H. destruct (read_entire_hdus fc hf fuel (open_fits (firstn k c))) as [f r] eqn:E. cbn [snd] in H. subst r.
  destruct (cut_reads fc c us names xs Sm R k hf fuel f Hc E) as (j & (_ & J2 & J3) & _).
  rewrite <- (firstn_skipn j us) in Hu. apply in_app_or in Hu as [Hu|Hu].
  - rewrite Forall_forall in J2. specialize (J2 u Hu). cbn in J2. lia.
  - rewrite Forall_forall in J3. specialize (J3 u Hu). cbn in J3. lia.
Qed.

(** ** Reading again *)

Lemma at_end_true s s' : at_end s = (true, s') -> eofb s' = true /\ content s' = content s.
Proof.
  unfold at_end. destruct (good s) eqn:G.
  - destruct (remaining s); intros H; [|discriminate]. injection H as <-. split; reflexivity.
  - intros H. injection H as E <-. split; [exact E|reflexivity].
Qed.

Lemma at_end_again s : eofb s = true -> exists s', at_end s = (true, s') /\ eofb s' = true.
Proof.
  intros E. unfold at_end. assert (G : good s = false) by (unfold good; rewrite E; reflexivity). rewrite G, E.
  eexists. split; [reflexivity|reflexivity].
Qed.

Lemma loop_at_eof turn fuel : forall f f1, read_loop turn fuel f = (f1, Ret tt) -> eofb (f_stream f1) = true.
Proof.
  induction fuel as [|fuel IH]; intros f f1 H; [discriminate|]. cbn [read_loop] in H.
  destruct (at_end (f_stream f)) as [[] s] eqn:E.
  - injection H as <-. exact (proj1 (at_end_true _ _ E)).
  - destruct (turn (at_stream s f)) as [f2 [[]| | |]]; try discriminate. exact (IH _ _ H).
Qed.

Theorem loop_again turn fuel f f1 turn' fuel' : read_loop turn fuel f = (f1, Ret tt) ->
  exists f2, read_loop turn' (S fuel') f1 = (f2, Ret tt) /\ f_hdus f2 = f_hdus f1 /\ f_info f2 = f_info f1.
Proof.
  intros H. apply loop_at_eof in H. cbn [read_loop]. destruct (at_end_again _ H) as (s & E & _). rewrite E.
  eexists. split; [reflexivity|]. split; reflexivity.
Qed.

(** ** After a unit no HDU can be made of *)

Lemma loop_prefix fc hf c : small c -> forall us p e names xs fuel f, units_read fc c p us e ->
  f_stream f = positioned c p -> Forall (fun u => length (h_cards (u_header u)) <= hf) us ->
  length names = length xs -> Forall2 (becoming fc) us (combine names xs) ->
  read_entire_hdus fc hf (length us + fuel) f =
  read_entire_hdus fc hf fuel (mk_fits (positioned c e) (f_hdus f ++ xs) (catalogue (length (f_hdus f)) us names (f_info f))).
Proof.
  intros Sm. induction us as [|u us IH]; intros p e names xs fuel f U Hs Hf Ln F;
    inversion U as [|? ? e1 ? U1 U2]; subst.
  - inversion F as [E|]; subst. destruct names as [|name names]; destruct xs as [|x xs]; cbn in Ln, E; try discriminate.
    cbn [length Nat.add catalogue]. rewrite app_nil_r, <- Hs. destruct f; reflexivity.
  - destruct names as [|name names]; destruct xs as [|x xs]; cbn in Ln; try discriminate; cbn [combine] in F; inversion F as [|? ? ? ? B1 B2]; subst.
    inversion Hf as [|? ? Hf1 Hf2]; subst. cbn [length Nat.add]. unfold read_entire_hdus at 1. cbn [read_loop]. rewrite Hs.
    rewrite at_end_inside, (at_here _ _ Hs) by exact (unit_read_inside _ _ _ _ U1).
    rewrite (turn_run _ _ _ _ _ _ _ _ U1 Hs Sm Hf1 B1).
    fold (read_entire_hdus fc hf (length us + fuel)). rewrite (IH e1 e names xs fuel); try assumption; try reflexivity; try lia.
    cbn [f_hdus f_info catalogue]. rewrite <- app_assoc, app_length. cbn [length app]. rewrite Nat.add_1_r. reflexivity.
Qed.

Lemma turn_fail_run fc hf c u e f h1 name ex : unit_read fc c u e -> f_stream f = positioned c (u_at u) -> small c ->
  length (h_cards (u_header u)) <= hf -> get_hdu_name fc (u_header u) = (h1, Ret name) -> construct_hdu fc h1 (u_data u) = Throw ex ->
  read_hdu fc hf f =
  (mk_fits (positioned c e) (f_hdus f) (map_set name (mk_info (N.of_nat (u_at u)) (N.of_nat (u_data_at u)) (length (f_hdus f))) (f_info f)), Throw ex).
Proof.
  intros U Hs Sm L En Ex. destruct U as [p h Hp R Z|p h b n Hp R Hb Z Hn Hl]; cbn [u_at u_data_at u_header u_data] in *.
  - rewrite (read_hdu_no_data _ _ _ _ _ _ Hs Sm R L Z). unfold turn_result. rewrite En, Ex. reflexivity.
  - unfold read_hdu. rewrite Hs, get_pos_positioned, (extract_header_ok fc c p h hf R Sm L), get_pos_positioned.
    pose proof (header_end _ _ _ _ R) as He. destruct (next_block_spec (p + header_bytes h)) as [Hq _].
    set (q := next_block (p + header_bytes h)) in *. unfold small in Sm.
    assert (Ed : extract_data h (positioned c q) = (positioned c (next_block (q + n)), Ret (slice c q n))).
    { unfold extract_data. destruct (N.eqb_spec (data_size h) 0) as [|_]; [contradiction|].
      unfold data_bytes, get_bitpix. rewrite Hb. cbn [bind]. unfold mul64, two64. change 18446744073709551616%N with (2 ^ 64)%N. rewrite <- Hn.
      unfold stream_read. destruct (N.ltb_spec max_size (N.of_nat n)) as [Lm|_]; [unfold max_size in Lm; lia|].
      cbn [good positioned eofb failb negb andb]. unfold remaining. cbn [pos content positioned]. rewrite Nat2N.id, skipn_length.
      destruct (N.leb_spec (N.of_nat n) (N.of_nat (length c - q))) as [_|]; [|lia].
      rewrite set_unit_end_near by (cbn; first [reflexivity|lia]). cbn [pos content]. rewrite Nat2N.id.
      replace (N.to_nat (N.of_nat q + N.of_nat n)) with (q + n) by lia. reflexivity. }
    rewrite Ed, En, Ex. reflexivity.
Qed.

Section Bad.
  Variables (fc : fcodec) (c : str) (us us2 : list file_unit) (u : file_unit) (q e e2 : nat) (names names2 : list str) (xs xs2 : list hdu)
    (h1 : header) (name : str) (ex : exn).
  Hypotheses (Sm : small c) (U1 : units_read fc c 0 us q) (Uq : u_at u = q) (U : unit_read fc c u e)
    (U2 : units_read fc c e us2 e2) (He : length c <= e2)
    (L1 : length names = length xs) (F1 : Forall2 (becoming fc) us (combine names xs))
    (L2 : length names2 = length xs2) (F2 : Forall2 (becoming fc) us2 (combine names2 xs2))
    (En : get_hdu_name fc (u_header u) = (h1, Ret name)) (Ex : construct_hdu fc h1 (u_data u) = Throw ex).

  Definition after_bad : fits := mk_fits (positioned c e) xs
    (map_set name (mk_info (N.of_nat q) (N.of_nat (u_data_at u)) (length xs)) (catalogue 0 us names [])).

  Lemma bad_read hf fuel : Forall (fun u => length (h_cards (u_header u)) <= hf) (us ++ [u]) -> length us < fuel ->
    read_entire_hdus fc hf fuel (open_fits c) = (after_bad, Throw ex).
  Proof using Sm U1 Uq U L1 F1 En Ex.
    clear He L2. intros Hf Lf. apply Forall_app in Hf as [Hf1 Hf2]. inversion Hf2 as [|? ? Hf3 _]; subst.
    replace fuel with (length us + S (fuel - length us - 1)) by lia.
    rewrite (loop_prefix fc hf c Sm us 0 _ names xs _ (open_fits c) U1 eq_refl Hf1 L1 F1). cbn [open_fits f_hdus f_info app length].
    unfold after_bad. rewrite <- Uq. unfold read_entire_hdus. cbn [read_loop f_stream]. rewrite at_end_inside by exact (unit_read_inside _ _ _ _ U).
    rewrite at_here by reflexivity. erewrite turn_fail_run; try eassumption; reflexivity.
  Qed.

  Lemma bad_resumed hf fuel : Forall (fun u => length (h_cards (u_header u)) <= hf) us2 -> length us2 < fuel ->
    read_entire_hdus fc hf fuel after_bad =
    (mk_fits (mk_stream c (N.of_nat e2) true false) (xs ++ xs2)
       (catalogue (length xs) us2 names2 (map_set name (mk_info (N.of_nat q) (N.of_nat (u_data_at u)) (length xs)) (catalogue 0 us names []))), Ret tt).
  Proof. intros Hf Lf. exact (loop_run fc hf c Sm us2 e e2 names2 xs2 fuel after_bad U2 He eq_refl Hf Lf L2 F2). Qed.
End Bad.

Lemma forall2_names fc us names (xs : list hdu) : length names = length xs -> Forall2 (becoming fc) us (combine names xs) -> length names = length us.
Proof.
  intros L F. assert (E : length us = length (combine names xs)).
  { clear L. revert F. generalize (combine names xs). intros l F. induction F; cbn; congruence. }
  rewrite combine_length in E. lia.
Qed.

Theorem bad_unit_name fc c us u q e names xs h1 name ex : small c -> units_read fc c 0 us q -> u_at u = q -> unit_read fc c u e ->
  length names = length xs -> Forall2 (becoming fc) us (combine names xs) ->
  get_hdu_name fc (u_header u) = (h1, Ret name) -> construct_hdu fc h1 (u_data u) = Throw ex ->
  forall hf fuel, Forall (fun u => length (h_cards (u_header u)) <= hf) (us ++ [u]) -> length us < fuel ->
  exists f, read_entire_hdus fc hf fuel (open_fits c) = (f, Throw ex) /\ f_hdus f = xs /\
    hdu_named name f = Undef /\
    (forall n j x, n <> name -> last_position n names j -> nth_error xs j = Some x -> hdu_named n f = Ret x) /\
    (forall n, n <> name -> ~ In n names -> hdu_named n f = Throw OutOfRange).
Proof.
  intros Sm U1 Uq U L1 F1 En Ex hf fuel Hf Lf. exists (after_bad c us u q e names xs name).
  split; [eapply bad_read; eassumption|]. split; [reflexivity|]. unfold hdu_named, after_bad. cbn [f_info f_hdus].
  pose proof (forall2_names fc us names xs L1 F1) as Lu. split; [|split].
  - rewrite map_find_set_same. cbn [hdu_index]. rewrite (proj2 (nth_error_None _ _)) by lia. reflexivity.
  - intros n j x Hn P Hx. rewrite map_find_set_other by exact Hn.
    destruct (control_block (positioned c e) us names [] xs Lu L1) as (_ & C & _). exact (C n j x P Hx).
  - intros n Hn P. rewrite map_find_set_other by exact Hn.
    destruct (control_block (positioned c e) us names [] xs Lu L1) as (_ & _ & C). exact (C n P).
Qed.

Theorem bad_unit_resumed fc c us us2 u q e e2 names names2 xs x2 xs2 h1 name ex : small c ->
  units_read fc c 0 us q -> u_at u = q -> unit_read fc c u e -> units_read fc c e us2 e2 -> length c <= e2 ->
  length names = length xs -> Forall2 (becoming fc) us (combine names xs) ->
  length names2 = length (x2 :: xs2) -> Forall2 (becoming fc) us2 (combine names2 (x2 :: xs2)) ->
  get_hdu_name fc (u_header u) = (h1, Ret name) -> construct_hdu fc h1 (u_data u) = Throw ex -> ~ In name names2 ->
  forall hf fuel fuel2, Forall (fun u => length (h_cards (u_header u)) <= hf) (us ++ u :: us2) -> length us < fuel -> length us2 < fuel2 ->
  exists f f2, read_entire_hdus fc hf fuel (open_fits c) = (f, Throw ex) /\
    read_entire_hdus fc hf fuel2 f = (f2, Ret tt) /\ f_hdus f2 = xs ++ x2 :: xs2 /\ hdu_named name f2 = Ret x2.
Proof.
  intros Sm U1 Uq U U2 He L1 F1 L2 F2 En Ex Hn hf fuel fuel2 Hf Lf Lf2.
  assert (Hfa : Forall (fun u => length (h_cards (u_header u)) <= hf) (us ++ [u]) /\ Forall (fun u => length (h_cards (u_header u)) <= hf) us2).
  { apply Forall_app in Hf as [A B]. inversion B; subst. split; [apply Forall_app; split; [exact A|constructor; [assumption|constructor]]|assumption]. }
  destruct Hfa as [Hfa Hfb]. exists (after_bad c us u q e names xs name). eexists.
  split; [eapply bad_read; eassumption|]. split; [eapply bad_resumed; eassumption|]. split; [reflexivity|].
  unfold hdu_named. cbn [f_info f_hdus].
  pose proof (forall2_names fc us2 names2 (x2 :: xs2) L2 F2) as Lu.
  destruct (catalogue_find us2 (length xs) names2 (map_set name (mk_info (N.of_nat q) (N.of_nat (u_data_at u)) (length xs)) (catalogue 0 us names [])) Lu name) as [A _].
  rewrite (A Hn), map_find_set_same. cbn [hdu_index]. rewrite nth_error_app2 by lia. rewrite Nat.sub_diag. reflexivity.
Qed.

(** ** Reading the headers only *)

Lemma dead_header_loop fc hf fuel f : good (f_stream f) = false -> eofb (f_stream f) = false -> snd (read_only_headers fc hf fuel f) = NoFuel.
Proof.
  intros G E. destruct fuel as [|fuel]; [reflexivity|]. unfold read_only_headers. cbn [read_loop].
  unfold at_end. rewrite G, E. unfold read_hdu_header. cbn [f_stream at_stream]. unfold get_current_pos. cbn [good eofb failb negb andb content pos].
  change (good {| content := content (f_stream f); pos := pos (f_stream f); eofb := false; failb := true |}) with false.
  cbv iota. unfold extract_header, read_header. cbn [eofb content pos].
  pose proof (dead_cards hf (mk_stream (content (f_stream f)) (pos (f_stream f)) false true) fresh_header eq_refl) as D.
  destruct (read_cards hf _ fresh_header) as [[s1 h1] r]. cbn [snd] in D. subst r. reflexivity.
Qed.

Lemma skip_dead h s s1 : dead s -> skip_data h s = (s1, Ret tt) -> dead s1.
Proof.
  intros D. unfold skip_data. destruct (data_size h =? 0)%N; [intros H; injection H as <-; exact D|].
  destruct (data_bytes h) as [n| | |]; try discriminate. pose proof (get_pos_dead s D) as D1.
  destruct (get_current_pos s) as [p s']. cbn [snd] in D1. intros H. injection H as <-. apply set_unit_end_dead.
  unfold set_reading_pos. destruct D1 as [F _]. rewrite F. reflexivity.
Qed.

Definition skip_to (q : nat) (h : header) (b : bitpix) : nat :=
  N.to_nat ((N.of_nat q + data_size h * element_size b) mod 2 ^ 64)%N.

(** Where skipping leads, in all cases. *)
Lemma skip_result h b c q : h_bitpix h = Some b -> data_size h <> 0%N ->
  exists s, skip_data h (positioned c q) = (s, Ret tt) /\
    ((N.of_nat (next_block (skip_to q h b)) < 2 ^ 63)%N -> s = positioned c (next_block (skip_to q h b))) /\
    ((2 ^ 63 <= N.of_nat (next_block (skip_to q h b)))%N -> dead s).
Proof.
  intros Hb Z. unfold skip_data. destruct (N.eqb_spec (data_size h) 0) as [|_]; [contradiction|].
  unfold data_bytes, get_bitpix. rewrite Hb. cbn [bind]. rewrite get_pos_positioned.
  assert (E : ((N.of_nat q + mul64 (data_size h) (element_size b)) mod two64 = N.of_nat (skip_to q h b))%N).
  { unfold skip_to. rewrite N2Nat.id. unfold mul64, two64. change 18446744073709551616%N with (2 ^ 64)%N. apply N.add_mod_idemp_r. discriminate. }
  rewrite E. eexists. split; [reflexivity|]. destruct (next_block_spec (skip_to q h b)) as [B _].
  set (r := skip_to q h b) in *. clearbody r. clear E. unfold set_reading_pos. cbn [failb positioned].
  destruct (N.ltb_spec max_size (N.of_nat r)) as [L|L].
  - unfold max_size in L. split; [lia|]. intros _. apply set_unit_end_dead. reflexivity.
  - unfold max_size in L. unfold set_unit_end, find_unit_end, get_current_pos. cbn [good eofb failb negb andb content pos].
    rewrite unit_end_block by lia. unfold set_reading_pos. cbn [failb content pos positioned].
    destruct (N.ltb_spec max_size (N.of_nat (next_block r))) as [L2|L2]; unfold max_size in L2; (split; intros H; [try lia|try lia]).
    + split; reflexivity.
    + reflexivity.
Qed.

Lemma header_turn_inv fc hf c p f f1 : f_stream f = positioned c p -> p < length c -> small c -> read_hdu_header fc hf f = (f1, Ret tt) ->
  dead (f_stream f1) \/
  exists u e name x, head_read fc c u e /\ u_at u = p /\ length (h_cards (u_header u)) <= hf /\
    becomes fc (u_header u) [] name x /\
    f1 = mk_fits (positioned c e) (f_hdus f ++ [x]) (map_set name (mk_info (N.of_nat p) (N.of_nat (u_data_at u)) (length (f_hdus f))) (f_info f)).
Proof.
  intros Hs Hp Sm. unfold read_hdu_header. rewrite Hs, get_pos_positioned.
  destruct (extract_header fc hf (positioned c p)) as [s2 [h| | |]] eqn:Eh; try discriminate.
  destruct (get_hdu_name fc h) as [h1 [name| | |]] eqn:En; try discriminate.
  destruct (get_current_pos s2) as [dl s3] eqn:Ep.
  destruct (construct_hdu fc h1 []) as [x| | |] eqn:Ex; try discriminate.
  destruct (skip_data h1 s3) as [s4 r] eqn:Ed.
  intros H. injection H as <- ->. cbn [push_hdu record_info at_stream f_stream f_hdus f_info].
  pose proof (get_hdu_name_steady fc h) as St. pose proof (get_hdu_name_bitpix fc h) as Bp.
  rewrite En in St, Bp. cbn [fst] in St, Bp. pose proof (steady_size _ _ _ St) as Sz.
  destruct (extract_header_inv _ _ _ _ _ _ Hp Sm Eh) as [D|(R & L & ->)].
  - left. apply get_pos_dead in D. rewrite Ep in D. cbn [snd] in D. exact (skip_dead _ _ _ D Ed).
  - rewrite get_pos_positioned in Ep. injection Ep as <- <-.
    destruct (N.eq_dec (data_size h) 0) as [Z|Z].
    + rewrite skip_none in Ed by congruence. injection Ed as <-. right.
      exists (mk_unit p (next_block (p + header_bytes h)) h []), (next_block (p + header_bytes h)), name, x.
      split; [constructor; assumption|]. split; [reflexivity|]. split; [exact L|]. split; [exists h1; auto|]. reflexivity.
    + destruct (h_bitpix h) as [b|] eqn:Hb.
      * destruct (skip_result h1 b c (next_block (p + header_bytes h))) as (s & E & S1 & S2); [congruence|congruence|].
        rewrite Ed in E. injection E as ->. set (r := skip_to (next_block (p + header_bytes h)) h1 b) in *.
        destruct (N.ltb_spec (N.of_nat (next_block r)) (2 ^ 63)) as [Hr|Hr]; [|left; exact (S2 Hr)].
        right. exists (mk_unit p (next_block (p + header_bytes h)) h []), (next_block r), name, x.
        split; [apply head_with_data with (b := b); try assumption; unfold r, skip_to; rewrite N2Nat.id, Sz; reflexivity|].
        split; [reflexivity|]. split; [exact L|]. split; [exists h1; auto|]. rewrite (S1 Hr). reflexivity.
      * unfold skip_data in Ed. rewrite Sz in Ed. destruct (N.eqb_spec (data_size h) 0); [contradiction|].
        unfold data_bytes, get_bitpix in Ed. rewrite Bp in Ed. cbn [bind] in Ed. discriminate.
Qed.

Lemma header_loop_inv fc hf c : small c -> forall fuel p f f', f_stream f = positioned c p ->
  read_only_headers fc hf fuel f = (f', Ret tt) ->
  exists us names xs e, heads_read fc c p us e /\ length c <= e /\ length names = length xs /\
    Forall2 (fun u nx => becomes fc (u_header u) [] (fst nx) (snd nx)) us (combine names xs) /\
    f_hdus f' = f_hdus f ++ xs /\ f_info f' = catalogue (length (f_hdus f)) us names (f_info f).
Proof.
  intros Sm. induction fuel as [|fuel IH]; intros p f f' Hs H; [discriminate|].
  unfold read_only_headers in H. cbn [read_loop] in H. rewrite Hs in H. destruct (Nat.leb_spec (length c) p) as [Hp|Hp].
  - rewrite at_end_outside in H by exact Hp. injection H as <-. exists [], [], [], p.
    split; [constructor|]. split; [exact Hp|]. split; [reflexivity|]. split; [constructor|].
    unfold at_stream. cbn. rewrite app_nil_r. split; reflexivity.
  - rewrite at_end_inside, (at_here _ _ Hs) in H by exact Hp.
    destruct (read_hdu_header fc hf f) as [f1 [[]| | |]] eqn:Et; try discriminate.
    destruct (header_turn_inv _ _ _ _ _ _ Hs Hp Sm Et) as [D|(u & e & name & x & U & Hu & Hl & B & ->)].
    + pose proof (dead_header_loop fc hf fuel f1 (dead_good _ D) (proj2 D)) as N. unfold read_only_headers in N. rewrite H in N. discriminate.
    + fold (read_only_headers fc hf fuel) in H. apply (IH e) in H; [|reflexivity]. destruct H as (us & names & xs & e' & U' & He & Ln & F & E1 & E2).
      exists (u :: us), (name :: names), (x :: xs), e'. split; [rewrite <- Hu; econstructor; eassumption|]. split; [exact He|].
      split; [cbn; lia|]. split; [constructor; [exact B|exact F]|]. cbn [f_hdus f_info catalogue] in *.
      split; [rewrite E1, <- app_assoc; reflexivity|]. rewrite E2, app_length, Hu, Nat.add_1_r. reflexivity.
Qed.

Lemma head_read_inside fc c u e : head_read fc c u e -> u_at u < length c.
Proof. intros U. destruct U; assumption. Qed.

Lemma head_read_cut fc c k u e : k <= length c -> head_read fc (firstn k c) u e -> head_read fc c u e.
Proof.
  intros Hc U. destruct U as [p h Hp R Z|p h b r Hp R Hb Z Hn Hl]; pose proof (header_end _ _ _ _ R) as He;
    rewrite firstn_length_le in * by exact Hc; apply (readable_cut fc c k) in R; try assumption.
  - constructor; [lia|assumption..].
  - apply head_with_data with (b := b); [lia|assumption..].
Qed.

Lemma head_read_fun fc c u e u' e' : head_read fc c u e -> head_read fc c u' e' -> u_at u = u_at u' -> u = u' /\ e = e'.
Proof.
  intros U U' E. destruct U as [p h Hp R Z|p h b r Hp R Hb Z Hr Hl]; destruct U' as [p' h' Hp' R' Z'|p' h' b' r' Hp' R' Hb' Z' Hr' Hl'];
    cbn [u_at] in E; subst p'; pose proof (readable_fun _ _ _ _ _ R R') as <-; try contradiction.
  - split; reflexivity.
  - rewrite Hb in Hb'. injection Hb' as <-. assert (r = r') by lia. subst r'. split; reflexivity.
Qed.

Lemma heads_read_cut fc c k : k <= length c -> forall p us' e', heads_read fc (firstn k c) p us' e' ->
  forall us e, heads_read fc c p us e -> length c <= e -> exists j, us' = firstn j us.
Proof.
  intros Hc p us' e' U'. induction U' as [p|u1 us1 e1 e' U1 Us1 IH]; intros us e U He; [exists 0; reflexivity|].
  apply head_read_cut in U1; [|exact Hc]. inversion U as [|u us2 e2 ? U2 Us2 Hu]; subst.
  - apply head_read_inside in U1. lia.
  - destruct (head_read_fun _ _ _ _ _ _ U2 U1 Hu) as [-> ->]. destruct (IH us2 e Us2 He) as (j & ->). exists (S j). reflexivity.
Qed.

Theorem cut_headers fc c k hf fuel f hf' fuel' f' : small c -> read_only_headers fc hf fuel (open_fits c) = (f, Ret tt) ->
  read_only_headers fc hf' fuel' (open_fits (firstn k c)) = (f', Ret tt) -> exists j, f_hdus f' = firstn j (f_hdus f).
Proof.
  intros Sm H H'. assert (G : exists k', k' <= length c /\ firstn k c = firstn k' c).
  { destruct (Nat.leb_spec k (length c)) as [Hk|Hk]; [eauto|]. exists (length c). split; [lia|]. rewrite !firstn_all2 by lia. reflexivity. }
  destruct G as (k' & Hk & E). rewrite E in H'. clear E k.
  destruct (header_loop_inv fc hf c Sm fuel 0 (open_fits c) f eq_refl H) as (us & names & xs & e & U & He & Ln & F & E1 & _).
  destruct (header_loop_inv fc hf' _ (small_cut c k' Sm) fuel' 0 (open_fits (firstn k' c)) f' eq_refl H') as (us' & names' & xs' & e' & U' & He' & Ln' & F' & E1' & _).
  cbn [open_fits f_hdus app] in E1, E1'. subst xs xs'.
  destruct (heads_read_cut fc c k' Hk 0 us' e' U' us e U He) as (j & ->). exists j.
  assert (Ej : combine names' (f_hdus f') = combine (firstn j names) (firstn j (f_hdus f))).
  { rewrite combine_firstn'. apply (Forall2_firstn _ j) in F. clear - F F'. revert F F'.
    generalize (firstn j us) (combine names' (f_hdus f')) (firstn j (combine names (f_hdus f))). intros l m m' F.
    revert m. induction F as [|u [n x] l m' H F IH]; intros m F'; inversion F' as [|? [n' x'] ? ? H' F'']; subst; [reflexivity|].
    destruct (becomes_fun _ _ _ _ _ _ _ H H') as [E1 E2]. cbn [fst snd] in E1, E2. subst. f_equal. apply IH. exact F''. }
  destruct (combine_inj _ _ _ _ Ln' (ltac:(rewrite !firstn_length; lia) : length (firstn j names) = length (firstn j (f_hdus f))) Ej) as [_ E].
  exact E.
Qed.

(** A size that wraps around leads back: the same header is read again and again. *)
Theorem header_loop_back fc c p h name x b : small c -> p < length c -> readable fc c p h -> h_bitpix h = Some b -> data_size h <> 0%N ->
  next_block (skip_to (next_block (p + header_bytes h)) h b) = p -> becomes fc h [] name x ->
  forall hf fuel f, length (h_cards h) <= hf -> f_stream f = positioned c p -> snd (read_only_headers fc hf fuel f) = NoFuel.
Proof.
  intros Sm Hp R Hb Z Hr (h1 & En & C) hf fuel. induction fuel as [|fuel IH]; intros f L Hs; [reflexivity|].
  unfold read_only_headers. cbn [read_loop]. rewrite Hs, at_end_inside, (at_here _ _ Hs) by exact Hp.
  unfold read_hdu_header. rewrite Hs, get_pos_positioned, (extract_header_ok fc c _ _ hf R Sm L), En, get_pos_positioned, C.
  pose proof (get_hdu_name_steady fc h) as St. pose proof (get_hdu_name_bitpix fc h) as Bp.
  rewrite En in St, Bp. cbn [fst] in St, Bp. pose proof (steady_size _ _ _ St) as Sz.
  destruct (skip_result h1 b c (next_block (p + header_bytes h))) as (s & E & S1 & _); [congruence|congruence|]. rewrite E.
  assert (Er : skip_to (next_block (p + header_bytes h)) h1 b = skip_to (next_block (p + header_bytes h)) h b) by (unfold skip_to; rewrite Sz; reflexivity).
  rewrite Er, Hr in S1. rewrite S1 by (unfold small in Sm; lia). apply IH; [exact L|reflexivity].
Qed.
