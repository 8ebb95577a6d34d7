(** * Control block, truncated files, HDUs without data, headers only. *)
From Verif Require Export ReaderRewrite.
From Coq Require Import Lia ZifyBool ZifyNat ZifyN.
Open Scope list_scope.

(** ** The control block *)

Lemma map_set_keys {A} k (a : A) m : NoDup (map fst m) ->
  NoDup (map fst (map_set k a m)) /\ forall x, In x (map fst (map_set k a m)) <-> x = k \/ In x (map fst m).
Proof.
  induction m as [|[k' b] m IH]; intros N; cbn [map_set map fst].
  - split; [constructor; [intros []|constructor]|]. intros x. cbn. intuition.
  - inversion N as [|? ? N1 N2]; subst. destruct (str_eqb k k') eqn:E.
    + apply str_eqb_eq in E. subst k'. cbn [map fst]. split; [exact N|]. intros x. cbn. intuition.
    + apply str_eqb_neq in E. destruct (IH N2) as [I1 I2]. cbn [map fst]. split.
      * constructor; [|exact I1]. rewrite I2. intros [<-|H]; [contradiction|contradiction].
      * intros x. cbn [In]. rewrite I2. intuition.
Qed.

Lemma catalogue_keys us : forall i names m, length names = length us -> NoDup (map fst m) ->
  NoDup (map fst (catalogue i us names m)) /\
  forall x, In x (map fst (catalogue i us names m)) <-> In x names \/ In x (map fst m).
Proof.
  induction us as [|u us IH]; intros i [|n names] m L N; cbn in L; try discriminate; cbn [catalogue].
  - split; [exact N|]. intros x. cbn. intuition.
  - destruct (map_set_keys n (mk_info (N.of_nat (u_at u)) (N.of_nat (u_data_at u)) i) m N) as [M1 M2].
    destruct (IH (S i) names _ (ltac:(lia) : length names = length us) M1) as [C1 C2].
    split; [exact C1|]. intros x. rewrite C2, M2. cbn. intuition.
Qed.

Lemma catalogue_find us : forall i names m, length names = length us -> forall n,
  (~ In n names -> map_find n (catalogue i us names m) = map_find n m) /\
  (forall j u, last_position n names j -> nth_error us j = Some u ->
     map_find n (catalogue i us names m) = Some (mk_info (N.of_nat (u_at u)) (N.of_nat (u_data_at u)) (i + j))).
Proof.
  induction us as [|u us IH]; intros i [|a names] m L n; cbn in L; try discriminate; cbn [catalogue].
  - split; [reflexivity|]. intros [|j] u [H _]; discriminate.
  - destruct (IH (S i) names (map_set a (mk_info (N.of_nat (u_at u)) (N.of_nat (u_data_at u)) i) m) ltac:(lia) n) as [I1 I2]. split.
    + intros Hn. rewrite I1 by (intros H; apply Hn; right; exact H). apply map_find_set_other. intros ->. apply Hn. left. reflexivity.
    + intros [|j] v [P1 P2] Hv; cbn in P1, Hv.
      * injection P1 as ->. injection Hv as ->. rewrite I1, map_find_set_same, Nat.add_0_r; [reflexivity|].
        intros H. apply In_nth_error in H as [k Hk]. exact (P2 (S k) ltac:(lia) Hk).
      * rewrite <- Nat.add_succ_comm. apply I2; [|exact Hv]. split; [exact P1|]. intros k Hk. exact (P2 (S k) ltac:(lia)).
Qed.

Lemma last_exists (n : str) names : In n names -> exists j, last_position n names j.
Proof.
  induction names as [|a names IH]; [intros []|]. intros H.
  destruct (in_dec (list_eq_dec ascii_dec) n names) as [Hi|Hi].
  - destruct (IH Hi) as (j & P1 & P2). exists (S j). split; [exact P1|]. intros [|k] Hk; [lia|]. apply P2. lia.
  - destruct H as [->|H]; [|contradiction]. exists 0. split; [reflexivity|]. intros [|k] Hk; [lia|]. cbn.
    intros E. apply Hi. eapply nth_error_In. exact E.
Qed.

Lemma in_keys_find {A} n (m : list (str * A)) : ~ In n (map fst m) -> map_find n m = None.
Proof.
  induction m as [|[k a] m IH]; intros H; [reflexivity|]. cbn [map_find]. destruct (str_eqb n k) eqn:E.
  - apply str_eqb_eq in E. subst k. exfalso. apply H. left. reflexivity.
  - apply IH. intros Hi. apply H. right. exact Hi.
Qed.

Theorem control_block s us names xs0 xs : length names = length us -> length names = length xs ->
  let f := mk_fits s (xs0 ++ xs) (catalogue (length xs0) us names []) in
  (exists d, distinct names d /\ total_hdus f = length d) /\
  (forall n j x, last_position n names j -> nth_error xs j = Some x -> hdu_named n f = Ret x) /\
  (forall n, ~ In n names -> hdu_named n f = Throw OutOfRange).
Proof.
  intros L1 L2. cbv zeta. split; [|split].
  - exists (map fst (catalogue (length xs0) us names [])). destruct (catalogue_keys us (length xs0) names [] L1 (NoDup_nil _)) as [K1 K2].
    split; [split; [exact K1|]|].
    + intros x. rewrite K2. cbn. intuition.
    + unfold total_hdus. cbn [f_info]. rewrite map_length. reflexivity.
  - intros n j x P Hx. unfold hdu_named. cbn [f_info f_hdus].
    assert (Hj : j < length us) by (rewrite <- L1, L2; apply nth_error_Some; congruence).
    destruct (nth_error us j) as [u|] eqn:Hu; [|apply nth_error_None in Hu; lia].
    destruct (catalogue_find us (length xs0) names [] L1 n) as [_ F]. rewrite (F j u P Hu). cbn [hdu_index].
    rewrite nth_error_app2 by lia. replace (length xs0 + j - length xs0) with j by lia. rewrite Hx. reflexivity.
  - intros n Hn. unfold hdu_named. cbn [f_info]. destruct (catalogue_find us (length xs0) names [] L1 n) as [F _].
    rewrite (F Hn). reflexivity.
Qed.

(** ** Truncated files *)

Lemma card_blank : exists c, card_of_string (spaces 80) = Ret c /\ str_eqb (keyword_whole c) (lit "END     ") = false.
Proof. eexists. split; vm_compute; reflexivity. Qed.

Lemma dead_cards fuel : forall s h, good s = false -> snd (read_cards fuel s h) = NoFuel.
Proof.
  induction fuel as [|fuel IH]; intros s h G; [reflexivity|]. cbn [read_cards]. unfold stream_read.
  change (max_size <? 80)%N with false. rewrite G. change (N.to_nat 80) with 80.
  destruct card_blank as (c & E1 & E2). rewrite E1. cbv zeta. rewrite E2. apply IH. unfold good in *. cbn.
  apply andb_false_r.
Qed.

Lemma dead_loop fc hf fuel f : good (f_stream f) = false -> eofb (f_stream f) = false -> snd (read_entire_hdus fc hf fuel f) = NoFuel.
Proof.
  intros G E. destruct fuel as [|fuel]; [reflexivity|]. unfold read_entire_hdus. cbn [read_loop].
  unfold at_end. rewrite G, E. unfold read_hdu. cbn [f_stream at_stream]. unfold get_current_pos. cbn [good eofb failb negb andb content pos].
  change (good {| content := content (f_stream f); pos := pos (f_stream f); eofb := false; failb := true |}) with false.
  cbv iota. unfold extract_header, read_header. cbn [eofb content pos].
  pose proof (dead_cards hf (mk_stream (content (f_stream f)) (pos (f_stream f)) false true) fresh_header eq_refl) as D.
  destruct (read_cards hf _ fresh_header) as [[s1 h1] r]. cbn [snd] in D. subst r. reflexivity.
Qed.

Lemma read_prefix_short fc c p us e : units_to fc c p us e -> small c -> forall hf fuel names xs f,
  f_stream f = positioned c p ->
  Forall (fun u => length (h_cards (u_header u)) <= hf) us ->
  Forall2 (becoming fc) us (combine names xs) -> length names = length xs -> fuel <= length us ->
  snd (read_entire_hdus fc hf fuel f) = NoFuel.
Proof.
  intros U Sm. induction U as [p|u us e e' U Us IH]; intros hf fuel names xs f Hs Hf F2 Lnx Hle.
  - cbn in Hle. replace fuel with 0 by lia. reflexivity.
  - destruct fuel as [|fuel]; [reflexivity|]. inversion Hf as [|? ? Hf1 Hf2]; subst.
    destruct names as [|name names]; destruct xs as [|x xs]; cbn in Lnx; try discriminate; cbn [combine] in F2; inversion F2 as [|? ? ? ? B1 B2]; subst.
    unfold becoming in B1. cbn [fst snd] in B1.
    rewrite (loop_unit _ _ _ _ _ _ _ U Hs Sm Hf1), (turn_becomes _ _ _ _ _ _ _ _ _ B1).
    eapply IH; [reflexivity|exact Hf2|exact B2|lia|cbn in Hle; lia].
Qed.

(** Any turn that leaves the stream failed but not at its end, after any number of good units. *)
Lemma prefix_then fc c p us q : units_to fc c p us q -> small c -> forall hf fuel names xs f,
  f_stream f = positioned c p ->
  Forall (fun u => length (h_cards (u_header u)) <= hf) us ->
  Forall2 (becoming fc) us (combine names xs) -> length names = length xs ->
  (forall fuel' f', f_stream f' = positioned c q -> f_hdus f' = f_hdus f ++ xs -> snd (read_entire_hdus fc hf fuel' f') = NoFuel) ->
  snd (read_entire_hdus fc hf fuel f) = NoFuel.
Proof.
  intros U Sm hf fuel names xs f Hs Hf F2 Lnx K. destruct (Nat.leb_spec fuel (length us)) as [Hle|Hlt].
  - eapply read_prefix_short; eassumption.
  - replace fuel with (length us + (fuel - length us)) by lia.
    rewrite (read_prefix fc c p us q U Sm hf _ names xs f Hs Hf F2 Lnx). apply K; reflexivity.
Qed.

Lemma read_hdu_truncated fc hf c p h b n f : f_stream f = positioned c p -> small c -> readable fc c p h ->
  length (h_cards h) <= hf -> h_bitpix h = Some b -> data_size h <> 0%N ->
  N.of_nat n = (data_size h * element_size b)%N -> (N.of_nat n < 2 ^ 63)%N ->
  length c < next_block (p + header_bytes h) + n ->
  exists s, good s = false /\ eofb s = false /\
  read_hdu fc hf f = turn_result fc h (filled c (next_block (p + header_bytes h)) n) p (next_block (p + header_bytes h)) s f.
Proof.
  intros Hs Sm R L Hb Z Hn Hn2 Hl. set (q := next_block (p + header_bytes h)) in *.
  assert (Hn0 : n <> 0) by (intros ->; assert (0 < element_size b)%N by (destruct b; cbn; lia); cbn in Hn; nia).
  exists (mk_stream c (N.max (N.of_nat q) (N.of_nat (length c))) false true). split; [reflexivity|]. split; [reflexivity|].
  unfold read_hdu. rewrite Hs, get_pos_positioned.
  rewrite (extract_header_ok fc c p h hf R Sm L), get_pos_positioned. fold q. unfold extract_data.
  destruct (N.eqb_spec (data_size h) 0) as [|_]; [contradiction|].
  unfold data_bytes, get_bitpix. rewrite Hb. cbn [bind]. unfold mul64. rewrite <- Hn, N.mod_small by (unfold two64; lia).
  unfold stream_read. destruct (N.ltb_spec max_size (N.of_nat n)) as [Lm|_]; [unfold max_size in Lm; lia|].
  cbn [good positioned eofb failb negb andb]. unfold remaining. cbn [pos content positioned]. rewrite Nat2N.id, skipn_length.
  destruct (N.leb_spec (N.of_nat n) (N.of_nat (length c - q))) as [|_]; [lia|].
  rewrite Nat2N.id. unfold set_unit_end, find_unit_end, get_current_pos. cbn [good eofb failb negb andb content pos].
  unfold set_reading_pos. cbn [failb content pos eofb]. unfold turn_result, filled. reflexivity.
Qed.

Theorem truncated_forever fc c p us q h b n name x : units_to fc c p us q -> small c -> q < length c -> readable fc c q h ->
  h_bitpix h = Some b -> data_size h <> 0%N -> N.of_nat n = (data_size h * element_size b)%N -> (N.of_nat n < 2 ^ 63)%N ->
  length c < next_block (q + header_bytes h) + n ->
  becomes fc h (filled c (next_block (q + header_bytes h)) n) name x ->
  forall hf fuel names xs f, f_stream f = positioned c p ->
  Forall (fun u => length (h_cards (u_header u)) <= hf) us -> length (h_cards h) <= hf ->
  Forall2 (becoming fc) us (combine names xs) -> length names = length xs ->
  snd (read_entire_hdus fc hf fuel f) = NoFuel.
Proof.
  intros U Sm Hq R Hb Z Hn Hn2 Hl B hf fuel names xs f Hs Hf Hh F2 Lnx.
  eapply prefix_then; [exact U|exact Sm|exact Hs|exact Hf|exact F2|exact Lnx|].
  intros fuel' f' Hs' _. destruct fuel' as [|fuel']; [reflexivity|].
  unfold read_entire_hdus. cbn [read_loop]. rewrite Hs', at_end_inside by exact Hq.
  assert (E : at_stream (positioned c q) f' = f') by (destruct f'; cbn in *; subst; reflexivity). rewrite E.
  destruct (read_hdu_truncated fc hf c q h b n f' Hs' Sm R Hh Hb Z Hn Hn2 Hl) as (s & G & Ee & Er).
  rewrite Er, (turn_becomes _ _ _ _ _ _ _ _ _ B). apply dead_loop; assumption.
Qed.

Theorem truncated_throws fc c p us q h b n e : units_to fc c p us q -> small c -> q < length c -> readable fc c q h ->
  h_bitpix h = Some b -> data_size h <> 0%N -> N.of_nat n = (data_size h * element_size b)%N -> (N.of_nat n < 2 ^ 63)%N ->
  length c < next_block (q + header_bytes h) + n ->
  fails fc h (filled c (next_block (q + header_bytes h)) n) e ->
  forall hf fuel names xs f, f_stream f = positioned c p ->
  Forall (fun u => length (h_cards (u_header u)) <= hf) us -> length (h_cards h) <= hf -> length us < fuel ->
  Forall2 (becoming fc) us (combine names xs) -> length names = length xs ->
  exists f1, read_entire_hdus fc hf fuel f = (f1, Throw e) /\ f_hdus f1 = f_hdus f ++ xs.
Proof.
  intros U Sm Hq R Hb Z Hn Hn2 Hl B hf fuel names xs f Hs Hf Hh Hfu F2 Lnx.
  replace fuel with (length us + S (fuel - length us - 1)) by lia.
  rewrite (read_prefix fc c p us q U Sm hf _ names xs f Hs Hf F2 Lnx).
  match goal with |- context [read_entire_hdus _ _ _ ?g] => set (f' := g) end.
  unfold read_entire_hdus. cbn [read_loop]. change (f_stream f') with (positioned c q). rewrite at_end_inside by exact Hq.
  change (at_stream (positioned c q) f') with f'.
  destruct (read_hdu_truncated fc hf c q h b n f' eq_refl Sm R Hh Hb Z Hn Hn2 Hl) as (s & G & Ee & Er). rewrite Er.
  match goal with |- context [turn_result ?a ?b ?c ?d ?e ?f ?g] => destruct (turn_fails a b c d e f g _ B) as (f1 & E & H) end.
  rewrite E. exists f1. split; [reflexivity|exact H].
Qed.

(** ** HDUs without data *)

Lemma unit_text_no_data rs : unit_text rs [] = (concat rs ++ spaces (pad_len (length (concat rs)))) ++ spaces 2880.
Proof. unfold unit_text. cbn [length app]. rewrite app_assoc. reflexivity. Qed.

Lemma blank_block_forever fc c p : p < length c -> (forall i, p <= i < length c -> char_at c i = " "%char) ->
  forall hf fuel f, f_stream f = positioned c p -> snd (read_entire_hdus fc hf fuel f) = NoFuel.
Proof.
  intros Hp Hb hf fuel f Hs. destruct fuel as [|fuel]; [reflexivity|].
  unfold read_entire_hdus. cbn [read_loop]. rewrite Hs, at_end_inside by exact Hp.
  unfold read_hdu. cbn [f_stream at_stream]. rewrite get_pos_positioned. unfold extract_header.
  pose proof (forever_inside (positioned c p) eq_refl) as K. cbn [content pos positioned] in K. rewrite Nat2N.id in K.
  assert (Hr : forall k, record_at c p k = spaces 80).
  { intros k. unfold record_at. change (spaces 80) with (map (fun _ => " "%char) (seq 0 80)). apply map_ext. intros j.
    destruct (Nat.ltb_spec (p + 80 * k + j) (length c)) as [H|H].
    - apply Hb. lia.
    - unfold char_at. rewrite nth_overflow by exact H. reflexivity. }
  specialize (K (fun k _ => ltac:(rewrite Hr; split; [apply blank_acceptable|discriminate])) fc hf fresh_header).
  fold (positioned c p) in K.
  destruct (read_header fc hf (positioned c p) fresh_header) as [[s1 h1] r]. cbn [snd] in K. subst r. reflexivity.
Qed.

Lemma char_at_spaces_end a n i : length a <= i < length (a ++ spaces n) -> char_at (a ++ spaces n) i = " "%char.
Proof.
  intros H. rewrite char_at_app2 by lia. unfold char_at. rewrite app_length, length_spaces in H.
  apply nth_repeat.
Qed.

(** A written file whose last HDU has no data cannot be read. *)
Theorem no_data_last fc l h name x names xs hf fuel :
  Forall (fun hd => matching fc (fst hd) (snd hd) /\ snd hd <> []) l ->
  (exists c p, readable fc c p h) -> data_size h = 0%N -> becomes fc h [] name x ->
  let c := concat (map (fun hd => unit_text (map raw (h_cards (fst hd))) (snd hd)) (l ++ [(h, [])])) in
  small c -> Forall (fun hd => length (h_cards (fst hd)) <= hf) (l ++ [(h, [])]) ->
  Forall2 (fun hd nx => becomes fc (fst hd) (snd hd) (fst nx) (snd nx)) l (combine names xs) -> length names = length xs ->
  snd (read_entire_hdus fc hf fuel (open_fits c)) = NoFuel.
Proof.
  intros Fm (c0 & p0 & R) Z B c Sm Hf F2 Lnx. unfold c in *. clear c. apply Forall_app in Hf as [Hf Hh]. inversion Hh as [|? ? Hh1 _]; subst. cbn [fst] in Hh1.
  rewrite map_app, concat_app in *. cbn [map concat fst snd] in *. rewrite app_nil_r in *.
  set (pre := concat (map (fun hd => unit_text (map raw (h_cards (fst hd))) (snd hd)) l)) in *.
  rewrite unit_text_no_data in *. set (rs := map raw (h_cards h)) in *. set (blk := spaces 2880) in *.
  assert (Mp : length pre mod 2880 = 0).
  { unfold pre. clear. induction l as [|hd l IH]; [reflexivity|]. cbn [map concat]. rewrite app_length, Nat.add_mod by lia. rewrite IH.
    destruct (unit_text_length (map raw (h_cards (fst hd))) (snd hd)) as [_ ->]. reflexivity. }
  set (c := pre ++ (concat rs ++ spaces (pad_len (length (concat rs)))) ++ blk) in *.
  destruct (readable_records _ _ _ _ R) as (_ & Hpos & Lh).
  assert (Rc : readable fc c (length pre) h).
  { unfold c. rewrite <- app_assoc. apply (readable_copy _ _ _ _ pre _ R). }
  assert (Lb : length blk = 2880) by apply length_spaces.
  assert (Hq : next_block (length pre + header_bytes h) = length (pre ++ concat rs ++ spaces (pad_len (length (concat rs))))).
  { rewrite next_block_shift by exact Mp. rewrite !app_length, length_spaces. fold rs in Lh. rewrite Lh. reflexivity. }
  assert (Lc : length c = next_block (length pre + header_bytes h) + 2880).
  { rewrite Hq. unfold c. rewrite !app_length, Lb. lia. }
  assert (Ul : exists us, units_to fc c 0 us (length pre) /\ map (fun u => (u_header u, u_data u)) us = l).
  { exists (placed 0 l). split; [|apply placed_units].
    exact (units_to_written fc l [] ((concat rs ++ spaces (pad_len (length (concat rs)))) ++ blk) eq_refl Fm). }
  destruct Ul as (us & Ul & El).
  apply (prefix_then fc c 0 us (length pre) Ul Sm hf fuel names xs).
  - reflexivity.
  - rewrite <- El in Hf. rewrite Forall_map in Hf. exact Hf.
  - rewrite <- El in F2. clear -F2. revert F2. generalize (combine names xs). induction us as [|u us IH]; intros k H; inversion H; subst; constructor; [assumption|auto].
  - exact Lnx.
  - intros fuel' f' Hs' _. destruct fuel' as [|fuel']; [reflexivity|].
    assert (Un : unit_in fc c (mk_unit (length pre) (next_block (length pre + header_bytes h)) h []) (next_block (length pre + header_bytes h))).
    { apply unit_no_data; [|exact Rc|exact Z]. rewrite Lc. destruct (next_block_spec (length pre + header_bytes h)). lia. }
    rewrite (loop_unit fc hf c _ _ f' fuel' Un Hs' Sm Hh1). cbn [u_header u_data u_at u_data_at].
    rewrite (turn_becomes _ _ _ _ _ _ _ _ _ B). apply (blank_block_forever fc c (next_block (length pre + header_bytes h))).
    + lia.
    + intros i Hi. rewrite Hq in Hi. unfold c in Hi |- *. clear -Hi. rewrite (app_assoc pre (concat rs ++ _) blk) in Hi |- *. apply char_at_spaces_end. exact Hi.
    + reflexivity.
Qed.

Lemma header_at_unique c p n m : header_at c p n -> header_at c p m -> n = m.
Proof.
  intros (A1 & A2 & A3) (B1 & B2 & B3). destruct (Nat.lt_trichotomy n m) as [H|[H|H]]; [|exact H|].
  - exfalso. exact (B2 n H A3).
  - exfalso. exact (A2 m H B3).
Qed.

(** The header after an HDU without data begins with the blank block. *)
Theorem no_data_next fc h h2 pre post h' : length pre mod 2880 = 0 -> (exists c p, readable fc c p h) -> (exists c p, readable fc c p h2) ->
  let c := pre ++ unit_text (map raw (h_cards h)) [] ++ concat (map raw (h_cards h2)) ++ post in
  readable fc c (next_block (length pre + header_bytes h)) h' ->
  map raw (h_cards h') = repeat (spaces 80) 36 ++ map raw (h_cards h2).
Proof.
  intros Mp (c1 & p1 & R1) (c2 & p2 & R2) c R. destruct (readable_records _ _ _ _ R1) as (_ & _ & L1).
  destruct (readable_records _ _ _ _ R2) as (F2 & _ & _).
  destruct R2 as [(fuel2 & s2 & R2) _]. destruct (read_header_raws _ _ _ _ _ (good_positioned c2 p2) R2) as (n & Hh & E2).
  cbn [content pos positioned] in *. rewrite Nat2N.id in *.
  set (a := pre ++ concat (map raw (h_cards h)) ++ spaces (pad_len (length (concat (map raw (h_cards h)))))).
  assert (Hq : next_block (length pre + header_bytes h) = length a).
  { rewrite next_block_shift by exact Mp. unfold a. rewrite !app_length, length_spaces, L1. reflexivity. }
  set (bl := repeat (spaces 80) 36). set (rs := map raw (h_cards h2)) in *.
  assert (Ec : c = a ++ concat (bl ++ rs) ++ post).
  { unfold c, a. rewrite unit_text_no_data, concat_app. change (concat bl) with (spaces 2880). rewrite <- !app_assoc. reflexivity. }
  assert (F : Forall (fun r => length r = 80) (bl ++ rs)).
  { apply Forall_app. split; [|exact F2]. apply Forall_forall. intros r Hr. apply repeat_spec in Hr. subst r. apply length_spaces. }
  assert (Lr : length rs = S n) by (rewrite E2; apply records_length).
  assert (Lbl : length bl = 36) by reflexivity.
  assert (Rk : forall k r, nth_error (bl ++ rs) k = Some r -> record_at c (length a) k = r).
  { intros k r Hk. rewrite Ec. apply record_at_concat; assumption. }
  assert (Hat : header_at c (length a) (36 + n)).
  { destruct Hh as (A1 & A2 & A3).
    assert (Hlow : forall k, k < 36 -> record_at c (length a) k = spaces 80).
    { intros k Hk. apply Rk. rewrite nth_error_app1 by (rewrite Lbl; exact Hk). unfold bl. apply nth_error_repeat. exact Hk. }
    assert (Hhigh : forall k, k <= n -> record_at c (length a) (36 + k) = record_at c2 p2 k).
    { intros k Hk. apply Rk. rewrite nth_error_app2 by (rewrite Lbl; lia). rewrite Lbl. replace (36 + k - 36) with k by lia.
      rewrite E2. apply records_nth. exact Hk. }
    split; [|split].
    - intros k Hk. destruct (Nat.ltb_spec k 36) as [Hl|Hl]; [rewrite Hlow by exact Hl; apply blank_acceptable|].
      replace k with (36 + (k - 36)) by lia. rewrite Hhigh by lia. apply A1. lia.
    - intros k Hk. destruct (Nat.ltb_spec k 36) as [Hl|Hl]; [rewrite Hlow by exact Hl; discriminate|].
      replace k with (36 + (k - 36)) by lia. rewrite Hhigh by lia. apply A2. lia.
    - rewrite Hhigh by lia. exact A3. }
  rewrite Hq in R. destruct R as [(fuel & s & R) _]. destruct (read_header_raws _ _ _ _ _ (good_positioned c (length a)) R) as (m & Hm & Em).
  cbn [content pos positioned] in *. rewrite Nat2N.id in *.
  rewrite Em, <- (header_at_unique _ _ _ _ Hat Hm), Ec. apply records_concat; [exact F|]. rewrite app_length, Lbl, Lr. lia.
Qed.

(** ** Headers only *)

Lemma skip_none h s : data_size h = 0%N -> skip_data h s = (s, Ret tt).
Proof. intros Z. unfold skip_data. rewrite Z. reflexivity. Qed.

Lemma skip_some h c q b n : h_bitpix h = Some b -> data_size h <> 0%N ->
  N.of_nat n = (data_size h * element_size b)%N -> (N.of_nat (q + n) < 2 ^ 62)%N ->
  skip_data h (positioned c q) = (positioned c (next_block (q + n)), Ret tt).
Proof.
  intros Hb Z Hn Hl. unfold skip_data. destruct (N.eqb_spec (data_size h) 0) as [|_]; [contradiction|].
  unfold data_bytes, get_bitpix. rewrite Hb. cbn [bind]. unfold mul64. rewrite <- Hn, N.mod_small by (unfold two64; lia).
  rewrite get_pos_positioned. unfold set_reading_pos. cbn [failb positioned].
  rewrite N.mod_small by (unfold two64; lia).
  destruct (N.ltb_spec max_size (N.of_nat q + N.of_nat n)) as [L|_]; [unfold max_size in L; lia|].
  unfold set_unit_end, find_unit_end, get_current_pos. cbn [good eofb failb negb andb content pos positioned].
  replace (N.of_nat q + N.of_nat n)%N with (N.of_nat (q + n)) by lia. rewrite unit_end_block by lia.
  unfold set_reading_pos. cbn [failb content pos].
  destruct (next_block_spec (q + n)) as [B _].
  destruct (N.ltb_spec max_size (N.of_nat (next_block (q + n)))) as [L|_]; [unfold max_size in L; lia|]. reflexivity.
Qed.

Lemma steady_size fc h h1 : steady fc h h1 -> data_size h1 = data_size h.
Proof. intros St. unfold data_size. rewrite (st_naxis _ _ _ St). reflexivity. Qed.

Lemma header_turn fc hf c u e f name x : announced fc c u e -> f_stream f = positioned c (u_at u) -> small c ->
  length (h_cards (u_header u)) <= hf -> becomes fc (u_header u) [] name x ->
  read_hdu_header fc hf f = (mk_fits (positioned c e) (f_hdus f ++ [x])
    (map_set name (mk_info (N.of_nat (u_at u)) (N.of_nat (u_data_at u)) (length (f_hdus f))) (f_info f)), Ret tt).
Proof.
  intros A Hs Sm L (h1 & En & C). unfold read_hdu_header. rewrite Hs, get_pos_positioned.
  assert (R : readable fc c (u_at u) (u_header u)) by (destruct A; assumption).
  rewrite (extract_header_ok fc c _ _ hf R Sm L), En, get_pos_positioned, C.
  pose proof (get_hdu_name_steady fc (u_header u)) as St. pose proof (get_hdu_name_bitpix fc (u_header u)) as Bp.
  rewrite En in St, Bp. cbn [fst] in St, Bp. pose proof (steady_size _ _ _ St) as Sz.
  destruct A as [p h Hp R' Z|p h b n Hp R' Hb Z Hn Hl]; cbn [u_at u_data_at u_header] in *.
  - rewrite skip_none by congruence. reflexivity.
  - rewrite (skip_some h1 c _ b n); [reflexivity|congruence|congruence|congruence|exact Hl].
Qed.

Lemma announced_inside fc c u e : announced fc c u e -> u_at u < length c.
Proof. intros A. destruct A; assumption. Qed.

Theorem headers_only fc c p us : announced_units fc c p us -> small c -> forall hf fuel names xs f,
  f_stream f = positioned c p ->
  Forall (fun u => length (h_cards (u_header u)) <= hf) us -> length us < fuel ->
  Forall2 (fun u nx => becomes fc (u_header u) [] (fst nx) (snd nx)) us (combine names xs) -> length names = length xs ->
  exists s, read_only_headers fc hf fuel f = (mk_fits s (f_hdus f ++ xs) (catalogue (length (f_hdus f)) us names (f_info f)), Ret tt).
Proof.
  intros A Sm. induction A as [p He|u us e A As IH]; intros hf fuel names xs f Hs Hf Hlen F2 Lnx.
  - inversion F2 as [E|]; subst. destruct names, xs; cbn in *; try discriminate. destruct fuel as [|fuel]; [lia|].
    unfold read_only_headers. cbn [read_loop]. rewrite Hs, at_end_outside by exact He.
    eexists. rewrite app_nil_r. destruct f; reflexivity.
  - destruct fuel as [|fuel]; [cbn in Hlen; lia|]. inversion Hf as [|? ? Hf1 Hf2]; subst.
    destruct names as [|name names]; destruct xs as [|x xs]; cbn in Lnx; try discriminate; cbn [combine] in F2; inversion F2 as [|? ? ? ? B1 B2]; subst.
    cbn [fst snd] in B1. unfold read_only_headers. cbn [read_loop]. rewrite Hs, at_end_inside by exact (announced_inside _ _ _ _ A).
    assert (Hs' : at_stream (positioned c (u_at u)) f = f) by (destruct f; cbn in *; subst; reflexivity). rewrite Hs'.
    rewrite (header_turn fc hf c u e f name x A Hs Sm Hf1 B1).
    match goal with |- exists s, read_loop _ _ ?f1 = _ =>
      destruct (IH hf fuel names xs f1 eq_refl Hf2 ltac:(cbn in Hlen; lia) B2 ltac:(lia)) as (s & E) end.
    exists s. unfold read_only_headers in E. rewrite E. cbn [f_hdus f_info catalogue].
    rewrite <- app_assoc, app_length. cbn [app length]. rewrite Nat.add_1_r. reflexivity.
Qed.

(** The units of a complete file are announced where they are. *)
Definition without_data (u : file_unit) : file_unit := mk_unit (u_at u) (u_data_at u) (u_header u) [].

Lemma units_announced fc c p us : units fc c p us -> small c -> announced_units fc c p (map without_data us).
Proof.
  intros (e & U & He) Sm. induction U as [p|u us e e' U Us IH]; cbn [map]; [constructor; exact He|].
  refine (announced_next _ _ (without_data u) _ e _ (IH He)). unfold small in Sm.
  destruct U as [p h Hp R Z|p h b n Hp R Hb Z Hn Hl]; cbn [without_data u_at u_data_at u_header].
  - constructor; assumption.
  - apply announced_some with (b := b); [assumption..|lia].
Qed.

Lemma catalogue_without us : forall i names m, catalogue i (map without_data us) names m = catalogue i us names m.
Proof. induction us as [|u us IH]; intros i [|n names] m; cbn [map catalogue]; try reflexivity. apply IH. Qed.

(** What was read without data is written without data. *)
Lemma no_buffer_no_data fc h name x : reached fc h -> becomes fc h [] name x -> x <> HBlank ->
  written_as x (map raw (h_cards h)) [].
Proof.
  intros R B Hx. destruct x as [|p|t|t]; [contradiction| | |].
  - destruct B as (h1 & En & C). unfold construct_hdu in C.
    destruct (contains_keyword (lit "SIMPLE") h1).
    2: { unfold make_extension in C. destruct (value_str fc (lit "XTENSION") h1) as [h2 [x| | |]]; try discriminate.
         destruct (str_eqb x (lit "TABLE")); [destruct (ascii_table fc h2 []); discriminate|].
         destruct (str_eqb x (lit "BINTABLE")); [destruct (binary_table fc h2 []); discriminate|discriminate]. }
    destruct (make_primary fc h1 []) as [p'| | |] eqn:M; try discriminate. cbn [bind] in C.
    assert (p' = p) by congruence. subst p'.
    destruct (make_primary_inv _ _ _ _ M) as (b & h2 & E1 & E2 & E3 & E4 & E5 & St).
    cbn [read_image] in E2. apply ret_inj in E2. cbn [written_as]. rewrite <- E2, E4. split; [|reflexivity].
    rewrite (st_raw _ _ _ St). pose proof (get_hdu_name_steady fc h) as S0. rewrite En in S0. symmetry. apply S0.
  - destruct (becomes_table fc _ _ name t false R B) as (h1 & h2 & En & K & V & R2 & St & T). cbn [negb] in T.
    destruct (binary_table_inv _ _ _ _ R2 T) as (h3 & n & cols & ws & M & A1 & A2 & A3 & W & L' & Ln & St3 & D & _).
    cbn [written_as]. rewrite (D eq_refl), A1, (st_raw _ _ _ St3). split; [symmetry; apply St|reflexivity].
  - destruct (becomes_table fc _ _ name t true R B) as (h1 & h2 & En & K & V & R2 & St & T). cbn [negb] in T.
    destruct (ascii_table_inv _ _ _ _ R2 T) as (h3 & n & cols & M & A1 & A2 & A3 & Fn & Ln & St3 & I & D & _).
    cbn [written_as]. rewrite (D eq_refl), A1, (st_raw _ _ _ St3). split; [symmetry; apply St|].
    exists []. split; [constructor|reflexivity].
Qed.

(** ** Unsupported extensions *)

Theorem blank_dropped l : forall s, write_hdus l s = write_hdus (filter (fun x => match x with HBlank => false | _ => true end) l) s.
Proof.
  induction l as [|x l IH]; intros s; [reflexivity|]. destruct x; cbn [filter write_hdus write_hdu]; rewrite ?IH; try reflexivity.
  destruct (ascii_write t s) as [s1 [u| | |]]; try reflexivity. apply IH.
Qed.

(** ** 8-bit primary data *)

Theorem primary_b8 fc u name p : reached fc (u_header u) -> becomes fc (u_header u) (u_data u) name (HPrimary p) ->
  p_kind p = B8 -> u_data u <> [] ->
  written_as (HPrimary p) (map raw (h_cards (u_header u))) (repeat zero (length (u_data u))) /\ belongs fc u name (HPrimary p).
Proof.
  intros R (h1 & En & C) Hb Hd. unfold construct_hdu in C.
  destruct (contains_keyword (lit "SIMPLE") h1) eqn:K.
  2: { unfold make_extension in C. destruct (value_str fc (lit "XTENSION") h1) as [h2 [x| | |]]; try discriminate.
       destruct (str_eqb x (lit "TABLE")); [destruct (ascii_table fc h2 (u_data u)); discriminate|].
       destruct (str_eqb x (lit "BINTABLE")); [destruct (binary_table fc h2 (u_data u)); discriminate|discriminate]. }
  destruct (make_primary fc h1 (u_data u)) as [p'| | |] eqn:M; try discriminate. cbn [bind] in C.
  assert (p' = p) by congruence. subst p'. clear C.
  destruct (make_primary_inv _ _ _ _ M) as (b & h2 & E1 & E2 & E3 & E4 & E5 & St). rewrite Hb in E5. subst b.
  rewrite image_b8_zero in E2 by exact Hd. apply ret_inj in E2.
  assert (W : written_as (HPrimary p) (map raw (h_cards (u_header u))) (repeat zero (length (u_data u)))).
  { cbn [written_as]. rewrite Hb, <- E2, write_b8_zero, E4. split; [|reflexivity].
    rewrite (st_raw _ _ _ St). pose proof (get_hdu_name_steady fc (u_header u)) as S0. rewrite En in S0. symmetry. apply S0. }
  split; [exact W|]. exists (repeat zero (length (u_data u))). split; [exact W|]. split; [apply repeat_length|].
  exists h1. split; [exact En|]. unfold construct_hdu. rewrite K. unfold make_primary, get_bitpix. rewrite E1. cbn [bind].
  rewrite image_b8_zero by (destruct (u_data u); [contradiction|discriminate]). rewrite repeat_length, E2.
  cbn [bind]. fold (primary_meta fc). rewrite E3. cbn [bind]. destruct p as [x1 x2 x3 x4 x5]; cbn [p_header p_kind p_image p_simple p_extend] in *; subst; reflexivity.
Qed.

(** ** EXTEND *)

Lemma value_of_again fc t key h h2 v : value_of fc t key h = (h2, Ret v) -> value_of fc t key h2 = (h2, Ret v).
Proof.
  unfold value_of. destruct (map_find key (h_index h)) as [i|] eqn:I; [|discriminate]. unfold value_at.
  destruct (nth_error (h_cards h) i) as [c|] eqn:E; [|discriminate].
  destruct (value fc t c) as [c' r] eqn:V. intros H. assert (r = Ret v) by congruence. subst r.
  assert (h2 = set_cards h (replace_nth i c' (h_cards h))) by congruence. subst h2. clear H.
  pose proof (value_ret_caches fc t c v) as C. rewrite V in C. destruct (C eq_refl) as [C1 C2]. cbn [fst] in C1.
  cbn [set_cards h_index h_cards]. rewrite I, (nth_replace_same _ _ _ _ E). unfold value. rewrite C1.
  unfold get_as. rewrite C2. replace (cty_eqb t t) with true by (destruct t; reflexivity). f_equal.
  unfold set_cards. cbn. f_equal. clear. revert i. induction (h_cards h) as [|x l IH]; intros [|i]; cbn; try reflexivity. rewrite IH. reflexivity.
Qed.

Lemma contains_steady fc key h h1 : steady fc h h1 -> contains_keyword key h1 = contains_keyword key h.
Proof.
  intros St. unfold contains_keyword. pose proof (st_raw _ _ _ St) as E.
  revert E. generalize (h_cards h1). induction (h_cards h) as [|x l IH]; intros [|y k] E; try discriminate; [reflexivity|].
  cbn [map] in E. injection E as E1 E2. cbn [existsb]. rewrite (IH k E2). f_equal. unfold keyword. rewrite E1. reflexivity.
Qed.

Lemma value_of_type_bool fc h key h2 v : value_of fc TBool key h = (h2, Ret v) -> exists q, v = VBool q.
Proof.
  unfold value_of. destruct (map_find key (h_index h)) as [i|]; [|discriminate]. unfold value_at.
  destruct (nth_error (h_cards h) i) as [c|]; [|discriminate].
  destruct (value fc TBool c) as [c' r] eqn:V. intros H. assert (r = Ret v) by congruence. subst r.
  pose proof (value_ret_caches fc TBool c v) as C. rewrite V in C. destruct (C eq_refl) as [_ C2].
  destruct v; try discriminate. eauto.
Qed.

Theorem no_extend fc h d b im h1 name : reached fc h -> h_bitpix h = Some b -> read_image b d empty_image = Ret im ->
  contains_keyword (lit "SIMPLE") h = true ->
  last_record (lit "XTENSION") (map raw (h_cards h)) = None -> last_record (lit "EXTEND") (map raw (h_cards h)) = None ->
  get_hdu_name fc h = (h1, Ret name) ->
  fails fc h d OutOfRange.
Proof.
  intros R Hb Hi K X E En. right. exists h1, name. split; [exact En|]. unfold construct_hdu.
  assert (R1 : reached fc h1) by (replace h1 with (fst (get_hdu_name fc h)) by (rewrite En; reflexivity); constructor; exact R).
  pose proof (get_hdu_name_steady fc h) as St. pose proof (get_hdu_name_bitpix fc h) as Bp. rewrite En in St, Bp. cbn [fst] in St, Bp.
  rewrite (contains_steady _ _ _ _ St), K.
  unfold make_primary, get_bitpix. rewrite Bp, Hb. cbn [bind]. rewrite Hi. cbn [bind].
  assert (Missing : forall g key, reached fc g -> ~ mandatory_key (length (h_naxis g)) key -> last_record key (map raw (h_cards g)) = None ->
    forall t, value_of fc t key g = (g, Throw OutOfRange)).
  { intros g key Rg Hk Hl t. destruct (reached_good fc g Rg) as [_ Ig]. destruct (reached_facts fc g Rg) as [_ Rec].
    unfold value_of. rewrite Ig; [reflexivity|]. rewrite Rec by exact Hk. exact Hl. }
  unfold get_hdu_name in En. rewrite (Missing h (lit "XTENSION") R) in En by (first [exact X|apply not_mandatory; discriminate]).
  destruct (value_of fc TBool (lit "SIMPLE") h) as [h2 [v| | |]] eqn:V; try discriminate.
  assert (h2 = h1) by congruence. subst h2. pose proof (value_of_again _ _ _ _ _ _ V) as V1.
  unfold value_bool at 1, hbind at 1 2. rewrite V1.
  assert (Tv : exists q, v = VBool q).
  { pose proof (value_of_type_bool fc h (lit "SIMPLE") h1 v V) as T. exact T. }
  destruct Tv as (q & ->). cbn [hlift of_bool]. unfold value_bool, hbind.
  rewrite (Missing h1 (lit "EXTEND") R1); [reflexivity|apply not_mandatory; discriminate|]. rewrite (st_raw _ _ _ St). exact E.
Qed.

(** ** Objects that were not changed *)

Lemma with_pixels_same p : with_pixels p (pixels (p_image p)) = p.
Proof. destruct p as [a b [c d] e f]. reflexivity. Qed.
Lemma with_cells_same t : with_cells t (t_data t) = t.
Proof. destruct t. reflexivity. Qed.

Theorem primary_unedited fc u name p : reached fc (u_header u) -> matching fc (u_header u) (u_data u) ->
  becomes fc (u_header u) (u_data u) name (HPrimary p) -> p_kind p <> B8 -> u_data u <> [] ->
  written_as (HPrimary p) (map raw (h_cards (u_header u))) (u_data u) /\ belongs fc u name (HPrimary p).
Proof.
  intros R (_ & b & Hb & Hn) B Hk Hd. pose proof B as (h1 & En & C). unfold construct_hdu in C.
  destruct (contains_keyword (lit "SIMPLE") h1) eqn:K.
  2: { unfold make_extension in C. destruct (value_str fc (lit "XTENSION") h1) as [h2 [x| | |]]; try discriminate.
       destruct (str_eqb x (lit "TABLE")); [destruct (ascii_table fc h2 (u_data u)); discriminate|].
       destruct (str_eqb x (lit "BINTABLE")); [destruct (binary_table fc h2 (u_data u)); discriminate|discriminate]. }
  destruct (make_primary fc h1 (u_data u)) as [p'| | |] eqn:M; try discriminate. cbn [bind] in C.
  assert (p' = p) by congruence. subst p'. clear C.
  destruct (make_primary_inv _ _ _ _ M) as (b' & h2 & E1 & E2 & E3 & E4 & E5 & St).
  pose proof (get_hdu_name_bitpix fc (u_header u)) as Bp. rewrite En in Bp. cbn [fst] in Bp.
  assert (b' = b) as -> by congruence. rewrite E5 in Hk.
  destruct (read_image_spec b (u_data u) empty_image Hk Hd) as (q & Q1 & _ & _ & Q2). cbv zeta in *.
  rewrite Q1 in E2. apply ret_inj in E2.
  assert (Hz : N.to_nat (element_size b) <> 0) by (destruct b; discriminate).
  assert (Hlen : length (u_data u) / N.to_nat (element_size b) * N.to_nat (element_size b) = length (u_data u)).
  { replace (length (u_data u)) with (N.to_nat (data_size (u_header u)) * N.to_nat (element_size b)) by lia.
    rewrite Nat.div_mul by exact Hz. reflexivity. }
  assert (W : written_as (HPrimary p) (map raw (h_cards (u_header u))) (u_data u)).
  { cbn [written_as]. rewrite E4, E5, <- E2, Q2, Hlen, firstn_all. split; [|reflexivity].
    rewrite (st_raw _ _ _ St). pose proof (get_hdu_name_steady fc (u_header u)) as S0. rewrite En in S0. symmetry. apply S0. }
  split; [exact W|]. exists (u_data u). auto.
Qed.

Theorem binary_unedited fc u name t ws rows : reached fc (u_header u) -> becomes fc (u_header u) (u_data u) name (HBinary t) ->
  layout bin_column_size fc (u_header u) ws -> nth_error (h_naxis (u_header u)) 1 = Some rows ->
  u_data u <> [] -> length (u_data u) = N.to_nat rows * total ws ->
  Forall (fun s => ~ has_outer_space s) (fields ws (N.to_nat rows) (u_data u)) ->
  written_as (HBinary t) (map raw (h_cards (u_header u))) (u_data u) /\ belongs fc u name (HBinary t).
Proof.
  intros R B L E2 Hne Hlen F.
  destruct (becomes_table fc _ _ name t false R B) as (h1 & h2 & En & K & V & R2 & St & T). cbn [negb] in T.
  destruct (binary_write_back _ _ _ _ R2 T Hne) as (rows' & ws' & L' & E' & _ & _ & Eq).
  rewrite (st_naxis _ _ _ St), E2 in E'. injection E' as <-.
  pose proof (layout_fun _ _ _ _ _ L' (steady_layout _ _ _ _ _ St L)) as ->.
  destruct (binary_table_inv _ _ _ _ R2 T) as (h3 & n & cols & ws' & M & A1 & A2 & A3 & W & _ & Ln & St3 & _).
  assert (Wr : written_as (HBinary t) (map raw (h_cards (u_header u))) (u_data u)).
  { cbn [written_as]. split; [rewrite A1, (st_raw _ _ _ St3); symmetry; apply St|].
    rewrite (proj2 Eq F), <- Hlen, firstn_all. reflexivity. }
  split; [exact Wr|]. exists (u_data u). auto.
Qed.

Lemma skipn_nth_cons {A} (l : list A) : forall k x, nth_error l k = Some x -> skipn k l = x :: skipn (S k) l.
Proof. induction l as [|y l IH]; intros [|k] x H; try discriminate; [injection H as ->; reflexivity|]. cbn [nth_error] in H. cbn [skipn]. rewrite (IH _ _ H). reflexivity. Qed.

Theorem ascii_unedited fc u name t ws rows : reached fc (u_header u) -> becomes fc (u_header u) (u_data u) name (HAscii t) ->
  contiguous fc (u_header u) ws rows -> length (u_data u) = N.to_nat rows * total ws ->
  (N.of_nat (length (u_data u) + header_bytes (u_header u)) < 2 ^ 62)%N ->
  Forall (fun r => length r = 80) (map raw (h_cards (u_header u))) ->
  belongs fc u name (HAscii t).
Proof.
  intros R B Co Hlen Hsz H80. pose proof Co as (L & E1 & E2 & HB & Hpos & Hne & Hrows).
  destruct (becomes_table fc _ _ name t true R B) as (h1 & h2 & En & K & V & R2 & St & T). cbn [negb] in T.
  assert (Hd : u_data u <> []).
  { intros Z. rewrite Z in Hlen. cbn [length] in Hlen. destruct ws as [|w ws]; [contradiction|]. inversion Hpos; subst. cbn [total] in Hlen. nia. }
  destruct (ascii_cells _ _ _ _ R2 T Hd) as (n & width & rows' & Fn & W1 & W2 & Lr & C).
  rewrite (st_naxis _ _ _ St) in W1, W2. rewrite E1 in W1. rewrite E2 in W2. injection W1 as <-. injection W2 as <-.
  pose proof (steady_layout _ _ _ _ _ St L) as L2.
  pose proof (header_number_fun _ _ _ _ _ Fn (proj1 L2)) as ->. rewrite Nat2N.id in C.
  assert (Hw : (rows * N.of_nat (total ws) < two64)%N) by (unfold two64; lia).
  specialize (C Hw). rewrite <- (with_cells_same t).
  eapply ascii_belongs; try eassumption.
  apply Forall_forall. intros row Hin. apply In_nth_error in Hin as (r & Hr). destruct (C r row Hr) as [Lrow Cc].
  unfold fitting. clear -Lrow Cc L2.
  assert (G : forall k ws', (forall c w, nth_error ws' c = Some w -> nth_error ws (k + c) = Some w) -> length row = length ws ->
    k + length ws' = length ws -> Forall2 (fun w x => ~ has_outer_space x /\ length x <= w) ws' (skipn k row)).
  { intros k ws'. revert k. induction ws' as [|w ws' IH]; intros k Hs Hl Hk.
    - cbn in Hk. rewrite skipn_all2 by lia. constructor.
    - cbn [length] in Hk. destruct (Cc k) as (f & start & w' & F1 & F2 & _ & _ & _ & F5); [lia|].
      pose proof (Hs 0 w eq_refl) as Hw. rewrite Nat.add_0_r in Hw. destruct (proj2 L2 k w Hw) as (f' & G1 & G2).
      pose proof (header_text_fun _ _ _ _ _ F1 G1) as ->. rewrite F2 in G2. apply ret_inj in G2.
      assert (w' = w) as -> by lia.
      rewrite (skipn_nth_cons _ _ _ F5). constructor.
      + split; [apply trim_fixed, trim_id, trim_trimmed|]. pose proof (trim_length (slice (u_data u) (N.to_nat (N.of_nat r * N.of_nat (total ws) + start - 1)) w)) as TL.
        unfold slice in *. rewrite firstn_length in TL. lia.
      + apply IH; [|exact Hl|lia]. intros c x Hc. replace (S k + c) with (k + S c) by lia. apply Hs. exact Hc. }
  apply (G 0 ws); auto.
Qed.

(** ** Corollaries for files opened from the beginning *)

Theorem read_file fc c us : units fc c 0 us -> small c -> forall hf fuel names xs,
  Forall (fun u => length (h_cards (u_header u)) <= hf) us -> length us < fuel ->
  Forall2 (fun u nx => becomes fc (u_header u) (u_data u) (fst nx) (snd nx)) us (combine names xs) -> length names = length xs ->
  exists s, read_entire_hdus fc hf fuel (open_fits c) = (mk_fits s xs (catalogue 0 us names []), Ret tt).
Proof. intros U Sm hf fuel names xs H1 H2 H3 H4. exact (read_units fc c 0 us U Sm hf fuel names xs (open_fits c) eq_refl H1 H2 H3 H4). Qed.

Theorem read_file_fail fc c us q u e0 : units_to fc c 0 us q -> unit_in fc c u e0 -> u_at u = q -> small c ->
  forall hf fuel names xs e,
  Forall (fun u => length (h_cards (u_header u)) <= hf) (us ++ [u]) -> length us < fuel ->
  Forall2 (fun u nx => becomes fc (u_header u) (u_data u) (fst nx) (snd nx)) us (combine names xs) -> length names = length xs ->
  fails fc (u_header u) (u_data u) e ->
  exists f1, read_entire_hdus fc hf fuel (open_fits c) = (f1, Throw e) /\ f_hdus f1 = xs.
Proof.
  intros U Ui Hq Sm hf fuel names xs e H1 H2 H3 H4 H5.
  exact (read_units_fail fc c 0 us q u e0 U Ui Hq Sm hf fuel names xs (open_fits c) e eq_refl H1 H2 H3 H4 H5).
Qed.

Theorem written_read fc l names xs :
  Forall (fun hd => matching fc (fst hd) (snd hd) /\ snd hd <> []) l ->
  let c := concat (map (fun hd => unit_text (map raw (h_cards (fst hd))) (snd hd)) l) in
  small c -> length names = length xs ->
  Forall2 (fun hd nx => becomes fc (fst hd) (snd hd) (fst nx) (snd nx)) l (combine names xs) ->
  units fc c 0 (placed 0 l) /\
  forall hf fuel, Forall (fun hd => length (h_cards (fst hd)) <= hf) l -> length l < fuel ->
  exists s, read_entire_hdus fc hf fuel (open_fits c) = (mk_fits s xs (catalogue 0 (placed 0 l) names []), Ret tt).
Proof.
  intros M c Sm Ln F. assert (U : units fc c 0 (placed 0 l)) by exact (units_written fc l [] eq_refl M).
  split; [exact U|]. intros hf fuel Hc Hf.
  assert (G : forall p, Forall (fun u => length (h_cards (u_header u)) <= hf) (placed p l) /\ length (placed p l) = length l /\
    forall nx, Forall2 (fun hd nx => becomes fc (fst hd) (snd hd) (fst nx) (snd nx)) l nx ->
    Forall2 (fun u nx => becomes fc (u_header u) (u_data u) (fst nx) (snd nx)) (placed p l) nx).
  { clear -Hc. induction Hc as [|[h d] l H1 H2 IH]; intros p; cbn [placed].
    - split; [constructor|]. split; [reflexivity|]. intros nx H. inversion H. constructor.
    - destruct (IH (next_block (next_block (p + header_bytes h) + length d))) as (I1 & I2 & I3).
      split; [constructor; [exact H1|exact I1]|]. split; [cbn [length]; rewrite I2; reflexivity|].
      intros nx H. inversion H as [|? b ? nx' B F']. subst. constructor; [exact B|apply I3; exact F']. }
  destruct (G 0) as (G1 & G2 & G3). apply read_file; auto. rewrite G2. exact Hf.
Qed.

Theorem write_to_text l xs st info : Forall2 (fun x rd => written_as x (fst rd) (snd rd)) xs l ->
  (N.of_nat (length (concat (map (fun rd => unit_text (fst rd) (snd rd)) l))) < 2 ^ 62)%N ->
  write_to (mk_fits st xs info) = (concat (map (fun rd => unit_text (fst rd) (snd rd)) l), Ret tt).
Proof.
  intros F L. destruct (write_hdus_text l xs F create_stream create_appending eq_refl L) as (s' & W & C).
  unfold write_to. cbn [f_hdus]. rewrite W, C. reflexivity.
Qed.

Lemma Forall2_len {A B} (P : A -> B -> Prop) l m : Forall2 P l m -> length l = length m.
Proof. induction 1; cbn; congruence. Qed.

Theorem reopened_file fc c us hf fuel names xs f0 : units fc c 0 us -> small c ->
  Forall (fun u => length (h_cards (u_header u)) <= hf) us -> length us < fuel ->
  Forall2 (fun u nx => becomes fc (u_header u) (u_data u) (fst nx) (snd nx)) us (combine names xs) -> length names = length xs ->
  exists f, read_entire_hdus fc hf fuel (initialize c f0) = (f, Ret tt) /\
  f_hdus f = f_hdus f0 ++ xs /\
  (forall i, i < length (f_hdus f0) -> hdu_at i f = hdu_at i f0) /\
  (exists d, distinct names d /\ total_hdus f = length d) /\
  (forall n j x, last_position n names j -> nth_error xs j = Some x -> hdu_named n f = Ret x) /\
  (forall n, ~ In n names -> hdu_named n f = Throw OutOfRange).
Proof.
  intros U Sm Hc Hf F Ln.
  destruct (read_units fc c 0 us U Sm hf fuel names xs (initialize c f0) eq_refl Hc Hf F Ln) as (s & E).
  cbn [initialize f_hdus f_info] in E. eexists. split; [exact E|]. split; [reflexivity|]. split.
  - intros i Hi. unfold hdu_at. cbn [f_hdus]. rewrite nth_error_app1 by exact Hi. reflexivity.
  - apply control_block; [|exact Ln]. apply Forall2_len in F. rewrite combine_length, Ln, Nat.min_id in F. congruence.
Qed.

Theorem file_control_block fc c us hf fuel names xs : units fc c 0 us -> small c ->
  Forall (fun u => length (h_cards (u_header u)) <= hf) us -> length us < fuel ->
  Forall2 (fun u nx => becomes fc (u_header u) (u_data u) (fst nx) (snd nx)) us (combine names xs) -> length names = length xs ->
  exists f, read_entire_hdus fc hf fuel (open_fits c) = (f, Ret tt) /\ f_hdus f = xs /\
  (exists d, distinct names d /\ total_hdus f = length d) /\
  (forall n j x, last_position n names j -> nth_error xs j = Some x -> hdu_named n f = Ret x) /\
  (forall n, ~ In n names -> hdu_named n f = Throw OutOfRange) /\
  (forall i, hdu_at i f = match nth_error xs i with Some x => Ret x | None => Throw OutOfRange end).
Proof.
  intros U Sm Hc Hf F Ln. destruct (reopened_file fc c us hf fuel names xs (open_fits c) U Sm Hc Hf F Ln) as (f & E & H1 & _ & H2 & H3 & H4).
  exists f. split; [exact E|]. split; [exact H1|]. split; [exact H2|]. split; [exact H3|]. split; [exact H4|].
  intros i. unfold hdu_at. rewrite H1. reflexivity.
Qed.

Theorem truncated_file_forever fc c us q h b n name x : units_to fc c 0 us q -> small c -> q < length c -> readable fc c q h ->
  h_bitpix h = Some b -> data_size h <> 0%N -> N.of_nat n = (data_size h * element_size b)%N -> (N.of_nat n < 2 ^ 63)%N ->
  length c < next_block (q + header_bytes h) + n ->
  becomes fc h (filled c (next_block (q + header_bytes h)) n) name x ->
  forall hf fuel names xs,
  Forall (fun u => length (h_cards (u_header u)) <= hf) us -> length (h_cards h) <= hf ->
  Forall2 (fun u nx => becomes fc (u_header u) (u_data u) (fst nx) (snd nx)) us (combine names xs) -> length names = length xs ->
  snd (read_entire_hdus fc hf fuel (open_fits c)) = NoFuel.
Proof.
  intros. exact (truncated_forever fc c 0 us q h b n name x H H0 H1 H2 H3 H4 H5 H6 H7 H8 hf fuel names xs (open_fits c) eq_refl H9 H10 H11 H12).
Qed.

Theorem truncated_file_throws fc c us q h b n e : units_to fc c 0 us q -> small c -> q < length c -> readable fc c q h ->
  h_bitpix h = Some b -> data_size h <> 0%N -> N.of_nat n = (data_size h * element_size b)%N -> (N.of_nat n < 2 ^ 63)%N ->
  length c < next_block (q + header_bytes h) + n ->
  fails fc h (filled c (next_block (q + header_bytes h)) n) e ->
  forall hf fuel names xs,
  Forall (fun u => length (h_cards (u_header u)) <= hf) us -> length (h_cards h) <= hf -> length us < fuel ->
  Forall2 (fun u nx => becomes fc (u_header u) (u_data u) (fst nx) (snd nx)) us (combine names xs) -> length names = length xs ->
  exists f1, read_entire_hdus fc hf fuel (open_fits c) = (f1, Throw e) /\ f_hdus f1 = xs.
Proof.
  intros. exact (truncated_throws fc c 0 us q h b n e H H0 H1 H2 H3 H4 H5 H6 H7 H8 hf fuel names xs (open_fits c) eq_refl H9 H10 H11 H12 H13).
Qed.

Theorem headers_truncated fc c us hf fuel names xs : announced_units fc c 0 us -> small c ->
  Forall (fun u => length (h_cards (u_header u)) <= hf) us -> length us < fuel ->
  Forall2 (fun u nx => becomes fc (u_header u) [] (fst nx) (snd nx)) us (combine names xs) -> length names = length xs ->
  exists s, read_only_headers fc hf fuel (open_fits c) = (mk_fits s xs (catalogue 0 us names []), Ret tt).
Proof. intros U Sm Hc Hf F Ln. exact (headers_only fc c 0 us U Sm hf fuel names xs (open_fits c) eq_refl Hc Hf F Ln). Qed.

Theorem headers_same_places fc c us hf fuel names xs : units fc c 0 us -> small c ->
  Forall (fun u => length (h_cards (u_header u)) <= hf) us -> length us < fuel ->
  Forall2 (fun u nx => becomes fc (u_header u) [] (fst nx) (snd nx)) us (combine names xs) -> length names = length xs ->
  exists s, read_only_headers fc hf fuel (open_fits c) = (mk_fits s xs (catalogue 0 us names []), Ret tt).
Proof.
  intros U Sm Hc Hf F Ln. rewrite <- (catalogue_without us 0 names []).
  apply headers_truncated; try assumption.
  - apply units_announced; assumption.
  - clear -Hc. induction Hc; cbn [map]; constructor; assumption.
  - rewrite map_length. exact Hf.
  - clear -F. revert F. generalize (combine names xs). induction us as [|u us IH]; intros nx F; inversion F; subst; cbn [map]; constructor; auto.
Qed.

Theorem headers_only_written fc us names xs st info :
  Forall (fun u => reached fc (u_header u)) us -> length names = length xs ->
  Forall2 (fun u nx => becomes fc (u_header u) [] (fst nx) (snd nx)) us (combine names xs) -> ~ In HBlank xs ->
  (N.of_nat (length (concat (map (fun u => unit_text (map raw (h_cards (u_header u))) []) us))) < 2 ^ 62)%N ->
  write_to (mk_fits st xs info) = (concat (map (fun u => unit_text (map raw (h_cards (u_header u))) []) us), Ret tt).
Proof.
  intros R Ln F NB L.
  pose proof (write_to_text (map (fun u => (map raw (h_cards (u_header u)), [])) us) xs st info) as W.
  rewrite map_map in W. cbn [fst snd] in W. apply W; [|exact L]. clear -R Ln F NB.
  revert names xs Ln F NB. induction R as [|u us Hu R IH]; intros [|n names] [|x xs] Ln F NB; try discriminate; cbn [combine] in F;
    inversion F as [|? ? ? ? B F']; subst; cbn [map]; constructor.
  - cbn [fst snd] in *. eapply no_buffer_no_data; [exact Hu|exact B|]. intros ->. apply NB. left. reflexivity.
  - apply (IH names xs); [cbn in Ln; lia|exact F'|]. intros H. apply NB. right. exact H.
Qed.

Theorem hdu_names fc h h1 name : reached fc h -> get_hdu_name fc h = (h1, Ret name) ->
  header_text fc h (lit "XTENSION") name \/
  name = lit "primary_hdu" /\ exists b, header_value fc TBool h (lit "SIMPLE") (VBool b).
Proof.
  intros R H. destruct (reached_facts fc h R) as [Cs F]. unfold get_hdu_name in H.
  pose proof (value_of_steady fc TStr (lit "XTENSION") h) as St.
  assert (R1 : reached fc (fst (value_of fc TStr (lit "XTENSION") h))) by (constructor; exact R).
  destruct (value_of fc TStr (lit "XTENSION") h) as [h2 [v|e| |]] eqn:V; try discriminate.
  - destruct v; try discriminate. left. destruct (value_of_text _ _ _ _ _ _ Cs V) as (r & A & B).
    exists r. rewrite <- F by (apply not_mandatory; discriminate). split; [exact A|]. rewrite B. congruence.
  - cbn [fst] in St, R1. destruct (value_of fc TBool (lit "SIMPLE") h2) as [h3 [v| | |]] eqn:V2; try discriminate.
    right. split; [congruence|]. destruct (reached_facts fc h2 R1) as [Cs2 F2].
    destruct (value_of_type_bool _ _ _ _ _ V2) as (q & ->). exists q.
    destruct (value_of_text _ _ _ _ _ _ Cs2 V2) as (r & A & B). exists r.
    rewrite F2 in A by (apply not_mandatory; discriminate). rewrite (st_raw _ _ _ St) in A. auto.
Qed.

Theorem unsupported_blank fc h d h1 x : reached fc h -> get_hdu_name fc h = (h1, Ret x) ->
  contains_keyword (lit "SIMPLE") h = false -> x <> lit "TABLE" -> x <> lit "BINTABLE" ->
  becomes fc h d x HBlank.
Proof.
  intros R En K N1 N2. exists h1. split; [exact En|]. pose proof (get_hdu_name_steady fc h) as S0. rewrite En in S0. cbn [fst] in S0.
  unfold construct_hdu. rewrite (contains_steady _ _ _ _ S0), K.
  assert (V : exists h2, value_str fc (lit "XTENSION") h1 = (h2, Ret x)).
  { pose proof (hdu_names fc h h1 x R En) as [_|[_ (q & r & A & _)]].
    2: { pose proof (proj2 (contains_spec (lit "SIMPLE") h)) as C. rewrite A, K in C. discriminate C. discriminate. }
    unfold get_hdu_name in En. destruct (value_of fc TStr (lit "XTENSION") h) as [h2 [v|e| |]] eqn:V; try discriminate.
    - destruct v; try discriminate. assert (s = x) by congruence. subst s. assert (h1 = set_name h2 x) by congruence. subst h1.
      apply value_of_again in V. unfold value_str, hbind.
      assert (V' : exists h3, value_of fc TStr (lit "XTENSION") (set_name h2 x) = (h3, Ret (VStr x))).
      { revert V. unfold value_of. cbn [set_name h_index]. destruct (map_find (lit "XTENSION") (h_index h2)) as [i|]; [|discriminate].
        unfold value_at. cbn [set_name h_cards]. destruct (nth_error (h_cards h2) i) as [c|]; [|discriminate].
        destruct (value fc TStr c) as [c' o]. intros H. assert (o = Ret (VStr x)) by congruence. subst o. eauto. }
      destruct V' as (h3 & V'). rewrite V'. exists h3. reflexivity.
    - exfalso. destruct (value_of fc TBool (lit "SIMPLE") h2) as [h3 [v| | |]] eqn:V2; try discriminate.
      pose proof (value_of_steady fc TStr (lit "XTENSION") h) as St. rewrite V in St. cbn [fst] in St.
      assert (R2 : reached fc h2) by (replace h2 with (fst (value_of fc TStr (lit "XTENSION") h)) by (rewrite V; reflexivity); constructor; exact R).
      destruct (reached_facts fc h2 R2) as [Cs2 F2]. destruct (value_of_text _ _ _ _ _ _ Cs2 V2) as (r & A & B).
      rewrite F2 in A by (apply not_mandatory; discriminate). rewrite (st_raw _ _ _ St) in A.
      pose proof (proj2 (contains_spec (lit "SIMPLE") h)) as C. rewrite A, K in C. discriminate C. discriminate. }
  destruct V as (h2 & V). unfold make_extension. rewrite V.
  destruct (str_eqb x (lit "TABLE")) eqn:T; [apply str_eqb_eq in T; contradiction|].
  destruct (str_eqb x (lit "BINTABLE")) eqn:B; [apply str_eqb_eq in B; contradiction|]. reflexivity.
Qed.

Theorem blank_not_written st xs info :
  write_to (mk_fits st xs info) =
  write_to (mk_fits st (filter (fun x => match x with HBlank => false | _ => true end) xs) info).
Proof. unfold write_to. cbn [f_hdus]. rewrite <- blank_dropped. reflexivity. Qed.
