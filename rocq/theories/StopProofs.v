(** * How the reading of a file stops at a header that is refused. *)
From Verif Require Export CutProofs StopSpec.
From Coq Require Import Lia ZifyBool ZifyNat ZifyN.
Open Scope list_scope.

(** ** The refused header *)

(** A record that is no card is read, and nothing after it. *)
Lemma read_cards_stops n : forall fuel s h c p k,
  before s c p k ->
  (forall j, j < n -> acceptable (record_at c p (k + j)) /\ ~ is_end_record (record_at c p (k + j))) ->
  ~ acceptable (record_at c p (k + n)) -> n < fuel ->
  exists s' h', read_cards fuel s h = (s', h', Throw InvalidCard) /\ before s' c p (S (k + n)).
Proof.
  induction n as [|n IH]; intros fuel s h c p k Hb Ha Hn Hf;
    (destruct fuel as [|f]; [lia|]); destruct (read_record s c p k Hb) as (s1 & E & Hb').
  - exists s1, h. rewrite Nat.add_0_r in *. cbn [read_cards]. rewrite E.
    rewrite card_of_string_bad; [split; [reflexivity|exact Hb']| |exact Hn]. rewrite record_at_length; lia.
  - assert (Ha0 : acceptable (record_at c p k) /\ ~ is_end_record (record_at c p k))
      by (specialize (Ha 0); rewrite Nat.add_0_r in Ha; apply Ha; lia).
    rewrite (read_cards_step _ _ _ _ _ _ _ E (proj1 Ha0)). cbv zeta.
    destruct (str_eqb _ _) eqn:Ek; [apply end_keyword in Ek; destruct Ha0; contradiction|].
    destruct (IH f s1 (push_card h (mk_card (record_at c p k) None)) c p (S k) Hb') as (s' & h' & E' & B').
    + intros j Hj. replace (S k + j) with (k + S j) by lia. apply Ha; lia.
    + replace (S k + n) with (k + S n) by lia. exact Hn.
    + lia.
    + exists s', h'. split; [exact E'|]. replace (k + S n) with (S k + n) by lia. exact B'.
Qed.

Lemma before_inside s c p k : before s c p k -> p + 80 * k <= length c -> s = positioned c (p + 80 * k).
Proof.
  intros [C [[G P]|[_ [_ Lt]]]] H; [|lia]. destruct s as [c2 p2 e2 f2]. cbn [content pos] in *.
  unfold good in G. cbn [eofb failb] in G. destruct e2, f2; try discriminate. subst. reflexivity.
Qed.

Lemma refused_run fc c q n e hf : refused fc c q n e -> n < hf ->
  extract_header fc hf (positioned c q) = (positioned c (q + 80 * S n), Throw e).
Proof.
  intros (Ha & Hl & B & fuel & s & h & Hf & R) Hn. unfold extract_header.
  destruct (acceptable_dec (record_at c q n)) as [Hc|Hc].
  - destruct Hl as [Hl|Hl]; [|contradiction].
    assert (Hat : header_at (content (positioned c q)) (N.to_nat (pos (positioned c q))) n).
    { cbn [content pos positioned]. rewrite Nat2N.id. split; [|split; [|exact Hl]].
      - intros k Hk. destruct (Nat.eq_dec k n) as [->|]; [exact Hc|]. apply Ha; lia.
      - intros k Hk. apply Ha, Hk. }
    destruct (read_header_run fc fuel (positioned c q) n (good_positioned c q) Hat Hf) as (s1 & _ & E1).
    destruct (read_header_run fc hf (positioned c q) n (good_positioned c q) Hat Hn) as (s2 & Bf & E2).
    rewrite R in E1. rewrite E2. cbn [content pos positioned] in *. rewrite Nat2N.id in *.
    assert (Es : snd (interpret_cards fc (push_all (records c q n) fresh_header)) = Throw e) by congruence. rewrite Es.
    rewrite (before_inside _ _ _ _ Bf B). reflexivity.
  - pose proof (before_start (positioned c q) (good_positioned c q)) as Bs. cbn [content pos positioned] in Bs. rewrite Nat2N.id in Bs.
    destruct (read_cards_stops n fuel _ fresh_header c q 0 Bs Ha Hc Hf) as (s1 & h1 & E1 & _).
    destruct (read_cards_stops n hf _ fresh_header c q 0 Bs Ha Hc Hn) as (s2 & h2 & E2 & Bf).
    unfold read_header in *. change (mk_stream c (N.of_nat q) false false) with (positioned c q) in *. rewrite E1 in R. rewrite E2.
    rewrite (before_inside _ _ _ _ Bf B). cbn [Nat.add]. congruence.
Qed.

(** Which headers are refused: a record that is no card, a BITPIX or NAXIS that cannot be used. *)
Lemma refused_no_card fc c q n : (forall k, k < n -> acceptable (record_at c q k) /\ ~ is_end_record (record_at c q k)) ->
  ~ acceptable (record_at c q n) -> q + 80 * S n <= length c -> refused fc c q n InvalidCard.
Proof.
  intros Ha Hc B. split; [exact Ha|]. split; [right; exact Hc|]. split; [exact B|].
  pose proof (before_start (positioned c q) (good_positioned c q)) as Bs. cbn [content pos positioned] in Bs. rewrite Nat2N.id in Bs.
  destruct (read_cards_stops n (S n) _ fresh_header c q 0 Bs Ha Hc ltac:(lia)) as (s1 & h1 & E1 & _).
  exists (S n), s1, h1. split; [lia|]. unfold read_header. rewrite E1. reflexivity.
Qed.

Lemma refused_header fc c q n s h e fuel : header_at c q n -> q + 80 * S n <= length c -> n < fuel ->
  read_header fc fuel (positioned c q) fresh_header = (s, h, Throw e) -> refused fc c q n e.
Proof.
  intros (A1 & A2 & A3) B Hf R. split; [|split; [left; exact A3|split; [exact B|]]].
  - intros k Hk. split; [apply A1; lia|apply A2, Hk].
  - exists fuel, s, h. split; assumption.
Qed.

(** ** Reading the data as well *)

Theorem stop_entire fc c us q n e names xs : small c -> units_read fc c 0 us q -> refused fc c q n e ->
  length names = length xs -> Forall2 (becoming fc) us (combine names xs) ->
  forall hf fuel, Forall (fun u => length (h_cards (u_header u)) <= hf) us -> n < hf -> length us < fuel ->
  read_entire_hdus fc hf fuel (open_fits c) = (mk_fits (positioned c (q + 80 * S n)) xs (catalogue 0 us names []), Throw e).
Proof.
  intros Sm U R Ln F hf fuel Hf Hn Hl. replace fuel with (length us + S (fuel - length us - 1)) by lia.
  rewrite (loop_prefix fc hf c Sm us 0 q names xs _ (open_fits c) U eq_refl Hf Ln F).
  unfold read_entire_hdus. cbn [read_loop f_stream]. assert (Hq : q < length c) by (destruct R as (_ & _ & B & _); lia).
  rewrite at_end_inside by exact Hq. unfold read_hdu. cbn [at_stream f_stream f_hdus f_info]. rewrite get_pos_positioned, (refused_run fc c q n e hf R Hn). reflexivity.
Qed.

(** ** Headers only *)

Lemma head_turn_run fc hf c u e f name x : head_read fc c u e -> f_stream f = positioned c (u_at u) -> small c ->
  length (h_cards (u_header u)) <= hf -> becomes fc (u_header u) [] name x ->
  read_hdu_header fc hf f = (mk_fits (positioned c e) (f_hdus f ++ [x])
    (map_set name (mk_info (N.of_nat (u_at u)) (N.of_nat (u_data_at u)) (length (f_hdus f))) (f_info f)), Ret tt).
Proof.
  intros A Hs Sm L (h1 & En & C). unfold read_hdu_header. rewrite Hs, get_pos_positioned.
  assert (R : readable fc c (u_at u) (u_header u)) by (destruct A; assumption).
  rewrite (extract_header_ok fc c _ _ hf R Sm L), En, get_pos_positioned, C.
  pose proof (get_hdu_name_steady fc (u_header u)) as St. pose proof (get_hdu_name_bitpix fc (u_header u)) as Bp.
  rewrite En in St, Bp. cbn [fst] in St, Bp. pose proof (steady_size _ _ _ St) as Sz.
  destruct A as [p h Hp R' Z|p h b r Hp R' Hb Z Hr Hl]; cbn [u_at u_data_at u_header] in *.
  - rewrite skip_none by congruence. reflexivity.
  - destruct (skip_result h1 b c (next_block (p + header_bytes h))) as (s & E & S1 & _); [congruence|congruence|].
    assert (Er : skip_to (next_block (p + header_bytes h)) h1 b = r) by (unfold skip_to; rewrite Sz, <- Hr; apply Nat2N.id).
    rewrite Er in S1. rewrite E, (S1 Hl). reflexivity.
Qed.

Lemma head_prefix fc hf c : small c -> forall us p e names xs fuel f, heads_read fc c p us e ->
  f_stream f = positioned c p -> Forall (fun u => length (h_cards (u_header u)) <= hf) us ->
  length names = length xs -> Forall2 (fun u nx => becomes fc (u_header u) [] (fst nx) (snd nx)) us (combine names xs) ->
  read_only_headers fc hf (length us + fuel) f =
  read_only_headers fc hf fuel (mk_fits (positioned c e) (f_hdus f ++ xs) (catalogue (length (f_hdus f)) us names (f_info f))).
Proof.
  intros Sm. induction us as [|u us IH]; intros p e names xs fuel f U Hs Hf Ln F;
    inversion U as [|? ? e1 ? U1 U2]; subst.
  - inversion F as [E|]; subst. destruct names as [|name names]; destruct xs as [|x xs]; cbn in Ln, E; try discriminate.
    cbn [length Nat.add catalogue]. rewrite app_nil_r, <- Hs. destruct f; reflexivity.
  - destruct names as [|name names]; destruct xs as [|x xs]; cbn in Ln; try discriminate; cbn [combine] in F; inversion F as [|? ? ? ? B1 B2]; subst.
    inversion Hf as [|? ? Hf1 Hf2]; subst. cbn [length Nat.add]. unfold read_only_headers at 1. cbn [read_loop]. rewrite Hs.
    rewrite at_end_inside, (at_here _ _ Hs) by exact (head_read_inside _ _ _ _ U1).
    cbn [fst snd] in B1. rewrite (head_turn_run _ _ _ _ _ _ _ _ U1 Hs Sm Hf1 B1).
    fold (read_only_headers fc hf (length us + fuel)). rewrite (IH e1 e names xs fuel); try assumption; try reflexivity; try lia.
    cbn [f_hdus f_info catalogue]. rewrite <- app_assoc, app_length. cbn [length app]. rewrite Nat.add_1_r. reflexivity.
Qed.

Theorem stop_headers fc c us q n e names xs : small c -> heads_read fc c 0 us q -> refused fc c q n e ->
  length names = length xs -> Forall2 (fun u nx => becomes fc (u_header u) [] (fst nx) (snd nx)) us (combine names xs) ->
  forall hf fuel, Forall (fun u => length (h_cards (u_header u)) <= hf) us -> n < hf -> length us < fuel ->
  read_only_headers fc hf fuel (open_fits c) = (mk_fits (positioned c (q + 80 * S n)) xs (catalogue 0 us names []), Throw e).
Proof.
  intros Sm U R Ln F hf fuel Hf Hn Hl. replace fuel with (length us + S (fuel - length us - 1)) by lia.
  rewrite (head_prefix fc hf c Sm us 0 q names xs _ (open_fits c) U eq_refl Hf Ln F).
  unfold read_only_headers. cbn [read_loop f_stream]. assert (Hq : q < length c) by (destruct R as (_ & _ & B & _); lia).
  rewrite at_end_inside by exact Hq. unfold read_hdu_header. cbn [at_stream f_stream f_hdus f_info]. rewrite get_pos_positioned, (refused_run fc c q n e hf R Hn). reflexivity.
Qed.

(** A header no HDU can be made of. *)
Theorem stop_headers_unit fc c us q u e0 e names xs : small c -> heads_read fc c 0 us q -> head_read fc c u e0 -> u_at u = q -> fails fc (u_header u) [] e ->
  length names = length xs -> Forall2 (fun u nx => becomes fc (u_header u) [] (fst nx) (snd nx)) us (combine names xs) ->
  forall hf fuel, Forall (fun u => length (h_cards (u_header u)) <= hf) (us ++ [u]) -> length us < fuel ->
  exists f, read_only_headers fc hf fuel (open_fits c) = (f, Throw e) /\ f_hdus f = xs /\ f_stream f = positioned c (u_data_at u).
Proof.
  intros Sm U R <- Fa Ln F hf fuel Hf Hl. apply Forall_app in Hf as [Hf Hu]. inversion Hu as [|? ? Hu1 _]; subst.
  replace fuel with (length us + S (fuel - length us - 1)) by lia.
  rewrite (head_prefix fc hf c Sm us 0 _ names xs _ (open_fits c) U eq_refl Hf Ln F).
  unfold read_only_headers. cbn [read_loop f_stream]. rewrite at_end_inside by exact (head_read_inside _ _ _ _ R).
  unfold read_hdu_header. cbn [at_stream f_stream f_hdus f_info]. rewrite get_pos_positioned.
  assert (Rd : readable fc c (u_at u) (u_header u)) by (destruct R; assumption).
  assert (Ed : u_data_at u = next_block (u_at u + header_bytes (u_header u))) by (destruct R; reflexivity).
  rewrite (extract_header_ok fc c _ _ hf Rd Sm Hu1), <- Ed. destruct Fa as [(h1 & E)|(h1 & name & E & E2)]; rewrite E.
  - eexists. split; [reflexivity|]. split; reflexivity.
  - rewrite get_pos_positioned, E2. eexists. split; [reflexivity|]. split; reflexivity.
Qed.

(** If its name is known, looking it up is undefined afterwards. *)
Theorem stop_headers_name fc c us q u e0 h1 name e names xs : small c -> heads_read fc c 0 us q -> head_read fc c u e0 -> u_at u = q ->
  get_hdu_name fc (u_header u) = (h1, Ret name) -> construct_hdu fc h1 [] = Throw e ->
  length names = length xs -> Forall2 (fun u nx => becomes fc (u_header u) [] (fst nx) (snd nx)) us (combine names xs) ->
  forall hf fuel, Forall (fun u => length (h_cards (u_header u)) <= hf) (us ++ [u]) -> length us < fuel ->
  exists f, read_only_headers fc hf fuel (open_fits c) = (f, Throw e) /\ hdu_named name f = Undef /\
    (forall n j x, n <> name -> last_position n names j -> nth_error xs j = Some x -> hdu_named n f = Ret x) /\
    (forall n, n <> name -> ~ In n names -> hdu_named n f = Throw OutOfRange).
Proof.
  intros Sm U R <- En Ex Ln F hf fuel Hf Hl. apply Forall_app in Hf as [Hf Hu]. inversion Hu as [|? ? Hu1 _]; subst.
  replace fuel with (length us + S (fuel - length us - 1)) by lia.
  rewrite (head_prefix fc hf c Sm us 0 _ names xs _ (open_fits c) U eq_refl Hf Ln F).
  unfold read_only_headers. cbn [read_loop f_stream]. rewrite at_end_inside by exact (head_read_inside _ _ _ _ R).
  unfold read_hdu_header. cbn [at_stream f_stream f_hdus f_info]. rewrite get_pos_positioned.
  assert (Rd : readable fc c (u_at u) (u_header u)) by (destruct R; assumption).
  rewrite (extract_header_ok fc c _ _ hf Rd Sm Hu1), En, get_pos_positioned, Ex. eexists. split; [reflexivity|].
  unfold hdu_named, record_info. cbn [at_stream f_stream f_info f_hdus open_fits app length].
  assert (Lu : length names = length us) by (apply Forall2_len in F; rewrite combine_length, Ln, Nat.min_id in F; congruence).
  destruct (control_block (positioned c 0) us names [] xs Lu Ln) as (_ & C1 & C2). unfold hdu_named in C1, C2. cbn [f_info f_hdus app length] in C1, C2.
  split; [|split].
  - rewrite map_find_set_same. cbn [hdu_index]. rewrite (proj2 (nth_error_None _ _)) by lia. reflexivity.
  - intros n j x Hn P Hx. rewrite map_find_set_other by exact Hn. exact (C1 n j x P Hx).
  - intros n Hn P. rewrite map_find_set_other by exact Hn. exact (C2 n P).
Qed.

(** Exactly these files can be read without their data. *)
Theorem headers_iff fc c xs : small c ->
  ((exists hf fuel f, read_only_headers fc hf fuel (open_fits c) = (f, Ret tt) /\ f_hdus f = xs) <->
   (exists us names, headers_as fc c us names xs)).
Proof.
  intros Sm. split.
  - intros (hf & fuel & f & H & <-). destruct (header_loop_inv fc hf c Sm fuel 0 (open_fits c) f eq_refl H) as (us & names & xs & e & U & He & Ln & F & E & _).
    exists us, names. cbn [open_fits f_hdus app] in E. rewrite E. split; [exists e; split; assumption|]. split; assumption.
  - intros (us & names & (e & U & He) & Ln & F).
    exists (fold_right Nat.max 0 (map (fun u => length (h_cards (u_header u))) us)), (length us + 1).
    assert (Hf : Forall (fun u => length (h_cards (u_header u)) <= fold_right Nat.max 0 (map (fun u => length (h_cards (u_header u))) us)) us).
    { clear. induction us as [|u us IH]; constructor; cbn [map fold_right]; [lia|]. eapply Forall_impl; [|exact IH]. cbv beta. intros. lia. }
    set (hf := fold_right Nat.max 0 _) in *. clearbody hf.
    rewrite (head_prefix fc hf c Sm us 0 e names xs 1 (open_fits c) U eq_refl Hf Ln F).
    unfold read_only_headers. cbn [read_loop f_stream]. rewrite at_end_outside by exact He. eexists. split; reflexivity.
Qed.

(** The names after the exception. *)
Theorem stop_names us names xs s : length us = length xs -> length names = length xs ->
  let f := mk_fits s xs (catalogue 0 us names []) in
  (forall n j x, last_position n names j -> nth_error xs j = Some x -> hdu_named n f = Ret x) /\
  (forall n, ~ In n names -> hdu_named n f = Throw OutOfRange).
Proof.
  intros L1 L2 f. destruct (control_block s us names [] xs ltac:(congruence) L2) as (_ & A & B). split; [exact A|exact B].
Qed.

(** ** Reading on *)

(** The next header is looked for right after the last record that was read. *)
Theorem stop_resumed fc c us us2 q n e e2 names names2 xs xs2 : small c -> units_read fc c 0 us q -> refused fc c q n e ->
  units_read fc c (q + 80 * S n) us2 e2 -> length c <= e2 ->
  length names = length xs -> Forall2 (becoming fc) us (combine names xs) ->
  length names2 = length xs2 -> Forall2 (becoming fc) us2 (combine names2 xs2) ->
  forall hf fuel fuel2, Forall (fun u => length (h_cards (u_header u)) <= hf) (us ++ us2) -> n < hf -> length us < fuel -> length us2 < fuel2 ->
  exists f f2, read_entire_hdus fc hf fuel (open_fits c) = (f, Throw e) /\ read_entire_hdus fc hf fuel2 f = (f2, Ret tt) /\
    f_hdus f2 = xs ++ xs2 /\ f_info f2 = catalogue (length xs) us2 names2 (f_info f).
Proof.
  intros Sm U R U2 He Ln F Ln2 F2 hf fuel fuel2 Hf Hn Hl Hl2. apply Forall_app in Hf as [Hf Hf2].
  pose proof (stop_entire fc c us q n e names xs Sm U R Ln F hf fuel Hf Hn Hl) as E. eexists. eexists. split; [exact E|].
  replace fuel2 with (length us2 + S (fuel2 - length us2 - 1)) by lia.
  rewrite (loop_prefix fc hf c Sm us2 (q + 80 * S n) e2 names2 xs2 _ (mk_fits (positioned c (q + 80 * S n)) xs (catalogue 0 us names [])) U2 eq_refl Hf2 Ln2 F2).
  unfold read_entire_hdus. cbn [read_loop f_stream f_hdus f_info]. rewrite at_end_outside by exact He. split; [reflexivity|]. split; reflexivity.
Qed.

(** If that is refused as well, nothing more is read. *)
Theorem stop_twice fc c us q n e n2 e2 names xs : small c -> units_read fc c 0 us q -> refused fc c q n e -> refused fc c (q + 80 * S n) n2 e2 ->
  length names = length xs -> Forall2 (becoming fc) us (combine names xs) ->
  forall hf fuel fuel2, Forall (fun u => length (h_cards (u_header u)) <= hf) us -> n < hf -> n2 < hf -> length us < fuel ->
  exists f f2, read_entire_hdus fc hf fuel (open_fits c) = (f, Throw e) /\ read_entire_hdus fc hf (S fuel2) f = (f2, Throw e2) /\
    f_hdus f2 = xs /\ f_stream f2 = positioned c (q + 80 * S n + 80 * S n2).
Proof.
  intros Sm U R R2 Ln F hf fuel fuel2 Hf Hn Hn2 Hl.
  pose proof (stop_entire fc c us q n e names xs Sm U R Ln F hf fuel Hf Hn Hl) as E. eexists. eexists. split; [exact E|].
  unfold read_entire_hdus. cbn [read_loop f_stream f_hdus f_info]. rewrite at_end_inside by (destruct R2 as (_ & _ & B & _); lia).
  unfold read_hdu. cbn [at_stream f_stream f_hdus f_info]. rewrite get_pos_positioned, (refused_run fc c _ n2 e2 hf R2 Hn2). repeat split.
Qed.
