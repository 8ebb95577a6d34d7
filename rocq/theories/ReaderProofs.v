(** * Proofs about reading and writing whole files. *)
From Coq Require Import String Ascii List Arith NArith ZArith Bool Lia.
From Coq Require Import ZifyBool ZifyNat ZifyN.
Import ListNotations.
From Verif Require Import CppModel CppProofs CardModel CardSpec CardProofs StreamModel HeaderModel HeaderSpec HeaderProofs
  HeaderLookup TableModel TableSpec TableProofs TableCells ImageModel ImageProofs ReaderModel ReaderSpec.
Open Scope list_scope.

(** ** Positions *)

Lemma next_block_spec p : p < next_block p <= p + 2880 /\ next_block p mod 2880 = 0.
Proof. unfold next_block. destruct (pad_len_bounds p) as [A B]. split; [lia|exact B]. Qed.

Lemma unit_end_block p : (N.of_nat p < 2 ^ 63)%N -> unit_end (N.of_nat p) = N.of_nat (next_block p).
Proof.
  intros H. unfold next_block. pose proof (pad_len_unit p H) as E.
  assert (U : next_unit (N.of_nat p) (unit_end (N.of_nat p))) by (apply unit_end_next; unfold two64; lia).
  destruct U as [_ [U1 U2]]. rewrite sub64_small in E by (unfold two64; lia). lia.
Qed.

Lemma set_unit_end_good s : good s = true -> (pos s < 2 ^ 62)%N ->
  set_unit_end s = positioned (content s) (next_block (N.to_nat (pos s))).
Proof.
  intros G P. unfold set_unit_end, find_unit_end, get_current_pos. rewrite G.
  rewrite <- (N2Nat.id (pos s)) at 1. rewrite unit_end_block by lia.
  unfold set_reading_pos. apply good_true in G as [_ F]. rewrite F.
  destruct (next_block_spec (N.to_nat (pos s))) as [B _].
  destruct (N.ltb_spec max_size (N.of_nat (next_block (N.to_nat (pos s))))) as [L|_]; [unfold max_size in L; lia|].
  reflexivity.
Qed.

Lemma good_positioned c p : good (positioned c p) = true.
Proof. reflexivity. Qed.

(** ** One unit *)

Lemma read_header_fuel fc c p h fuel s hf : read_header fc fuel (positioned c p) fresh_header = (s, h, Ret tt) ->
  length (h_cards h) <= hf -> p + header_bytes h <= length c ->
  exists s', read_header fc hf (positioned c p) fresh_header = (s', h, Ret tt) /\ good s' = true /\
    content s' = c /\ pos s' = N.of_nat (p + header_bytes h).
Proof.
  intros H L B. destruct (read_header_inv _ _ _ _ _ (good_positioned c p) H) as (n & Hn & Hh & Hi & _).
  cbn [content pos positioned] in *. rewrite Nat2N.id in *.
  assert (Lc : length (h_cards h) = S n).
  { pose proof (interpret_raws fc (push_all (records c p n) fresh_header)) as R. rewrite Hi in R. cbn [fst] in R.
    apply (f_equal (@length str)) in R. rewrite !map_length, push_all_cards, app_length, map_length, records_length in R. exact R. }
  destruct (read_header_run fc hf (positioned c p) n (good_positioned c p)) as (s' & B' & E).
  { cbn [content pos positioned]. rewrite Nat2N.id. exact Hh. } { lia. }
  cbn [content pos positioned] in *. rewrite Nat2N.id in *.
  rewrite Hi in E. cbn [fst snd] in E. exists s'. split; [exact E|]. destruct B' as [C [[G P]|[_ [_ Lt]]]].
  - split; [exact G|]. split; [exact C|]. rewrite P. unfold header_bytes. rewrite Lc. lia.
  - unfold header_bytes in B. rewrite Lc in B. lia.
Qed.

Lemma extract_header_ok fc c p h hf : readable fc c p h -> small c -> length (h_cards h) <= hf ->
  extract_header fc hf (positioned c p) = (positioned c (next_block (p + header_bytes h)), Ret h).
Proof.
  intros [(fuel & s & R) B] Sm L. destruct (read_header_fuel fc c p h fuel s hf R L B) as (s' & E & G & C & P).
  unfold extract_header. rewrite E. unfold small in Sm. rewrite set_unit_end_good by (first [assumption|lia]).
  rewrite C, P, Nat2N.id. reflexivity.
Qed.

Lemma get_pos_positioned c p : get_current_pos (positioned c p) = (N.of_nat p, positioned c p).
Proof. reflexivity. Qed.

Lemma extract_data_ok h c q b n : small c -> h_bitpix h = Some b -> data_size h <> 0%N ->
  N.of_nat n = (data_size h * element_size b)%N -> q + n <= length c ->
  extract_data h (positioned c q) = (positioned c (next_block (q + n)), Ret (slice c q n)).
Proof.
  intros Sm Hb Hz Hn Hl. unfold small in Sm. unfold extract_data. destruct (N.eqb_spec (data_size h) 0) as [|_]; [contradiction|].
  unfold data_bytes, get_bitpix. rewrite Hb. cbn [bind]. unfold mul64. rewrite <- Hn, N.mod_small by (unfold two64; lia).
  unfold stream_read. destruct (N.ltb_spec max_size (N.of_nat n)) as [L|_]; [unfold max_size in L; lia|].
  cbn [good positioned eofb failb negb andb]. unfold remaining. cbn [pos content positioned]. rewrite Nat2N.id, skipn_length.
  destruct (N.leb_spec (N.of_nat n) (N.of_nat (length c - q))) as [_|]; [|lia].
  rewrite set_unit_end_good by (cbn; first [reflexivity|lia]). cbn [pos content]. rewrite Nat2N.id.
  replace (N.to_nat (N.of_nat q + N.of_nat n)) with (q + n) by lia. reflexivity.
Qed.

Lemma at_end_inside c p : p < length c -> at_end (positioned c p) = (false, positioned c p).
Proof.
  intros H. unfold at_end. cbn [good positioned eofb failb negb andb]. unfold remaining. cbn [pos content positioned].
  rewrite Nat2N.id. destruct (skipn p c) eqn:E; [|reflexivity]. apply (f_equal (@length ascii)) in E.
  rewrite skipn_length in E. cbn in E. lia.
Qed.
Lemma at_end_outside c p : length c <= p -> at_end (positioned c p) = (true, mk_stream c (N.of_nat p) true false).
Proof.
  intros H. unfold at_end. cbn [good positioned eofb failb negb andb]. unfold remaining. cbn [pos content positioned].
  rewrite Nat2N.id, skipn_all2 by lia. reflexivity.
Qed.

(** One turn of the reading loop at a unit: what it does with the stream, and what it reports. *)
Definition turn_result (fc : fcodec) (h : header) (d : str) (hl dl : nat) (s : stream) (f : fits) : fits * outcome unit :=
  match get_hdu_name fc h with
  | (h1, Ret name) =>
      let f1 := record_info name (N.of_nat hl) (N.of_nat dl) (at_stream s f) in
      match construct_hdu fc h1 d with
      | Ret x => (push_hdu x f1, Ret tt)
      | Throw e => (f1, Throw e)
      | Undef => (f1, Undef)
      | NoFuel => (f1, NoFuel)
      end
  | (_, Throw e) => (at_stream s f, Throw e)
  | (_, Undef) => (at_stream s f, Undef)
  | (_, NoFuel) => (at_stream s f, NoFuel)
  end.

Lemma read_hdu_no_data fc hf c p h f : f_stream f = positioned c p -> small c -> readable fc c p h ->
  length (h_cards h) <= hf -> data_size h = 0%N ->
  read_hdu fc hf f = turn_result fc h [] p (next_block (p + header_bytes h)) (positioned c (next_block (p + header_bytes h))) f.
Proof.
  intros Hs Sm R L Z. unfold read_hdu. rewrite Hs, get_pos_positioned.
  rewrite (extract_header_ok fc c p h hf R Sm L), get_pos_positioned. unfold extract_data. rewrite Z. reflexivity.
Qed.

Lemma read_hdu_data fc hf c p h b n f : f_stream f = positioned c p -> small c -> readable fc c p h ->
  length (h_cards h) <= hf -> h_bitpix h = Some b -> data_size h <> 0%N ->
  N.of_nat n = (data_size h * element_size b)%N -> next_block (p + header_bytes h) + n <= length c ->
  read_hdu fc hf f = turn_result fc h (slice c (next_block (p + header_bytes h)) n) p (next_block (p + header_bytes h))
    (positioned c (next_block (next_block (p + header_bytes h) + n))) f.
Proof.
  intros Hs Sm R L Hb Z Hn Hl. unfold read_hdu. rewrite Hs, get_pos_positioned.
  rewrite (extract_header_ok fc c p h hf R Sm L), get_pos_positioned.
  rewrite (extract_data_ok h c _ b n Sm Hb Z Hn Hl). reflexivity.
Qed.

Lemma turn_becomes fc h d hl dl s f name x : becomes fc h d name x ->
  turn_result fc h d hl dl s f =
  (mk_fits s (f_hdus f ++ [x]) (map_set name (mk_info (N.of_nat hl) (N.of_nat dl) (length (f_hdus f))) (f_info f)), Ret tt).
Proof. intros (h1 & E1 & E2). unfold turn_result. rewrite E1, E2. reflexivity. Qed.

(** ** All units *)

Lemma read_hdu_unit fc hf c u e f : unit_in fc c u e -> f_stream f = positioned c (u_at u) -> small c ->
  length (h_cards (u_header u)) <= hf ->
  read_hdu fc hf f = turn_result fc (u_header u) (u_data u) (u_at u) (u_data_at u) (positioned c e) f.
Proof.
  intros U Hs Sm L. destruct U as [p h Hp R Z|p h b n Hp R Hb Z Hn Hl]; cbn [u_at u_data_at u_header u_data] in *.
  - apply read_hdu_no_data; assumption.
  - apply read_hdu_data with (b := b); assumption.
Qed.

Lemma unit_inside fc c u e : unit_in fc c u e -> u_at u < length c.
Proof. intros U. destruct U; assumption. Qed.

(** One turn of the loop at a unit. *)
Lemma loop_unit fc hf c u e f fuel : unit_in fc c u e -> f_stream f = positioned c (u_at u) -> small c ->
  length (h_cards (u_header u)) <= hf ->
  read_entire_hdus fc hf (S fuel) f =
  match turn_result fc (u_header u) (u_data u) (u_at u) (u_data_at u) (positioned c e) f with
  | (f1, Ret _) => read_entire_hdus fc hf fuel f1
  | (f1, r) => (f1, r)
  end.
Proof.
  intros U Hs Sm L. unfold read_entire_hdus. cbn [read_loop]. rewrite Hs, at_end_inside by exact (unit_inside _ _ _ _ U).
  assert (Hs' : at_stream (positioned c (u_at u)) f = f) by (destruct f; cbn in *; subst; reflexivity). rewrite Hs'.
  rewrite (read_hdu_unit fc hf c u e f U Hs Sm L). reflexivity.
Qed.

Definition becoming (fc : fcodec) (u : file_unit) (nx : str * hdu) : Prop :=
  becomes fc (u_header u) (u_data u) (fst nx) (snd nx).

Lemma read_prefix fc c p us e : units_to fc c p us e -> small c -> forall hf fuel names xs f,
  f_stream f = positioned c p ->
  Forall (fun u => length (h_cards (u_header u)) <= hf) us ->
  Forall2 (becoming fc) us (combine names xs) -> length names = length xs ->
  read_entire_hdus fc hf (length us + fuel) f =
  read_entire_hdus fc hf fuel (mk_fits (positioned c e) (f_hdus f ++ xs) (catalogue (length (f_hdus f)) us names (f_info f))).
Proof.
  intros U Sm. induction U as [p|u us e e' U Us IH]; intros hf fuel names xs f Hs Hf F2 Lnx.
  - inversion F2 as [E|]; subst. destruct names, xs; cbn in *; try discriminate. rewrite app_nil_r.
    destruct f; cbn in *; subst; reflexivity.
  - inversion Hf as [|? ? Hf1 Hf2]; subst.
    destruct names as [|name names]; destruct xs as [|x xs]; cbn in Lnx; try discriminate; cbn [combine] in F2; inversion F2 as [|? ? ? ? B1 B2]; subst.
    unfold becoming in B1. cbn [fst snd] in B1. cbn [length plus].
    rewrite (loop_unit _ _ _ _ _ _ _ U Hs Sm Hf1), (turn_becomes _ _ _ _ _ _ _ _ _ B1).
    match goal with |- read_entire_hdus _ _ _ ?f1 = _ => rewrite (IH hf fuel names xs f1 eq_refl Hf2 B2 ltac:(lia)) end.
    cbn [f_hdus f_info catalogue]. rewrite <- app_assoc, app_length. cbn [app length]. rewrite Nat.add_1_r. reflexivity.
Qed.

Theorem read_units fc c p us : units fc c p us -> small c -> forall hf fuel names xs f,
  f_stream f = positioned c p ->
  Forall (fun u => length (h_cards (u_header u)) <= hf) us -> length us < fuel ->
  Forall2 (becoming fc) us (combine names xs) -> length names = length xs ->
  exists s, read_entire_hdus fc hf fuel f = (mk_fits s (f_hdus f ++ xs) (catalogue (length (f_hdus f)) us names (f_info f)), Ret tt).
Proof.
  intros (e & U & He) Sm hf fuel names xs f Hs Hf Hlen F2 Lnx.
  replace fuel with (length us + S (fuel - length us - 1)) by lia.
  rewrite (read_prefix fc c p us e U Sm hf _ names xs f Hs Hf F2 Lnx).
  unfold read_entire_hdus. cbn [read_loop f_stream]. rewrite at_end_outside by exact He. eexists. reflexivity.
Qed.

(** ** An exception in one unit *)

Definition fails (fc : fcodec) (h : header) (d : str) (e : exn) : Prop :=
  (exists h1, get_hdu_name fc h = (h1, Throw e)) \/
  (exists h1 name, get_hdu_name fc h = (h1, Ret name) /\ construct_hdu fc h1 d = Throw e).

Lemma turn_fails fc h d hl dl s f e : fails fc h d e ->
  exists f1, turn_result fc h d hl dl s f = (f1, Throw e) /\ f_hdus f1 = f_hdus f.
Proof.
  unfold turn_result. intros [(h1 & E)|(h1 & name & E & E2)]; rewrite E.
  - eexists. split; reflexivity.
  - rewrite E2. eexists. split; reflexivity.
Qed.

Theorem read_units_fail fc c p us q u e0 : units_to fc c p us q -> unit_in fc c u e0 -> u_at u = q -> small c ->
  forall hf fuel names xs f e, f_stream f = positioned c p ->
  Forall (fun u => length (h_cards (u_header u)) <= hf) (us ++ [u]) -> length us < fuel ->
  Forall2 (becoming fc) us (combine names xs) -> length names = length xs ->
  fails fc (u_header u) (u_data u) e ->
  exists f1, read_entire_hdus fc hf fuel f = (f1, Throw e) /\ f_hdus f1 = f_hdus f ++ xs.
Proof.
  intros Us U <- Sm hf fuel names xs f e Hs Hf Hlen F2 Lnx Hx. apply Forall_app in Hf as [Hf1 Hf2].
  replace fuel with (length us + S (fuel - length us - 1)) by lia.
  rewrite (read_prefix fc c p us _ Us Sm hf _ names xs f Hs Hf1 F2 Lnx). inversion Hf2; subst.
  erewrite loop_unit; [|exact U|reflexivity|exact Sm|assumption].
  match goal with |- context [turn_result ?a ?b ?c ?d ?e ?f ?g] => destruct (turn_fails a b c d e f g _ Hx) as (f1 & E & H) end.
  rewrite E. exists f1. split; [reflexivity|]. exact H.
Qed.

(** ** Written files *)

Lemma readable_records fc c p h : readable fc c p h ->
  Forall (fun r => length r = 80) (map raw (h_cards h)) /\ 0 < length (h_cards h) /\
  length (concat (map raw (h_cards h))) = header_bytes h.
Proof.
  intros [(fuel & s & R) _]. destruct (read_header_raws _ _ _ _ _ (good_positioned c p) R) as (n & _ & E).
  rewrite E. assert (F : Forall (fun r => length r = 80) (records (content (positioned c p)) (N.to_nat (pos (positioned c p))) n))
    by apply records_lengths.
  split; [exact F|]. rewrite concat_length80 by exact F. apply (f_equal (@length str)) in E.
  rewrite map_length, records_length in E. rewrite records_length. unfold header_bytes. rewrite E. lia.
Qed.

Lemma readable_copy fc c p h pre post : readable fc c p h ->
  readable fc (pre ++ concat (map raw (h_cards h)) ++ post) (length pre) h.
Proof.
  intros H. destruct (readable_records _ _ _ _ H) as (_ & _ & L). destruct H as [(fuel & s & R) _]. split.
  - destruct (read_header_inv _ _ _ _ _ (good_positioned c p) R) as (n & Hn & Hh & Hi & _).
    destruct (read_header_raws _ _ _ _ _ (good_positioned c p) R) as (n' & Hh' & Er).
    cbn [content pos positioned] in *. rewrite Nat2N.id in *.
    assert (En : n' = n).
    { pose proof (interpret_raws fc (push_all (records c p n) fresh_header)) as Q. rewrite Hi in Q. cbn [fst] in Q.
      apply (f_equal (@length str)) in Q. rewrite !map_length, push_all_cards, app_length, map_length, records_length in Q.
      apply (f_equal (@length str)) in Er. rewrite map_length, records_length in Er. cbn in Q. lia. }
    subst n'. destruct (header_at_copy c p n pre post Hh) as [H1 H2]. rewrite <- Er in H1, H2.
    destruct (read_header_run fc fuel (positioned (pre ++ concat (map raw (h_cards h)) ++ post) (length pre)) n (good_positioned _ _)) as (s' & _ & E).
    { cbn [content pos positioned]. rewrite Nat2N.id. exact H1. } { exact Hn. }
    exists fuel, s'. cbn [content pos positioned] in E. rewrite Nat2N.id in E. rewrite H2, Er, Hi in E. rewrite Er. exact E.
  - rewrite !app_length, L. lia.
Qed.

Lemma pad_len_shift a b : a mod 2880 = 0 -> pad_len (a + b) = pad_len b.
Proof. intros H. unfold pad_len. replace ((a + b) mod 2880) with (b mod 2880); [reflexivity|].
  rewrite Nat.add_mod by lia. rewrite H. cbn [plus]. rewrite Nat.mod_mod by lia. reflexivity. Qed.

Lemma unit_text_length rs d : length (unit_text rs d) = next_block (next_block (length (concat rs)) + length d) /\
  length (unit_text rs d) mod 2880 = 0.
Proof.
  unfold unit_text, next_block. rewrite !app_length, !length_spaces.
  assert (E : pad_len (length (concat rs) + pad_len (length (concat rs)) + length d) = pad_len (length d)).
  { apply pad_len_shift. apply pad_len_bounds. }
  rewrite E. split; [lia|].
  rewrite Nat.add_assoc, Nat.add_mod by lia.
  destruct (pad_len_bounds (length (concat rs))) as [_ ->]. destruct (pad_len_bounds (length d)) as [_ ->]. reflexivity.
Qed.

Lemma next_block_shift a b : a mod 2880 = 0 -> next_block (a + b) = a + next_block b.
Proof. intros H. unfold next_block. rewrite pad_len_shift by exact H. lia. Qed.

Lemma slice_middle (a b c : str) : slice (a ++ b ++ c) (length a) (length b) = b.
Proof. unfold slice. rewrite skipn_app, skipn_all, Nat.sub_diag. cbn [skipn app]. rewrite firstn_app, firstn_all, Nat.sub_diag. cbn. apply app_nil_r. Qed.

Theorem units_to_written fc l : forall a post, length a mod 2880 = 0 ->
  Forall (fun hd => matching fc (fst hd) (snd hd) /\ snd hd <> []) l ->
  units_to fc (a ++ concat (map (fun hd => unit_text (map raw (h_cards (fst hd))) (snd hd)) l) ++ post) (length a) (placed (length a) l)
    (length (a ++ concat (map (fun hd => unit_text (map raw (h_cards (fst hd))) (snd hd)) l))).
Proof.
  induction l as [|[h d] l IH]; intros a post Ma F.
  - cbn [map concat placed app]. rewrite app_nil_r. constructor.
  - inversion F as [|? ? [[(c0 & p0 & R) (b & Hb & Hd)] Hne] F2]; subst. cbn [fst snd] in *.
    destruct (readable_records _ _ _ _ R) as (_ & _ & L). cbn [map concat placed fst snd].
    set (rest := concat (map (fun hd => unit_text (map raw (h_cards (fst hd))) (snd hd)) l)) in *. set (rs := map raw (h_cards h)) in *.
    destruct (unit_text_length rs d) as [Lu Mu].
    assert (Hq : next_block (length a + header_bytes h) = length (a ++ concat rs ++ spaces (pad_len (length (concat rs))))).
    { rewrite next_block_shift by exact Ma. rewrite !app_length, length_spaces, L. reflexivity. }
    assert (Hn : next_block (next_block (length a + header_bytes h) + length d) = length (a ++ unit_text rs d)).
    { rewrite app_length, Lu, L, <- (next_block_shift (length a)) by exact Ma.
      rewrite Nat.add_assoc, <- (next_block_shift (length a)) by exact Ma. reflexivity. }
    specialize (IH (a ++ unit_text rs d) post ltac:(rewrite app_length, Nat.add_mod by lia; rewrite Ma, Mu; reflexivity) F2).
    fold rest in IH. rewrite <- !app_assoc in IH. rewrite <- Hn in IH. rewrite <- (app_assoc (unit_text rs d)).
    assert (Hsl : slice (a ++ unit_text rs d ++ rest ++ post) (next_block (length a + header_bytes h)) (length d) = d).
    { rewrite Hq. unfold unit_text. rewrite <- !app_assoc. rewrite (app_assoc (concat rs)), (app_assoc a). apply slice_middle. }
    refine (next_unit_at _ _ (mk_unit _ _ _ _) _ _ _ _ IH).
    set (q := next_block (length a + header_bytes h)) in *.
    replace (mk_unit (length a) q h d) with (mk_unit (length a) q h (slice (a ++ unit_text rs d ++ rest ++ post) q (length d))) by (rewrite Hsl; reflexivity).
    apply unit_with_data with (b := b).
    + rewrite !app_length, Lu. destruct (next_block_spec (next_block (length (concat rs)) + length d)). lia.
    + unfold unit_text. rewrite <- !app_assoc. apply (readable_copy _ _ _ _ a _ R).
    + exact Hb.
    + intros Z. rewrite Z in Hd. cbn in Hd. destruct d; [contradiction|]. cbn [length] in Hd. lia.
    + exact Hd.
    + fold q. rewrite Hq. unfold unit_text. rewrite !app_length. lia.
Qed.

Theorem units_written fc l : forall pre, length pre mod 2880 = 0 ->
  Forall (fun hd => matching fc (fst hd) (snd hd) /\ snd hd <> []) l ->
  units fc (pre ++ concat (map (fun hd => unit_text (map raw (h_cards (fst hd))) (snd hd)) l)) (length pre) (placed (length pre) l).
Proof.
  intros pre Hpre F. eexists. split; [|apply Nat.le_refl]. pose proof (units_to_written fc l pre [] Hpre F) as U.
  rewrite app_nil_r in U. exact U.
Qed.

Lemma placed_units p l : map (fun u => (u_header u, u_data u)) (placed p l) = l.
Proof. revert p. induction l as [|[h d] l IH]; intros p; [reflexivity|]. cbn [placed map u_header u_data]. rewrite IH. reflexivity. Qed.

(** ** Writing an HDU *)

Lemma write_unit_text rs h d s : appending s -> length (content s) mod 2880 = 0 -> rs = map raw (h_cards h) ->
  (N.of_nat (length (content s) + length (unit_text rs d)) < 2 ^ 62)%N ->
  appending (write_unit h d s) /\ content (write_unit h d s) = content s ++ unit_text rs d.
Proof.
  intros A M -> Hl. destruct (unit_text_length (map raw (h_cards h)) d) as [Lu _]. rewrite Lu in Hl. unfold next_block in Hl.
  destruct (write_header_append h s A) as [A1 C1]; [lia|].
  destruct (write_append _ d A1) as [A2 C2]. unfold write_unit.
  rewrite pad_len_shift in C1 by exact M.
  assert (Lc : length (content (write_header h s)) mod 2880 = 0).
  { rewrite C1, !app_length, length_spaces, Nat.add_mod by lia. rewrite M. destruct (pad_len_bounds (length (concat (map raw (h_cards h))))) as [_ ->]. reflexivity. }
  destruct (write_padding_append _ A2) as [A3 C3].
  { rewrite C2, C1, !app_length, length_spaces. lia. }
  split; [exact A3|]. rewrite C3, C2, app_length, pad_len_shift by exact Lc. rewrite C1. unfold unit_text. rewrite <- !app_assoc. reflexivity.
Qed.

Lemma write_rows_one rows : forall s, appending s ->
  appending (fold_left (fun s row => stream_write (bin_row_text row) s) rows s) /\
  content (fold_left (fun s row => stream_write (bin_row_text row) s) rows s) = content s ++ concat (map bin_row_text rows).
Proof. intros s A. apply write_rows_append. exact A. Qed.

Lemma ascii_write_rows_text cols rows ts : Forall2 (fun row x => ascii_row_text cols row = Ret x) rows ts -> forall s, appending s ->
  exists s', ascii_write_rows cols rows s = (s', Ret tt) /\ appending s' /\ content s' = content s ++ concat ts.
Proof.
  intros F. induction F as [|row x rows ts E F IH]; intros s A; cbn [ascii_write_rows concat].
  - exists s. rewrite app_nil_r. auto.
  - rewrite E. destruct (write_append s x A) as [A1 C1]. destruct (IH _ A1) as (s' & E' & A' & C').
    exists s'. split; [exact E'|]. split; [exact A'|]. rewrite C', C1, <- app_assoc. reflexivity.
Qed.

Lemma appending_eq s s' : appending s -> appending s' -> content s = content s' -> s = s'.
Proof.
  intros [G P] [G' P'] E. apply good_true in G as [A B]. apply good_true in G' as [A' B'].
  destruct s, s'. cbn in *. subst. f_equal; lia.
Qed.

Lemma write_hdu_text x rs d s : written_as x rs d -> appending s -> length (content s) mod 2880 = 0 ->
  (N.of_nat (length (content s) + length (unit_text rs d)) < 2 ^ 62)%N ->
  exists s', write_hdu x s = (s', Ret tt) /\ appending s' /\ content s' = content s ++ unit_text rs d.
Proof.
  intros W A M Hl. destruct x as [|p|t|t]; cbn [written_as] in W; [contradiction| | |].
  - destruct W as [-> ->]. cbn [write_hdu]. eexists. split; [reflexivity|]. unfold primary_write. apply write_unit_text; auto.
  - destruct W as [-> ->]. cbn [write_hdu]. eexists. split; [reflexivity|].
    destruct (write_unit_text _ (t_header t) (concat (map bin_row_text (t_data t))) s A M eq_refl Hl) as [A1 C1].
    assert (E : bin_write t s = write_unit (t_header t) (concat (map bin_row_text (t_data t))) s).
    { unfold bin_write, write_unit. f_equal. destruct (unit_text_length (map raw (h_cards (t_header t))) (concat (map bin_row_text (t_data t)))) as [Lu _].
      rewrite Lu in Hl. unfold next_block in Hl.
      destruct (write_header_append (t_header t) s A) as [A2 C2]; [lia|].
      destruct (write_rows_append (t_data t) _ A2) as [A3 C3]. destruct (write_append _ (concat (map bin_row_text (t_data t))) A2) as [A4 C4].
      apply appending_eq; [assumption..|]. rewrite C3, C4. reflexivity. }
    rewrite E. auto.
  - destruct W as (-> & ts & F & ->). cbn [write_hdu].
    destruct (write_unit_text _ (t_header t) (concat ts) s A M eq_refl Hl) as [A1 C1].
    destruct (unit_text_length (map raw (h_cards (t_header t))) (concat ts)) as [Lu _].
    rewrite Lu in Hl. unfold next_block in Hl.
    destruct (write_header_append (t_header t) s A) as [A2 C2]; [lia|].
    destruct (ascii_write_rows_text _ _ _ F _ A2) as (s3 & E3 & A3 & C3). unfold ascii_write. rewrite E3.
    eexists. split; [reflexivity|]. destruct (write_append _ (concat ts) A2) as [A4 C4].
    replace s3 with (stream_write (concat ts) (write_header (t_header t) s)); [auto|].
    apply appending_eq; [assumption..|]. rewrite C3, C4. reflexivity.
Qed.

Theorem write_hdus_text l xs : Forall2 (fun x rd => written_as x (fst rd) (snd rd)) xs l -> forall s,
  appending s -> length (content s) mod 2880 = 0 ->
  (N.of_nat (length (content s) + length (concat (map (fun rd => unit_text (fst rd) (snd rd)) l))) < 2 ^ 62)%N ->
  exists s', write_hdus xs s = (s', Ret tt) /\ content s' = content s ++ concat (map (fun rd => unit_text (fst rd) (snd rd)) l).
Proof.
  intros F. induction F as [|x [rs d] xs l W F IH]; intros s A M Hl; cbn [write_hdus map concat fst snd] in *.
  - exists s. rewrite app_nil_r. auto.
  - rewrite app_length in Hl. destruct (write_hdu_text x rs d s W A M) as (s1 & E1 & A1 & C1); [lia|]. rewrite E1.
    destruct (IH s1 A1) as (s2 & E2 & C2).
    + rewrite C1, app_length, Nat.add_mod by lia. destruct (unit_text_length rs d) as [_ ->]. rewrite M. reflexivity.
    + rewrite C1, app_length. lia.
    + exists s2. split; [exact E2|]. rewrite C2, C1, <- app_assoc. reflexivity.
Qed.
