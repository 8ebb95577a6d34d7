(** * Proofs about the size of what is read. *)
From Coq Require Import Lia ZifyBool ZifyNat ZifyN.
From Verif Require Import ReaderImage.
From Verif Require Export WholeProofs CopyProofs NeedProofs CutProofs BoundSpec.
Open Scope list_scope.

(** ** Units and their bytes *)

Definition unit_bytes (u : file_unit) : nat := header_bytes (u_header u) + length (u_data u).

Lemma unit_bytes_last fc c u e : unit_read fc c u e -> u_at u + unit_bytes u <= unit_last u /\ unit_last u <= length c.
Proof.
  intros U. destruct U as [p h Hp R Z|p h b n Hp R Hb Z Hn Hl]; unfold unit_last, unit_bytes; cbn [u_data u_at u_header u_data_at length];
    pose proof (header_end _ _ _ _ R) as E.
  - lia.
  - destruct (next_block_spec (p + header_bytes h)) as [Hq _]. set (q := next_block (p + header_bytes h)) in *.
    destruct Hl as [->|Hl]; [rewrite slice_none; cbn [length]; lia|].
    pose proof (slice_len c q n Hl) as L. destruct (slice c q n) as [|x l]; cbn [length] in *; lia.
Qed.

Lemma units_bytes fc c p us e : units_read fc c p us e -> p <= length c -> p + total (map unit_bytes us) <= length c.
Proof.
  intros U. induction U as [p|u us e e' U Us IH]; intros Hp; cbn [map total]; [lia|].
  destruct (unit_bytes_last _ _ _ _ U) as [A B]. destruct (unit_read_next _ _ _ _ U) as [C _].
  destruct Us as [p|u2 us e2 e3 U2 Us]; cbn [map total] in *; [lia|].
  pose proof (unit_read_inside _ _ _ _ U2). specialize (IH ltac:(lia)). lia.
Qed.

Lemma unit_block fc c u e : unit_read fc c u e -> u_at u mod 2880 = 0 -> e mod 2880 = 0 /\ u_at u + 2880 <= e.
Proof.
  intros U. destruct U as [p h Hp R Z|p h b n Hp R Hb Z Hn Hl]; cbn [u_at]; intros M;
    destruct (next_block_spec (p + header_bytes h)) as [A B]; set (q := next_block (p + header_bytes h)) in *.
  - split; [exact B|]. lia.
  - destruct (next_block_spec (q + n)) as [C D]. set (r := next_block (q + n)) in *. split; [exact D|]. lia.
Qed.

Lemma units_count fc c p us e : units_read fc c p us e -> p mod 2880 = 0 -> p < length c + 2880 ->
  p + 2880 * length us < length c + 2880.
Proof.
  intros U. induction U as [p|u us e e' U Us IH]; intros M L; cbn [length]; [lia|].
  destruct (unit_block _ _ _ _ U M) as [A B]. pose proof (unit_read_inside _ _ _ _ U) as I.
  destruct us as [|u2 us]; [cbn [length]; lia|].
  assert (E : e = u_at u2 /\ u_at u2 < length c).
  { inversion Us as [|? ? ? ? U2 Us2]; subst. split; [reflexivity|]. exact (unit_read_inside _ _ _ _ U2). }
  specialize (IH A ltac:(lia)). cbn [length] in *. lia.
Qed.

(** ** Images *)

Lemma bitpix_eqb_b8 b : b = B8 \/ b <> B8.
Proof. destruct b; [left; reflexivity|right; discriminate..]. Qed.

Lemma image_within b d im : read_image b d empty_image = Ret im -> N.to_nat (element_size b) * image_size im <= length d.
Proof.
  intros H. destruct d as [|x d].
  { assert (im = empty_image) as -> by (cbn in H; congruence). cbn. lia. }
  assert (Hk : N.to_nat (element_size b) <> 0) by (destruct b; discriminate).
  assert (L : image_size im = length (x :: d) / N.to_nat (element_size b)).
  { destruct (bitpix_eqb_b8 b) as [->|Hb].
    - unfold read_image in H. change (N.to_nat (element_size B8)) with 1 in *. rewrite Nat.div_1_r in *.
      rewrite (read_pixels_b8 _ _ (le_n _)) in H. cbn [bind] in H.
      assert (im = mk_image (repeat 0%N (length (x :: d))) (width empty_image)) as -> by congruence.
      unfold image_size. cbn [pixels]. apply repeat_length.
    - destruct (read_image_spec b (x :: d) empty_image Hb ltac:(discriminate)) as (p & E & L & _).
      assert (im = mk_image p (width empty_image)) as -> by congruence. exact L. }
  rewrite L. apply Nat.mul_div_le, Hk.
Qed.

(** ** Columns *)

Lemma columns_within fc h n : (forall j, j < n -> exists f, header_text fc h (numbered "TFORM" (S j)) f) -> n <= length (h_cards h).
Proof.
  intros H. rewrite <- (map_length raw (h_cards h)), <- (map_length record_key).
  rewrite <- (seq_length n 0), <- (map_length (fun j => numbered "TFORM" (S j))).
  apply NoDup_incl_length.
  - apply FinFun.Injective_map_NoDup; [|apply seq_NoDup]. intros i j E. apply numbered_inj in E. lia.
  - intros k Hk. apply in_map_iff in Hk as (j & <- & Hj). apply in_seq in Hj.
    destruct (H j ltac:(lia)) as (f & r & Hr & _). apply last_record_in in Hr as [Hi <-]. apply in_map. exact Hi.
Qed.

(** ** Binary tables *)

Lemma row_chars ws buf r : length (concat (row_cells ws buf r)) <= total ws.
Proof.
  unfold row_cells. destruct (concat_trim_length (cut ws (skipn (r * total ws) buf))) as [A _].
  etransitivity; [exact A|]. clear A. generalize (skipn (r * total ws) buf). intros s. revert s.
  induction ws as [|w ws IH]; intros s; cbn [cut concat total length]; [lia|].
  rewrite app_length. specialize (IH (skipn w s)). pose proof (firstn_le_length w s). 
  assert (length (firstn w s) <= w) by (rewrite firstn_length; lia). lia.
Qed.

Lemma rows_chars ws buf l : length (concat (concat (map (row_cells ws buf) l))) <= length l * total ws.
Proof.
  induction l as [|r l IH]; cbn [map concat length]; [cbn; lia|].
  rewrite concat_app, app_length. pose proof (row_chars ws buf r). cbn [Nat.mul]. lia.
Qed.

Lemma product_axis l i v : nth_error l i = Some v -> product l <> 0%N -> (v <= product l)%N /\ v <> 0%N.
Proof.
  revert i. induction l as [|x l IH]; intros i H P; [destruct i; discriminate|].
  change (product (x :: l)) with (x * product l)%N in *.
  assert (x <> 0 /\ product l <> 0)%N as [X Y] by nia.
  destruct i as [|i]; cbn [nth_error] in H.
  - injection H as <-. split; [nia|exact X].
  - destruct (IH i H Y). split; [nia|assumption].
Qed.

Lemma product_divides l i v : nth_error l i = Some v -> (v | product l)%N.
Proof.
  revert i. induction l as [|x l IH]; intros i H; [destruct i; discriminate|].
  change (product (x :: l)) with (x * product l)%N. destruct i as [|i]; cbn [nth_error] in H.
  - injection H as <-. apply N.divide_factor_l.
  - apply N.divide_mul_r, (IH i H).
Qed.

(** The data of a unit is not empty only if its axes announce data. *)
Definition announced_by (h : header) (d : str) : Prop :=
  d <> [] -> (N.of_nat (length d) < 2 ^ 62)%N /\ data_size h <> 0%N /\
    exists b, N.of_nat (length d) = ((data_size h * element_size b) mod 2 ^ 64)%N.

Lemma unit_announced fc c u e : small c -> unit_read fc c u e -> announced_by (u_header u) (u_data u).
Proof.
  intros Sm U. destruct U as [p h Hp R Z|p h b n Hp R Hb Z Hn Hl]; cbn [u_header u_data]; intros D; [contradiction|].
  destruct Hl as [->|Hl]; [rewrite slice_none in D; contradiction|]. unfold small in Sm. rewrite (slice_len _ _ _ Hl).
  split; [lia|]. split; [exact Z|]. exists b. exact Hn.
Qed.

Lemma axes_rows h d i v : announced_by h d -> d <> [] -> nth_error (h_naxis h) i = Some v ->
  (v mod 2 ^ 64)%N <> 0%N /\ ((v <= N.of_nat (length d))%N \/ (2 ^ 61 <= product (h_naxis h))%N).
Proof.
  intros A D Hv. destruct (A D) as (Sm & Z & b & E). rewrite data_size_product in *.
  destruct (h_naxis h) as [|x l] eqn:Ax; [contradiction|]. set (P := product (x :: l)) in *. unfold two64 in *.
  assert (P0 : P <> 0%N) by (intros ->; apply Z; reflexivity).
  destruct (product_axis _ _ _ Hv P0) as [L N0]. fold P in L. split.
  - intros M. apply Z. apply N.mod_divide in M as [q Hq]; [|lia]. apply N.mod_divide; [lia|].
    destruct (product_divides _ _ _ Hv) as [k Hk]. fold P in Hk. exists (k * q)%N. rewrite Hk, Hq. lia.
  - destruct (N.lt_ge_cases P (2 ^ 61)) as [S|S]; [left|right; exact S].
    rewrite (N.mod_small P) in E by lia.
    assert (B : (1 <= element_size b <= 8)%N) by (destruct b; cbn; lia).
    rewrite N.mod_small in E by nia. nia.
Qed.

Lemma binary_within fc h d t : reached fc h -> announced_by h d -> binary_table fc h d = Ret t ->
  within (header_bytes h + length d) (HBinary t).
Proof.
  intros R An T. destruct (binary_table_inv _ _ _ _ R T) as (h1 & n & cols & ws & _ & E1 & _ & E2 & W & [_ Lay] & Lc & St & D0 & D1).
  assert (Lh : length (h_cards h1) = length (h_cards h)).
  { rewrite <- (map_length raw (h_cards h1)), (st_raw _ _ _ St). apply map_length. }
  unfold within, header_bytes. rewrite E1, E2, Lh, (st_naxis _ _ _ St).
  pose proof (widths_length _ _ _ W) as Lw.
  assert (Cn : length cols <= length (h_cards h)).
  { apply (columns_within fc). intros j Hj. rewrite Lw in Hj. destruct (nth_error ws j) as [w|] eqn:Ew.
    - destruct (Lay j w Ew) as (f & F & _). eauto.
    - apply nth_error_None in Ew. lia. }
  destruct d as [|x d].
  { rewrite (D0 eq_refl). unfold cell_chars. rewrite (D0 eq_refl). cbn [concat length]. repeat split; try lia. constructor. }
  assert (Dn : x :: d <> []) by discriminate. destruct (D1 Dn) as (rows & Hr & B). clear D0 D1. set (buf := x :: d) in *. clearbody buf.
  unfold bin_table_data in B. destruct (max_rows <? rows)%N; [discriminate B|].
  destruct (N.eqb_spec rows 0) as [->|Hn].
  { assert (t_data t = []) as Et by congruence. unfold cell_chars. rewrite Et. cbn [concat length]. repeat split; try lia. constructor. }
  assert (bin_read_rows (N.to_nat rows) cols buf = Ret (t_data t)) as B2.
  { destruct cols; [discriminate B|]. destruct (bin_read_rows _ _ buf); try discriminate B. cbn [bind] in B.
    destruct (2 ^ 31 <=? rows)%N; [discriminate B|exact B]. }
  clear B. rewrite (bin_read_rows_spec _ _ W) in B2. destruct (Nat.leb_spec (N.to_nat rows * total ws) (length buf)) as [Hl|_]; [|discriminate B2].
  assert (Et : t_data t = map (row_cells ws buf) (seq 0 (N.to_nat rows))) by congruence. clear B2.
  assert (Ch : cell_chars t <= N.to_nat rows * total ws).
  { unfold cell_chars. rewrite Et. pose proof (rows_chars ws buf (seq 0 (N.to_nat rows))) as C. rewrite seq_length in C. exact C. }
  split; [lia|]. split; [exact Cn|]. split.
  { rewrite Et. apply Forall_forall. intros row Hi. apply in_map_iff in Hi as (r & <- & _). unfold row_cells.
    rewrite map_length, cut_length. symmetry. exact Lw. }
  replace (length (t_data t)) with (N.to_nat rows) by (rewrite Et, map_length, seq_length; reflexivity).
  destruct (total ws) as [|w]; [|left; nia].
  destruct (axes_rows _ _ _ _ An Dn Hr) as [_ [A|A]]; [left; lia|right]. split; [lia|exact A].
Qed.

(** ** ASCII tables *)

Lemma ascii_field_within row width c buf x : ascii_field row width c buf = Ret x ->
  (1 <= mul64 (N.of_nat row) width + c_start c <= N.of_nat (length buf))%N /\ length x <= length buf.
Proof.
  unfold ascii_field. set (b := (mul64 (N.of_nat row) width + c_start c)%N).
  destruct (N.ltb_spec (N.of_nat (length buf)) b); [discriminate|]. destruct (N.eqb_spec b 0); [discriminate|].
  destruct (ascii_column_size (c_format c)) as [w| | |]; try discriminate. cbn [bind].
  destruct (N.leb_spec (b - 1 + w) (N.of_nat (length buf))); [|discriminate].
  intros E. assert (x = trim (firstn (N.to_nat w) (skipn (N.to_nat (b - 1)) buf))) as -> by congruence. split; [lia|].
  etransitivity; [apply trim_length|]. rewrite firstn_length, skipn_length. lia.
Qed.

Lemma ascii_row_within row width cols buf : forall y, ascii_read_row row width cols buf = Ret y ->
  length y = length cols /\ Forall (fun cell : str => length cell <= length buf) y.
Proof.
  induction cols as [|c cols IH]; intros y H; cbn [ascii_read_row] in H.
  - assert (y = []) as -> by congruence. split; [reflexivity|constructor].
  - destruct (ascii_field row width c buf) as [x| | |] eqn:F; try discriminate H. cbn [bind] in H.
    destruct (ascii_read_row row width cols buf) as [z| | |]; try discriminate H. cbn [bind] in H.
    assert (y = x :: z) as -> by congruence. destruct (IH z eq_refl) as [A B]. split; [cbn [length]; lia|].
    constructor; [apply (ascii_field_within _ _ _ _ _ F)|exact B].
Qed.

Lemma ascii_rows_within n width cols buf : forall row d, ascii_read_rows n row width cols buf = Ret d ->
  length d = n /\ Forall (fun y => length y = length cols /\ Forall (fun cell : str => length cell <= length buf) y) d /\
  forall i, i < n -> exists y, ascii_read_row (row + i) width cols buf = Ret y.
Proof.
  induction n as [|n IH]; intros row d H; cbn [ascii_read_rows] in H.
  - assert (d = []) as -> by congruence. split; [reflexivity|]. split; [constructor|]. intros i Hi. lia.
  - destruct (ascii_read_row row width cols buf) as [x| | |] eqn:F; try discriminate H. cbn [bind] in H.
    destruct (ascii_read_rows n (S row) width cols buf) as [z| | |] eqn:G; try discriminate H. cbn [bind] in H.
    assert (d = x :: z) as -> by congruence. destruct (IH _ _ G) as (A & B & C).
    split; [cbn [length]; lia|]. split; [constructor; [exact (ascii_row_within _ _ _ _ _ F)|exact B]|].
    intros [|i] Hi; [rewrite Nat.add_0_r; eauto|]. destruct (C i ltac:(lia)) as (y & Y). exists y.
    replace (row + S i) with (S row + i) by lia. exact Y.
Qed.

(** Positions that advance in small steps and stay below a small bound do not wrap. *)
Lemma no_wrap a k r : (a < 2 ^ 64)%N -> (k < 2 ^ 62)%N -> (forall i, i < r -> ((N.of_nat i * a) mod 2 ^ 64 <= k)%N) ->
  forall i, i < r -> (N.of_nat i * a <= k)%N.
Proof.
  intros Ha Hk H. induction i as [|i IH]; intros Hi; [lia|]. specialize (IH ltac:(lia)).
  pose proof (H (S i) Hi) as H1. pose proof (H 1 ltac:(lia)) as H2. rewrite (N.mod_small (N.of_nat 1 * a)) in H2 by lia.
  rewrite N.mod_small in H1 by lia. exact H1.
Qed.

Lemma ascii_within fc h d t : reached fc h -> announced_by h d -> ascii_table fc h d = Ret t ->
  within (header_bytes h + length d) (HAscii t).
Proof.
  intros R An T. destruct (ascii_table_inv _ _ _ _ R T) as (h1 & n & cols & _ & E1 & _ & E2 & _ & Lc & St & Co & D0 & D1).
  assert (Lh : length (h_cards h1) = length (h_cards h)).
  { rewrite <- (map_length raw (h_cards h1)), (st_raw _ _ _ St). apply map_length. }
  unfold within, header_bytes. rewrite E1, E2, Lh.
  assert (Cn : length cols <= length (h_cards h)).
  { apply (columns_within fc). intros j Hj. destruct (nth_error cols j) as [c|] eqn:Ec.
    - exists (c_format c). apply (Co j c Ec).
    - apply nth_error_None in Ec. lia. }
  destruct d as [|x d].
  { rewrite (D0 eq_refl). cbn [length]. split; [lia|]. split; [exact Cn|constructor]. }
  assert (Dn : x :: d <> []) by discriminate. destruct (D1 Dn) as (width & rows & Hw & Hr & B). clear D0 D1. set (buf := x :: d) in *. clearbody buf.
  unfold ascii_table_data in B. destruct (max_rows <? rows)%N; [discriminate B|].
  destruct (N.eqb_spec rows 0) as [->|Hn].
  { assert (t_data t = []) as Et by congruence. rewrite Et. cbn [length]. split; [lia|]. split; [exact Cn|constructor]. }
  destruct cols as [|c0 cols]; [discriminate B|]. set (cs := c0 :: cols) in *.
  assert (ascii_read_rows (N.to_nat rows) 0 width cs buf = Ret (t_data t)) as B2.
  { destruct (ascii_read_rows _ _ _ _ buf); try discriminate B. cbn [bind] in B.
    destruct (2 ^ 31 <=? rows)%N; [discriminate B|exact B]. }
  clear B. destruct (ascii_rows_within _ _ _ _ _ _ B2) as (L & F & Rs).
  split; [|split; [exact Cn|]].
  - assert (P : forall i, i < N.to_nat rows -> (1 <= mul64 (N.of_nat i) width + c_start c0 <= N.of_nat (length buf))%N).
    { intros i Hi. destruct (Rs i Hi) as (y & Y). unfold cs in Y. cbn [ascii_read_row Nat.add] in Y.
      destruct (ascii_field i width c0 buf) as [z| | |] eqn:Ef; try discriminate Y. apply (ascii_field_within _ _ _ _ _ Ef). }
    destruct (An Dn) as (Sm & _). destruct (axes_rows _ _ _ _ An Dn Hw) as [W0 _].
    set (a := (width mod 2 ^ 64)%N) in *.
    assert (Ha : (a < 2 ^ 64)%N) by (apply N.mod_lt; lia).
    assert (M : forall i, mul64 (N.of_nat i) width = ((N.of_nat i * a) mod 2 ^ 64)%N).
    { intros i. unfold mul64, two64, a. rewrite N.mul_mod_idemp_r by lia. reflexivity. }
    pose proof (P 0 ltac:(lia)) as P0. rewrite M in P0. change (N.of_nat 0 * a)%N with 0%N in P0. rewrite N.mod_small in P0 by lia.
    assert (Q : forall i, i < N.to_nat rows -> ((N.of_nat i * a) mod 2 ^ 64 <= N.of_nat (length buf) - 1)%N).
    { intros i Hi. specialize (P i Hi). rewrite M in P. lia. }
    pose proof (no_wrap a (N.of_nat (length buf) - 1) (N.to_nat rows) Ha ltac:(lia) Q (N.to_nat rows - 1) ltac:(lia)) as Z.
    rewrite L. nia.
  - eapply Forall_impl; [|exact F]. cbn beta. intros y [Y1 Y2]. split; [exact Y1|]. eapply Forall_impl; [|exact Y2]. cbn beta. intros s Hs. lia.
Qed.

(** ** Whole files *)

Lemma becomes_within fc h d name x : reached fc h -> announced_by h d -> becomes fc h d name x -> within (header_bytes h + length d) x.
Proof.
  intros R An B. destruct x as [|p|t|t]; [exact I|..].
  - pose proof (becomes_records _ _ _ _ _ R B ltac:(discriminate)) as Rr. cbn [object_records] in Rr.
    destruct B as (h1 & En & C). unfold construct_hdu in C.
    destruct (contains_keyword (lit "SIMPLE") h1).
    + destruct (make_primary fc h1 d) as [p'| | |] eqn:M; try discriminate C. cbn [bind] in C.
      assert (p' = p) by congruence. subst p'.
      destruct (make_primary_inv _ _ _ _ M) as (b & h2 & _ & Im & _ & _ & Ek & _). unfold within, header_bytes. rewrite Ek.
      pose proof (image_within _ _ _ Im) as L.
      apply (f_equal (@length _)) in Rr. rewrite !map_length in Rr. rewrite Rr. lia.
    + unfold make_extension in C. destruct (value_str fc (lit "XTENSION") h1) as [h2 [x| | |]]; try discriminate C.
      destruct (str_eqb x (lit "TABLE")); [destruct (ascii_table fc h2 d); discriminate C|].
      destruct (str_eqb x (lit "BINTABLE")); [destruct (binary_table fc h2 d); discriminate C|discriminate C].
  - destruct (becomes_table fc _ _ name t false R B) as (h1 & h2 & _ & _ & _ & R2 & St & T).
    replace (header_bytes h) with (header_bytes h2).
    + apply (binary_within fc); [exact R2| |exact T]. intros D. rewrite (steady_size _ _ _ St). exact (An D).
    + unfold header_bytes. rewrite <- (map_length raw (h_cards h2)), (st_raw _ _ _ St), map_length. reflexivity.
  - destruct (becomes_table fc _ _ name t true R B) as (h1 & h2 & _ & _ & _ & R2 & St & T).
    replace (header_bytes h) with (header_bytes h2).
    + apply (ascii_within fc); [exact R2| |exact T]. intros D. rewrite (steady_size _ _ _ St). exact (An D).
    + unfold header_bytes. rewrite <- (map_length raw (h_cards h2)), (st_raw _ _ _ St), map_length. reflexivity.
Qed.

Lemma units_within fc c p us e : small c -> units_read fc c p us e -> Forall (fun u => reached fc (u_header u) /\ announced_by (u_header u) (u_data u)) us.
Proof.
  intros Sm U. induction U as [p|u us e e' U Us IH]; constructor; [|exact IH]. split; [|exact (unit_announced _ _ _ _ Sm U)].
  destruct U as [p h Hp R Z|p h b n Hp R Hb Z Hn Hl]; exact (readable_reached _ _ _ _ R).
Qed.

Theorem read_within fc c hf fuel f : small c -> read_entire_hdus fc hf fuel (open_fits c) = (f, Ret tt) ->
  exists ns, Forall2 within ns (f_hdus f) /\ total ns <= length c.
Proof.
  intros Sm H. destruct (proj1 (reads_iff fc c (f_hdus f) Sm)) as (us & names & (e & U & _) & Ln & F); [eauto|].
  exists (map unit_bytes us). split; [|exact (units_bytes _ _ _ _ _ U (Nat.le_0_l _))].
  pose proof (units_within _ _ _ _ _ Sm U) as G. clear U H. revert us F G. revert names Ln.
  induction (f_hdus f) as [|x xs IH]; intros names Ln us F G.
  - destruct names; [|discriminate Ln]. inversion F; subst. constructor.
  - destruct names as [|n names]; [discriminate Ln|]. cbn [combine] in F.
    inversion F as [|u nx us' l B F']; subst. inversion G as [|u' us'' [G1 G2] G']; subst. cbn [map fst snd] in *. constructor.
    + apply (becomes_within fc _ _ n); assumption.
    + apply (IH names ltac:(injection Ln; auto)); assumption.
Qed.

Theorem read_count fc c hf fuel f : small c -> read_entire_hdus fc hf fuel (open_fits c) = (f, Ret tt) ->
  2880 * length (f_hdus f) < length c + 2880.
Proof.
  intros Sm H. destruct (proj1 (reads_iff fc c (f_hdus f) Sm)) as (us & names & (e & U & _) & Ln & F); [eauto|].
  pose proof (units_count _ _ _ _ _ U eq_refl ltac:(lia)) as L.
  pose proof (forall2_names fc us names _ Ln F) as E. lia.
Qed.
