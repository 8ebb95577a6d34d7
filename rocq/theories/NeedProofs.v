(** * Proofs about headers without a record. *)
From Coq Require Import Lia.
From Verif Require Import ReaderImage.
From Verif Require Export WholeProofs NeedSpec StopSpec.
From Verif Require Import CutProofs StopProofs.

(** ** Records *)

Lemma filter_backwards {A} (f : A -> bool) l : rev (filter f l) = filter f (rev l).
Proof.
  induction l as [|a l IH]; [reflexivity|]. cbn [filter rev]. rewrite filter_app. cbn [filter].
  destruct (f a); cbn [rev]; rewrite IH; [reflexivity|symmetry; apply app_nil_r].
Qed.

Lemma last_without key k rs : last_record k (without key rs) = if str_eqb key k then None else last_record k rs.
Proof.
  unfold last_record, without. rewrite filter_backwards. generalize (rev rs). clear rs. intros rs.
  induction rs as [|r rs IH]; cbn [filter find]; [destruct (str_eqb key k); reflexivity|].
  destruct (str_eqb (record_key r) key) eqn:E; cbn [negb].
  - rewrite IH. apply str_eqb_eq in E. rewrite E. destruct (str_eqb key k) eqn:Ek; reflexivity.
  - cbn [find]. rewrite IH. destruct (str_eqb (record_key r) k) eqn:Ek; [|reflexivity].
    apply str_eqb_eq in Ek. destruct (str_eqb key k) eqn:E2; [|reflexivity]. apply str_eqb_eq in E2. subst.
    rewrite str_eqb_refl in E. discriminate.
Qed.

Lemma gone key rs : missing (without key rs) key.
Proof. unfold missing. rewrite last_without, str_eqb_refl. reflexivity. Qed.
Lemma still_missing key k rs : missing rs k -> missing (without key rs) k.
Proof. unfold missing. rewrite last_without. intros ->. destruct (str_eqb key k); reflexivity. Qed.
Lemma last_other key k rs : key <> k -> last_record k (without key rs) = last_record k rs.
Proof. intros H. rewrite last_without. destruct (str_eqb key k) eqn:E; [apply str_eqb_eq in E; contradiction|reflexivity]. Qed.

Lemma says_without key k rs t : key <> k -> says rs k t -> says (without key rs) k t.
Proof. intros H (r & R & E). exists r. rewrite (last_other _ _ _ H). auto. Qed.
Lemma number_without key k rs n : key <> k -> says_number rs k n -> says_number (without key rs) k n.
Proof. intros H (t & T & S). exists t. split; [exact T|apply says_without; assumption]. Qed.
Lemma integer_without key k rs n : key <> k -> says_integer rs k n -> says_integer (without key rs) k n.
Proof. intros H (t & T & S). exists t. split; [exact T|apply says_without; assumption]. Qed.
Lemma logical_without key k rs b : key <> k -> says_logical rs k b -> says_logical (without key rs) k b.
Proof. apply says_without. Qed.
Lemma text_without key k rs s : key <> k -> says_text rs k s -> says_text (without key rs) k s.
Proof. intros H (A & B & n & S). split; [exact A|]. split; [exact B|]. exists n. apply says_without; assumption. Qed.
Lemma real_without fc key k rs w : key <> k -> says_real fc rs k w -> says_real fc (without key rs) k w.
Proof. intros H (t & A & B & C & S). exists t. repeat (split; [assumption|]). apply says_without; assumption. Qed.
Lemma anything_without key k rs : key <> k -> says_anything rs k -> says_anything (without key rs) k.
Proof.
  intros H [(s & S)|(t & A & B & C & S)]; [left; exists s; apply text_without; assumption|].
  right. exists t. repeat (split; [assumption|]). apply says_without; assumption.
Qed.

Lemma unless_same {A} key (none a : A) : unless key key none a = none.
Proof. unfold unless. rewrite str_eqb_refl. reflexivity. Qed.
Lemma unless_other {A} key k (none a : A) : key <> k -> unless key k none a = a.
Proof. intros H. unfold unless. destruct (str_eqb key k) eqn:E; [apply str_eqb_eq in E; contradiction|reflexivity]. Qed.
Lemma same_or_not (a b : str) : a = b \/ a <> b.
Proof. destruct (str_eqb a b) eqn:E; [left; apply str_eqb_eq; exact E|right; intros ->; rewrite str_eqb_refl in E; discriminate]. Qed.

Lemma text_if_without key k rs o : text_if_any rs k o -> text_if_any (without key rs) k (unless key k None o).
Proof.
  intros H. destruct (same_or_not key k) as [->|Hn]; [rewrite unless_same; apply gone|]. rewrite unless_other by exact Hn.
  destruct o; cbn [text_if_any] in *; [apply text_without; assumption|apply still_missing; exact H].
Qed.
Lemma real_if_without fc key k rs o : real_if_any fc rs k o -> real_if_any fc (without key rs) k (unless key k None o).
Proof.
  intros H. destruct (same_or_not key k) as [->|Hn]; [rewrite unless_same; apply gone|]. rewrite unless_other by exact Hn.
  destruct o; cbn [real_if_any] in *; [apply real_without; assumption|apply still_missing; exact H].
Qed.

Lemma name_without key rs i name : column_name rs i name -> column_name (without key rs) i (unless key (numbered "TTYPE" i) [] name).
Proof.
  intros H. destruct (same_or_not key (numbered "TTYPE" i)) as [->|Hn]; [rewrite unless_same; right; split; [apply gone|reflexivity]|].
  rewrite unless_other by exact Hn. destruct H as [[S M]|[M E]]; [left|right; split; [apply still_missing; exact M|exact E]].
  split; [apply text_without; assumption|]. destruct M as [M|(A & B & C)]; [left; apply still_missing; exact M|].
  destruct (same_or_not key name) as [->|Hk]; [left; apply gone|right]. split; [apply anything_without; assumption|auto].
Qed.

Lemma column_without fc key rs i a : key <> numbered "TFORM" i -> column_records fc rs i a -> column_records fc (without key rs) i (forget_about key i a).
Proof.
  intros H (A & B & C & D & E). split; [apply name_without; exact A|]. split; [apply text_without; assumption|].
  split; [apply text_if_without; exact C|]. split; apply real_if_without; assumption.
Qed.
Lemma bin_without fc key rs i c : key <> numbered "TFORM" i -> bin_col_ok fc rs i c -> bin_col_ok fc (without key rs) i (forget_bin key i c).
Proof.
  intros H (A & B & C & D). split; [apply column_without; assumption|]. split; [apply text_if_without; exact B|].
  split; [apply text_if_without; exact C|exact D].
Qed.
Lemma textcol_without fc key rs line i c : key <> numbered "TFORM" i -> key <> numbered "TBCOL" i ->
  text_col_ok fc rs line i c -> text_col_ok fc (without key rs) line i (forget_text key i c).
Proof.
  intros H H' (A & B & C). split; [apply column_without; assumption|]. split; [apply number_without; assumption|exact C].
Qed.

Lemma end_key : record_key end_card = lit "END".
Proof. reflexivity. Qed.
Lemma records_without key rs : key <> lit "END" -> header_records rs -> header_records (without key rs).
Proof.
  intros H (body & -> & F). exists (without key body). unfold without at 1. rewrite filter_app. cbn [filter]. rewrite end_key.
  destruct (str_eqb (lit "END") key) eqn:E; [apply str_eqb_eq in E; subst key; contradiction|]. split; [reflexivity|].
  rewrite Forall_forall in *. intros r Hr. apply filter_In in Hr. apply F. apply Hr.
Qed.
Lemma shape_without key b axes rs : key <> lit "BITPIX" -> key <> lit "NAXIS" -> (forall i, 1 <= i <= length axes -> key <> axis_key i) ->
  shape b axes rs -> shape b axes (without key rs).
Proof.
  intros A B C (S1 & S2 & S3). split; [apply integer_without; assumption|]. split; [apply number_without; assumption|].
  intros i v Hi. apply number_without; [|exact (S3 i v Hi)]. apply C. assert (i < length axes) by (apply nth_error_Some; congruence). lia.
Qed.

Lemma numbering_nth {A B} (f : nat -> A -> B) l : forall i j, nth_error (numbering f i l) j = option_map (f (i + j)) (nth_error l j).
Proof.
  induction l as [|a l IH]; intros i [|j]; cbn [numbering nth_error option_map]; try reflexivity.
  - rewrite Nat.add_0_r. reflexivity.
  - rewrite IH. replace (S i + j) with (i + S j) by lia. reflexivity.
Qed.
Lemma numbering_length {A B} (f : nat -> A -> B) l : forall i, length (numbering f i l) = length l.
Proof. induction l as [|a l IH]; intros i; cbn [numbering length]; [reflexivity|]. rewrite IH. reflexivity. Qed.
Lemma numbering_widths key cols : forall i, map bc_width (numbering (forget_bin key) i cols) = map bc_width cols.
Proof. induction cols as [|c cols IH]; intros i; cbn [numbering map]; [reflexivity|]. rewrite IH. reflexivity. Qed.
Lemma numbering_rows {A} key cols : forall i (row : list A) (P : nat -> A -> Prop), Forall2 (fun c => P (bc_width c)) cols row ->
  Forall2 (fun c => P (bc_width c)) (numbering (forget_bin key) i cols) row.
Proof. intros i row P F. revert i. induction F; intros i; cbn [numbering]; constructor; auto. Qed.

(** A table without a record that is not about the table as a whole. *)
Lemma table_without key kind width rows fields rs : ~ table_needs key ->
  key <> lit "BITPIX" -> key <> lit "NAXIS" -> (forall i, 1 <= i <= 2 -> key <> axis_key i) -> key <> lit "END" ->
  table_records kind width rows fields rs -> table_records kind width rows fields (without key rs).
Proof.
  intros Hn A B C E (T1 & T2 & T3 & T4 & (g & G1 & G2) & (p & P1 & P2) & (s & S) & F & R). assert (Hk : forall k, table_needs k -> key <> k) by (intros k K ->; exact (Hn K)). unfold table_needs in Hk.
  split; [apply records_without; assumption|]. split; [apply still_missing; exact T2|]. split; [apply text_without; [apply Hk; cbn; tauto|exact T3]|].
  split; [apply shape_without; assumption|]. split; [exists g; split; [exact G1|apply integer_without; [apply Hk; cbn; tauto|exact G2]]|].
  split; [exists p; split; [exact P1|apply integer_without; [apply Hk; cbn; tauto|exact P2]]|]. split; [exists s; apply text_without; [apply Hk; cbn; tauto|exact S]|].
  split; [apply number_without; [apply Hk; cbn; tauto|exact F]|exact R].
Qed.

Theorem encodes_without fc x key rs d : spare x key -> encodes fc x rs d -> encodes fc (forget key x) (without key rs) d.
Proof.
  intros (Hn & Hs & He). unfold sizes in Hs.
  assert (A : key <> lit "BITPIX") by tauto. assert (B : key <> lit "NAXIS") by tauto.
  assert (C : forall i, 1 <= i <= axis_count x -> key <> axis_key i) by (intros i Hi ->; apply Hs; right; right; exists i; auto). clear Hs.
  destruct x as [b axes values|cols rows|cols line rows]; cbn [needs axis_count forget encodes] in *.
  - intros (H1 & H2 & H3 & (e & H4) & H5 & H6). split; [apply records_without; assumption|]. split; [apply still_missing; exact H2|].
    split; [apply logical_without; [tauto|exact H3]|]. split; [exists e; apply logical_without; [tauto|exact H4]|].
    split; [apply shape_without; assumption|exact H6].
  - intros (H1 & H2 & H3 & H4). rewrite numbering_widths, numbering_length. split; [apply table_without; try assumption; tauto|].
    split; [|split; [|exact H4]].
    + intros j c Hc. rewrite numbering_nth in Hc. destruct (nth_error cols j) as [c'|] eqn:Ej; [|discriminate]. injection Hc as <-.
      apply bin_without; [|exact (H2 j c' Ej)]. intros K. apply Hn. right. exists (S j). split; [|exact K].
      assert (j < length cols) by (apply nth_error_Some; congruence). lia.
    + eapply Forall_impl; [|exact H3]. intros row Hr. apply (numbering_rows key cols 1 row (fun w cell => length cell = w)). exact Hr.
  - intros (H1 & H2 & H3). rewrite numbering_length. split; [apply table_without; try assumption; tauto|]. split; [|exact H3].
    intros j c Hc. rewrite numbering_nth in Hc. destruct (nth_error cols j) as [c'|] eqn:Ej; [|discriminate]. injection Hc as <-.
    assert (j < length cols) by (apply nth_error_Some; congruence).
    apply textcol_without; [| |exact (H2 j c' Ej)]; intros K; apply Hn; right; exists (S j); (split; [lia|auto]).
Qed.

(** The file: some units without such records. *)
Theorem spare_file fc l l' l0 x0 : Forall (fun x => encodes fc (s_content x) (s_records x) (s_data x)) l -> Forall2 less l l' ->
  l' = l0 ++ [x0] -> Forall tidy l0 -> header_inside x0 \/ s_data x0 = [] -> forall c, c = concat (map stored_bytes l') -> small c ->
  forall hf fuel, Forall (fun x => length (s_records x) <= hf) l' -> length l' < fuel ->
  exists f, read_entire_hdus fc hf fuel (open_fits c) = (f, Ret tt) /\ Forall2 (fun x o => contains (s_content x) o) l' (f_hdus f).
Proof.
  intros Fe F2 El Ft Hx c Ec Sm hf fuel Ff Hf.
  assert (Fe' : Forall (fun x => encodes fc (s_content x) (s_records x) (s_data x)) l').
  { clear -Fe F2. induction F2 as [|u v l l' H F2 IH]; [constructor|]. inversion Fe as [|? ? E Fe']; subst. constructor; [|exact (IH Fe')].
    destruct H as [->|(key & S & ->)]; [exact E|]. cbn [deprived s_content s_records s_data]. apply encodes_without; assumption. }
  destruct (standard_file fc l0 x0 l' El Fe' Ft Hx c Ec Sm hf fuel Ff Hf) as (f & R & C & _). exists f. auto.
Qed.

(** ** A keyword the HDU needs *)

Definition breaks {A} (fc : fcodec) (rs : list str) (b : bitpix) (axes : list N) (m : hdo A) : Prop :=
  forall h, typed fc rs b axes h -> exists h', m h = (h', Throw OutOfRange).

Section Breaks.
Context (fc : fcodec) (rs : list str) (b : bitpix) (axes : list N).
Notation Y m P := (yields fc rs b axes m P).
Notation B m := (breaks fc rs b axes m).

Lemma b_first {A C} (m : hdo A) (k : A -> hdo C) : B m -> B (hbind m k).
Proof. intros H h T. destruct (H h T) as (h' & E). exists h'. unfold hbind. rewrite E. reflexivity. Qed.
Lemma b_then {A C} (m : hdo A) (k : A -> hdo C) Q : Y m Q -> (forall a, Q a -> B (k a)) -> B (hbind m k).
Proof.
  intros H K h T. destruct (H h T) as (h1 & a & E & Qa & T1). destruct (K a Qa h1 T1) as (h2 & E2). exists h2. unfold hbind. rewrite E. exact E2.
Qed.
Lemma b_value t key : missing rs key -> B (value_of fc t key).
Proof. intros M h T. exists h. exact (typed_missing _ _ _ _ _ _ _ T M). Qed.
Lemma b_str key : missing rs key -> B (value_str fc key).
Proof. intros M. apply b_first, b_value, M. Qed.
Lemma b_size key : missing rs key -> B (value_size fc key).
Proof. intros M. apply b_first, b_value, M. Qed.
Lemma b_bool key : missing rs key -> B (value_bool fc key).
Proof. intros M. apply b_first, b_value, M. Qed.

(** The columns: up to the one in question all goes well. *)
Lemma b_bin_columns cols i : nth_error cols i <> None -> missing rs (numbered "TFORM" (S i)) ->
  (forall j c, j < i -> nth_error cols j = Some c -> bin_col_ok fc rs (S j) c) ->
  (N.of_nat (total (map bc_width cols)) < 2 ^ 63)%N -> B (bin_columns fc (length cols) 1 0).
Proof.
  intros Hi M. enough (G : forall cols p start i, nth_error cols i <> None -> missing rs (numbered "TFORM" (p + i)) -> 1 <= p ->
    (forall j c, j < i -> nth_error cols j = Some c -> bin_col_ok fc rs (p + j) c) ->
    (start + N.of_nat (total (map bc_width cols)) < 2 ^ 63)%N -> B (bin_columns fc (length cols) p start)).
  { intros H Hm. apply (G cols 1 0%N i Hi M (le_n 1)); [exact H|lia]. }
  clear. induction cols as [|c cols IH]; intros p start i Hi M Hp H Hm; [destruct i; contradiction|].
  cbn [length bin_columns map total] in *. destruct i as [|i].
  - rewrite Nat.add_0_r in M. apply b_first. unfold bin_column. apply b_first, b_str. exact M.
  - eapply b_then; [apply y_bin_column with (c := c); [exact Hp|specialize (H 0 c ltac:(lia) eq_refl); rewrite Nat.add_0_r in H; exact H|lia]|].
    intros col Hc. eapply b_then; [eapply y_lift with (P := eq (N.of_nat (bc_width c))); [apply Hc|reflexivity]|]. intros w <-.
    replace ((start + N.of_nat (bc_width c)) mod two64)%N with (start + N.of_nat (bc_width c))%N by (symmetry; apply N.mod_small; unfold two64; lia).
    apply b_first. apply (IH (S p) _ i); [exact Hi|replace (S p + i) with (p + S i) by lia; exact M|lia| |lia].
    intros j x Hj Hx. replace (S p + j) with (p + S j) by lia. apply H; [lia|exact Hx].
Qed.

Lemma b_text_columns line cols i : nth_error cols i <> None -> missing rs (numbered "TFORM" (S i)) \/
    (exists s, says_text rs (numbered "TFORM" (S i)) s) /\ missing rs (numbered "TBCOL" (S i)) ->
  (forall j c, j < i -> nth_error cols j = Some c -> text_col_ok fc rs line (S j) c) ->
  (N.of_nat line < 2 ^ 63)%N -> B (ascii_columns fc (length cols) 1).
Proof.
  intros Hi M H Hm. enough (G : forall cols p i, nth_error cols i <> None -> missing rs (numbered "TFORM" (p + i)) \/
      (exists s, says_text rs (numbered "TFORM" (p + i)) s) /\ missing rs (numbered "TBCOL" (p + i)) -> 1 <= p ->
    (forall j c, j < i -> nth_error cols j = Some c -> text_col_ok fc rs line (p + j) c) -> B (ascii_columns fc (length cols) p)).
  { apply (G cols 1 i Hi M (le_n 1) H). }
  clear -Hm. induction cols as [|c cols IH]; intros p i Hi M Hp H; [destruct i; contradiction|].
  cbn [length ascii_columns]. destruct i as [|i].
  - rewrite Nat.add_0_r in M. apply b_first. unfold ascii_column. destruct M as [M|((s & S) & M)]; [apply b_first, b_str; exact M|].
    eapply b_then; [apply y_str; [reflexivity|apply numbered_slash; free|exact S]|]. intros ? _. apply b_first, b_size. exact M.
  - eapply b_then; [apply y_text_column with (c := c) (line := line); [exact Hp|specialize (H 0 c ltac:(lia) eq_refl); rewrite Nat.add_0_r in H; exact H|exact Hm]|].
    intros col Hc. apply b_first. apply (IH (S p) i); [exact Hi|replace (S p + i) with (p + S i) by lia; exact M|lia|].
    intros j x Hj Hx. replace (S p + j) with (p + S j) by lia. apply H; [lia|exact Hx].
Qed.
End Breaks.

Lemma b_info fc kind width rows fields rs key b axes : table_records kind width rows fields rs ->
  In key [lit "GCOUNT"; lit "PCOUNT"; lit "EXTNAME"; lit "TFIELDS"] -> breaks fc (without key rs) b axes (table_info fc).
Proof.
  intros (_ & _ & _ & _ & (g & G1 & G2) & (p & P1 & P2) & (s & S) & F & _) K. unfold table_info.
  destruct K as [<-|K]; [apply b_first, b_value, gone|].
  assert (Hg : key <> lit "GCOUNT") by (repeat destruct K as [<-|K]; try discriminate; contradiction).
  eapply b_then; [apply y_value; [reflexivity|apply integer_value; [apply integer_without; [exact Hg|exact G2]|free|exact G1]]|]. intros _ _.
  destruct K as [<-|K]; [apply b_first, b_value, gone|].
  assert (Hp : key <> lit "PCOUNT") by (repeat destruct K as [<-|K]; try discriminate; contradiction).
  eapply b_then; [apply y_value; [reflexivity|apply integer_value; [apply integer_without; [exact Hp|exact P2]|free|exact P1]]|]. intros _ _.
  destruct K as [<-|K]; [apply b_first, b_value, gone|].
  assert (Hs : key <> lit "EXTNAME") by (repeat destruct K as [<-|K]; try discriminate; contradiction).
  eapply b_then; [apply y_value; [reflexivity|apply string_value; [apply text_without; [exact Hs|exact S]|free]]|]. intros _ _.
  destruct K as [<-|[]]. apply b_first, b_size, gone.
Qed.

Lemma numbered_inj base i j : numbered base i = numbered base j -> i = j.
Proof. unfold numbered. intros H. apply app_inv_head in H. apply (axis_key_inj i j). unfold axis_key. rewrite H. reflexivity. Qed.

(** No HDU can be made of a unit without a keyword that it needs. *)
Lemma no_name fc rs b axes h : typed fc rs b axes h -> missing rs (lit "XTENSION") -> missing rs (lit "SIMPLE") ->
  exists h1, get_hdu_name fc h = (h1, Throw OutOfRange).
Proof.
  intros T M S. exists h. unfold get_hdu_name. rewrite (typed_missing _ _ _ _ _ _ _ T M), (typed_missing _ _ _ _ _ _ _ T S). reflexivity.
Qed.

Lemma meta_breaks fc rs b axes columns h : breaks fc rs b axes (table_meta columns fc) -> typed fc rs b axes h ->
  exists h', table_meta columns fc h = (h', Throw OutOfRange).
Proof. intros H T. exact (H h T). Qed.

Lemma table_fails fc rs kind b axes h d : kind = "BINTABLE"%string \/ kind = "TABLE"%string ->
  typed fc rs b axes h -> missing rs (lit "SIMPLE") -> says_text rs (lit "XTENSION") (lit kind) ->
  breaks fc rs b axes (table_meta (if String.eqb kind "TABLE" then fun k => ascii_columns fc k 1 else fun k => bin_columns fc k 1 0) fc) ->
  fails fc h d OutOfRange.
Proof.
  intros Hk T M X Hb. right. destruct (table_name _ _ _ _ _ _ T X) as (h1 & En & T1). exists h1, (lit kind). split; [exact En|].
  destruct (extension_table _ _ _ _ _ _ d T1 M X) as (h2 & T2 & ->). destruct (meta_breaks _ _ _ _ _ _ Hb T2) as (h3 & E3).
  destruct Hk as [->| ->].
  - change (str_eqb (lit "BINTABLE") (lit "TABLE")) with false. change (str_eqb (lit "BINTABLE") (lit "BINTABLE")) with true. cbv iota.
    change (String.eqb "BINTABLE" "TABLE") with false in E3. cbv iota in E3. rewrite binary_table_meta, E3. reflexivity.
  - change (str_eqb (lit "TABLE") (lit "TABLE")) with true. cbv iota.
    change (String.eqb "TABLE" "TABLE") with true in E3. cbv iota in E3. rewrite ascii_table_meta, E3. reflexivity.
Qed.

Lemma table_needs_split key : table_needs key -> key = lit "XTENSION" \/ In key [lit "GCOUNT"; lit "PCOUNT"; lit "EXTNAME"; lit "TFIELDS"].
Proof. intros [<-|K]; [left; reflexivity|right; exact K]. Qed.

Theorem needed_fails fc x key rs d h : encodes fc x rs d -> needs x key ->
  typed fc (without key rs) (content_bitpix x) (content_axes x) h -> fails fc h d OutOfRange.
Proof.
  intros E Hn T. destruct x as [b axes values|cols rows|cols line rows]; cbn [needs content_bitpix content_axes] in *.
  - destruct E as (_ & M & S & (e & Se) & _ & _ & _ & Hb & _ & bytes & -> & F).
    destruct Hn as [->| ->].
    { left. apply (no_name _ _ _ _ _ T); [apply still_missing; exact M|apply gone]. }
    right. assert (S' : says_logical (without (lit "EXTEND") rs) (lit "SIMPLE") true) by (apply logical_without; [discriminate|exact S]).
    destruct (primary_name _ _ _ _ _ T (still_missing _ _ _ M) S') as (h1 & En & T1).
    assert (Im : exists im, read_image b (concat bytes) empty_image = Ret im).
    { destruct values as [|v values]; [inversion F; subst; exists empty_image; reflexivity|].
      destruct Hb as [Hb|Hb]; [|discriminate]. exists (mk_image (v :: values) None). apply image_bytes; [exact Hb|discriminate|exact F]. }
    destruct Im as (im & I1). exists h1, (lit "primary_hdu"). split; [exact En|]. unfold construct_hdu.
    assert (C : contains_keyword (lit "SIMPLE") h1 = true).
    { destruct (contains_keyword (lit "SIMPLE") h1) eqn:C; [reflexivity|]. apply (typed_contains _ _ _ _ _ _ T1) in C.
      destruct S' as (r & S' & _). unfold missing in C. congruence. }
    rewrite C. unfold make_primary, get_bitpix. rewrite (ty_bitpix _ _ _ _ _ T1). cbn [bind]. rewrite I1. cbn [bind].
    assert (Br : breaks fc (without (lit "EXTEND") rs) b axes (do s <- value_bool fc (lit "SIMPLE") in do e <- value_bool fc (lit "EXTEND") in hret (s, e))).
    { eapply b_then; [apply y_bool; [reflexivity|free|exact S']|]. intros s _. apply b_first, b_bool, gone. }
    destruct (Br h1 T1) as (h2 & ->). reflexivity.
  - destruct E as (R & C & F & ->). pose proof R as (_ & M & X & _ & _ & _ & _ & _ & Hf & Hw & Hr).
    destruct Hn as [Hn|(i & Hi & ->)]; [destruct (table_needs_split _ Hn) as [->|K]|].
    + left. apply (no_name _ _ _ _ _ T); [apply gone|apply still_missing; exact M].
    + assert (Hx : key <> lit "XTENSION") by (intros ->; cbn in K; intuition discriminate).
      apply (table_fails _ _ "BINTABLE" _ _ _ _ (or_introl eq_refl) T (still_missing _ _ _ M) (text_without _ _ _ _ Hx X)).
      apply b_first. eapply b_info; eassumption.
    + assert (Hx : numbered "TFORM" i <> lit "XTENSION") by discriminate.
      apply (table_fails _ _ "BINTABLE" _ _ _ _ (or_introl eq_refl) T (still_missing _ _ _ M) (text_without _ _ _ _ Hx X)).
      assert (R' : table_records "BINTABLE" (total (map bc_width cols)) (length rows) (length cols) (without (numbered "TFORM" i) rs)).
      { apply table_without; try exact R; try discriminate. intros K. cbn in K. intuition discriminate. }
      change (String.eqb "BINTABLE" "TABLE") with false. cbv iota. eapply b_then; [eapply y_info; exact R'|]. intros n <-. rewrite Nat2N.id. apply b_first.
      destruct i as [|i]; [lia|].
      rewrite <- (numbering_length (forget_bin (numbered "TFORM" (S i))) cols 1).
      apply b_bin_columns with (i := i); [| |intros j c Hj Hc|rewrite numbering_widths; exact Hw].
      * apply nth_error_Some. rewrite numbering_length. lia.
      * apply gone.
      * rewrite numbering_nth in Hc. destruct (nth_error cols j) as [c'|] eqn:Ej; [|discriminate]. injection Hc as <-.
        apply bin_without; [|exact (C j c' Ej)]. intros K. apply numbered_inj in K. lia.
  - destruct E as (R & C & _ & F & ->). pose proof R as (_ & M & X & _ & _ & _ & _ & _ & Hf & Hw & Hr).
    destruct Hn as [Hn|(i & Hi & Hk)]; [destruct (table_needs_split _ Hn) as [->|K]|].
    + left. apply (no_name _ _ _ _ _ T); [apply gone|apply still_missing; exact M].
    + assert (Hx : key <> lit "XTENSION") by (intros ->; cbn in K; intuition discriminate).
      apply (table_fails _ _ "TABLE" _ _ _ _ (or_intror eq_refl) T (still_missing _ _ _ M) (text_without _ _ _ _ Hx X)).
      apply b_first. eapply b_info; eassumption.
    + assert (Hx : key <> lit "XTENSION") by (destruct Hk as [->| ->]; discriminate).
      apply (table_fails _ _ "TABLE" _ _ _ _ (or_intror eq_refl) T (still_missing _ _ _ M) (text_without _ _ _ _ Hx X)).
      assert (R' : table_records "TABLE" line (length rows) (length cols) (without key rs)).
      { apply table_without; try exact R; try (destruct Hk as [->| ->]; discriminate).
        destruct Hk as [->| ->]; intros K; cbn in K; intuition discriminate. }
      change (String.eqb "TABLE" "TABLE") with true. cbv iota. eapply b_then; [eapply y_info; exact R'|]. intros n <-. rewrite Nat2N.id. apply b_first.
      destruct i as [|i]; [lia|].
      rewrite <- (numbering_length (forget_text key) cols 1).
      apply b_text_columns with (i := i) (line := line); [| |intros j c Hj Hc|exact Hw].
      * apply nth_error_Some. rewrite numbering_length. lia.
      * destruct Hk as [->| ->]; [left; apply gone|right]. split; [|apply gone].
        destruct (nth_error cols i) as [c|] eqn:Ei; [|apply nth_error_None in Ei; lia].
        destruct (C i c Ei) as ((_ & Cf & _) & _). eexists. apply text_without; [discriminate|exact Cf].
      * rewrite numbering_nth in Hc. destruct (nth_error cols j) as [c'|] eqn:Ej; [|discriminate]. injection Hc as <-.
        apply textcol_without; [| |exact (C j c' Ej)]; intros ->; destruct Hk as [K|K]; try discriminate K; apply numbered_inj in K; lia.
Qed.

Lemma needs_no_size x key : needs x key -> key <> lit "BITPIX" /\ key <> lit "NAXIS" /\ (forall i, key <> axis_key i) /\ key <> lit "END".
Proof.
  assert (T : table_needs key -> key <> lit "BITPIX" /\ key <> lit "NAXIS" /\ (forall i, key <> axis_key i) /\ key <> lit "END").
  { intros K. cbn in K. repeat destruct K as [<-|K]; try contradiction; repeat split; discriminate. }
  destruct x; cbn [needs].
  - intros [->| ->]; repeat split; discriminate.
  - intros [K|(i & _ & ->)]; [exact (T K)|]. repeat split; discriminate.
  - intros [K|(i & _ & [->| ->])]; [exact (T K)| |]; repeat split; discriminate.
Qed.

Lemma forget_axes key x : content_axes (forget key x) = content_axes x /\ content_bitpix (forget key x) = content_bitpix x /\ content_name (forget key x) = content_name x.
Proof. destruct x; cbn [forget content_axes content_bitpix content_name]; rewrite ?numbering_widths; auto. Qed.

Theorem needed_file fc l x key rest : Forall (fun x => encodes fc (s_content x) (s_records x) (s_data x)) (l ++ [x]) -> Forall tidy l ->
  needs (s_content x) key -> header_inside (deprived key x) \/ s_data x = [] ->
  forall c, c = concat (map stored_bytes l) ++ stored_bytes (deprived key x) ++ rest -> small c ->
  forall hf fuel, Forall (fun x => length (s_records x) <= hf) (l ++ [deprived key x]) -> length l < fuel ->
  exists f, read_entire_hdus fc hf fuel (open_fits c) = (f, Throw OutOfRange) /\ Forall2 (fun x o => contains (s_content x) o) l (f_hdus f).
Proof.
  intros Fe Ft Hn Hh c Ec Sm hf fuel Ff Hf. apply Forall_app in Fe as [Fe Ex]. inversion Ex as [|? ? En _]; subst x0 l0.
  apply Forall_app in Ff as [Ff Fx]. inversion Fx as [|? ? Lx _]; subst x0 l0.
  assert (Sl : small (concat (map stored_bytes l))) by (rewrite Ec in Sm; unfold small in *; rewrite app_length in Sm; lia).
  assert (Sm' : small ([] ++ concat (map stored_bytes l) ++ stored_bytes (deprived key x) ++ rest)) by (cbn [app]; rewrite <- Ec; exact Sm).
  destruct (stored_units_to fc l Fe Ft [] _ eq_refl Sm') as (us & U & F2 & M). cbn [app length] in U, M, Sm'. rewrite <- Ec in U.
  destruct (made_units fc l us Fe F2 (small_data _ Sl)) as (xs & X1 & X2 & X3).
  destruct (encodes_header _ _ _ _ En) as (R & Sh & Fa & La & Ld). destruct (needs_no_size _ _ Hn) as (N1 & N2 & N3 & N4).
  destruct (forget_axes key (s_content x)) as (A1 & A2 & A3).
  assert (L : laid (s_content (deprived key x)) (s_records (deprived key x)) (s_data (deprived key x))).
  { unfold laid. cbn [deprived s_content s_records s_data]. rewrite A1, A2. split; [apply records_without; assumption|].
    split; [apply shape_without; auto|auto]. }
  destruct (laid_unit fc (deprived key x) (concat (map stored_bytes l)) rest L Hh M Sm') as (u & e & U1 & U2 & [U3 U4] & _).
  cbn [deprived s_content s_records s_data] in U3, U4. rewrite A1, A2 in U3. rewrite <- Ec in U1.
  destruct (read_file_fail fc c us _ u e U U1 U2 Sm hf fuel (map (fun y => content_name (s_content y)) l) xs OutOfRange) as (f & F1 & F3).
  - apply Forall_app. split; [exact (fuel_units _ _ _ _ Ff F2)|]. constructor; [|constructor].
    rewrite <- (map_length raw), (ty_raw _ _ _ _ _ U3). exact Lx.
  - assert (Lu : length us = length l) by (clear -F2; induction F2; cbn; congruence). lia.
  - exact X3.
  - rewrite map_length. lia.
  - rewrite U4. exact (needed_fails _ _ _ _ _ _ En Hn U3).
  - exists f. split; [exact F1|]. rewrite F3. exact X2.
Qed.

(** ** A keyword that says how much data there is: the first record is used *)

Lemma lookup_first fc (K : str -> Prop) rs key r0 t e h : rs <> [] -> ext fc K (push_all rs fresh_header) h -> ~ K key ->
  (forall k, K k -> last_record k rs <> None) -> last_record key rs = None -> nth_error rs 0 = Some r0 -> ~ K (record_key r0) ->
  text_value fc t r0 = Throw e -> snd (lookup_value fc t key h) = Throw e.
Proof.
  intros Hne He Hk Hall Hm H0 Hr Hv. unfold lookup_value, index_or_insert.
  rewrite (ext_none _ _ _ _ He key Hk (proj2 (push_all_find key rs) Hm)). unfold value_at. cbn [h_cards].
  assert (Hc : nth_error (h_cards h) 0 = Some (mk_card r0 None)).
  { rewrite (ext_untouched _ _ _ _ He 0).
    - rewrite push_all_cards. cbn [fresh_header h_cards app]. rewrite nth_error_map, H0. reflexivity.
    - intros k Hkm Hik. specialize (Hall k Hkm). pose proof (push_all_idx k rs Hne) as P. rewrite Hik, H0 in P.
      unfold mandatory_record in P. destruct (last_record k rs) as [r'|] eqn:El; [|congruence].
      injection P as ->. apply last_record_in in El. destruct El as [_ <-]. exact (Hr Hkm). }
  rewrite Hc. unfold text_value in Hv. destruct (value fc t (mk_card r0 None)) as [c r]. cbn [snd] in *. exact Hv.
Qed.

Lemma read_axes_first fc rs r0 e (Hne : rs <> []) vs : nth_error rs 0 = Some r0 -> text_value fc TSize r0 = Throw e -> forall m i (K : str -> Prop) h,
  ext fc K (push_all rs fresh_header) h -> (forall k, K k -> last_record k rs <> None) -> (forall j, i <= j -> ~ K (axis_key j)) ->
  ~ K (record_key r0) -> (forall j, record_key r0 <> axis_key j) -> m < length vs -> last_record (axis_key (i + m)) rs = None ->
  (forall j v, j < m -> nth_error vs j = Some v -> exists r, last_record (axis_key (i + j)) rs = Some r /\ text_value fc TSize r = Ret (VSize v)) ->
  snd (read_axes fc (length vs) i h) = Throw e.
Proof.
  intros H0 Ht. induction vs as [|v vs IH]; intros m i K h He Hall HK Hr Ha Hm Hmiss Hv; [cbn in Hm; lia|].
  cbn [length read_axes]. destruct m as [|m].
  - rewrite Nat.add_0_r in Hmiss.
    pose proof (lookup_first fc K rs (axis_key i) r0 TSize e h Hne He (HK i (le_n _)) Hall Hmiss H0 Hr Ht) as Hl.
    change (axis_key i) with (naxis_key i) in Hl. destruct (lookup_value fc TSize (naxis_key i) h) as [h1 r1]. cbn [snd] in *. subst r1. reflexivity.
  - destruct (Hv 0 v ltac:(lia) eq_refl) as (r & Hri & Hti). rewrite Nat.add_0_r in Hri.
    pose proof (lookup_fresh fc K rs (axis_key i) r TSize _ h Hne He (HK i (le_n _)) Hall Hri Hti) as Hl.
    set (K' := fun k => K k \/ k = axis_key i).
    pose proof (lookup_ext fc K' TSize (axis_key i) h (or_intror eq_refl)) as He'.
    change (axis_key i) with (naxis_key i) in *.
    destruct (lookup_value fc TSize (naxis_key i) h) as [h1 r1]. cbn [fst snd] in *. subst r1. cbv beta iota.
    apply (IH m (S i) K').
    + eapply ext_same with (b := h1); try reflexivity. eapply ext_trans; [|exact He'].
      eapply ext_mono; [|exact He]. intros k Hk. left. exact Hk.
    + intros k [Hk| ->]; [exact (Hall k Hk)|]. rewrite Hri. discriminate.
    + intros j Hj [Hk|Hk]; [exact (HK j ltac:(lia) Hk)|]. apply axis_key_inj in Hk. lia.
    + intros [Hk|Hk]; [exact (Hr Hk)|exact (Ha i Hk)].
    + exact Ha.
    + cbn [length] in Hm. lia.
    + replace (S i + m) with (i + S m) by lia. exact Hmiss.
    + intros j w Hj Hw. replace (S i + j) with (i + S j) by lia. apply Hv; [lia|exact Hw].
Qed.

Lemma interpret_first fc rs b axes key r0 e : shape b axes rs -> Forall (fun v => (v < 2 ^ 64)%N) axes -> (N.of_nat (length axes) < 2 ^ 60)%N ->
  mandatory_key (length axes) key -> nth_error (without key rs) 0 = Some r0 ->
  record_key r0 <> lit "BITPIX" -> record_key r0 <> lit "NAXIS" -> (forall j, record_key r0 <> axis_key j) ->
  text_value fc TInt r0 = Throw e -> text_value fc TSize r0 = Throw e ->
  snd (interpret_cards fc (push_all (without key rs) fresh_header)) = Throw e.
Proof.
  intros (S1 & S2 & S3) Fa La Hk H0 R1 R2 R3 T1 T2. set (rs' := without key rs) in *. set (h0 := push_all rs' fresh_header).
  assert (Hne : rs' <> []) by (intros K; rewrite K in H0; discriminate).
  unfold interpret_cards, read_bitpix.
  set (K0 := fun _ : str => False). set (K1 := fun k : str => k = lit "BITPIX"). set (K2 := fun k : str => k = lit "BITPIX" \/ k = lit "NAXIS").
  destruct (same_or_not key (lit "BITPIX")) as [->|Kb].
  { pose proof (lookup_first fc K0 rs' (lit "BITPIX") r0 TInt e h0 Hne (ext_refl _ _ _) (fun x => x) (fun k (x : False) => match x with end)
      (gone _ _) H0 (fun x => x) T1) as L1.
    destruct (lookup_value fc TInt (lit "BITPIX") h0) as [h1 r1]. cbn [snd] in *. subst r1. reflexivity. }
  destruct (integer_value fc _ _ _ (integer_without _ _ _ _ Kb S1) ltac:(free) (bitpix_range b)) as (rb & Hb & Hbt). fold rs' in Hb.
  pose proof (lookup_fresh fc K0 rs' (lit "BITPIX") rb TInt _ h0 Hne (ext_refl _ _ _) (fun x => x) (fun k (x : False) => match x with end) Hb Hbt) as L1.
  pose proof (lookup_ext fc K1 TInt (lit "BITPIX") h0 eq_refl) as E1.
  destruct (lookup_value fc TInt (lit "BITPIX") h0) as [h1 r1]. cbn [fst snd] in *. subst r1. cbv beta iota.
  replace (bitpix_of_int (bitpix_code b)) with (Some b) by (destruct b; reflexivity). cbv beta iota.
  unfold read_naxis.
  assert (E1' : ext fc K1 h0 (set_bitpix h1 b)) by (eapply ext_same with (b := h1); try reflexivity; exact E1).
  assert (N1 : ~ K1 (lit "NAXIS")) by discriminate.
  assert (A1 : forall k, K1 k -> last_record k rs' <> None) by (intros k Hk'; hnf in Hk'; rewrite Hk', Hb; discriminate).
  destruct (same_or_not key (lit "NAXIS")) as [->|Kn].
  { pose proof (lookup_first fc K1 rs' (lit "NAXIS") r0 TSize e _ Hne E1' N1 A1 (gone _ _) H0 R1 T2) as L2.
    destruct (lookup_value fc TSize (lit "NAXIS") (set_bitpix h1 b)) as [h2 r2]. cbn [snd] in *. subst r2. reflexivity. }
  destruct (number_value fc _ _ _ (number_without _ _ _ _ Kn S2) ltac:(free) ltac:(lia)) as (rn & Hn & Hnt). fold rs' in Hn.
  pose proof (lookup_fresh fc K1 rs' (lit "NAXIS") rn TSize _ _ Hne E1' N1 A1 Hn Hnt) as L2.
  pose proof (lookup_ext fc K2 TSize (lit "NAXIS") (set_bitpix h1 b) (or_intror eq_refl)) as E2.
  destruct (lookup_value fc TSize (lit "NAXIS") (set_bitpix h1 b)) as [h2 r2]. cbn [fst snd] in *. subst r2.
  cbv beta iota. destruct (N.leb_spec (2 ^ 60) (N.of_nat (length axes))) as [|_]; [lia|].
  rewrite Nat2N.id. destruct Hk as [K|[K|(i & Hi & ->)]]; [contradiction|contradiction|]. destruct i as [|i]; [lia|].
  apply (read_axes_first fc rs' r0 e Hne axes H0 T2 i 1 K2).
  - eapply ext_trans; [|exact E2]. eapply ext_mono; [|exact E1']. intros k Hk. left. exact Hk.
  - intros k [Hk|Hk]; rewrite Hk, ?Hb, ?Hn; discriminate.
  - intros j _ [H|H]; [exact (axis_key_bitpix j H)|exact (axis_key_naxis j H)].
  - intros [H|H]; contradiction.
  - exact R3.
  - lia.
  - apply gone.
  - intros j v Hj Hv. change (1 + j) with (S j). apply number_value; [|apply axis_key_slash|].
    + apply number_without; [|exact (S3 j v Hv)]. intros K. apply axis_key_inj in K. lia.
    + rewrite Forall_forall in Fa. apply Fa. exact (nth_error_In _ _ Hv).
Qed.

(** The first record is SIMPLE or XTENSION, whose value is no number. *)
Lemma not_a_number fc t c text : t = TInt \/ t = TSize -> c = "T"%char \/ c = "'"%char -> parse_to fc t (c :: text) = Throw InvalidCast.
Proof. intros [->| ->] [->| ->]; reflexivity. Qed.

Lemma first_value fc x rs d key r0 t : encodes fc x rs d -> begins x rs -> sizes x key -> nth_error (without key rs) 0 = Some r0 -> t = TInt \/ t = TSize ->
  text_value fc t r0 = Throw InvalidCast /\ (record_key r0 = lit "SIMPLE" \/ record_key r0 = lit "XTENSION").
Proof.
  intros E B Hs H0 Ht. assert (Ht' : t <> TStr) by (destruct Ht as [->| ->]; discriminate).
  assert (First : forall k r, nth_error rs 0 = Some r -> record_key r = k -> k <> key -> r0 = r).
  { intros k r Hr Hk Hn. destruct rs as [|r1 rs]; [discriminate|]. cbn [nth_error] in Hr. injection Hr as ->.
    unfold without in H0. cbn [filter] in H0. rewrite Hk in H0. destruct (str_eqb k key) eqn:Ek; [apply str_eqb_eq in Ek; contradiction|].
    cbn [negb nth_error] in H0. injection H0 as <-. reflexivity. }
  assert (Nk : lit "SIMPLE" <> key /\ lit "XTENSION" <> key).
  { destruct Hs as [->|[->|(i & _ & ->)]]; split; discriminate. }
  assert (Tx : forall kind, says_text rs (lit "XTENSION") kind -> nth_error rs 0 = last_record (lit "XTENSION") rs ->
    text_value fc t r0 = Throw InvalidCast /\ (record_key r0 = lit "SIMPLE" \/ record_key r0 = lit "XTENSION")).
  { intros kind (S1 & S2 & n & r & L & En) Hb. rewrite L in Hb. destruct (last_record_in _ _ _ L) as [_ Lk].
    rewrite (First (lit "XTENSION") r Hb Lk (proj2 Nk)). split; [|right; exact Lk].
    rewrite (entry_value fc t _ _ _ Ht' En).
    - apply not_a_number; [exact Ht|right; reflexivity].
    - free.
    - change ("'"%char :: (kind ++ spaces n) ++ ["'"%char]) with (["'"%char] ++ (kind ++ spaces n) ++ ["'"%char]).
      rewrite !slash_free_app. repeat split; [free|exact S1|apply slash_free_spaces|free].
    - apply trim_fix_trimmed, no_outer_blanks_trimmed. intros c [(q & Eq)|(q & Eq)].
      + injection Eq as <- _. reflexivity.
      + change ("'"%char :: (kind ++ spaces n) ++ ["'"%char]) with (("'"%char :: kind ++ spaces n) ++ ["'"%char]) in Eq.
        apply app_inj_tail in Eq. destruct Eq as [_ <-]. reflexivity. }
  destruct x as [b axes values|cols rows|cols line rows].
  - destruct E as (_ & _ & (r & L & En) & _). unfold begins in B. rewrite L in B. destruct (last_record_in _ _ _ L) as [_ Lk].
    rewrite (First (lit "SIMPLE") r B Lk (proj1 Nk)). split; [|left; exact Lk].
    rewrite (entry_value fc t _ _ _ Ht' En); [apply not_a_number; [exact Ht|left; reflexivity]|free|free|reflexivity].
  - destruct E as ((_ & _ & X & _) & _). exact (Tx _ X B).
  - destruct E as ((_ & _ & X & _) & _). exact (Tx _ X B).
Qed.

Lemma axis_count_axes x : axis_count x = length (content_axes x).
Proof. destruct x; reflexivity. Qed.

Theorem size_file fc l x key rest : Forall (fun x => encodes fc (s_content x) (s_records x) (s_data x)) (l ++ [x]) -> Forall tidy l ->
  sizes (s_content x) key -> begins (s_content x) (s_records x) ->
  forall c, c = concat (map stored_bytes l) ++ stored_bytes (deprived key x) ++ rest -> small c ->
  forall hf fuel, Forall (fun x => length (s_records x) <= hf) (l ++ [deprived key x]) -> length l < fuel ->
  exists f, read_entire_hdus fc hf fuel (open_fits c) = (f, Throw InvalidCast) /\ Forall2 (fun x o => contains (s_content x) o) l (f_hdus f).
Proof.
  intros Fe Ft Hs Hb c Ec Sm hf fuel Ff Hf. apply Forall_app in Fe as [Fe Ex]. inversion Ex as [|? ? En _]; subst x0 l0.
  apply Forall_app in Ff as [Ff Fx]. inversion Fx as [|? ? Lx _]; subst x0 l0. cbn [deprived s_records] in Lx.
  assert (Sl : small (concat (map stored_bytes l))) by (rewrite Ec in Sm; unfold small in *; rewrite app_length in Sm; lia).
  assert (Sm' : small ([] ++ concat (map stored_bytes l) ++ stored_bytes (deprived key x) ++ rest)) by (cbn [app]; rewrite <- Ec; exact Sm).
  destruct (stored_units_to fc l Fe Ft [] _ eq_refl Sm') as (us & U & F2 & M). cbn [app length] in U, M, Sm'. rewrite <- Ec in U.
  destruct (made_units fc l us Fe F2 (small_data _ Sl)) as (xs & X1 & X2 & X3).
  destruct (encodes_header _ _ _ _ En) as (R & Sh & Fa & La & Ld).
  assert (He : key <> lit "END") by (destruct Hs as [->|[->|(i & _ & ->)]]; discriminate).
  pose proof (records_without key _ He R) as R'. set (rs := s_records x) in *. set (rs' := without key rs) in *.
  set (pre := concat (map stored_bytes l)) in *.
  destruct (blocked_starts sp (concat rs')) as (th & Eh).
  assert (Ec' : c = pre ++ concat rs' ++ (th ++ blocked (s_fill x) (s_data x) ++ rest)).
  { rewrite Ec. unfold stored_bytes. cbn [deprived s_content s_records s_data s_fill]. fold rs rs'. rewrite Eh, <- !app_assoc. reflexivity. }
  destruct (header_records_at pre rs' (th ++ blocked (s_fill x) (s_data x) ++ rest) R') as (n & Ln & Ha & Er). rewrite <- Ec' in Ha, Er.
  destruct (header_records_lengths _ R') as [L80 Hne].
  destruct (nth_error rs' 0) as [r0|] eqn:E0; [|destruct rs'; [contradiction|discriminate]].
  destruct (first_value fc _ _ _ _ _ TInt En Hb Hs E0 (or_introl eq_refl)) as [V1 Vk].
  destruct (first_value fc _ _ _ _ _ TSize En Hb Hs E0 (or_intror eq_refl)) as [V2 _].
  assert (I : snd (interpret_cards fc (push_all rs' fresh_header)) = Throw InvalidCast).
  { apply (interpret_first fc rs (content_bitpix (s_content x)) (content_axes (s_content x)) key r0); try assumption.
    - unfold sizes in Hs. rewrite axis_count_axes in Hs. exact Hs.
    - destruct Vk as [-> | ->]; discriminate.
    - destruct Vk as [-> | ->]; discriminate.
    - intros j. destruct Vk as [-> | ->]; discriminate. }
  assert (Rf : refused fc c (length pre) n InvalidCast).
  { assert (Pn : N.to_nat (pos (positioned c (length pre))) = length pre) by (cbn [positioned pos]; lia).
    destruct (read_header_run fc (S n) (positioned c (length pre)) n (good_positioned _ _)) as (s' & _ & Run); [rewrite Pn; exact Ha|lia|].
    rewrite Pn in Run. change (content (positioned c (length pre))) with c in Run. rewrite Er in Run.
    destruct (interpret_cards fc (push_all rs' fresh_header)) as [h2 o] eqn:Ei. cbn [snd fst] in *. subst o.
    eapply (refused_header fc c (length pre) n s' h2 InvalidCast (S n) Ha); [|lia|exact Run].
    rewrite Ec', !app_length, concat_length80 by exact L80. lia. }
  assert (Lu : length us = length l) by (clear -F2; induction F2; cbn; congruence).
  pose proof (stop_entire fc c us (length pre) n InvalidCast (map (fun y => content_name (s_content y)) l) xs Sm (units_in_read _ _ _ _ _ Sm U) Rf
    ltac:(rewrite map_length; lia) X3 hf fuel (fuel_units _ _ _ _ Ff F2) ltac:(lia) ltac:(lia)) as St.
  eexists. split; [exact St|]. cbn [f_hdus]. exact X2.
Qed.
