(** * Lemmas about the C++ base layer. *)
From Verif Require Export CppModel.

Ltac Zify.zify_post_hook ::= Z.div_mod_to_equations.

(** ** Strings *)

Lemma str_eqb_eq a b : str_eqb a b = true <-> a = b.
Proof.
  revert b; induction a as [|x a IH]; intros [|y b]; cbn; try (split; congruence).
  rewrite andb_true_iff, Ascii.eqb_eq, IH. split; [intros [-> ->]|injection 1]; auto.
Qed.

Lemma str_eqb_refl a : str_eqb a a = true.
Proof. apply str_eqb_eq; reflexivity. Qed.

Lemma str_eqb_neq a b : str_eqb a b = false <-> a <> b.
Proof.
  destruct (str_eqb a b) eqn:E.
  - apply str_eqb_eq in E. split; congruence.
  - split; auto. intros _ H. apply str_eqb_eq in H. congruence.
Qed.

Lemma str_eqb_sym a b : str_eqb a b = str_eqb b a.
Proof.
  destruct (str_eqb b a) eqn:E.
  - apply str_eqb_eq in E; subst; apply str_eqb_refl.
  - apply str_eqb_neq. apply str_eqb_neq in E. congruence.
Qed.

Lemma length_spaces n : length (spaces n) = n.
Proof. apply repeat_length. Qed.

Lemma spaces_app a b : spaces a ++ spaces b = spaces (a + b).
Proof. unfold spaces. symmetry; apply repeat_app. Qed.

Lemma in_spaces c n : In c (spaces n) -> c = sp.
Proof. apply repeat_spec. Qed.

Lemma find_idx_app c a b :
  ~ In c a -> find_idx c (a ++ c :: b) = Some (length a).
Proof.
  induction a as [|x a IH]; cbn; intros H.
  - rewrite Ascii.eqb_refl; reflexivity.
  - destruct (Ascii.eqb_spec x c) as [->|Hn].
    + exfalso; apply H; left; reflexivity.
    + rewrite IH; [reflexivity|]. intros Hin; apply H; right; exact Hin.
Qed.

Lemma find_idx_none c s : find_idx c s = None <-> ~ In c s.
Proof.
  induction s as [|x s IH]; cbn; [tauto|].
  destruct (Ascii.eqb_spec x c) as [->|Hn].
  - split; [discriminate|]. intros H; exfalso; apply H; left; reflexivity.
  - destruct (find_idx c s) as [i|].
    + split; [discriminate|]. intros H; exfalso.
      assert (Hx : ~ In c s) by (intros K; apply H; right; exact K).
      apply IH in Hx; discriminate.
    + split; auto. intros _ [H|H]; [congruence|]. apply IH in H; auto.
Qed.

Lemma find_idx_some c s i :
  find_idx c s = Some i -> exists a b, s = a ++ c :: b /\ length a = i /\ ~ In c a.
Proof.
  revert i; induction s as [|x s IH]; cbn; intros i H; [discriminate|].
  destruct (Ascii.eqb_spec x c) as [->|Hn].
  - injection H as <-. exists [], s. cbn. auto.
  - destruct (find_idx c s) as [j|]; [|discriminate]. injection H as <-.
    destruct (IH j eq_refl) as (a & b & -> & <- & Ha).
    exists (x :: a), b. cbn. repeat split; auto. intros [K|K]; congruence.
Qed.

Lemma substr_ret s pos n :
  pos <= length s ->
  substr s pos n = Ret (firstn (N.to_nat (N.min n (N.of_nat (length s - pos)))) (skipn pos s)).
Proof.
  intros H. unfold substr. destruct (Nat.ltb_spec (length s) pos); [lia|].
  rewrite skipn_length. reflexivity.
Qed.

Lemma substr_throw s pos n : length s < pos -> substr s pos n = Throw OutOfRange.
Proof. intros H. unfold substr. destruct (Nat.ltb_spec (length s) pos); [reflexivity|lia]. Qed.

Lemma substr_exact s pos k :
  pos + k <= length s ->
  substr s pos (N.of_nat k) = Ret (firstn k (skipn pos s)).
Proof. intros H. rewrite substr_ret by lia. do 2 f_equal. lia. Qed.

Lemma append_spaces_small s n :
  (n <= max_size)%N -> append_spaces s n = Ret (s ++ spaces (N.to_nat n)).
Proof. intros H. unfold append_spaces. destruct (N.ltb_spec max_size n); [lia|reflexivity]. Qed.

Lemma sub64_small a b : (b <= a)%N -> (a < two64)%N -> sub64 a b = (a - b)%N.
Proof.
  unfold sub64, two64. intros H1 H2.
  replace (a + 2 ^ 64 - b)%N with ((a - b) + 1 * 2 ^ 64)%N by lia.
  rewrite N.mod_add by lia. apply N.mod_small. lia.
Qed.

Lemma sub64_wrap a b : (a < b)%N -> (b < two64)%N -> sub64 a b = (two64 + a - b)%N.
Proof. unfold sub64, two64. intros H1 H2. rewrite N.mod_small; lia. Qed.

Lemma append_pad s k :
  length s <= k -> (N.of_nat k <= max_size)%N ->
  append_spaces s (sub64 (N.of_nat k) (N.of_nat (length s))) = Ret (s ++ spaces (k - length s)).
Proof.
  intros H1 H2. rewrite sub64_small by (unfold two64; unfold max_size in H2; lia).
  rewrite append_spaces_small by lia. do 3 f_equal. lia.
Qed.

Lemma prepend_pad s k :
  length s <= k -> (N.of_nat k <= max_size)%N ->
  prepend_spaces (sub64 (N.of_nat k) (N.of_nat (length s))) s = Ret (spaces (k - length s) ++ s).
Proof.
  intros H1 H2. rewrite sub64_small by (unfold two64; unfold max_size in H2; lia).
  unfold prepend_spaces. destruct (N.ltb_spec max_size (N.of_nat k - N.of_nat (length s))); [lia|].
  do 3 f_equal. lia.
Qed.

(** ** Trim *)

(** No whitespace at either end. *)
Definition no_lead (s : str) : Prop := match s with [] => True | c :: _ => is_space c = false end.
Definition trimmed (s : str) : Prop := no_lead s /\ no_lead (rev s).

Lemma trim_left_app_space a s :
  (forall c, In c a -> is_space c = true) -> trim_left (a ++ s) = trim_left s.
Proof.
  induction a as [|x a IH]; cbn; intros H; [reflexivity|].
  rewrite (H x (or_introl eq_refl)). apply IH. intros c Hc; apply H; right; exact Hc.
Qed.

Lemma trim_left_id s : no_lead s -> trim_left s = s.
Proof. destruct s as [|c s]; cbn; [auto|]. intros ->. reflexivity. Qed.

Lemma trim_left_no_lead s : no_lead (trim_left s).
Proof.
  induction s as [|c s IH]; cbn; [exact I|].
  destruct (is_space c) eqn:E; [exact IH|cbn; exact E].
Qed.

Lemma trim_left_split s :
  exists w, s = w ++ trim_left s /\ forall c, In c w -> is_space c = true.
Proof.
  induction s as [|c s IH]; cbn.
  - exists []; cbn; split; [auto|tauto].
  - destruct (is_space c) eqn:E.
    + destruct IH as (w & Hw & Hs). exists (c :: w); cbn. split; [congruence|].
      intros d [<-|Hd]; auto.
    + exists []; cbn; split; [auto|tauto].
Qed.

Lemma is_space_sp : is_space sp = true.
Proof. reflexivity. Qed.

Lemma spaces_space n c : In c (spaces n) -> is_space c = true.
Proof. intros H. apply in_spaces in H. subst. reflexivity. Qed.

Lemma trim_right_app_space s a :
  (forall c, In c a -> is_space c = true) -> trim_right (s ++ a) = trim_right s.
Proof.
  intros H. unfold trim_right. rewrite rev_app_distr, trim_left_app_space; [reflexivity|].
  intros c Hc. apply H. apply in_rev. exact Hc.
Qed.

Lemma trim_right_id s : no_lead (rev s) -> trim_right s = s.
Proof. intros H. unfold trim_right. rewrite trim_left_id by exact H. apply rev_involutive. Qed.

Lemma trim_right_prefix s : exists w, s = trim_right s ++ w /\ forall c, In c w -> is_space c = true.
Proof.
  destruct (trim_left_split (rev s)) as (w & Hw & Hs).
  exists (rev w). split.
  - unfold trim_right. rewrite <- rev_app_distr, <- Hw. symmetry; apply rev_involutive.
  - intros c Hc. apply Hs. apply in_rev. exact Hc.
Qed.

Lemma trim_left_all s : (forall c, In c s -> is_space c = true) -> trim_left s = [].
Proof. intros H. rewrite <- (app_nil_r s), trim_left_app_space; auto. Qed.

Lemma trim_right_no_lead s : no_lead s -> no_lead (trim_right s).
Proof.
  intros H. destruct (trim_right_prefix s) as (w & Hw & _).
  destruct (trim_right s) as [|c r]; [exact I|].
  rewrite Hw in H. cbn in H |- *. exact H.
Qed.

Lemma trim_trimmed s : trimmed (trim s).
Proof.
  unfold trimmed, trim. split.
  - apply trim_right_no_lead, trim_left_no_lead.
  - unfold trim_right. rewrite rev_involutive. apply trim_left_no_lead.
Qed.

Lemma trim_id s : trimmed s -> trim s = s.
Proof. intros [H1 H2]. unfold trim. rewrite trim_left_id by exact H1. apply trim_right_id; exact H2. Qed.

Lemma trim_idem s : trim (trim s) = trim s.
Proof. apply trim_id, trim_trimmed. Qed.

Lemma trim_left_app_nonspace w s :
  (exists c, In c w /\ is_space c = false) -> trim_left (w ++ s) = trim_left w ++ s.
Proof.
  induction w as [|x w IH]; intros (c & Hc & Hs); [destruct Hc|].
  cbn. destruct (is_space x) eqn:E; [|reflexivity].
  apply IH. exists c. destruct Hc as [->|Hc]; [congruence|auto].
Qed.

Lemma trim_left_nil_all s : trim_left s = [] -> forall c, In c s -> is_space c = true.
Proof.
  induction s as [|x s IH]; cbn; intros H c Hc; [destruct Hc|].
  destruct (is_space x) eqn:E; [|discriminate]. destruct Hc as [<-|Hc]; auto.
Qed.

(** Blanks around a text do not matter to trim. *)
Lemma trim_app_space_r s a :
  (forall c, In c a -> is_space c = true) -> trim (s ++ a) = trim s.
Proof.
  intros H. unfold trim.
  destruct (trim_left s) as [|x r] eqn:E.
  - rewrite (trim_left_all (s ++ a)); [reflexivity|].
    intros c Hc. apply in_app_or in Hc. destruct Hc as [Hc|Hc]; [|auto].
    eapply trim_left_nil_all; eauto.
  - rewrite trim_left_app_nonspace.
    + rewrite E. apply trim_right_app_space. exact H.
    + destruct (trim_left_split s) as (w & Hw & _). exists x. split.
      * rewrite Hw, E. apply in_or_app. right; left; reflexivity.
      * pose proof (trim_left_no_lead s) as Hn. rewrite E in Hn. exact Hn.
Qed.

Lemma trim_app_space_l a s :
  (forall c, In c a -> is_space c = true) -> trim (a ++ s) = trim s.
Proof. intros H. unfold trim. rewrite trim_left_app_space by exact H. reflexivity. Qed.

Lemma trim_spaces_r s n : trim (s ++ spaces n) = trim s.
Proof. apply trim_app_space_r, spaces_space. Qed.

Lemma trim_spaces_l n s : trim (spaces n ++ s) = trim s.
Proof. apply trim_app_space_l, spaces_space. Qed.

Lemma trim_cons_sp s : trim (sp :: s) = trim s.
Proof. exact (trim_spaces_l 1 s). Qed.

Lemma trim_all_space s : (forall c, In c s -> is_space c = true) -> trim s = [].
Proof. intros H. unfold trim. rewrite trim_left_all by exact H. reflexivity. Qed.

(** Every text is its trimmed part with whitespace around. *)
Lemma trim_split s :
  exists a b, s = a ++ trim s ++ b /\
    (forall c, In c a -> is_space c = true) /\ (forall c, In c b -> is_space c = true).
Proof.
  destruct (trim_left_split s) as (a & Ha & Has).
  destruct (trim_right_prefix (trim_left s)) as (b & Hb & Hbs).
  exists a, b. split; [|auto]. unfold trim. rewrite <- Hb. exact Ha.
Qed.

Lemma trimmed_nil : trimmed [].
Proof. split; exact I. Qed.

Lemma trimmed_single_quote_wrap s : trimmed ("'"%char :: s ++ ["'"%char]).
Proof. split; [reflexivity|]. cbn. rewrite rev_app_distr. reflexivity. Qed.

Lemma trimmed_no_space s : (forall c, In c s -> is_space c = false) -> trimmed s.
Proof.
  intros H. split.
  - destruct s; [exact I|]. cbn; apply H; left; reflexivity.
  - destruct (rev s) eqn:E; [exact I|]. cbn. apply H. apply in_rev. rewrite E. left; reflexivity.
Qed.

(** ** Decimal text *)

Lemma digit_val_char d : (d < 10)%N -> digit_val (digit_char d) = Some d.
Proof.
  intros H. unfold digit_val, digit_char.
  rewrite N_ascii_embedding by lia.
  destruct (N.leb_spec 48 (48 + d)); [|lia]. destruct (N.leb_spec (48 + d) 57); [|lia].
  cbn [andb]. f_equal. lia.
Qed.

Lemma digit_val_some c d : digit_val c = Some d -> (d < 10)%N /\ c = digit_char d.
Proof.
  unfold digit_val, digit_char. intros H.
  destruct (N.leb_spec 48 (N_of_ascii c)); [|discriminate].
  destruct (N.leb_spec (N_of_ascii c) 57); [|discriminate].
  injection H as <-. split; [lia|].
  replace (48 + (N_of_ascii c - 48))%N with (N_of_ascii c) by lia.
  symmetry; apply ascii_N_embedding.
Qed.

Lemma parse_digits_from_app acc a b :
  parse_digits_from acc (a ++ b) =
  match parse_digits_from acc a with Some n => parse_digits_from n b | None => None end.
Proof.
  revert acc; induction a as [|c a IH]; intros acc; cbn; [reflexivity|].
  destruct (digit_val c); [apply IH|reflexivity].
Qed.

Lemma parse_dec_digits f n :
  (n < 10 ^ N.of_nat f)%N -> parse_digits_from 0 (dec_digits f n) = Some n.
Proof.
  revert n; induction f as [|f IH]; intros n H.
  - cbn in *. f_equal. lia.
  - cbn [dec_digits]. destruct (N.ltb_spec n 10) as [Hn|Hn].
    + cbn [parse_digits_from]. rewrite digit_val_char by exact Hn. reflexivity.
    + rewrite parse_digits_from_app, IH.
      * cbn [parse_digits_from]. rewrite digit_val_char by (apply N.mod_lt; lia).
        f_equal. pose proof (N.div_mod' n 10). lia.
      * apply N.div_lt_upper_bound; [lia|].
        rewrite Nat2N.inj_succ, N.pow_succ_r' in H. exact H.
Qed.

Lemma dec_digits_nonempty f n : dec_digits (S f) n <> [].
Proof.
  cbn [dec_digits]. destruct (n <? 10)%N; [discriminate|].
  destruct (dec_digits f (n / 10)); discriminate.
Qed.

Lemma log2_pow10 n : (n < 10 ^ N.of_nat (S (N.to_nat (N.log2 n))))%N.
Proof.
  rewrite Nat2N.inj_succ, N2Nat.id.
  destruct (N.eq_dec n 0) as [->|Hn]; [reflexivity|].
  apply N.lt_le_trans with (2 ^ N.succ (N.log2 n))%N.
  - apply N.log2_spec; lia.
  - apply N.pow_le_mono_l. lia.
Qed.

Lemma show_N_nonempty n : show_N n <> [].
Proof. apply dec_digits_nonempty. Qed.

Lemma parse_show_N n : parse_digits (show_N n) = Some n.
Proof.
  unfold parse_digits. destruct (show_N n) eqn:E; [exfalso; apply (show_N_nonempty n E)|].
  rewrite <- E. unfold show_N. apply parse_dec_digits, log2_pow10.
Qed.

(** Every character of a decimal text is a digit. *)
Definition is_digit (c : ascii) : Prop := exists d, (d < 10)%N /\ c = digit_char d.

Lemma dec_digits_digit f n c : In c (dec_digits f n) -> is_digit c.
Proof.
  revert n; induction f as [|f IH]; intros n; cbn [dec_digits]; [intros []|].
  destruct (N.ltb_spec n 10) as [H|H].
  - intros [<-|[]]. exists n; auto.
  - intros Hc. apply in_app_or in Hc. destruct Hc as [Hc|[<-|[]]].
    + eapply IH; exact Hc.
    + exists (n mod 10)%N. split; [apply N.mod_lt; lia|reflexivity].
Qed.

Lemma show_N_digit n c : In c (show_N n) -> is_digit c.
Proof. apply dec_digits_digit. Qed.

Lemma digit_lt10_cases d : (d < 10)%N ->
  d = 0%N \/ d = 1%N \/ d = 2%N \/ d = 3%N \/ d = 4%N \/ d = 5%N \/ d = 6%N \/ d = 7%N \/ d = 8%N \/ d = 9%N.
Proof. lia. Qed.

Lemma digit_props c : is_digit c ->
  is_space c = false /\ c <> "/"%char /\ c <> "-"%char /\ c <> "+"%char /\ c <> sp /\ c <> "'"%char.
Proof.
  intros (d & Hd & ->).
  destruct (digit_lt10_cases d Hd) as [->|[->|[->|[->|[->|[->|[->|[->|[->| ->]]]]]]]]];
    repeat split; discriminate.
Qed.

Lemma dec_digits_length f k n :
  (n < 10 ^ N.of_nat k)%N -> 1 <= k -> length (dec_digits f n) <= k.
Proof.
  revert k n; induction f as [|f IH]; intros k n H Hk; cbn [dec_digits]; [cbn; lia|].
  destruct (N.ltb_spec n 10) as [Hn|Hn]; [cbn; lia|].
  rewrite app_length. cbn [length].
  destruct k as [|[|k]]; [lia| |].
  - exfalso. change (10 ^ N.of_nat 1)%N with 10%N in H. lia.
  - enough (length (dec_digits f (n / 10)) <= S k) by lia.
    apply IH; [|lia]. apply N.div_lt_upper_bound; [lia|].
    rewrite Nat2N.inj_succ, N.pow_succ_r' in H. exact H.
Qed.

Lemma show_N_length k n : (n < 10 ^ N.of_nat k)%N -> 1 <= k -> length (show_N n) <= k.
Proof. apply dec_digits_length. Qed.

Lemma split_sign_digits s : (forall c, In c s -> is_digit c) -> split_sign s = (false, s).
Proof.
  intros H. destruct s as [|c s]; [reflexivity|].
  destruct (digit_props c (H c (or_introl eq_refl))) as (_ & _ & H1 & H2 & _).
  cbn. destruct (Ascii.eqb_spec c "-"%char); [contradiction|].
  destruct (Ascii.eqb_spec c "+"%char); [contradiction|]. reflexivity.
Qed.

Lemma split_sign_show_N n : split_sign (show_N n) = (false, show_N n).
Proof. apply split_sign_digits, show_N_digit. Qed.

Lemma cast_unsigned_show bits n : (n < 2 ^ bits)%N -> cast_unsigned bits (show_N n) = Some n.
Proof.
  intros H. unfold cast_unsigned. rewrite split_sign_show_N, parse_show_N.
  destruct (N.ltb_spec n (2 ^ bits)); [reflexivity|lia].
Qed.

Lemma cast_signed_show bits z :
  (- 2 ^ (bits - 1) <= z < 2 ^ (bits - 1))%Z -> cast_signed bits (show_Z z) = Some z.
Proof.
  intros H. unfold cast_signed, show_Z. destruct (Z.ltb_spec z 0) as [Hz|Hz].
  - cbn [split_sign]. rewrite Ascii.eqb_refl, parse_show_N.
    rewrite Z2N.id by lia. destruct (Z.leb_spec (- z) (2 ^ (bits - 1))); [|lia].
    f_equal. lia.
  - rewrite split_sign_show_N, parse_show_N. rewrite Z2N.id by lia.
    destruct (Z.ltb_spec z (2 ^ (bits - 1))); [|lia]. reflexivity.
Qed.

Lemma show_Z_chars z c : In c (show_Z z) -> is_digit c \/ c = "-"%char.
Proof.
  unfold show_Z. destruct (z <? 0)%Z; intros H.
  - destruct H as [<-|H]; [right; reflexivity|left; eapply show_N_digit; exact H].
  - left; eapply show_N_digit; exact H.
Qed.

Lemma show_Z_nospace z c : In c (show_Z z) -> is_space c = false /\ c <> "/"%char /\ c <> sp /\ c <> "'"%char.
Proof.
  intros H. destruct (show_Z_chars z c H) as [Hd| ->].
  - destruct (digit_props c Hd) as (A & B & _ & _ & C & D). auto.
  - repeat split; discriminate.
Qed.

Lemma show_Z_nonempty z : show_Z z <> [].
Proof. unfold show_Z. destruct (z <? 0)%Z; [discriminate|apply show_N_nonempty]. Qed.

Lemma show_Z_length k z :
  (Z.abs z < 10 ^ Z.of_nat k)%Z -> 1 <= k -> length (show_Z z) <= S k.
Proof.
  intros H Hk. unfold show_Z.
  assert (HN : forall m, (0 <= m < 10 ^ Z.of_nat k)%Z -> length (show_N (Z.to_N m)) <= k).
  { intros m Hm. apply show_N_length; [|exact Hk].
    apply N2Z.inj_lt. rewrite Z2N.id by lia.
    rewrite N2Z.inj_pow, nat_N_Z. apply Hm. }
  destruct (Z.ltb_spec z 0); cbn [length].
  - specialize (HN (- z)%Z). lia.
  - specialize (HN z). lia.
Qed.

(** ** Association maps *)

Lemma map_find_set_same {A} k (a : A) m : map_find k (map_set k a m) = Some a.
Proof.
  induction m as [|[k' b] m IH]; cbn.
  - rewrite str_eqb_refl; reflexivity.
  - destruct (str_eqb k k') eqn:E; cbn; rewrite E; auto.
Qed.

Lemma map_find_set_other {A} k k2 (a : A) m :
  k <> k2 -> map_find k (map_set k2 a m) = map_find k m.
Proof.
  intros Hn. induction m as [|[k' b] m IH]; cbn.
  - destruct (str_eqb k k2) eqn:E; [apply str_eqb_eq in E; contradiction|reflexivity].
  - destruct (str_eqb k2 k') eqn:E; cbn.
    + apply str_eqb_eq in E; subst k'.
      destruct (str_eqb k k2) eqn:E2; [apply str_eqb_eq in E2; contradiction|reflexivity].
    + destruct (str_eqb k k'); auto.
Qed.
