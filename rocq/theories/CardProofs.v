(** * Lemmas about cards. *)
From Verif Require Export CppProofs CardModel CardSpec.

Lemma no_outer_blanks_trimmed s : no_outer_blanks s <-> trimmed s.
Proof.
  unfold no_outer_blanks, trimmed. split.
  - intros H. split.
    + destruct s as [|c r]; [exact I|]. cbn. apply H. left; eauto.
    + destruct (rev s) as [|c r] eqn:E; [exact I|]. cbn. apply H. right.
      exists (rev r). rewrite <- (rev_involutive s), E. reflexivity.
  - intros [H1 H2] c [[r ->]|[r ->]]; [exact H1|].
    rewrite rev_app_distr in H2. exact H2.
Qed.

Lemma trim_fix_trimmed s : trim s = s <-> trimmed s.
Proof.
  split; [|apply trim_id]. intros H. rewrite <- H. apply trim_trimmed.
Qed.

Lemma ret_inj {A} (a b : A) : Ret a = Ret b -> a = b.
Proof. congruence. Qed.

(** ** Record layout *)

Lemma record_body_length key value comment :
  length key <= 8 ->
  length (record_body key value comment) =
  10 + length value + match comment with [] => 0 | _ => 2 + length comment end.
Proof.
  intros H. unfold record_body. rewrite !app_length, length_spaces.
  destruct comment; cbn [length app lit list_ascii_of_string]; lia.
Qed.

Lemma record_length key value comment :
  fits key value comment -> length (record key value comment) = 80.
Proof. intros [_ H]. unfold record. rewrite app_length, length_spaces. lia. Qed.

Lemma valid3_fits key value comment :
  is_card_valid3 key value comment = true <-> fits key value comment.
Proof.
  unfold is_card_valid3, is_key_valid, fits.
  destruct (Nat.leb_spec (length key) 8) as [H|H].
  - rewrite record_body_length by exact H.
    destruct comment as [|x comment]; rewrite Nat.leb_le; lia.
  - split; [discriminate|lia].
Qed.

Lemma format_keyword_ok key :
  length key <= 8 -> format_keyword key = Ret (key ++ spaces (8 - length key)).
Proof. intros H. unfold format_keyword. apply (append_pad key 8 H). unfold max_size; lia. Qed.

Lemma create_card_impl_fits c key value comment :
  fits key value comment ->
  create_card_impl c key value comment = (mk_card (record key value comment) (cache c), Ret tt).
Proof.
  intros H. unfold create_card_impl.
  replace (is_card_valid3 key value comment) with true
    by (symmetry; apply valid3_fits; exact H).
  destruct H as [Hk Hl]. rewrite format_keyword_ok by exact Hk.
  set (body := match comment with [] => _ | _ => _ end).
  assert (Hb : body = record_body key value comment).
  { unfold body, record_body. destruct comment; rewrite <- ?app_assoc, ?app_nil_r; reflexivity. }
  rewrite Hb. change 80%N with (N.of_nat 80).
  rewrite (append_pad _ 80 Hl) by (unfold max_size; lia). reflexivity.
Qed.

Lemma create_card_impl_not_fits c key value comment :
  ~ fits key value comment ->
  create_card_impl c key value comment = (c, Throw InvalidCard).
Proof.
  intros H. unfold create_card_impl.
  destruct (is_card_valid3 key value comment) eqn:E; [|reflexivity].
  apply valid3_fits in E. contradiction.
Qed.

Lemma fits_dec key value comment : fits key value comment \/ ~ fits key value comment.
Proof.
  destruct (is_card_valid3 key value comment) eqn:E.
  - left; apply valid3_fits; exact E.
  - right. rewrite <- valid3_fits. congruence.
Qed.

Lemma create_card_impl_cases c key value comment :
  (fits key value comment /\
   create_card_impl c key value comment = (mk_card (record key value comment) (cache c), Ret tt) /\
   length (record key value comment) = 80) \/
  (~ fits key value comment /\
   create_card_impl c key value comment = (c, Throw InvalidCard)).
Proof.
  destruct (fits_dec key value comment) as [H|H]; [left|right]; (split; [exact H|]).
  - split; [apply create_card_impl_fits; exact H|apply record_length; exact H].
  - apply create_card_impl_not_fits; exact H.
Qed.

(** Serialization never reaches undefined behaviour or runs out of fuel. *)
Lemma prepend_cases n s :
  (exists t, prepend_spaces n s = Ret t) \/ prepend_spaces n s = Throw LengthError.
Proof. unfold prepend_spaces. destruct (max_size <? n)%N; eauto. Qed.

Lemma serialize_cases fc v :
  (exists s, serialize fc v = Ret s) \/ serialize fc v = Throw LengthError.
Proof.
  assert (P : forall s, (exists t, pad20 s = Ret t) \/ pad20 s = Throw LengthError)
    by (intros s; apply prepend_cases).
  assert (P2 : forall a b,
    (exists t, (let! x := pad20 a in let! y := pad20 b in Ret (x ++ y)) = Ret t) \/
    (let! x := pad20 a in let! y := pad20 b in Ret (x ++ y)) = Throw LengthError).
  { intros a b. destruct (P a) as [[x ->]| ->]; cbn [bind]; [|auto].
    destruct (P b) as [[y ->]| ->]; cbn [bind]; eauto. }
  destruct v; cbn [serialize]; eauto.
Qed.

Lemma create_card_total fc c key v comment c' r :
  create_card fc c key v comment = (c', r) ->
  (r = Ret tt /\ length (raw c') = 80 /\
   exists s, serialize fc v = Ret s /\ fits key s comment /\ c' = mk_card (record key s comment) (cache c))
  \/ (c' = c /\ (r = Throw InvalidCard \/ r = Throw LengthError)).
Proof.
  unfold create_card. intros H.
  destruct (serialize_cases fc v) as [[s Hs]|Hs]; rewrite Hs in H.
  - destruct (create_card_impl_cases c key s comment) as [(Hf & He & Hl)|(Hf & He)];
      rewrite He in H; injection H as <- <-.
    + left. split; [reflexivity|]. split; [exact Hl|]. eauto.
    + right; auto.
  - injection H as <- <-. right; auto.
Qed.

(** ** Keywords *)

Lemma keyword_whole_record key value comment cc :
  fits key value comment ->
  keyword_whole (mk_card (record key value comment) cc) = key ++ spaces (8 - length key).
Proof.
  intros [Hk _]. unfold keyword_whole, extract_keyword, record, record_body. cbn [raw].
  rewrite <- !app_assoc. rewrite app_assoc.
  rewrite firstn_app. rewrite app_length, length_spaces.
  replace (8 - (length key + (8 - length key))) with 0 by lia.
  rewrite firstn_O, app_nil_r. apply firstn_all2.
  rewrite app_length, length_spaces. lia.
Qed.

Lemma keyword_record key value comment cc :
  fits key value comment ->
  keyword (mk_card (record key value comment) cc) = trim key.
Proof.
  intros H. change (trim (keyword_whole (mk_card (record key value comment) cc)) = trim key).
  rewrite keyword_whole_record by exact H. apply trim_spaces_r.
Qed.

(** ** Extracting the value field *)

Lemma str_find_app a b : slash_free a -> str_find "/"%char (a ++ "/"%char :: b) = N.of_nat (length a).
Proof. intros H. unfold str_find. rewrite find_idx_app by exact H. reflexivity. Qed.

Lemma str_find_none s : slash_free s -> str_find "/"%char s = npos.
Proof. intros H. unfold str_find. apply find_idx_none in H. rewrite H. reflexivity. Qed.

Lemma extract_value_noslash s :
  slash_free s -> 9 <= length s -> (N.of_nat (length s) < 2 ^ 63)%N ->
  extract_value s = Ret (skipn 9 s).
Proof.
  intros H1 H2 H3. unfold extract_value. rewrite str_find_none by exact H1.
  rewrite substr_ret by exact H2. f_equal. apply firstn_all2.
  rewrite skipn_length. rewrite sub64_small by (unfold npos, two64; lia).
  unfold npos, two64. lia.
Qed.

Lemma extract_value_slash a b :
  slash_free a -> 10 <= length a -> (N.of_nat (length a) < 2 ^ 63)%N ->
  extract_value (a ++ "/"%char :: b) = Ret (firstn (length a - 10) (skipn 9 a)).
Proof.
  intros H1 H2 H3. unfold extract_value. rewrite str_find_app by exact H1.
  rewrite substr_ret by (rewrite app_length; cbn [length]; lia). f_equal.
  rewrite sub64_small by (unfold two64; lia).
  rewrite app_length. cbn [length].
  replace (N.to_nat (N.min _ _)) with (length a - 10) by lia.
  rewrite skipn_app. rewrite firstn_app. rewrite skipn_length.
  replace (length a - 10 - (length a - 9)) with 0 by lia.
  cbn [firstn]. apply app_nil_r.
Qed.

(** A '/' before column 11 makes the count wrap around: the whole rest is taken. *)
Lemma extract_value_early_slash a b :
  slash_free a -> length a < 10 -> 9 <= length (a ++ "/"%char :: b) ->
  (N.of_nat (length (a ++ "/"%char :: b)) < 2 ^ 63)%N ->
  extract_value (a ++ "/"%char :: b) = Ret (skipn 9 (a ++ "/"%char :: b)).
Proof.
  intros H1 H2 H3 H4. unfold extract_value. rewrite str_find_app by exact H1.
  rewrite substr_ret by exact H3. f_equal. apply firstn_all2.
  rewrite skipn_length. rewrite sub64_wrap by (unfold two64; lia).
  unfold two64. lia.
Qed.

Lemma slash_free_app a b : slash_free (a ++ b) <-> slash_free a /\ slash_free b.
Proof. unfold slash_free. rewrite in_app_iff. tauto. Qed.

Lemma slash_free_spaces n : slash_free (spaces n).
Proof. intros H. apply in_spaces in H. discriminate. Qed.

Lemma skipn_9_key k s : length k = 8 -> skipn 9 (k ++ lit "= " ++ s) = sp :: s.
Proof.
  intros H. rewrite skipn_app, H.
  rewrite skipn_all2 by lia. reflexivity.
Qed.

(** The three forms of a record with "= ". *)
Lemma value_text_plain k text :
  length k = 8 -> slash_free k -> slash_free text -> (N.of_nat (length text) < 2 ^ 62)%N ->
  extract_value (k ++ lit "= " ++ text) = Ret (sp :: text).
Proof.
  intros H1 H2 H3 H4. rewrite extract_value_noslash.
  - rewrite skipn_9_key by exact H1. reflexivity.
  - rewrite !slash_free_app. repeat split; auto. cbn. intros [K|[K|[]]]; discriminate.
  - rewrite !app_length. cbn [length lit list_ascii_of_string]. lia.
  - rewrite !app_length. cbn [length lit list_ascii_of_string]. lia.
Qed.

Lemma value_text_slash k text rest :
  length k = 8 -> slash_free k -> slash_free text -> (N.of_nat (length text) < 2 ^ 62)%N ->
  extract_value (k ++ lit "= " ++ text ++ "/"%char :: rest) = Ret (firstn (length text) (sp :: text)).
Proof.
  intros H1 H2 H3 H4.
  replace (k ++ lit "= " ++ text ++ "/"%char :: rest)
    with ((k ++ lit "= " ++ text) ++ "/"%char :: rest) by (rewrite <- !app_assoc; reflexivity).
  rewrite extract_value_slash.
  - rewrite skipn_9_key by exact H1. do 2 f_equal.
    rewrite !app_length. cbn [length lit list_ascii_of_string]. lia.
  - rewrite !slash_free_app. repeat split; auto. cbn. intros [K|[K|[]]]; discriminate.
  - rewrite !app_length. cbn [length lit list_ascii_of_string]. lia.
  - rewrite !app_length. cbn [length lit list_ascii_of_string]. lia.
Qed.

Lemma firstn_length_cons {A} (x : A) s y : firstn (length (s ++ [y])) (x :: s ++ [y]) = x :: s.
Proof.
  rewrite app_length. cbn [length]. rewrite Nat.add_1_r. cbn [firstn]. f_equal.
  rewrite firstn_app. rewrite firstn_all, Nat.sub_diag. cbn. apply app_nil_r.
Qed.

Lemma value_text_comment k text y rest :
  length k = 8 -> slash_free k -> slash_free text -> y <> "/"%char -> (N.of_nat (length text) < 2 ^ 61)%N ->
  extract_value (k ++ lit "= " ++ text ++ y :: "/"%char :: rest) = Ret (sp :: text).
Proof.
  intros H1 H2 H3 Hy H4.
  replace (text ++ y :: "/"%char :: rest) with ((text ++ [y]) ++ "/"%char :: rest)
    by (rewrite <- app_assoc; reflexivity).
  rewrite value_text_slash.
  - rewrite firstn_length_cons. reflexivity.
  - exact H1.
  - exact H2.
  - rewrite slash_free_app. split; [exact H3|]. intros [K|[]]. congruence.
  - rewrite app_length. cbn [length]. lia.
Qed.

(** The value text of a record built from key, text and comment. *)
Lemma record_value_text key text comment :
  fits key text comment -> slash_free key -> slash_free text ->
  exists e, extract_value (record key text comment) = Ret e /\ trim e = trim text.
Proof.
  intros Hf Hk Ht. pose proof Hf as [Hk8 Hl].
  assert (Hsf : slash_free (key ++ spaces (8 - length key)))
    by (rewrite slash_free_app; split; [exact Hk|apply slash_free_spaces]).
  assert (Hlen : length (key ++ spaces (8 - length key)) = 8)
    by (rewrite app_length, length_spaces; lia).
  rewrite record_body_length in Hl by exact Hk8.
  unfold record. set (n := 80 - _). unfold record_body.
  destruct comment as [|c0 comment].
  - exists (sp :: text ++ spaces n). split.
    + replace ((key ++ spaces (8 - length key) ++ lit "= " ++ text ++ []) ++ spaces n)
        with ((key ++ spaces (8 - length key)) ++ lit "= " ++ (text ++ spaces n))
        by (rewrite <- !app_assoc; reflexivity).
      apply value_text_plain; auto.
      * rewrite slash_free_app; split; [exact Ht|apply slash_free_spaces].
      * unfold n. rewrite app_length, length_spaces. lia.
    + rewrite trim_cons_sp. apply trim_spaces_r.
  - exists (sp :: text). split.
    + replace ((key ++ spaces (8 - length key) ++ lit "= " ++ text ++ lit " /" ++ c0 :: comment) ++ spaces n)
        with ((key ++ spaces (8 - length key)) ++ lit "= " ++ text ++ sp :: "/"%char :: ((c0 :: comment) ++ spaces n))
        by (rewrite <- !app_assoc; reflexivity).
      apply value_text_comment; auto.
      * discriminate.
      * lia.
    + apply trim_cons_sp.
Qed.

(** ** Values *)

Lemma get_as_same v : get_as (ty_of v) v = Ret v.
Proof. unfold get_as. destruct v; reflexivity. Qed.

Lemma value_imp_nonstr fc t c : t <> TStr ->
  value_imp fc t c = let! e := extract_value (raw c) in parse_to fc t (trim e).
Proof. destruct t; intros H; reflexivity || congruence. Qed.

Lemma parse_to_type fc t s v : parse_to fc t s = Ret v -> ty_of v = t.
Proof.
  destruct t; cbn [parse_to]; unfold bind, cast_or_throw, split_complex; intros H;
    repeat match type of H with
    | context [match ?x with _ => _ end] => destruct x; try discriminate H
    end; injection H as <-; reflexivity.
Qed.

Lemma value_imp_type fc t c v : value_imp fc t c = Ret v -> ty_of v = t.
Proof.
  destruct t; cbn [value_imp]; intros H;
    try (unfold bind in H; destruct (extract_value (raw c)); try discriminate H;
         apply parse_to_type in H; exact H).
  unfold value_imp_str, bind in H. destruct (extract_value (raw c)); try discriminate H.
  destruct (trim a) as [|x r]; [injection H as <-; reflexivity|].
  destruct (Ascii.eqb x "'"%char); [|injection H as <-; reflexivity].
  destruct r; [discriminate H|injection H as <-; reflexivity].
Qed.

Lemma value_uncached fc t c : cache c = None -> snd (value fc t c) = value_imp fc t c.
Proof.
  intros H. unfold value. rewrite H.
  destruct (value_imp fc t c) eqn:E; cbn [snd]; auto.
  rewrite <- (value_imp_type _ _ _ _ E). apply get_as_same.
Qed.

Lemma pad20_ok s : length s <= 20 -> pad20 s = Ret (spaces (20 - length s) ++ s).
Proof. intros H. apply (prepend_pad s 20 H). unfold max_size; lia. Qed.

Lemma pad20_some s t : pad20 s = Ret t -> length s <= 20 \/ (2 ^ 63 < N.of_nat (length s))%N.
Proof.
  unfold pad20, prepend_spaces. intros H.
  destruct (Nat.leb_spec (length s) 20); [auto|]. right.
  destruct (N.ltb_spec max_size (sub64 20 (N.of_nat (length s)))) as [|Hle]; [discriminate|].
  unfold sub64, max_size, two64 in Hle. lia.
Qed.

Lemma show_Z_len32 z : int_range 32 z -> length (show_Z z) <= 11.
Proof. unfold int_range. intros H. apply (show_Z_length 10); [|lia].
  change (10 ^ Z.of_nat 10)%Z with 10000000000%Z. change (2 ^ (32 - 1))%Z with 2147483648%Z in H. lia. Qed.

Lemma show_Z_len64 z : int_range 64 z -> length (show_Z z) <= 20.
Proof. unfold int_range. intros H. apply (show_Z_length 19); [|lia].
  change (10 ^ Z.of_nat 19)%Z with 10000000000000000000%Z.
  change (2 ^ (64 - 1))%Z with 9223372036854775808%Z in H. lia. Qed.

Lemma show_N_len64 n : (n < 2 ^ 64)%N -> length (show_N n) <= 20.
Proof.
  intros H. apply show_N_length; [|lia].
  change (10 ^ N.of_nat 20)%N with 100000000000000000000%N. lia.
Qed.

Lemma show_N_len32 n : (n < 2 ^ 32)%N -> length (show_N n) <= 10.
Proof.
  intros H. apply show_N_length; [|lia].
  change (10 ^ N.of_nat 10)%N with 10000000000%N. lia.
Qed.

Lemma show_Z_trimmed z : trimmed (show_Z z).
Proof. apply trimmed_no_space. intros c Hc. apply (show_Z_nospace z c Hc). Qed.

Lemma show_N_trimmed n : trimmed (show_N n).
Proof.
  apply trimmed_no_space. intros c Hc. apply show_N_digit in Hc. apply (digit_props c Hc).
Qed.

Lemma show_Z_slash z : slash_free (show_Z z).
Proof. intros H. apply show_Z_nospace in H. destruct H as (_ & H & _). congruence. Qed.

Lemma show_N_slash n : slash_free (show_N n).
Proof. intros H. apply show_N_digit, digit_props in H. destruct H as (_ & H & _). congruence. Qed.

(** The text of an integer value. *)
Definition int_text (v : cval) : str :=
  match v with
  | VInt z | VLongLong z => show_Z z
  | VUInt n | VSize n => show_N n
  | _ => []
  end.

Lemma int_text_props v : is_integer_value v -> representable v ->
  length (int_text v) <= 20 /\ trimmed (int_text v) /\ slash_free (int_text v) /\ int_text v <> [].
Proof.
  destruct v; cbn [is_integer_value representable int_text]; intros Hi Hr; try contradiction.
  - split; [apply show_Z_len32 in Hr; lia|].
    split; [apply show_Z_trimmed|]. split; [apply show_Z_slash|apply show_Z_nonempty].
  - split; [apply show_N_len32 in Hr; lia|].
    split; [apply show_N_trimmed|]. split; [apply show_N_slash|apply show_N_nonempty].
  - split; [apply show_Z_len64; exact Hr|].
    split; [apply show_Z_trimmed|]. split; [apply show_Z_slash|apply show_Z_nonempty].
  - split; [apply show_N_len64; exact Hr|].
    split; [apply show_N_trimmed|]. split; [apply show_N_slash|apply show_N_nonempty].
Qed.

Lemma serialize_int fc v : is_integer_value v -> representable v ->
  serialize fc v = Ret (spaces (20 - length (int_text v)) ++ int_text v).
Proof.
  intros Hi Hr. destruct (int_text_props v Hi Hr) as (Hl & _).
  destruct v; cbn [is_integer_value] in Hi; try contradiction;
    cbn [serialize]; apply pad20_ok; exact Hl.
Qed.

Lemma parse_int fc v : is_integer_value v -> representable v ->
  parse_to fc (ty_of v) (int_text v) = Ret v.
Proof.
  destruct v; cbn [is_integer_value representable int_text ty_of parse_to]; intros Hi Hr; try contradiction.
  - rewrite cast_signed_show by exact Hr. reflexivity.
  - rewrite cast_unsigned_show by exact Hr. reflexivity.
  - rewrite cast_signed_show by exact Hr. reflexivity.
  - rewrite cast_unsigned_show by exact Hr. reflexivity.
Qed.

(** Everything a fresh creation tells. *)
Lemma create_card_ret fc c key v comment c' :
  create_card fc c key v comment = (c', Ret tt) ->
  exists s, serialize fc v = Ret s /\ fits key s comment /\
            c' = mk_card (record key s comment) (cache c).
Proof.
  intros H. apply create_card_total in H. destruct H as [(_ & _ & H)|(_ & [H|H])]; [exact H| |];
    discriminate.
Qed.

Lemma int_roundtrip fc c key v comment c' :
  cache c = None -> slash_free key -> is_integer_value v -> representable v ->
  create_card fc c key v comment = (c', Ret tt) ->
  snd (value fc (ty_of v) c') = Ret v.
Proof.
  intros Hc Hk Hi Hr H. apply create_card_ret in H. destruct H as (s & Hs & Hf & ->).
  rewrite serialize_int in Hs by assumption. apply ret_inj in Hs. subst s.
  destruct (int_text_props v Hi Hr) as (Hl & Ht & Hsl & _).
  rewrite value_uncached by exact Hc.
  rewrite value_imp_nonstr by (destruct v; cbn in Hi; contradiction || discriminate).
  cbn [raw]. destruct (record_value_text _ _ _ Hf Hk) as (e & -> & He).
  - rewrite slash_free_app. split; [apply slash_free_spaces|exact Hsl].
  - cbn [bind]. rewrite He, trim_spaces_l, trim_id by exact Ht. apply parse_int; assumption.
Qed.

Lemma bool_roundtrip fc c key b comment c' :
  cache c = None -> slash_free key ->
  create_card fc c key (VBool b) comment = (c', Ret tt) ->
  snd (value fc TBool c') = Ret (VBool b).
Proof.
  intros Hc Hk H. apply create_card_ret in H. destruct H as (s & Hs & Hf & ->).
  cbn [serialize] in Hs. apply ret_inj in Hs. subst s.
  rewrite value_uncached by exact Hc. cbn [value_imp raw].
  destruct (record_value_text _ _ _ Hf Hk) as (e & -> & He).
  - rewrite slash_free_app. split; [apply slash_free_spaces|].
    destruct b; cbn; intros [K|[]]; discriminate.
  - cbn [bind]. rewrite He, trim_spaces_l. destruct b; reflexivity.
Qed.

Lemma bool_reads fc key text comment v :
  fits key text comment -> slash_free key -> slash_free text ->
  (snd (value fc TBool (mk_card (record key text comment) None)) = Ret v <->
   (trim text = lit "T" /\ v = VBool true) \/ (trim text = lit "F" /\ v = VBool false)).
Proof.
  intros Hf Hk Ht. rewrite value_uncached by reflexivity. cbn [value_imp raw].
  destruct (record_value_text _ _ _ Hf Hk Ht) as (e & -> & He). cbn [bind parse_to]. rewrite He.
  destruct (str_eqb (trim text) (lit "T")) eqn:E1.
  - apply str_eqb_eq in E1. rewrite E1. split.
    + injection 1 as <-. auto.
    + intros [[_ ->]|[K _]]; [reflexivity|discriminate K].
  - apply str_eqb_neq in E1. destruct (str_eqb (trim text) (lit "F")) eqn:E2.
    + apply str_eqb_eq in E2. split.
      * injection 1 as <-. auto.
      * intros [[K _]|[_ ->]]; [contradiction|reflexivity].
    + apply str_eqb_neq in E2. split; [discriminate|]. intros [[K _]|[K _]]; contradiction.
Qed.

Lemma bool_column fc c key b comment c' :
  create_card fc c key (VBool b) comment = (c', Ret tt) ->
  nth_error (raw c') 29 = Some (if b then "T"%char else "F"%char) /\
  (forall i, 10 <= i < 29 -> nth_error (raw c') i = Some sp).
Proof.
  intros H. apply create_card_ret in H. destruct H as (s & Hs & [Hk Hl] & ->).
  cbn [serialize] in Hs. apply ret_inj in Hs. subst s. cbn [raw]. unfold record, record_body.
  set (tail := match comment with [] => _ | _ => _ end).
  set (n := 80 - _).
  replace ((key ++ spaces (8 - length key) ++ lit "= " ++ (spaces 19 ++ (if b then lit "T" else lit "F")) ++ tail) ++ spaces n)
    with ((key ++ spaces (8 - length key)) ++ (lit "= " ++ spaces 19 ++ (if b then lit "T" else lit "F")) ++ tail ++ spaces n)
    by (rewrite <- !app_assoc; reflexivity).
  assert (Hlen : length (key ++ spaces (8 - length key)) = 8)
    by (rewrite app_length, length_spaces; lia).
  split.
  - rewrite nth_error_app2 by lia. rewrite Hlen. destruct b; reflexivity.
  - intros i Hi. rewrite nth_error_app2 by lia. rewrite Hlen.
    rewrite nth_error_app1 by (destruct b; cbn; lia).
    replace (i - 8) with (2 + (i - 10)) by lia.
    assert (Hj : i - 10 < 19) by lia. remember (i - 10) as j eqn:Ej. clear Ej Hi.
    cbn [lit list_ascii_of_string app plus nth_error].
    rewrite nth_error_app1 by (rewrite length_spaces; exact Hj).
    apply nth_error_repeat. exact Hj.
Qed.

(** Strings. *)

Lemma quoted_value s e :
  trim e = trim ("'"%char :: s ++ ["'"%char]) -> 
  forall c, extract_value (raw c) = Ret e -> value_imp_str c = Ret (VStr (trim s)).
Proof.
  intros He c Hc. unfold value_imp_str. rewrite Hc. cbn [bind]. rewrite He.
  rewrite trim_id by apply trimmed_single_quote_wrap.
  rewrite Ascii.eqb_refl.
  destruct (s ++ ["'"%char]) eqn:E; [destruct s; discriminate|].
  rewrite <- E, removelast_last. reflexivity.
Qed.

Lemma slash_split s : ~ slash_free s -> exists a b, s = a ++ "/"%char :: b /\ slash_free a.
Proof.
  intros H. destruct (find_idx "/"%char s) as [i|] eqn:E.
  - destruct (find_idx_some _ _ _ E) as (a & b & -> & _ & Ha). eauto.
  - apply find_idx_none in E. contradiction.
Qed.

Lemma slash_free_dec s : slash_free s \/ ~ slash_free s.
Proof. unfold slash_free. destruct (in_dec ascii_dec "/"%char s); tauto. Qed.

Lemma trim_in s ch : In ch (trim s) -> In ch s.
Proof.
  intros H. destruct (trim_split s) as (a & b & Hs & _ & _). rewrite Hs.
  apply in_or_app; right; apply in_or_app; left; exact H.
Qed.

Lemma removelast_in {A} (l : list A) x : In x (removelast l) -> In x l.
Proof.
  induction l as [|y l IH]; [intros []|]. destruct l as [|z l]; [intros []|].
  intros [H|H]; [left; exact H|right; apply IH; exact H].
Qed.

Lemma firstn_in {A} n (l : list A) x : In x (firstn n l) -> In x l.
Proof.
  intros H. rewrite <- (firstn_skipn n l). apply in_or_app; left; exact H.
Qed.

(** A string read from a card consists of characters of its value field. *)
Lemma value_imp_str_chars c e s ch :
  extract_value (raw c) = Ret e -> value_imp_str c = Ret (VStr s) -> In ch s -> In ch e.
Proof.
  intros He H Hch. unfold value_imp_str in H. rewrite He in H. cbn [bind] in H.
  apply trim_in. destruct (trim e) as [|x r].
  - injection H as <-. exact Hch.
  - destruct (Ascii.eqb x "'"%char).
    + destruct r as [|y r]; [discriminate|]. injection H as <-.
      right. apply removelast_in, trim_in, Hch.
    + injection H as <-. exact Hch.
Qed.

(** What a string containing the separator reads as: never itself. *)
Lemma str_slash_value c key a b comment cc :
  slash_free key -> slash_free a ->
  fits key ("'"%char :: (a ++ "/"%char :: b) ++ ["'"%char]) comment ->
  c = mk_card (record key ("'"%char :: (a ++ "/"%char :: b) ++ ["'"%char]) comment) cc ->
  value_imp_str c <> Ret (VStr (a ++ "/"%char :: b)).
Proof.
  intros Hk Ha Hf ->. pose proof Hf as [Hk8 Hl]. rewrite record_body_length in Hl by exact Hk8.
  cbn [length] in Hl. rewrite !app_length in Hl. cbn [length] in Hl.
  intros K.
  assert (Hin : In "/"%char (firstn (length ("'"%char :: a)) (sp :: "'"%char :: a))).
  { eapply value_imp_str_chars; [|exact K|apply in_or_app; right; left; reflexivity].
    cbn [raw]. unfold record, record_body. set (n := 80 - _).
    set (tail := match comment with [] => _ | _ => _ end).
    replace ((key ++ spaces (8 - length key) ++ lit "= " ++
       ("'"%char :: (a ++ "/"%char :: b) ++ ["'"%char]) ++ tail) ++ spaces n)
      with ((key ++ spaces (8 - length key)) ++ lit "= " ++ ("'"%char :: a) ++ "/"%char ::
            (b ++ ["'"%char] ++ tail ++ spaces n))
      by (repeat (rewrite <- app_assoc || cbn [app]); reflexivity).
    apply value_text_slash.
    - rewrite app_length, length_spaces. lia.
    - rewrite slash_free_app. split; [exact Hk|apply slash_free_spaces].
    - cbn. intros [J|J]; [discriminate|]. exact (Ha J).
    - cbn [length]. lia. }
  apply firstn_in in Hin. destruct Hin as [J|[J|J]]; [discriminate|discriminate|exact (Ha J)].
Qed.

Lemma string_reads fc c key s comment c' :
  cache c = None -> slash_free key ->
  create_card fc c key (VStr s) comment = (c', Ret tt) ->
  (slash_free s -> snd (value fc TStr c') = Ret (VStr (trim s))) /\
  (snd (value fc TStr c') = Ret (VStr s) <-> slash_free s /\ no_outer_blanks s).
Proof.
  intros Hc Hk H. apply create_card_ret in H. destruct H as (t & Hs & Hf & ->).
  cbn [serialize] in Hs. apply ret_inj in Hs. subst t.
  rewrite value_uncached by exact Hc. cbn [value_imp].
  assert (Hpos : slash_free s ->
    value_imp_str (mk_card (record key ("'"%char :: s ++ ["'"%char]) comment) (cache c)) = Ret (VStr (trim s))).
  { intros Hsf. destruct (record_value_text _ _ _ Hf Hk) as (e & He & Ht).
    - cbn. intros [J|J]; [discriminate|]. apply in_app_or in J.
      destruct J as [J|[J|[]]]; [exact (Hsf J)|discriminate].
    - eapply quoted_value; [exact Ht|exact He]. }
  split; [exact Hpos|].
  rewrite no_outer_blanks_trimmed, <- trim_fix_trimmed. split.
  - intros HR. destruct (slash_free_dec s) as [Hsf|Hsf].
    + split; [exact Hsf|]. rewrite (Hpos Hsf) in HR. injection HR as HR. exact HR.
    + exfalso. destruct (slash_split s Hsf) as (a & b & -> & Ha).
      eapply str_slash_value; [exact Hk|exact Ha|exact Hf|reflexivity|exact HR].
  - intros [Hsf Ht]. rewrite (Hpos Hsf), Ht. reflexivity.
Qed.

(** Complex values. *)

Lemma find_idx_prefix c a b : ~ In c a -> find_idx c (a ++ b) =
  match find_idx c b with Some i => Some (length a + i) | None => None end.
Proof.
  induction a as [|x a IH]; intros H.
  - cbn [app length plus]. destruct (find_idx c b); reflexivity.
  - cbn [app find_idx]. destruct (Ascii.eqb_spec x c) as [->|Hn].
    + exfalso; apply H; left; reflexivity.
    + rewrite IH by (intros J; apply H; right; exact J).
      destruct (find_idx c b); reflexivity.
Qed.

Lemma split_two a b k :
  (forall c, In c a -> is_space c = false) ->
  (forall c, In c b -> is_space c = false) ->
  split_complex (a ++ spaces k ++ b) =
  match k with
  | O => Throw InvalidCast
  | S j => Ret (a, spaces j ++ b)
  end.
Proof.
  intros Ha Hb. unfold split_complex.
  assert (Hna : ~ In sp a) by (intros J; apply Ha in J; discriminate).
  rewrite find_idx_prefix by exact Hna.
  destruct k as [|j].
  - cbn [spaces repeat app].
    replace (find_idx sp b) with (@None nat); [reflexivity|].
    symmetry. apply find_idx_none. intros J; apply Hb in J; discriminate.
  - cbn [spaces repeat app find_idx]. rewrite Ascii.eqb_refl, Nat.add_0_r.
    rewrite firstn_app, Nat.sub_diag, firstn_all, firstn_O, app_nil_r.
    rewrite skipn_app. rewrite skipn_all2 by lia.
    replace (S (length a) - length a) with 1 by lia. reflexivity.
Qed.

Lemma cast_signed_blank bits s : cast_signed bits (sp :: s) = None.
Proof. reflexivity. Qed.

Lemma cast_unsigned_blank bits s : cast_unsigned bits (sp :: s) = None.
Proof. reflexivity. Qed.

(** The value text of a stored pair of numbers. *)
Lemma pair_text key ta tb comment :
  length ta <= 20 -> length tb <= 20 -> slash_free key -> slash_free ta -> slash_free tb ->
  (forall c, In c ta -> is_space c = false) -> (forall c, In c tb -> is_space c = false) ->
  ta <> [] -> tb <> [] ->
  fits key ((spaces (20 - length ta) ++ ta) ++ spaces (20 - length tb) ++ tb) comment ->
  exists e, extract_value (record key ((spaces (20 - length ta) ++ ta) ++ spaces (20 - length tb) ++ tb) comment) = Ret e
            /\ trim e = ta ++ spaces (20 - length tb) ++ tb.
Proof.
  intros H1 H2 Hk Hsa Hsb Ha Hb Hna Hnb Hf.
  destruct (record_value_text _ _ _ Hf Hk) as (e & He & Ht).
  - rewrite !slash_free_app. repeat split; auto; apply slash_free_spaces.
  - exists e. split; [exact He|]. rewrite Ht, <- app_assoc, trim_spaces_l.
    apply trim_id. split.
    + destruct ta as [|x ta]; [congruence|]. cbn. apply Ha; left; reflexivity.
    + rewrite !rev_app_distr. destruct (rev tb) as [|x l] eqn:E.
      * exfalso. apply Hnb. rewrite <- (rev_involutive tb), E. reflexivity.
      * cbn. apply Hb. apply in_rev. rewrite E. left; reflexivity.
Qed.

Lemma show_Z_isspace z c : In c (show_Z z) -> is_space c = false.
Proof. intros H. apply (show_Z_nospace z c H). Qed.

Lemma show_N_isspace n c : In c (show_N n) -> is_space c = false.
Proof. intros H. apply show_N_digit in H. apply (digit_props c H). Qed.

Lemma complex_int_reads fc c key re im comment c' :
  cache c = None -> slash_free key -> representable (VCInt re im) ->
  create_card fc c key (VCInt re im) comment = (c', Ret tt) ->
  snd (value fc TCInt c') = Throw InvalidCast.
Proof.
  intros Hc Hk [Hre Him] H. apply create_card_ret in H. destruct H as (s & Hs & Hf & ->).
  apply show_Z_len32 in Hre, Him.
  cbn [serialize] in Hs. rewrite !pad20_ok in Hs by lia. cbn [bind] in Hs. apply ret_inj in Hs. subst s.
  rewrite value_uncached by exact Hc. cbn [value_imp raw].
  destruct (pair_text key (show_Z re) (show_Z im) comment) as (e & -> & He);
    auto using show_Z_slash, show_Z_nonempty; try lia.
  - intros ch; apply show_Z_isspace.
  - intros ch; apply show_Z_isspace.
  - cbn [bind parse_to]. rewrite He.
    rewrite split_two by (intros ch; apply show_Z_isspace).
    destruct (20 - length (show_Z im)) as [|[|j]] eqn:E; [lia|lia|].
    cbn [bind fst snd spaces repeat app]. rewrite cast_signed_blank.
    destruct (cast_signed 32 (show_Z re)); reflexivity.
Qed.

Lemma complex_size_reads fc c key re im comment c' :
  cache c = None -> slash_free key -> representable (VCSize re im) ->
  create_card fc c key (VCSize re im) comment = (c', Ret tt) ->
  snd (value fc TCSize c') = if length (show_N im) =? 19 then Ret (VCSize re im) else Throw InvalidCast.
Proof.
  intros Hc Hk [Hre Him] H. apply create_card_ret in H. destruct H as (s & Hs & Hf & ->).
  pose proof (show_N_len64 _ Hre) as Lre. pose proof (show_N_len64 _ Him) as Lim.
  cbn [serialize] in Hs. rewrite !pad20_ok in Hs by lia. cbn [bind] in Hs. apply ret_inj in Hs. subst s.
  rewrite value_uncached by exact Hc. cbn [value_imp raw].
  destruct (pair_text key (show_N re) (show_N im) comment) as (e & -> & He);
    auto using show_N_slash, show_N_nonempty; try lia.
  - intros ch; apply show_N_isspace.
  - intros ch; apply show_N_isspace.
  - cbn [bind parse_to]. rewrite He.
    rewrite split_two by (intros ch; apply show_N_isspace).
    destruct (Nat.eqb_spec (length (show_N im)) 19) as [E|E].
    + rewrite E. cbn [Nat.sub bind fst snd spaces repeat app].
      rewrite !cast_unsigned_show by assumption. reflexivity.
    + destruct (20 - length (show_N im)) as [|[|j]] eqn:E2; [reflexivity|lia|].
      cbn [bind fst snd spaces repeat app]. rewrite cast_unsigned_blank.
      destruct (cast_unsigned 64 (show_N re)); reflexivity.
Qed.

(** ** The cache *)

Lemma card_step_cache fc c o v :
  cache c = Some v -> is_set_value o = false -> cache (card_step fc c o) = Some v.
Proof.
  intros Hc Ho. destruct o as [t|v'|k v' cm|k v']; cbn [card_step].
  - unfold value. rewrite Hc. exact Hc.
  - discriminate.
  - unfold create_card. destruct (serialize fc v') as [s| | |]; try exact Hc.
    destruct (create_card_impl_cases c k s cm) as [(_ & -> & _)|(_ & ->)]; exact Hc.
  - unfold create_commentary_card. destruct (is_key_valid k); [|exact Hc].
    destruct (append_spaces _ _); exact Hc.
Qed.

Lemma run_card_cache fc ops c v :
  cache c = Some v -> forallb (fun o => negb (is_set_value o)) ops = true ->
  cache (run_card fc c ops) = Some v.
Proof.
  unfold run_card. revert c; induction ops as [|o ops IH]; cbn [fold_left forallb]; intros c Hc H; [exact Hc|].
  apply andb_true_iff in H. destruct H as [H1 H2]. apply IH; [|exact H2].
  apply card_step_cache; [exact Hc|]. destruct (is_set_value o); [discriminate|reflexivity].
Qed.

Lemma value_ret_caches fc t c v : snd (value fc t c) = Ret v ->
  cache (fst (value fc t c)) = Some v /\ ty_of v = t.
Proof.
  unfold value. destruct (cache c) as [w|] eqn:E.
  - cbn [fst snd]. unfold get_as. destruct (cty_eqb (ty_of w) t) eqn:Et; [|discriminate].
    injection 1 as <-. split; [exact E|]. destruct (ty_of w), t; try discriminate; reflexivity.
  - destruct (value_imp fc t c) as [w| | |] eqn:Ei; cbn [fst snd]; try discriminate.
    unfold get_as. destruct (cty_eqb (ty_of w) t) eqn:Et; [|discriminate].
    injection 1 as <-. cbn [cache]. split; [reflexivity|]. eapply value_imp_type; exact Ei.
Qed.

Lemma get_as_other t v : ty_of v <> t -> get_as t v = Throw BadGet.
Proof. unfold get_as. intros H. destruct v, t; cbn in *; congruence. Qed.

Lemma cached_history fc t c v ops :
  snd (value fc t c) = Ret v ->
  forallb (fun o => negb (is_set_value o)) ops = true ->
  let c' := run_card fc (fst (value fc t c)) ops in
  snd (value fc t c') = Ret v /\ forall u, u <> t -> snd (value fc u c') = Throw BadGet.
Proof.
  intros H Hops c'. destruct (value_ret_caches _ _ _ _ H) as [Hc Ht].
  pose proof (run_card_cache fc ops _ v Hc Hops) as Hc'. fold c' in Hc'.
  split.
  - unfold value. rewrite Hc'. cbn [snd]. rewrite <- Ht. apply get_as_same.
  - intros u Hu. unfold value. rewrite Hc'. cbn [snd]. apply get_as_other. congruence.
Qed.

(** ** set_value *)

Lemma keyword_whole_length c : 8 <= length (raw c) -> length (keyword_whole c) = 8.
Proof. intros H. unfold keyword_whole, extract_keyword. rewrite firstn_length. lia. Qed.

Lemma trim_length s : length (trim s) <= length s.
Proof.
  destruct (trim_split s) as (a & b & H & _ & _). rewrite H at 2. rewrite !app_length. lia.
Qed.

Lemma keyword_valid c : is_key_valid (keyword c) = true.
Proof.
  unfold is_key_valid, keyword, extract_keyword. apply Nat.leb_le.
  etransitivity; [apply trim_length|]. rewrite firstn_length. lia.
Qed.

Lemma set_value_cases fc v c s :
  serialize fc v = Ret s ->
  set_value fc v c =
  if length s <=? 70 then (mk_card (keyword_whole c ++ s) (Some v), Ret tt) else (c, Ret tt).
Proof.
  intros H. unfold set_value, is_card_valid3. rewrite H, keyword_valid. reflexivity.
Qed.

Lemma serialize_head fc v s : no_float v -> representable v -> serialize fc v = Ret s ->
  exists x r, s = x :: r /\ x <> "="%char.
Proof.
  intros Hn Hr H.
  assert (P : forall t, length t <= 20 -> t <> [] -> (forall c, In c t -> c <> "="%char) ->
     forall rest, exists x r, (spaces (20 - length t) ++ t) ++ rest = x :: r /\ x <> "="%char).
  { intros t Hl Ht Hc rest. destruct (20 - length t) as [|k].
    - destruct t as [|x t]; [congruence|]. exists x, (t ++ rest). split; [reflexivity|].
      apply Hc; left; reflexivity.
    - exists sp, ((spaces k ++ t) ++ rest). split; [reflexivity|discriminate]. }
  assert (PZ : forall z c, In c (show_Z z) -> c <> "="%char).
  { intros z ch Hch. destruct (show_Z_chars z ch Hch) as [(d & Hd & ->)| ->]; [|discriminate].
    destruct (digit_lt10_cases d Hd) as [->|[->|[->|[->|[->|[->|[->|[->|[->| ->]]]]]]]]]; discriminate. }
  assert (PN : forall n c, In c (show_N n) -> c <> "="%char).
  { intros n ch Hch. destruct (show_N_digit n ch Hch) as (d & Hd & ->).
    destruct (digit_lt10_cases d Hd) as [->|[->|[->|[->|[->|[->|[->|[->|[->| ->]]]]]]]]]; discriminate. }
  destruct v; cbn [no_float representable serialize] in *; try contradiction.
  - injection H as <-. exists sp, (spaces 18 ++ (if b then lit "T" else lit "F")).
    split; [reflexivity|discriminate].
  - apply show_Z_len32 in Hr. rewrite pad20_ok in H by lia. apply ret_inj in H. subst s.
    rewrite <- (app_nil_r (spaces _ ++ _)). apply P; eauto using show_Z_nonempty; lia.
  - apply show_N_len32 in Hr. rewrite pad20_ok in H by lia. apply ret_inj in H. subst s.
    rewrite <- (app_nil_r (spaces _ ++ _)). apply P; eauto using show_N_nonempty; lia.
  - apply show_Z_len64 in Hr. rewrite pad20_ok in H by lia. apply ret_inj in H. subst s.
    rewrite <- (app_nil_r (spaces _ ++ _)). apply P; eauto using show_Z_nonempty; lia.
  - apply show_N_len64 in Hr. rewrite pad20_ok in H by lia. apply ret_inj in H. subst s.
    rewrite <- (app_nil_r (spaces _ ++ _)). apply P; eauto using show_N_nonempty; lia.
  - injection H as <-. eexists _, _; split; [reflexivity|discriminate].
  - destruct Hr as [H1 H2]. apply show_Z_len32 in H1, H2. rewrite !pad20_ok in H by lia.
    cbn [bind] in H. apply ret_inj in H. subst s. apply P; eauto using show_Z_nonempty; lia.
  - destruct Hr as [H1 H2]. apply show_N_len64 in H1, H2. rewrite !pad20_ok in H by lia.
    cbn [bind] in H. apply ret_inj in H. subst s. apply P; eauto using show_N_nonempty; lia.
Qed.

(** ** The record constructor *)

Lemma is_blank_spec s : 8 <= length s ->
  is_blank s = Ret true /\ (exists r, s = spaces 8 ++ r) \/ is_blank s = Ret false /\ ~ (exists r, s = spaces 8 ++ r).
Proof.
  intros H. unfold is_blank. change 8%N with (N.of_nat 8). rewrite substr_exact by lia.
  cbn [bind]. rewrite skipn_O.
  destruct (str_eqb (firstn 8 s) (spaces 8)) eqn:E.
  - left. split; [reflexivity|]. apply str_eqb_eq in E. exists (skipn 8 s).
    rewrite <- E. symmetry; apply firstn_skipn.
  - right. split; [reflexivity|]. apply str_eqb_neq in E. intros [r ->]. apply E.
    rewrite firstn_app, length_spaces, Nat.sub_diag, firstn_O, app_nil_r.
    apply firstn_all2. rewrite length_spaces. lia.
Qed.

Lemma in_proper_format_spec s : 8 <= length s ->
  in_proper_format s = Ret true /\ (exists k r, length k = 8 /\ s = k ++ lit "= " ++ r)
  \/ in_proper_format s = Ret false /\ ~ (exists k r, length k = 8 /\ s = k ++ lit "= " ++ r).
Proof.
  intros H. unfold in_proper_format. rewrite substr_ret by lia. cbn [bind].
  set (f := firstn _ (skipn 8 s)).
  destruct (str_eqb f (lit "= ")) eqn:E.
  - left. split; [reflexivity|]. apply str_eqb_eq in E.
    exists (firstn 8 s), (skipn (length f) (skipn 8 s)). split; [rewrite firstn_length; lia|].
    rewrite <- E. rewrite <- (firstn_skipn 8 s) at 1. f_equal.
    assert (Hf : f = firstn (length f) (skipn 8 s)).
    { unfold f. rewrite firstn_length, firstn_firstn || idtac. unfold f in *.
      rewrite firstn_length. rewrite skipn_length.
      f_equal. lia. }
    rewrite Hf at 1. symmetry. apply firstn_skipn.
  - right. split; [reflexivity|]. apply str_eqb_neq in E. intros (k & r & Hk & ->). apply E.
    unfold f. rewrite !app_length. cbn [length lit list_ascii_of_string].
    rewrite skipn_app, Hk, skipn_all2, Nat.sub_diag by lia.
    rewrite app_nil_l, skipn_O.
    replace (N.to_nat (N.min 2 (N.of_nat (8 + (2 + length r) - 8)))) with 2 by lia.
    reflexivity.
Qed.

Lemma is_reserved_spec k :
  is_reserved_keyword k = true <-> In k [lit "COMMENT"; lit "HISTORY"; lit "END"].
Proof.
  unfold is_reserved_keyword, reserved_keywords. rewrite existsb_exists. split.
  - intros (x & Hx & E). apply str_eqb_eq in E. subst. exact Hx.
  - intros H. exists k. split; [exact H|apply str_eqb_refl].
Qed.

Lemma card_of_string_ok s : acceptable s -> card_of_string s = Ret (mk_card s None).
Proof.
  intros ([H8 H80] & H). unfold card_of_string, is_card_valid1.
  replace (length s <=? 80) with true by (symmetry; apply Nat.leb_le; exact H80).
  destruct (in_proper_format_spec s H8) as [[-> _]|[-> Hn]]; cbn [bind]; [reflexivity|].
  change 7%N with (N.of_nat 7). rewrite substr_exact by lia. cbn [bind]. rewrite skipn_O.
  destruct (is_reserved_keyword (trim (firstn 7 s))) eqn:Er; cbn [bind]; [reflexivity|].
  destruct (is_blank_spec s H8) as [[-> _]|[-> Hb]]; cbn [bind]; [reflexivity|].
  exfalso. destruct H as [H|[H|H]]; [contradiction| |contradiction].
  apply is_reserved_spec in H. congruence.
Qed.

Lemma card_of_string_bad s : 8 <= length s -> ~ acceptable s -> card_of_string s = Throw InvalidCard.
Proof.
  intros H8 H. unfold card_of_string, is_card_valid1.
  destruct (Nat.leb_spec (length s) 80) as [H80|H80]; [|reflexivity].
  destruct (in_proper_format_spec s H8) as [[-> Hy]|[-> _]]; cbn [bind].
  - exfalso. apply H. split; [lia|]. left; exact Hy.
  - change 7%N with (N.of_nat 7). rewrite substr_exact by lia. cbn [bind]. rewrite skipn_O.
    destruct (is_reserved_keyword (trim (firstn 7 s))) eqn:Er; cbn [bind].
    + exfalso. apply H. split; [lia|]. right; left. apply is_reserved_spec; exact Er.
    + destruct (is_blank_spec s H8) as [[-> Hb]|[-> _]]; cbn [bind]; [|reflexivity].
      exfalso. apply H. split; [lia|]. right; right; exact Hb.
Qed.

Lemma card_of_string_short s : length s < 8 -> card_of_string s = Throw OutOfRange.
Proof.
  intros H. unfold card_of_string, is_card_valid1.
  destruct (Nat.leb_spec (length s) 80); [|lia].
  unfold in_proper_format. rewrite substr_throw by exact H. reflexivity.
Qed.

Lemma acceptable_dec s : acceptable s \/ ~ acceptable s.
Proof.
  destruct (Nat.leb_spec 8 (length s)) as [H8|H8]; [|right; intros [[? ?] _]; lia].
  destruct (card_of_string s) as [c|e| |] eqn:E.
  - left. unfold card_of_string, is_card_valid1 in E.
    destruct (Nat.leb_spec (length s) 80); [|discriminate].
    split; [lia|].
    destruct (in_proper_format_spec s H8) as [[_ Hy]|[Hx _]]; [left; exact Hy|].
    rewrite Hx in E. cbn [bind] in E.
    change 7%N with (N.of_nat 7) in E. rewrite substr_exact in E by lia. cbn [bind] in E.
    rewrite skipn_O in E.
    destruct (is_reserved_keyword (trim (firstn 7 s))) eqn:Er.
    + right; left. apply is_reserved_spec; exact Er.
    + destruct (is_blank_spec s H8) as [[_ Hb]|[Hb _]]; [right; right; exact Hb|].
      rewrite Hb in E. discriminate.
  - right. intros H. rewrite card_of_string_ok in E by exact H. discriminate.
  - right. intros H. rewrite card_of_string_ok in E by exact H. discriminate.
  - right. intros H. rewrite card_of_string_ok in E by exact H. discriminate.
Qed.

Lemma card_of_string_ret s c : card_of_string s = Ret c -> acceptable s /\ c = mk_card s None.
Proof.
  intros E. destruct (Nat.leb_spec 8 (length s)) as [H8|H8].
  - destruct (acceptable_dec s) as [H|H].
    + rewrite card_of_string_ok in E by exact H. injection E as <-. auto.
    + rewrite card_of_string_bad in E by assumption. discriminate.
  - rewrite card_of_string_short in E by exact H8. discriminate.
Qed.

(** A record made by set_value is not accepted again. *)
Lemma set_value_unreadable fc v c s :
  no_float v -> representable v -> serialize fc v = Ret s -> length s <= 70 ->
  8 <= length (raw c) -> 
  ~ In (trim (firstn 7 (raw c))) [lit "COMMENT"; lit "HISTORY"; lit "END"] ->
  keyword_whole c <> spaces 8 ->
  card_of_string (raw_card (fst (set_value fc v c))) = Throw InvalidCard.
Proof.
  intros Hn Hr Hs Hl H8 Hres Hb. rewrite (set_value_cases _ _ _ _ Hs).
  apply Nat.leb_le in Hl. rewrite Hl. cbn [fst raw_card raw].
  pose proof (keyword_whole_length c H8) as Hk.
  assert (Hf8 : forall r, firstn 8 (keyword_whole c ++ r) = keyword_whole c).
  { intros r. rewrite firstn_app, Hk, Nat.sub_diag, firstn_O, app_nil_r. apply firstn_all2. lia. }
  apply card_of_string_bad.
  - rewrite app_length. lia.
  - intros (_ & [(k & r & Hk8 & E)|[E|(r & E)]]).
    + destruct (serialize_head fc v s Hn Hr Hs) as (x & t & -> & Hx).
      apply (f_equal (skipn 8)) in E. rewrite !skipn_app, Hk, Hk8, Nat.sub_diag in E.
      rewrite (skipn_all2 (keyword_whole c)), (skipn_all2 k), !skipn_O in E by lia.
      cbn [app lit list_ascii_of_string] in E. congruence.
    + apply Hres. replace (firstn 7 (raw c)) with (firstn 7 (keyword_whole c ++ s)); [exact E|].
      rewrite firstn_app, Hk. replace (7 - 8) with 0 by lia. rewrite firstn_O, app_nil_r.
      unfold keyword_whole, extract_keyword. rewrite firstn_firstn. f_equal. 
    + apply Hb. rewrite <- (Hf8 s), E. rewrite firstn_app, length_spaces, Nat.sub_diag, firstn_O, app_nil_r.
      apply firstn_all2. rewrite length_spaces. lia.
Qed.

(** ** Commentary cards *)

Lemma commentary_cases c key value :
  let content := key ++ lit "  " ++ value in
  (N.of_nat (length content) < 2 ^ 62)%N ->
  create_commentary_card c key value =
  if length key <=? 8 then
    if length content <=? 80 then (mk_card (content ++ spaces (80 - length content)) (cache c), Ret tt)
    else (mk_card content (cache c), Throw LengthError)
  else (c, Throw InvalidCard).
Proof.
  intros content Hsz. unfold create_commentary_card, is_key_valid. fold content.
  destruct (length key <=? 8); [|reflexivity].
  destruct (Nat.leb_spec (length content) 80) as [H|H].
  - change 80%N with (N.of_nat 80). rewrite append_pad by (unfold max_size; lia || exact H).
    reflexivity.
  - unfold append_spaces. rewrite sub64_wrap by (unfold two64; lia).
    destruct (N.ltb_spec max_size (two64 + 80 - N.of_nat (length content))) as [|K]; [reflexivity|].
    unfold max_size, two64 in K. lia.
Qed.

Lemma commentary_value fc c key value c' :
  cache c = None -> length key = 7 \/ length key = 8 -> slash_free key -> slash_free value ->
  (forall r, trim value <> "'"%char :: r) ->
  create_commentary_card c key value = (c', Ret tt) ->
  length (key ++ lit "  " ++ value) <= 80 ->
  snd (CardModel.value fc TStr c') = Ret (VStr (trim value)) /\ keyword c' = trim key.
Proof.
  intros Hc Hk Hsk Hsv Hq H Hlen.
  pose proof Hlen as Hlen'. rewrite !app_length in Hlen'. cbn [length lit list_ascii_of_string] in Hlen'.
  rewrite commentary_cases in H by lia.
  replace (length key <=? 8) with true in H by (symmetry; apply Nat.leb_le; lia).
  replace (length (key ++ lit "  " ++ value) <=? 80) with true in H
    by (symmetry; apply Nat.leb_le; lia).
  apply (f_equal fst) in H. cbn [fst] in H. subst c'. set (n := 80 - _).
  assert (Hsf : slash_free ((key ++ lit "  " ++ value) ++ spaces n)).
  { rewrite !slash_free_app. repeat split; auto using slash_free_spaces.
    cbn. intros [K|[K|[]]]; discriminate. }
  assert (Hlen2 : length ((key ++ lit "  " ++ value) ++ spaces n) = 80)
    by (rewrite app_length, length_spaces; lia).
  assert (He : exists e, extract_value ((key ++ lit "  " ++ value) ++ spaces n) = Ret e /\ trim e = trim value).
  { eexists. split.
    - apply extract_value_noslash; [exact Hsf|lia|lia].
    - rewrite <- app_assoc. rewrite skipn_app. rewrite (skipn_all2 key) by lia. cbn [app].
      destruct Hk as [Hk|Hk]; rewrite Hk; cbn [Nat.sub lit list_ascii_of_string app skipn].
      + apply trim_spaces_r.
      + change (" "%char) with sp. rewrite trim_cons_sp. apply trim_spaces_r. }
  destruct He as (e & He & Ht). split.
  - rewrite value_uncached by exact Hc. cbn [value_imp]. unfold value_imp_str. cbn [raw].
    rewrite He. cbn [bind]. rewrite Ht. destruct (trim value) as [|x r] eqn:E; [reflexivity|].
    destruct (Ascii.eqb_spec x "'"%char) as [->|_]; [|reflexivity].
    exfalso. exact (Hq r eq_refl).
  - unfold keyword, extract_keyword. cbn [raw]. rewrite <- app_assoc, firstn_app.
    rewrite (firstn_all2 key) by lia.
    destruct Hk as [Hk|Hk]; rewrite Hk; cbn [Nat.sub lit list_ascii_of_string app firstn].
    + change ([" "%char]) with (spaces 1). apply trim_spaces_r.
    + rewrite app_nil_r. reflexivity.
Qed.

(** ** Statements used by the property file *)

Lemma keyword_roundtrip fc c key v comment c' :
  create_card fc c key v comment = (c', Ret tt) ->
  keyword c' = trim key /\ keyword_whole c' = key ++ spaces (8 - length key).
Proof.
  intros H. apply create_card_ret in H. destruct H as (s & _ & Hf & ->).
  split; [apply keyword_record; exact Hf|apply keyword_whole_record; exact Hf].
Qed.

Lemma keyword_injective fc c1 c2 k1 k2 v1 v2 cm1 cm2 c1' c2' :
  create_card fc c1 k1 v1 cm1 = (c1', Ret tt) ->
  create_card fc c2 k2 v2 cm2 = (c2', Ret tt) ->
  no_outer_blanks k1 -> no_outer_blanks k2 ->
  keyword c1' = keyword c2' -> k1 = k2.
Proof.
  intros H1 H2 B1 B2 E. destruct (keyword_roundtrip _ _ _ _ _ _ H1) as [E1 _].
  destruct (keyword_roundtrip _ _ _ _ _ _ H2) as [E2 _].
  rewrite no_outer_blanks_trimmed in B1, B2. rewrite E1, E2, !trim_id in E by assumption. exact E.
Qed.

Lemma value_same_text fc t s1 s2 e1 e2 :
  extract_value s1 = Ret e1 -> extract_value s2 = Ret e2 -> trim e1 = trim e2 ->
  snd (value fc t (mk_card s1 None)) = snd (value fc t (mk_card s2 None)).
Proof.
  intros H1 H2 E. rewrite !value_uncached by reflexivity.
  destruct t; cbn [value_imp]; unfold value_imp_str; cbn [raw]; rewrite H1, H2; cbn [bind]; rewrite E;
    reflexivity.
Qed.

Lemma comment_ignored fc t k text rest :
  length k = 8 -> slash_free k -> slash_free text -> (N.of_nat (length text) < 2 ^ 61)%N ->
  snd (value fc t (mk_card (k ++ lit "= " ++ text ++ lit " /" ++ rest) None)) =
  snd (value fc t (mk_card (k ++ lit "= " ++ text) None)).
Proof.
  intros H1 H2 H3 H4. eapply value_same_text.
  - apply (value_text_comment k text sp rest); auto. discriminate.
  - apply value_text_plain; auto. lia.
  - reflexivity.
Qed.

Lemma tight_comment_drops fc t k text x rest :
  length k = 8 -> slash_free k -> slash_free text -> x <> "/"%char -> (N.of_nat (length text) < 2 ^ 61)%N ->
  snd (value fc t (mk_card (k ++ lit "= " ++ text ++ x :: lit "/" ++ rest) None)) =
  snd (value fc t (mk_card (k ++ lit "= " ++ text) None)).
Proof.
  intros H1 H2 H3 H4 H5. eapply value_same_text.
  - apply (value_text_comment k text x rest); auto.
  - apply value_text_plain; auto. lia.
  - reflexivity.
Qed.

Lemma plain_string_field fc k text :
  length k = 8 -> slash_free k -> slash_free text -> (N.of_nat (length text) < 2 ^ 61)%N ->
  (forall r, trim text <> "'"%char :: r) ->
  snd (value fc TStr (mk_card (k ++ lit "= " ++ text) None)) = Ret (VStr (trim text)).
Proof.
  intros H1 H2 H3 H4 Hq. rewrite value_uncached by reflexivity. cbn [value_imp].
  unfold value_imp_str. cbn [raw]. rewrite value_text_plain by (auto; lia). cbn [bind].
  rewrite trim_cons_sp. destruct (trim text) as [|x r] eqn:E; [reflexivity|].
  destruct (Ascii.eqb_spec x "'"%char) as [->|_]; [|reflexivity].
  exfalso. exact (Hq r eq_refl).
Qed.

Lemma set_value_ok fc v c s :
  serialize fc v = Ret s -> length s <= 70 -> 8 <= length (raw c) ->
  let c' := fst (set_value fc v c) in
  snd (set_value fc v c) = Ret tt /\
  snd (value fc (ty_of v) c') = Ret v /\
  keyword_whole c' = keyword_whole c /\ keyword c' = keyword c /\
  raw_card c' = keyword_whole c ++ s.
Proof.
  intros Hs Hl H8 c'. unfold c'. rewrite (set_value_cases _ _ _ _ Hs).
  apply Nat.leb_le in Hl. rewrite Hl. cbn [fst snd].
  pose proof (keyword_whole_length c H8) as Hk.
  assert (Hf8 : keyword_whole (mk_card (keyword_whole c ++ s) (Some v)) = keyword_whole c).
  { unfold keyword_whole at 1, extract_keyword at 1. cbn [raw].
    rewrite firstn_app, Hk, Nat.sub_diag, firstn_O, app_nil_r. apply firstn_all2. lia. }
  repeat split.
  - unfold value. cbn [cache snd]. apply get_as_same.
  - exact Hf8.
  - change (trim (keyword_whole (mk_card (keyword_whole c ++ s) (Some v))) = trim (keyword_whole c)).
    rewrite Hf8. reflexivity.
Qed.

Lemma set_value_too_long fc v c s :
  serialize fc v = Ret s -> 70 < length s -> set_value fc v c = (c, Ret tt).
Proof.
  intros Hs Hl. rewrite (set_value_cases _ _ _ _ Hs).
  destruct (Nat.leb_spec (length s) 70); [lia|reflexivity].
Qed.

Lemma set_value_int_length fc v c :
  is_integer_value v -> representable v -> 8 <= length (raw c) ->
  length (raw_card (fst (set_value fc v c))) = 28.
Proof.
  intros Hi Hr H8. pose proof (serialize_int fc v Hi Hr) as Hs.
  destruct (int_text_props v Hi Hr) as (Hl & _).
  rewrite (set_value_cases _ _ _ _ Hs). rewrite app_length, length_spaces.
  destruct (Nat.leb_spec (20 - length (int_text v) + length (int_text v)) 70); [|lia].
  cbn [fst raw_card raw]. rewrite !app_length, length_spaces, keyword_whole_length by exact H8. lia.
Qed.
