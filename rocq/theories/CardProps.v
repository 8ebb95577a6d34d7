(** * Property theorems about cards (C01 - C11). *)
From Verif Require Import CardProofs CardSlash.

(** A codec for the examples below; the theorems hold for every codec. *)
Definition fc0 : fcodec :=
  {| f32_show := show_N; f32_read := cast_unsigned 32; f64_show := show_N; f64_read := cast_unsigned 64 |}.

(** ** C01 *)

Theorem C01_create_card_layout : forall c key value comment,
  (fits key value comment /\
   create_card_impl c key value comment = (mk_card (record key value comment) (cache c), Ret tt) /\
   length (record key value comment) = 80) \/
  (~ fits key value comment /\
   create_card_impl c key value comment = (c, Throw InvalidCard)).
Proof. exact create_card_impl_cases. Qed.
Print Assumptions C01_create_card_layout.

Theorem C01_create_card_all_types : forall fc c key v comment c' r,
  create_card fc c key v comment = (c', r) ->
  (r = Ret tt /\ length (raw c') = 80 /\
   exists s, serialize fc v = Ret s /\ fits key s comment /\ c' = mk_card (record key s comment) (cache c))
  \/ (c' = c /\ (r = Throw InvalidCard \/ r = Throw LengthError)).
Proof. exact create_card_total. Qed.
Print Assumptions C01_create_card_all_types.

Example C01_fits_somewhere : fits (lit "BITPIX") (lit "                  16") (lit "bits per pixel").
Proof. unfold fits. cbn. lia. Qed.
Example C01_boundary : fits (lit "K") (spaces 60) (spaces 8) /\ ~ fits (lit "K") (spaces 60) (spaces 9).
Proof. unfold fits. cbn. lia. Qed.

(** ** C02 *)

Theorem C02_keyword_roundtrip : forall fc c key v comment c',
  create_card fc c key v comment = (c', Ret tt) ->
  keyword c' = trim key /\ keyword_whole c' = key ++ spaces (8 - length key).
Proof. exact keyword_roundtrip. Qed.
Print Assumptions C02_keyword_roundtrip.

Theorem C02_keyword_injective : forall fc c1 c2 k1 k2 v1 v2 cm1 cm2 c1' c2',
  create_card fc c1 k1 v1 cm1 = (c1', Ret tt) ->
  create_card fc c2 k2 v2 cm2 = (c2', Ret tt) ->
  no_outer_blanks k1 -> no_outer_blanks k2 ->
  keyword c1' = keyword c2' -> k1 = k2.
Proof. exact keyword_injective. Qed.
Print Assumptions C02_keyword_injective.

Example C02_case :
  snd (create_card fc0 empty_card (lit "A KEY") (VInt (-7)) (lit "x/y")) = Ret tt /\
  keyword (fst (create_card fc0 empty_card (lit "A KEY") (VInt (-7)) (lit "x/y"))) = lit "A KEY".
Proof. vm_compute. auto. Qed.

(** ** C03 *)

Theorem C03_string_value_exact : forall fc c key s comment c',
  cache c = None -> slash_free key ->
  create_card fc c key (VStr s) comment = (c', Ret tt) ->
  (slash_free s -> snd (value fc TStr c') = Ret (VStr (trim s))) /\
  (snd (value fc TStr c') = Ret (VStr s) <-> slash_free s /\ no_outer_blanks s).
Proof. exact string_reads. Qed.
Print Assumptions C03_string_value_exact.

Example C03_case :
  snd (create_card fc0 empty_card (lit "OBJECT") (VStr (lit "it's M 31")) (lit "name / alias")) = Ret tt /\
  snd (value fc0 TStr (fst (create_card fc0 empty_card (lit "OBJECT") (VStr (lit "it's M 31")) (lit "name / alias"))))
  = Ret (VStr (lit "it's M 31")).
Proof. vm_compute. auto. Qed.

(** What a value with the separator reads as, by the text before it. *)
Theorem C03_slash_exact : forall fc c key a b comment c',
  cache c = None -> slash_free key -> slash_free a ->
  create_card fc c key (VStr (a ++ "/"%char :: b)) comment = (c', Ret tt) ->
  (a = [] -> snd (value fc TStr c') = Ret (VStr [])) /\
  (forall w x, a = w ++ [x] -> (forall y, In y w -> is_space y = true) -> snd (value fc TStr c') = Undef) /\
  (forall p y w x, a = p ++ y :: w ++ [x] -> is_space y = false -> (forall z, In z w -> is_space z = true) ->
    snd (value fc TStr c') = Ret (VStr (trim p))).
Proof. exact slash_reads. Qed.
Print Assumptions C03_slash_exact.

(** A value with the separator is damaged, or even undefined behaviour. *)
Theorem C03_slash_roundtrip_refuted : exists key s,
  snd (create_card fc0 empty_card key (VStr s) []) = Ret tt /\
  snd (value fc0 TStr (fst (create_card fc0 empty_card key (VStr s) []))) = Ret (VStr (lit "deg")).
Proof. exists (lit "UNIT"), (lit "degxx/day"). vm_compute. auto. Qed.
Print Assumptions C03_slash_roundtrip_refuted.

Theorem C03_slash_undefined_refuted : exists key s,
  snd (create_card fc0 empty_card key (VStr s) []) = Ret tt /\
  snd (value fc0 TStr (fst (create_card fc0 empty_card key (VStr s) []))) = Undef.
Proof. exists (lit "UNIT"), (lit "m/s"). vm_compute. auto. Qed.
Print Assumptions C03_slash_undefined_refuted.

(** ** C04 *)

Theorem C04_integer_roundtrip : forall fc c key v comment c',
  cache c = None -> slash_free key -> is_integer_value v -> representable v ->
  create_card fc c key v comment = (c', Ret tt) ->
  snd (value fc (ty_of v) c') = Ret v.
Proof. exact int_roundtrip. Qed.
Print Assumptions C04_integer_roundtrip.

Example C04_case :
  let v := VLongLong (-9223372036854775808) in
  is_integer_value v /\ representable v /\
  snd (create_card fc0 empty_card (lit "KEY") v (lit "min")) = Ret tt.
Proof. split; [exact I|]. split; [split; reflexivity || discriminate|reflexivity]. Qed.

(** ** C05 *)

Theorem C05_bool_roundtrip : forall fc c key b comment c',
  cache c = None -> slash_free key ->
  create_card fc c key (VBool b) comment = (c', Ret tt) ->
  snd (value fc TBool c') = Ret (VBool b).
Proof. exact bool_roundtrip. Qed.
Print Assumptions C05_bool_roundtrip.

Theorem C05_bool_column : forall fc c key b comment c',
  create_card fc c key (VBool b) comment = (c', Ret tt) ->
  nth_error (raw c') 29 = Some (if b then "T"%char else "F"%char) /\
  (forall i, 10 <= i < 29 -> nth_error (raw c') i = Some sp).
Proof. exact bool_column. Qed.
Print Assumptions C05_bool_column.

Theorem C05_bool_only_T_or_F : forall fc key text comment v,
  fits key text comment -> slash_free key -> slash_free text ->
  (snd (value fc TBool (mk_card (record key text comment) None)) = Ret v <->
   (trim text = lit "T" /\ v = VBool true) \/ (trim text = lit "F" /\ v = VBool false)).
Proof. exact bool_reads. Qed.
Print Assumptions C05_bool_only_T_or_F.

Example C05_case : snd (create_card fc0 empty_card (lit "SIMPLE") (VBool true) (lit "c")) = Ret tt.
Proof. reflexivity. Qed.

(** ** C06 *)

Theorem C06_complex_int_unreadable : forall fc c key re im comment c',
  cache c = None -> slash_free key -> representable (VCInt re im) ->
  create_card fc c key (VCInt re im) comment = (c', Ret tt) ->
  snd (value fc TCInt c') = Throw InvalidCast.
Proof. exact complex_int_reads. Qed.
Print Assumptions C06_complex_int_unreadable.

(** For size_t parts it works exactly when the imaginary part has 19 digits. *)
Theorem C06_complex_size_exact : forall fc c key re im comment c',
  cache c = None -> slash_free key -> representable (VCSize re im) ->
  create_card fc c key (VCSize re im) comment = (c', Ret tt) ->
  snd (value fc TCSize c') = if length (show_N im) =? 19 then Ret (VCSize re im) else Throw InvalidCast.
Proof. exact complex_size_reads. Qed.
Print Assumptions C06_complex_size_exact.

Example C06_case :
  snd (create_card fc0 empty_card (lit "Z") (VCInt 3 (-4)) (lit "3-4i")) = Ret tt /\
  representable (VCInt 3 (-4)).
Proof. split; [reflexivity|]. cbn. unfold int_range. lia. Qed.

(** ** C07 *)

Theorem C07_first_read_wins : forall fc t c v ops,
  snd (value fc t c) = Ret v ->
  forallb (fun o => negb (is_set_value o)) ops = true ->
  let c' := run_card fc (fst (value fc t c)) ops in
  snd (value fc t c') = Ret v /\ forall u, u <> t -> snd (value fc u c') = Throw BadGet.
Proof. exact cached_history. Qed.
Print Assumptions C07_first_read_wins.
Example C07_case : let c := fst (create_card fc0 empty_card (lit "NAXIS") (VInt 2) []) in
  snd (value fc0 TInt c) = Ret (VInt 2) /\
  forallb (fun o => negb (is_set_value o)) [OpValue TStr; OpCreate (lit "BITPIX") (VInt 16) []; OpCommentary (lit "COMMENT") (lit "x")] = true.
Proof. vm_compute. auto. Qed.

(** Recreating a card that was read leaves the old value visible. *)
Theorem C07_recreate_is_fresh_refuted : exists c1 c2,
  c1 = fst (value fc0 TInt (fst (create_card fc0 empty_card (lit "K") (VInt 1) []))) /\
  create_card fc0 c1 (lit "K") (VInt 2) [] = (c2, Ret tt) /\
  raw_card c2 = record (lit "K") (spaces 19 ++ lit "2") [] /\
  snd (value fc0 TInt c2) = Ret (VInt 1).
Proof.
  set (c0 := fst (create_card fc0 empty_card (lit "K") (VInt 1) [])).
  exists (fst (value fc0 TInt c0)), (fst (create_card fc0 (fst (value fc0 TInt c0)) (lit "K") (VInt 2) [])).
  vm_compute. auto.
Qed.
Print Assumptions C07_recreate_is_fresh_refuted.

(** ** C08 *)

Theorem C08_set_value_in_memory : forall fc v c s,
  serialize fc v = Ret s -> length s <= 70 -> 8 <= length (raw c) ->
  let c' := fst (set_value fc v c) in
  snd (set_value fc v c) = Ret tt /\
  snd (value fc (ty_of v) c') = Ret v /\
  keyword_whole c' = keyword_whole c /\ keyword c' = keyword c /\
  raw_card c' = keyword_whole c ++ s.
Proof. exact set_value_ok. Qed.
Print Assumptions C08_set_value_in_memory.

Theorem C08_set_value_too_long_ignored : forall fc v c s,
  serialize fc v = Ret s -> 70 < length s -> set_value fc v c = (c, Ret tt).
Proof. exact set_value_too_long. Qed.
Print Assumptions C08_set_value_too_long_ignored.

Theorem C08_set_value_record_rejected : forall fc v c s,
  no_float v -> representable v -> serialize fc v = Ret s -> length s <= 70 ->
  8 <= length (raw c) ->
  ~ In (trim (firstn 7 (raw c))) [lit "COMMENT"; lit "HISTORY"; lit "END"] ->
  keyword_whole c <> spaces 8 ->
  card_of_string (raw_card (fst (set_value fc v c))) = Throw InvalidCard.
Proof. exact set_value_unreadable. Qed.
Print Assumptions C08_set_value_record_rejected.

Theorem C08_set_integer_record_length : forall fc v c,
  is_integer_value v -> representable v -> 8 <= length (raw c) ->
  length (raw_card (fst (set_value fc v c))) = 28.
Proof. exact set_value_int_length. Qed.
Print Assumptions C08_set_integer_record_length.

Example C08_case :
  let c := fst (create_card fc0 empty_card (lit "NAXIS1") (VInt 100) (lit "width")) in
  8 <= length (raw c) /\ keyword_whole c <> spaces 8 /\
  ~ In (trim (firstn 7 (raw c))) [lit "COMMENT"; lit "HISTORY"; lit "END"] /\
  raw_card (fst (set_value fc0 (VInt 200) c)) = lit "NAXIS1                   200".
Proof.
  split; [vm_compute; lia|]. split; [vm_compute; discriminate|]. split; [|reflexivity].
  vm_compute. intros [H|[H|[H|[]]]]; discriminate.
Qed.

(** ** C09 *)

Theorem C09_comment_never_leaks : forall fc t k text rest,
  length k = 8 -> slash_free k -> slash_free text -> (N.of_nat (length text) < 2 ^ 61)%N ->
  snd (value fc t (mk_card (k ++ lit "= " ++ text ++ lit " /" ++ rest) None)) =
  snd (value fc t (mk_card (k ++ lit "= " ++ text) None)).
Proof. exact comment_ignored. Qed.
Print Assumptions C09_comment_never_leaks.

Theorem C09_field_text : forall fc k text,
  length k = 8 -> slash_free k -> slash_free text -> (N.of_nat (length text) < 2 ^ 61)%N ->
  (forall r, trim text <> "'"%char :: r) ->
  snd (value fc TStr (mk_card (k ++ lit "= " ++ text) None)) = Ret (VStr (trim text)).
Proof. exact plain_string_field. Qed.
Print Assumptions C09_field_text.
Example C09_case : slash_free (lit "BITPIX  ") /\ slash_free (lit "            16") /\ trim (lit "            16") = lit "16".
Proof. split; [|split]; [intros H; cbn in H; repeat destruct H as [H|H]; try discriminate H; exact H|intros H; cbn in H; repeat destruct H as [H|H]; try discriminate H; exact H|reflexivity]. Qed.

(** With no blank before the '/', the last character of the value is lost. *)
Theorem C09_tight_comment_drops_character : forall fc t k text x rest,
  length k = 8 -> slash_free k -> slash_free text -> x <> "/"%char -> (N.of_nat (length text) < 2 ^ 61)%N ->
  snd (value fc t (mk_card (k ++ lit "= " ++ text ++ x :: lit "/" ++ rest) None)) =
  snd (value fc t (mk_card (k ++ lit "= " ++ text) None)).
Proof. exact tight_comment_drops. Qed.
Print Assumptions C09_tight_comment_drops_character.

Theorem C09_tight_comment_refuted : exists c,
  card_of_string (lit "NAXIS1  = 123/width") = Ret c /\ snd (value fc0 TInt c) = Ret (VInt 12).
Proof. exists (mk_card (lit "NAXIS1  = 123/width") None). vm_compute. auto. Qed.
Print Assumptions C09_tight_comment_refuted.

(** ** C10 *)

Theorem C10_constructor_accepts : forall s, acceptable s -> card_of_string s = Ret (mk_card s None).
Proof. exact card_of_string_ok. Qed.
Print Assumptions C10_constructor_accepts.

Theorem C10_constructor_rejects : forall s,
  8 <= length s -> ~ acceptable s -> card_of_string s = Throw InvalidCard.
Proof. exact card_of_string_bad. Qed.
Print Assumptions C10_constructor_rejects.

Theorem C10_short_strings_out_of_range : forall s,
  length s < 8 -> card_of_string s = Throw OutOfRange.
Proof. exact card_of_string_short. Qed.
Print Assumptions C10_short_strings_out_of_range.

Example C10_end_card : acceptable (lit "END" ++ spaces 77) /\ ~ acceptable (lit "ENDING" ++ spaces 74).
Proof.
  split.
  - split; [vm_compute; lia|]. right; left. vm_compute. auto.
  - intros [_ [(k & r & Hk & E)|[E|(r & E)]]].
    + apply (f_equal (skipn 8)) in E. rewrite (skipn_app 8 k), Hk, (skipn_all2 k) in E by lia. discriminate E.
    + vm_compute in E. destruct E as [E|[E|[E|[]]]]; discriminate.
    + discriminate E.
Qed.

(** ** C11 *)

Theorem C11_commentary_layout : forall c key value,
  let content := key ++ lit "  " ++ value in
  (N.of_nat (length content) < 2 ^ 62)%N ->
  create_commentary_card c key value =
  if length key <=? 8 then
    if length content <=? 80 then (mk_card (content ++ spaces (80 - length content)) (cache c), Ret tt)
    else (mk_card content (cache c), Throw LengthError)
  else (c, Throw InvalidCard).
Proof. exact commentary_cases. Qed.
Print Assumptions C11_commentary_layout.

Theorem C11_commentary_value : forall fc c key value c',
  cache c = None -> length key = 7 \/ length key = 8 -> slash_free key -> slash_free value ->
  (forall r, trim value <> "'"%char :: r) ->
  create_commentary_card c key value = (c', Ret tt) ->
  length (key ++ lit "  " ++ value) <= 80 ->
  snd (CardModel.value fc TStr c') = Ret (VStr (trim value)) /\ keyword c' = trim key.
Proof. exact commentary_value. Qed.
Print Assumptions C11_commentary_value.
Example C11_case : let p := create_commentary_card empty_card (lit "COMMENT") (lit "taken at noon") in
  cache empty_card = None /\ length (lit "COMMENT") = 7 /\ snd p = Ret tt /\ length (lit "COMMENT" ++ lit "  " ++ lit "taken at noon") <= 80 /\
  snd (value fc0 TStr (fst p)) = Ret (VStr (lit "taken at noon")).
Proof. vm_compute. repeat split; lia. Qed.

(** With a short key the text runs into the keyword field. *)
Theorem C11_short_key_refuted : exists c',
  create_commentary_card empty_card (lit "END") (lit "of data") = (c', Ret tt) /\
  keyword c' = lit "END  of" /\ snd (value fc0 TStr c') = Ret (VStr (lit "ata")).
Proof. exists (fst (create_commentary_card empty_card (lit "END") (lit "of data"))). vm_compute. auto. Qed.
Print Assumptions C11_short_key_refuted.

(** A string literal selects the generic serializer: unquoted and at most 20 characters. *)
Theorem C11_literal_value_too_long_refuted : exists key value,
  length key <= 8 /\ length value <= 68 /\
  create_card_cstr empty_card key value [] = (empty_card, Throw LengthError) /\
  snd (create_card fc0 empty_card key (VStr value) []) = Ret tt.
Proof. exists (lit "OBJECT"), (lit "a name of over twenty characters"). vm_compute. repeat split; lia. Qed.
Print Assumptions C11_literal_value_too_long_refuted.

(** ** C76 *)

Theorem C76_equal_iff_same_text : forall a b, card_eqb a b = true <-> raw_card a = raw_card b.
Proof. intros a b. apply str_eqb_eq. Qed.
Print Assumptions C76_equal_iff_same_text.

(** Reading values does not change what a card is equal to. *)
Theorem C76_reading_keeps_equality : forall fc ts a b,
  card_eqb (fold_left (fun c t => fst (value fc t c)) ts a) b = card_eqb a b.
Proof.
  intros fc ts. induction ts as [|t ts IH]; intros a b; [reflexivity|]. cbn [fold_left]. rewrite IH.
  unfold card_eqb. f_equal. unfold value. destruct (cache a); [reflexivity|]. destruct (value_imp fc t a); reflexivity.
Qed.
Print Assumptions C76_reading_keeps_equality.

(** The text after column 10, without the blanks around it. *)
Theorem C76_value_with_comment : forall c, (N.of_nat (length (raw_card c)) < 2 ^ 63)%N -> value_with_comment c =
  if length (raw_card c) <? 10 then Throw OutOfRange else Ret (trim (skipn 10 (raw_card c))).
Proof.
  intros c B. unfold value_with_comment, raw_card, substr in *. destruct (Nat.ltb_spec (length (raw c)) 10) as [H|H]; [reflexivity|].
  cbn [bind]. rewrite firstn_all2; [reflexivity|]. rewrite skipn_length. unfold npos, two64 in *. lia.
Qed.
Print Assumptions C76_value_with_comment.

Theorem C76_created_value_with_comment : forall fc c key v comment c' text, serialize fc v = Ret text ->
  create_card fc c key v comment = (c', Ret tt) -> length key <= 8 ->
  value_with_comment c' = Ret (trim (text ++ match comment with [] => [] | _ => lit " /" ++ comment end)).
Proof.
  intros fc c key v comment c' text S H K.
  destruct (create_card_ret _ _ _ _ _ _ H) as (t & S' & F & ->). assert (t = text) by congruence. subst t.
  rewrite C76_value_with_comment; unfold raw_card; cbn [raw]; rewrite record_length by exact F; [|lia]. cbn [Nat.ltb Nat.leb].
  f_equal. unfold record, record_body.
  set (pad := spaces (80 - _)). set (cm := match comment with [] => [] | _ => _ end).
  assert (L : length (key ++ spaces (8 - length key) ++ lit "= ") = 10) by (rewrite !app_length, length_spaces; cbn [length lit list_ascii_of_string]; lia).
  replace ((key ++ spaces (8 - length key) ++ lit "= " ++ text ++ cm) ++ pad)
    with ((key ++ spaces (8 - length key) ++ lit "= ") ++ (text ++ cm) ++ pad) by (rewrite <- !app_assoc; reflexivity).
  rewrite <- L at 1. rewrite skipn_app, skipn_all, Nat.sub_diag. cbn [skipn app]. apply trim_spaces_r.
Qed.
Print Assumptions C76_created_value_with_comment.

(** After set_value() with a string the first characters are cut off: the record lacks the "= ". *)
Theorem C76_after_set_value_refuted : exists c c' s,
  create_card fc0 empty_card (lit "OBJECT") (VStr (lit "M31")) [] = (c, Ret tt) /\
  set_value fc0 (VStr s) c = (c', Ret tt) /\ snd (value fc0 TStr c') = Ret (VStr s) /\
  value_with_comment c = Ret (lit "'M31'") /\ value_with_comment c' = Ret (lit "GC 224'") /\ s = lit "NGC 224".
Proof.
  exists (fst (create_card fc0 empty_card (lit "OBJECT") (VStr (lit "M31")) [])), 
    (fst (set_value fc0 (VStr (lit "NGC 224")) (fst (create_card fc0 empty_card (lit "OBJECT") (VStr (lit "M31")) [])))), (lit "NGC 224").
  vm_compute. repeat split; reflexivity.
Qed.
Print Assumptions C76_after_set_value_refuted.

Example C76_case : exists c, create_card fc0 empty_card (lit "NAXIS") (VInt 2) (lit "axes") = (c, Ret tt) /\
  value_with_comment c = Ret (lit "2 /axes") /\ card_eqb (fst (value fc0 TInt c)) c = true /\ card_eqb c empty_card = false.
Proof. exists (fst (create_card fc0 empty_card (lit "NAXIS") (VInt 2) (lit "axes"))). vm_compute. auto. Qed.
