(** * Properties of float and double values as text: cards and ASCII table cells. *)
From Coq Require Import ZArith Reals Lia Lra.
From Flocq Require Import Core IEEE754.Binary.
From Verif Require Import CppProofs CardSpec CardProofs ViewModel TextModel TextSpec TextRound TextScan TextFloat TextProofs TextLaws TextRead TextCard.
Local Open Scope R_scope.

(** ** C89: what a written value reads back as *)

Theorem C89_double_card : forall c key w comment c',
  cache c = None -> slash_free key -> (w < 2 ^ 64)%N -> finite binary64 w ->
  create_card std_codec c key (VDouble w) comment = (c', Ret tt) ->
  exists v, snd (value std_codec TDouble c') = Ret (VDouble v) /\ pattern binary64 v /\ finite binary64 v /\
    negative binary64 v = negative binary64 w /\ fval binary64 v = nearest binary64 (decimal6 (fval binary64 w)).
Proof. exact double_card. Qed.
Print Assumptions C89_double_card.

Theorem C89_float_card : forall c key w comment c',
  cache c = None -> slash_free key -> (w < 2 ^ 32)%N -> finite binary32 w ->
  create_card std_codec c key (VFloat w) comment = (c', Ret tt) ->
  exists v, snd (value std_codec TFloat c') = Ret (VFloat v) /\ pattern binary32 v /\ finite binary32 v /\
    negative binary32 v = negative binary32 w /\ fval binary32 v = nearest binary32 (decimal6 (fval binary32 w)).
Proof. exact float_card. Qed.
Print Assumptions C89_float_card.

(** The value read back is within 5.1 parts in a million, or half the smallest number. *)
Theorem C89_error : forall f w v, standard f -> pattern f w -> finite f w -> read_float f (show_float f w) = Some v ->
  Rabs (fval f v - fval f w) <= 51 / 10000000 * Rabs (fval f w) + / 2 * tiny f.
Proof.
  intros f w v S P F H. destruct (read_show f w S P F) as (v' & R & _ & _ & _ & V). rewrite R in H. injection H as ->.
  rewrite V. apply both_err, S.
Qed.
Print Assumptions C89_error.

(** Order is kept. *)
Theorem C89_order : forall f w1 w2, standard f -> pattern f w1 -> pattern f w2 -> finite f w1 -> finite f w2 -> fval f w1 <= fval f w2 ->
  exists v1 v2, read_float f (show_float f w1) = Some v1 /\ read_float f (show_float f w2) = Some v2 /\ fval f v1 <= fval f v2.
Proof. exact order_kept. Qed.
Print Assumptions C89_order.

(** Reading as the other type. *)
Theorem C89_double_as_float : forall c key w comment c',
  cache c = None -> slash_free key -> (w < 2 ^ 64)%N -> finite binary64 w ->
  create_card std_codec c key (VDouble w) comment = (c', Ret tt) ->
  let y := nearest binary32 (decimal6 (fval binary64 w)) in
  (Rabs y < beyond binary32 -> exists v, snd (value std_codec TFloat c') = Ret (VFloat v) /\ finite binary32 v /\ fval binary32 v = y) /\
  (beyond binary32 <= Rabs y -> snd (value std_codec TFloat c') = Throw InvalidCast).
Proof. exact double_as_float. Qed.
Print Assumptions C89_double_as_float.

Theorem C89_float_as_double : forall c key w comment c',
  cache c = None -> slash_free key -> (w < 2 ^ 32)%N -> finite binary32 w ->
  create_card std_codec c key (VFloat w) comment = (c', Ret tt) ->
  exists v, snd (value std_codec TDouble c') = Ret (VDouble v) /\ finite binary64 v /\
    fval binary64 v = nearest binary64 (decimal6 (fval binary32 w)).
Proof. exact float_as_double. Qed.
Print Assumptions C89_float_as_double.

(** Infinities are kept; a NaN becomes the quiet NaN of the same sign. *)
Theorem C89_special_card : forall c key w comment c', cache c = None -> slash_free key -> (w < 2 ^ 64)%N ->
  create_card std_codec c key (VDouble w) comment = (c', Ret tt) ->
  (forall neg, float_of binary64 w = F754_infinity neg -> snd (value std_codec TDouble c') = Ret (VDouble w)) /\
  (forall neg p, float_of binary64 w = F754_nan neg p -> snd (value std_codec TDouble c') = Ret (VDouble (quiet_nan binary64 neg))).
Proof. exact special_card. Qed.
Print Assumptions C89_special_card.

(** A cell of an ASCII table. *)
Theorem C89_ascii_cell : forall w n, (w < 2 ^ 64)%N -> finite binary64 w ->
  exists v, ascii_decode std_codec ADouble (ascii_encode std_codec ADouble (AVDouble w)) n = Ret (AVDouble v) /\
    negative binary64 v = negative binary64 w /\ fval binary64 v = nearest binary64 (decimal6 (fval binary64 w)).
Proof.
  intros w n W F. destruct (read_show binary64 w std64 (pattern64 w W) F) as (v & R & _ & _ & Nv & V). exists v.
  cbn [ascii_decode ascii_encode f64_read f64_show std_codec]. rewrite R. auto.
Qed.
Print Assumptions C89_ascii_cell.

(** It is not the value that was written: 1234567 comes back as 1234570. *)
Theorem C89_same_value_refuted : exists w v w',
  fval binary64 w = 1234567 /\ finite binary64 w /\
  create_card std_codec empty_card (lit "EXPTIME") (VDouble w) [] = (v, Ret tt) /\
  snd (value std_codec TDouble v) = Ret (VDouble w') /\ fval binary64 w' = 1234570.
Proof.
  exists 4698053236609777664%N, (fst (create_card std_codec empty_card (lit "EXPTIME") (VDouble 4698053236609777664) [])), 4698053249494679552%N.
  split; [|split; [vm_compute; reflexivity|split; [vm_compute; reflexivity|split; [vm_compute; reflexivity|]]]].
  - unfold fval. replace (float_of binary64 4698053236609777664) with (F754_finite false 5302424889720832 (-32)) by (vm_compute; reflexivity).
    unfold FF2R, F2R. cbn [Fnum Fexp cond_Zopp]. change (bpow radix2 (-32)) with (/ 4294967296). lra.
  - unfold fval. replace (float_of binary64 4698053249494679552) with (F754_finite false 5302437774622720 (-32)) by (vm_compute; reflexivity).
    unfold FF2R, F2R. cbn [Fnum Fexp cond_Zopp]. change (bpow radix2 (-32)) with (/ 4294967296). lra.
Qed.
Print Assumptions C89_same_value_refuted.

(** 0.1, stored as a double, is not a decimal number, yet reads back as itself: [5.1e-6] is an upper bound. *)
Example C89_case :
  finite binary64 4591870180066957722 /\ (4591870180066957722 < 2 ^ 64)%N /\ slash_free (lit "GAIN") /\
  (exists c, create_card std_codec empty_card (lit "GAIN") (VDouble 4591870180066957722) (lit "e/ADU") = (c, Ret tt) /\
     raw c = lit "GAIN    =                  0.1 /e/ADU" ++ spaces 43 /\
     snd (value std_codec TDouble c) = Ret (VDouble 4591870180066957722) /\
     snd (value std_codec TFloat c) = Ret (VFloat 1036831949)) /\
  float_of binary64 9218868437227405312 = F754_infinity false /\ float_of binary64 9221120237041090561 = F754_nan false 2251799813685249 /\
  ascii_encode std_codec ADouble (AVDouble 4591870180066957722) = lit "0.1".
Proof.
  split; [vm_compute; reflexivity|]. split; [vm_compute; reflexivity|]. split; [unfold slash_free; cbn; intuition discriminate|].
  split; [exists (fst (create_card std_codec empty_card (lit "GAIN") (VDouble 4591870180066957722) (lit "e/ADU"))); repeat split; vm_compute; reflexivity|].
  split; [vm_compute; reflexivity|]. split; [vm_compute; reflexivity|]. vm_compute; reflexivity.
Qed.

(** ** C90: writing what was read *)

(** From 2^22 times the smallest number on (so for every normal number) the text of the value that was read is the text it was read from. *)
Theorem C90_text_stable : forall f w, standard f -> pattern f w -> finite f w -> 4194304 * tiny f <= Rabs (fval f w) ->
  exists v, read_float f (show_float f w) = Some v /\ show_float f v = show_float f w /\ read_float f (show_float f v) = Some v.
Proof. intros f w S P F H. apply rewrite_text; auto. unfold fine. lra. Qed.
Print Assumptions C90_text_stable.

(** A card written again with the value read from it is the same card. *)
Theorem C90_card_stable : forall c key w comment c',
  cache c = None -> slash_free key -> (w < 2 ^ 64)%N -> finite binary64 w -> min_normal binary64 <= Rabs (fval binary64 w) ->
  create_card std_codec c key (VDouble w) comment = (c', Ret tt) ->
  exists v, snd (value std_codec TDouble c') = Ret (VDouble v) /\ create_card std_codec c key (VDouble v) comment = (c', Ret tt).
Proof. exact card_stable. Qed.
Print Assumptions C90_card_stable.

(** Exactly the values nearest to a number of at most six digits come back unchanged. *)
Theorem C90_unchanged_iff : forall f w, standard f -> pattern f w -> finite f w -> 4194304 * tiny f <= Rabs (fval f w) ->
  (read_float f (show_float f w) = Some w <->
   exists m k, (Z.abs m < 10 ^ 6)%Z /\ fval f w = nearest f (IZR m * bpow radix10 k)).
Proof. intros f w S P F H. apply survives_six; auto. unfold fine. lra. Qed.
Print Assumptions C90_unchanged_iff.

(** In particular every whole number below a million, and every number that is itself a decimal of six digits. *)
Theorem C90_six_digits_unchanged : forall f w m k, standard f -> pattern f w -> finite f w -> (Z.abs m < 10 ^ 6)%Z ->
  fval f w = IZR m * bpow radix10 k -> read_float f (show_float f w) = Some w.
Proof. exact survives_exact. Qed.
Print Assumptions C90_six_digits_unchanged.

(** Among the smallest subnormal numbers the text drifts. *)
Theorem C90_subnormal_refuted : exists w v, finite binary64 w /\ fval binary64 w <> 0 /\
  read_float binary64 (show_float binary64 w) = Some v /\ show_float binary64 w = lit "1e-318" /\ show_float binary64 v = lit "9.99999e-319".
Proof.
  exists 202403%N, 202402%N. split; [vm_compute; reflexivity|]. split; [|repeat split; vm_compute; reflexivity].
  unfold fval. replace (float_of binary64 202403) with (F754_finite false 202403 (-1074)) by (vm_compute; reflexivity).
  unfold FF2R, F2R. cbn [Fnum Fexp cond_Zopp]. apply Rmult_integral_contrapositive_currified; [apply not_0_IZR; discriminate|apply Rgt_not_eq, bpow_gt_0].
Qed.
Print Assumptions C90_subnormal_refuted.

Example C90_case : 4194304 * tiny binary64 <= Rabs (fval binary64 4698053236609777664) /\ min_normal binary64 <= Rabs (fval binary64 4698053236609777664) /\
  fval binary64 4612811918334230528 = IZR 25 * bpow radix10 (-1).
Proof.
  assert (E : fval binary64 4698053236609777664 = 1234567).
  { unfold fval. replace (float_of binary64 4698053236609777664) with (F754_finite false 5302424889720832 (-32)) by (vm_compute; reflexivity).
    unfold FF2R, F2R. cbn [Fnum Fexp cond_Zopp]. change (bpow radix2 (-32)) with (/ 4294967296). lra. }
  rewrite E. rewrite Rabs_pos_eq by lra. unfold tiny, min_normal. split; [|split].
  - change 4194304 with (bpow radix2 22). rewrite <- bpow_plus. apply Rle_trans with (bpow radix2 0); [apply bpow_le; cbn; lia|cbn; lra].
  - apply Rle_trans with (bpow radix2 0); [apply bpow_le; cbn; lia|cbn; lra].
  - unfold fval. replace (float_of binary64 4612811918334230528) with (F754_finite false 5629499534213120 (-51)) by (vm_compute; reflexivity).
    unfold FF2R, F2R. cbn [Fnum Fexp cond_Zopp]. change (bpow radix2 (-51)) with (/ 2251799813685248). change (bpow radix10 (-1)) with (/ 10). lra.
Qed.

(** ** C91: which texts read as a floating point number *)

Theorem C91_text_reads : forall f s w, standard f -> pattern f w ->
  (read_float f s = Some w <->
   (exists neg, text_inf s neg /\ float_of f w = F754_infinity neg) \/
   (exists neg, text_nan s neg /\ w = quiet_nan f neg) \/
   (exists neg m k, numeral s neg m k /\ finite f w /\ negative f w = neg /\
      fval f w = nearest f (signed neg (IZR (Z.of_N m) * bpow radix10 k)))).
Proof. exact reads_iff. Qed.
Print Assumptions C91_text_reads.

(** A card, whatever its value text. *)
Theorem C91_card_reads : forall key text comment w,
  fits key text comment -> slash_free key -> slash_free text -> (w < 2 ^ 64)%N ->
  (snd (value std_codec TDouble (mk_card (record key text comment) None)) = Ret (VDouble w) <->
   (exists neg, text_inf (trim text) neg /\ float_of binary64 w = F754_infinity neg) \/
   (exists neg, text_nan (trim text) neg /\ w = quiet_nan binary64 neg) \/
   (exists neg m k, numeral (trim text) neg m k /\ finite binary64 w /\ negative binary64 w = neg /\
      fval binary64 w = nearest binary64 (signed neg (IZR (Z.of_N m) * bpow radix10 k)))).
Proof.
  intros key text comment w Hf Hk Ht W. rewrite value_uncached by reflexivity. cbn [value_imp raw].
  destruct (record_value_text _ _ _ Hf Hk Ht) as (e & -> & He). cbn [bind parse_to]. rewrite He. cbn [f64_read std_codec].
  rewrite <- (reads_iff binary64 (trim text) w std64 (pattern64 w W)).
  destruct (read_float binary64 (trim text)) as [v|]; cbn [bind cast_or_throw]; split; congruence.
Qed.
Print Assumptions C91_card_reads.

Theorem C91_overflow_refused : forall f s neg m k, standard f -> numeral s neg m k ->
  beyond f <= nearest f (IZR (Z.of_N m) * bpow radix10 k) -> read_float f s = None.
Proof. exact overflow_refused. Qed.
Print Assumptions C91_overflow_refused.

(** The exponent letter D that FITS allows is refused, in every number and every format. *)
Theorem C91_d_exponent_refused : forall f sg neg d r r2, a_sign sg neg -> is_digit d -> read_float f (sg ++ d :: r ++ lit "D" ++ r2) = None.
Proof.
  intros f sg neg d r r2 Sg D. apply (stray_refused f sg neg d _ "D"%char Sg D).
  - apply in_or_app. right. left. reflexivity.
  - intros (x & X & E). revert E. destruct (digit_lt10_cases x X) as [->|[->|[->|[->|[->|[->|[->|[->|[->| ->]]]]]]]]]; discriminate.
  - cbn. intuition discriminate.
Qed.
Print Assumptions C91_d_exponent_refused.

Example C91_case :
  numeral (lit "-12.5E+3") true 125 2 /\ numeral (lit "+.5") false 5 (-1) /\ text_inf (lit "-Infinity") true /\ text_nan (lit "NaN(7)") false /\
  read_float binary64 (lit "1.5D+03") = None /\ read_float binary64 (lit "1e400") = None /\ read_float binary64 (lit "12 ") = None /\
  read_float binary64 (lit "1.5E+03") = Some 4654311885213007872%N.
Proof.
  split; [apply scan_numeral; reflexivity|]. split; [apply scan_numeral; reflexivity|].
  split; [exists (lit "-"), (lit "Infinity"); repeat split; [right; right; auto|right; reflexivity]|].
  split; [exists [], (lit "NaN"), (lit "(7)"); repeat split; [left; auto|right; exists (lit "7"); reflexivity]|].
  repeat split; vm_compute; reflexivity.
Qed.

(** ** C92: room for a floating point value *)

Theorem C92_width : forall f w, standard f -> (length (show_float f w) <= 13)%nat.
Proof. exact show_width. Qed.
Print Assumptions C92_width.

(** Creating a card with a float or double value fails only for the keyword or the comment, and then changes nothing. *)
Theorem C92_creates : forall c key v comment, float_value v ->
  (snd (create_card std_codec c key v comment) = Ret tt <-> (length key <= 8 /\ length comment <= 48)%nat) /\
  (snd (create_card std_codec c key v comment) <> Ret tt -> create_card std_codec c key v comment = (c, Throw InvalidCard)).
Proof. exact float_creates. Qed.
Print Assumptions C92_creates.

(** Complex values of floats or doubles never read back. *)
Theorem C92_complex_unreadable : forall c key v comment c' t, cache c = None -> slash_free key ->
  (exists re im, (v = VCDouble re im /\ t = TCDouble) \/ (v = VCFloat re im /\ t = TCFloat)) ->
  create_card std_codec c key v comment = (c', Ret tt) -> snd (value std_codec t c') = Throw InvalidCast.
Proof. exact complex_float_reads. Qed.
Print Assumptions C92_complex_unreadable.

Example C92_case : length (show_float binary64 (2 ^ 63 + 4503599627370497)) = 13%nat /\
  show_float binary64 (2 ^ 63 + 4503599627370497) = lit "-2.22507e-308" /\
  exists c, create_card std_codec empty_card (lit "Z") (VCDouble 4612811918334230528 4591870180066957722) (lit "i") = (c, Ret tt).
Proof. split; [vm_compute; reflexivity|]. split; [vm_compute; reflexivity|].
  exists (fst (create_card std_codec empty_card (lit "Z") (VCDouble 4612811918334230528 4591870180066957722) (lit "i"))). vm_compute; reflexivity.
Qed.
