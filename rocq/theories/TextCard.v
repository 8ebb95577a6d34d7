(** * Cards that hold a float or a double. *)
From Coq Require Import ZArith Reals Lia Lra Psatz ZifyBool ZifyN ZifyNat.
From Flocq Require Import Core IEEE754.Binary IEEE754.Bits.
From Verif Require Import CppProofs CardSpec CardProofs TextModel TextSpec TextRound TextScan TextFloat TextProofs TextLaws TextRead.

#[local] Hint Resolve std_man std_exp prec_f : core.

Lemma std32 : standard TextModel.binary32. Proof. left. reflexivity. Qed.
Lemma std64 : standard TextModel.binary64. Proof. right. reflexivity. Qed.

(** What is written is a numeral of the six digits: any reader of any format gets those. *)
Lemma show_numeral f w : standard f -> finite f w ->
  exists m k, numeral (show_float f w) (negative f w) m k /\ signed (negative f w) (IZR (Z.of_N m) * bpow radix10 k) = decimal6 (fval f w).
Proof.
  intros S F. pose proof (finite_mag f w S F) as B. rewrite finite_neg, finite_val by assumption.
  destruct (Z.eq_dec (mag_bits f w) 0) as [E|E].
  - exists 0%N, 0%Z. split.
    + rewrite show_zero by auto. apply scan_numeral. destruct (neg_bit f w); reflexivity.
    + rewrite E, rv_0 by auto. cbn [Z.of_N]. rewrite Rmult_0_l, decimal6_signed, decimal6_0. reflexivity.
  - destruct (show_finite f (std_man f S) (std_exp f S) w ltac:(lia)) as (d & x & T & D & V & _).
    destruct (render_scan (neg_bit f w) d x D) as (m & j & Sc & Q). exists m, (x - 5 + Z.of_nat j)%Z. split.
    + rewrite T. apply scan_numeral, Sc.
    + rewrite decimal6_signed, <- V. f_equal. rewrite <- Q, mult_IZR.
      change 10%Z with (radix_val radix10). rewrite IZR_Zpower by lia. rewrite bpow_plus. ring.
Qed.

Lemma float_text_props f w : standard f ->
  length (show_float f w) <= 13 /\ trimmed (show_float f w) /\ slash_free (show_float f w) /\
  (forall c, In c (show_float f w) -> is_space c = false).
Proof.
  intros S. split; [apply show_width, S|].
  assert (H : forall c, In c (show_float f w) -> is_space c = false) by (intros c Hc; apply (float_char_props c (show_chars f w c S Hc))).
  split; [apply trimmed_no_space, H|]. split; [|exact H].
  intros I. apply show_chars in I; [|exact S]. apply float_char_props in I. destruct I as (_ & I & _). congruence.
Qed.

(** The text of a floating point value as the card holds it. *)
Definition float_text (v : cval) : str :=
  match v with VFloat w => show_float TextModel.binary32 w | VDouble w => show_float TextModel.binary64 w | _ => [] end.
Definition float_value (v : cval) : Prop := match v with VFloat _ | VDouble _ => True | _ => False end.

Lemma float_value_props v : float_value v -> length (float_text v) <= 13 /\ trimmed (float_text v) /\ slash_free (float_text v).
Proof.
  destruct v; intros []; cbn [float_text].
  - destruct (float_text_props TextModel.binary32 w std32) as (A & B & C & _). auto.
  - destruct (float_text_props TextModel.binary64 w std64) as (A & B & C & _). auto.
Qed.

Lemma serialize_float v : float_value v -> serialize std_codec v = Ret (spaces (20 - length (float_text v)) ++ float_text v).
Proof.
  intros H. destruct (float_value_props v H) as (A & _). destruct v; destruct H; cbn [serialize float_text]; apply pad20_ok; cbn [float_text] in A; lia.
Qed.

Lemma float_creates c key v comment : float_value v ->
  (snd (create_card std_codec c key v comment) = Ret tt <-> length key <= 8 /\ length comment <= 48) /\
  (snd (create_card std_codec c key v comment) <> Ret tt -> create_card std_codec c key v comment = (c, Throw InvalidCard)).
Proof.
  intros H. destruct (float_value_props v H) as (A & _). unfold create_card. rewrite serialize_float by exact H.
  set (s := spaces (20 - length (float_text v)) ++ float_text v).
  assert (L : length s = 20) by (unfold s; rewrite app_length, length_spaces; lia).
  assert (FI : fits key s comment <-> length key <= 8 /\ length comment <= 48).
  { unfold fits. split; intros [K R]; (split; [exact K|]).
    - rewrite record_body_length in R by exact K. destruct comment; cbn [length] in *; lia.
    - rewrite record_body_length by exact K. destruct comment; cbn [length] in *; lia. }
  destruct (create_card_impl_cases c key s comment) as [(Hf & -> & _)|(Hf & ->)]; cbn [snd].
  - split; [tauto|congruence].
  - split; [|reflexivity]. split; [discriminate|]. tauto.
Qed.

(** Reading the card as any type looks at the written text. *)
Lemma float_card_read c key v comment c' t : cache c = None -> slash_free key -> float_value v -> t <> TStr ->
  create_card std_codec c key v comment = (c', Ret tt) -> snd (value std_codec t c') = parse_to std_codec t (float_text v).
Proof.
  intros Hc Hk Hv Ht H. apply create_card_ret in H. destruct H as (s & Hs & Hf & ->).
  rewrite serialize_float in Hs by exact Hv. apply ret_inj in Hs. subst s.
  destruct (float_value_props v Hv) as (_ & Tr & Sl).
  rewrite value_uncached by exact Hc. rewrite value_imp_nonstr by exact Ht. cbn [raw].
  destruct (record_value_text _ _ _ Hf Hk) as (e & -> & He).
  - rewrite slash_free_app. split; [apply slash_free_spaces|exact Sl].
  - cbn [bind]. rewrite He, trim_spaces_l, trim_id by exact Tr. reflexivity.
Qed.

Local Open Scope R_scope.

Lemma pattern64 w : (w < 2 ^ 64)%N -> pattern TextModel.binary64 w.
Proof. unfold pattern. cbn [f_man f_exp TextModel.binary64]. change (2 * 2 ^ (52 + 11))%Z with (Z.of_N (2 ^ 64)). lia. Qed.
Lemma pattern32 w : (w < 2 ^ 32)%N -> pattern TextModel.binary32 w.
Proof. unfold pattern. cbn [f_man f_exp TextModel.binary32]. change (2 * 2 ^ (23 + 8))%Z with (Z.of_N (2 ^ 32)). lia. Qed.

Lemma double_card c key w comment c' : cache c = None -> slash_free key -> (w < 2 ^ 64)%N -> finite TextModel.binary64 w ->
  create_card std_codec c key (VDouble w) comment = (c', Ret tt) ->
  exists v, snd (value std_codec TDouble c') = Ret (VDouble v) /\ pattern TextModel.binary64 v /\ finite TextModel.binary64 v /\
    negative TextModel.binary64 v = negative TextModel.binary64 w /\
    fval TextModel.binary64 v = nearest TextModel.binary64 (decimal6 (fval TextModel.binary64 w)).
Proof.
  intros Hc Hk W F H. rewrite (float_card_read c key (VDouble w) comment c' TDouble Hc Hk I ltac:(discriminate) H).
  destruct (read_show TextModel.binary64 w std64 (pattern64 w W) F) as (v & R & Q). exists v. split; [|exact Q].
  cbn [parse_to float_text f64_read std_codec]. rewrite R. reflexivity.
Qed.

Lemma float_card c key w comment c' : cache c = None -> slash_free key -> (w < 2 ^ 32)%N -> finite TextModel.binary32 w ->
  create_card std_codec c key (VFloat w) comment = (c', Ret tt) ->
  exists v, snd (value std_codec TFloat c') = Ret (VFloat v) /\ pattern TextModel.binary32 v /\ finite TextModel.binary32 v /\
    negative TextModel.binary32 v = negative TextModel.binary32 w /\
    fval TextModel.binary32 v = nearest TextModel.binary32 (decimal6 (fval TextModel.binary32 w)).
Proof.
  intros Hc Hk W F H. rewrite (float_card_read c key (VFloat w) comment c' TFloat Hc Hk I ltac:(discriminate) H).
  destruct (read_show TextModel.binary32 w std32 (pattern32 w W) F) as (v & R & Q). exists v. split; [|exact Q].
  cbn [parse_to float_text f32_read std_codec]. rewrite R. reflexivity.
Qed.

(** A double read back as a float, and a float read back as a double. *)
Lemma double_as_float c key w comment c' : cache c = None -> slash_free key -> (w < 2 ^ 64)%N -> finite TextModel.binary64 w ->
  create_card std_codec c key (VDouble w) comment = (c', Ret tt) ->
  let y := nearest TextModel.binary32 (decimal6 (fval TextModel.binary64 w)) in
  (Rabs y < beyond TextModel.binary32 -> exists v, snd (value std_codec TFloat c') = Ret (VFloat v) /\ finite TextModel.binary32 v /\ fval TextModel.binary32 v = y) /\
  (beyond TextModel.binary32 <= Rabs y -> snd (value std_codec TFloat c') = Throw InvalidCast).
Proof.
  intros Hc Hk W F H y. rewrite (float_card_read c key (VDouble w) comment c' TFloat Hc Hk I ltac:(discriminate) H).
  destruct (show_numeral TextModel.binary64 w std64 F) as (m & k & Nm & V).
  cbn [parse_to float_text f32_read std_codec].
  destruct (read_numeral TextModel.binary32 _ _ m k std32 Nm) as [A B].
  set (z := nearest TextModel.binary32 (IZR (Z.of_N m) * bpow radix10 k)) in *.
  assert (Y : y = signed (negative TextModel.binary64 w) z) by (unfold y, z; rewrite <- V, nearest_signed; reflexivity).
  assert (Z0 : 0 <= z).
  { unfold z. rewrite <- (nearest_0 TextModel.binary32). apply nearest_le; [exact std32|]. apply Rmult_le_pos; [apply IZR_le; lia|apply bpow_ge_0]. }
  assert (AY : Rabs y = z) by (rewrite Y; destruct (negative TextModel.binary64 w); cbn; rewrite ?Rabs_Ropp; apply Rabs_pos_eq, Z0).
  rewrite AY. split.
  - intros L. destruct (A L) as (v & -> & _ & Fv & _ & X). exists v. rewrite X, <- Y. auto.
  - intros L. rewrite (B L). reflexivity.
Qed.

Lemma float_as_double c key w comment c' : cache c = None -> slash_free key -> (w < 2 ^ 32)%N -> finite TextModel.binary32 w ->
  create_card std_codec c key (VFloat w) comment = (c', Ret tt) ->
  exists v, snd (value std_codec TDouble c') = Ret (VDouble v) /\ finite TextModel.binary64 v /\
    fval TextModel.binary64 v = nearest TextModel.binary64 (decimal6 (fval TextModel.binary32 w)).
Proof.
  intros Hc Hk W F H. rewrite (float_card_read c key (VFloat w) comment c' TDouble Hc Hk I ltac:(discriminate) H).
  destruct (show_numeral TextModel.binary32 w std32 F) as (m & k & Nm & V).
  cbn [parse_to float_text f64_read std_codec].
  destruct (read_numeral TextModel.binary64 _ _ m k std64 Nm) as [A _]. rewrite <- V, nearest_signed.
  set (d := IZR (Z.of_N m) * bpow radix10 k) in *.
  assert (D : nearest TextModel.binary64 d < beyond TextModel.binary64).
  { assert (D1 : d < beyond TextModel.binary32 * 2).
    { pose proof (finite_below TextModel.binary32 w std32 F) as Bd. pose proof (decimal6_err (fval TextModel.binary32 w)) as E. rewrite <- V in E.
      apply Rabs_le_inv in E. assert (AB : Rabs (fval TextModel.binary32 w) < beyond TextModel.binary32) by (apply Rabs_lt; exact Bd).
      destruct (negative TextModel.binary32 w); cbn [signed] in E; lra. }
    eapply Rle_lt_trans with (bpow radix2 200); [|apply bpow_lt; reflexivity].
    replace (bpow radix2 200) with (nearest TextModel.binary64 (bpow radix2 200)).
    - apply nearest_le; [exact std64|]. apply Rlt_le, Rlt_le_trans with (1 := D1). unfold beyond. cbn [f_exp TextModel.binary32].
      change (2 ^ (8 - 1))%Z with 128%Z. replace (bpow radix2 128 * 2) with (bpow radix2 129) by (change 129%Z with (128 + 1)%Z; rewrite bpow_plus; reflexivity).
      apply bpow_le. lia.
    - apply round_generic; [typeclasses eauto|]. apply generic_format_bpow. cbn. lia. }
  destruct (A D) as (v & -> & _ & Fv & _ & X). exists v. rewrite X. auto.
Qed.

Lemma special_card c key w comment c' : cache c = None -> slash_free key -> (w < 2 ^ 64)%N ->
  create_card std_codec c key (VDouble w) comment = (c', Ret tt) ->
  (forall neg, float_of TextModel.binary64 w = F754_infinity neg -> snd (value std_codec TDouble c') = Ret (VDouble w)) /\
  (forall neg p, float_of TextModel.binary64 w = F754_nan neg p -> snd (value std_codec TDouble c') = Ret (VDouble (quiet_nan TextModel.binary64 neg))).
Proof.
  intros Hc Hk W H. rewrite (float_card_read c key (VDouble w) comment c' TDouble Hc Hk I ltac:(discriminate) H).
  cbn [parse_to float_text f64_read std_codec]. split.
  - intros neg E. rewrite (read_infinity _ w neg std64 (pattern64 w W) E). reflexivity.
  - intros neg p E. rewrite read_special; [|exact std64|apply pattern64, W|unfold finite; rewrite E; discriminate].
    destruct (float_of_spec TextModel.binary64 ltac:(cbn; lia) ltac:(cbn; lia) w) as (Fi & _ & _ & J & N).
    destruct (Z.eqb_spec (mag_bits TextModel.binary64 w) (inf_bits TextModel.binary64)) as [Q|Q]; [apply J in Q; rewrite E in Q; discriminate|].
    assert (G : (inf_bits TextModel.binary64 < mag_bits TextModel.binary64 w)%Z).
    { destruct (Z.lt_trichotomy (mag_bits TextModel.binary64 w) (inf_bits TextModel.binary64)) as [L|[L|L]]; [|contradiction|exact L].
      apply Fi in L. unfold finite in L. rewrite E in L. discriminate. }
    specialize (N G). unfold negative in N. rewrite E in N. cbn [sign_FF] in N. rewrite <- N. reflexivity.
Qed.

(** A card rewritten with the value read from it is the same card. *)
Lemma card_stable c key w comment c' : cache c = None -> slash_free key -> (w < 2 ^ 64)%N -> finite TextModel.binary64 w ->
  min_normal TextModel.binary64 <= Rabs (fval TextModel.binary64 w) ->
  create_card std_codec c key (VDouble w) comment = (c', Ret tt) ->
  exists v, snd (value std_codec TDouble c') = Ret (VDouble v) /\ create_card std_codec c key (VDouble v) comment = (c', Ret tt).
Proof.
  intros Hc Hk W F L H. rewrite (float_card_read c key (VDouble w) comment c' TDouble Hc Hk I ltac:(discriminate) H).
  destruct (rewrite_text TextModel.binary64 w std64 (pattern64 w W) F) as (v & R & T & _).
  - eapply Rle_trans; [|exact L]. unfold fine, tiny, min_normal. rewrite bpow_plus.
    replace (2 * (2097152 * bpow radix2 (f_emin TextModel.binary64))) with (bpow radix2 (f_emin TextModel.binary64) * bpow radix2 22) by (change (bpow radix2 22) with 4194304; ring).
    apply Rmult_le_compat_l; [apply bpow_ge_0|]. apply bpow_le. cbn. lia.
  - exists v. cbn [parse_to float_text f64_read std_codec]. rewrite R. split; [reflexivity|].
    rewrite <- H. unfold create_card. cbn [serialize f64_show std_codec]. rewrite T. reflexivity.
Qed.

Local Open Scope nat_scope.

(** A pair of floating point numbers never reads back. *)
Lemma complex_float_reads c key v comment c' t : cache c = None -> slash_free key ->
  (exists re im, (v = VCDouble re im /\ t = TCDouble) \/ (v = VCFloat re im /\ t = TCFloat)) ->
  create_card std_codec c key v comment = (c', Ret tt) -> snd (value std_codec t c') = Throw InvalidCast.
Proof.
  intros Hc Hk (re & im & C) H. apply create_card_ret in H. destruct H as (s & Hs & Hf & ->). rewrite value_uncached by exact Hc.
  destruct C as [[-> ->]|[-> ->]].
  - destruct (float_text_props TextModel.binary64 re std64) as (L1 & _ & S1 & B1). destruct (float_text_props TextModel.binary64 im std64) as (L2 & _ & S2 & B2).
    cbn [serialize f64_show std_codec] in Hs. rewrite !pad20_ok in Hs by lia. cbn [bind] in Hs. apply ret_inj in Hs. subst s.
    cbn [value_imp raw]. destruct (pair_text key (show_float TextModel.binary64 re) (show_float TextModel.binary64 im) comment) as (e & -> & He);
      auto using show_nonempty, std64; try lia.
    cbn [bind parse_to]. rewrite He. rewrite split_two by assumption.
    destruct (20 - length (show_float TextModel.binary64 im)) as [|[|j]] eqn:E; [lia|lia|].
    cbn [bind fst snd spaces repeat app f64_read std_codec]. rewrite (blank_refused TextModel.binary64).
    destruct (read_float TextModel.binary64 (show_float TextModel.binary64 re)); reflexivity.
  - destruct (float_text_props TextModel.binary32 re std32) as (L1 & _ & S1 & B1). destruct (float_text_props TextModel.binary32 im std32) as (L2 & _ & S2 & B2).
    cbn [serialize f32_show std_codec] in Hs. rewrite !pad20_ok in Hs by lia. cbn [bind] in Hs. apply ret_inj in Hs. subst s.
    cbn [value_imp raw]. destruct (pair_text key (show_float TextModel.binary32 re) (show_float TextModel.binary32 im) comment) as (e & -> & He);
      auto using show_nonempty, std32; try lia.
    cbn [bind parse_to]. rewrite He. rewrite split_two by assumption.
    destruct (20 - length (show_float TextModel.binary32 im)) as [|[|j]] eqn:E; [lia|lia|].
    cbn [bind fst snd spaces repeat app f32_read std_codec]. rewrite (blank_refused TextModel.binary32).
    destruct (read_float TextModel.binary32 (show_float TextModel.binary32 re)); reflexivity.
Qed.
