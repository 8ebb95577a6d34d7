(** * The text of decimal hours and of coordinates. *)
From Coq Require Import ZArith Reals Lia Lra Psatz ZifyBool ZifyN ZifyNat.
From Flocq Require Import Core Relative IEEE754.BinarySingleNaN IEEE754.Binary IEEE754.Bits.
From Verif Require Import CppProofs CardSpec CardProofs TextModel TextSpec TextRound TextScan TextFloat TextProofs TextLaws TextRead TextCard DoubleModel DoubleSpec DoubleProofs.
Local Open Scope R_scope.

#[local] Hint Resolve std_man std_exp prec_f std64 : core.

Lemma near_IZR z : ZnearestE (IZR z) = z.
Proof. apply Zrnd_IZR. typeclasses eauto. Qed.

(** ** Fixed notation *)

Lemma parse_acc acc s n : parse_digits_from 0 s = Some n -> parse_digits_from acc s = Some (acc * 10 ^ N.of_nat (length s) + n)%N.
Proof.
  revert acc n. induction s as [|c s IH] using rev_ind; intros acc n H.
  - cbn in *. injection H as <-. f_equal. lia.
  - rewrite parse_digits_from_app in *. destruct (parse_digits_from 0 s) as [a|] eqn:E; [|discriminate].
    rewrite (IH acc a eq_refl). cbn [parse_digits_from] in *. destruct (digit_val c) as [d|]; [|discriminate].
    assert (E' : n = (10 * a + d)%N) by congruence. rewrite E'. f_equal. rewrite app_length. cbn [length]. rewrite Nat.add_1_r, Nat2N.inj_succ, N.pow_succ_r'. ring.
Qed.

Lemma parse_from_show n : parse_digits_from 0 (show_N n) = Some n.
Proof. pose proof (parse_show_N n) as P. unfold parse_digits in P. destruct (show_N n); [discriminate|exact P]. Qed.

Definition pad6 (r : Z) : str := repeat "0"%char (6 - length (show_N (Z.to_N r))) ++ show_N (Z.to_N r).

Lemma pad6_ok r : (0 <= r < 10 ^ 6)%Z -> length (pad6 r) = 6%nat /\ digits (pad6 r) /\ parse_digits_from 0 (pad6 r) = Some (Z.to_N r).
Proof.
  intros R. assert (L : (length (show_N (Z.to_N r)) <= 6)%nat).
  { apply show_N_length; [|lia]. change (10 ^ N.of_nat 6)%N with 1000000%N. change (10 ^ 6)%Z with 1000000%Z in R. lia. }
  unfold pad6. split; [rewrite app_length, repeat_length; lia|]. split.
  - apply digits_app. split; [apply digits_zeros|]. intros c. apply show_N_digit.
  - rewrite parse_digits_from_app, parse_zeros, N.mul_0_l. apply parse_from_show.
Qed.

Lemma fixed_numeral neg q : (0 <= q)%Z -> numeral (sign_text neg ++ fixed_digits q) neg (Z.to_N q) (-6).
Proof.
  intros Q. change (10 ^ 6)%Z with 1000000%Z. set (a := (q / 10 ^ 6)%Z). set (r := (q mod 10 ^ 6)%Z).
  assert (R : (0 <= r < 10 ^ 6)%Z) by (apply Z.mod_pos_bound; lia). assert (A : (0 <= a)%Z) by (apply Z.div_pos; lia).
  destruct (pad6_ok r R) as (L & D & P).
  replace (fixed_digits q) with (show_N (Z.to_N a) ++ lit "." ++ pad6 r ++ []) by (unfold fixed_digits, pad6; rewrite app_nil_r; reflexivity).
  replace (-6)%Z with (0 - Z.of_nat (length (pad6 r)))%Z by lia.
  apply Numeral.
  - destruct neg; [right; right|left]; split; reflexivity.
  - intros c Hc. apply in_app_or in Hc. destruct Hc as [Hc|Hc]; [apply (show_N_digit _ _ Hc)|apply (D c Hc)].
  - right. reflexivity.
  - apply parse_digits_some.
    + intros E. apply app_eq_nil in E. destruct E as [E _]. revert E. apply show_N_nonempty.
    + rewrite parse_digits_from_app, parse_from_show. rewrite (parse_acc _ _ _ P), L. f_equal.
      change (10 ^ N.of_nat 6)%N with 1000000%N. pose proof (Z.div_mod q (10 ^ 6) ltac:(lia)) as M. fold a r in M.
      change (10 ^ 6)%Z with 1000000%Z in M. lia.
  - left. split; reflexivity.
Qed.

Lemma numeral_unique s neg m k neg' m' k' : numeral s neg m k -> numeral s neg' m' k' -> neg = neg' /\ m = m' /\ k = k'.
Proof. intros A B. apply numeral_scan in A, B. rewrite A in B. injection B as -> -> ->. auto. Qed.

Lemma places6_opp x : places6 (- x) = - places6 x.
Proof.
  unfold places6. replace (- x * 1000000) with (- (x * 1000000)) by ring.
  assert (E : IZR (ZnearestE (- (x * 1000000))) = - IZR (ZnearestE (x * 1000000))).
  { pose proof (round_NE_opp radix2 (FIX_exp 0) (x * 1000000)) as H.
    rewrite !round_FIX_IZR in H. exact H. }
  rewrite E. field.
Qed.
Lemma places6_signed b x : places6 (signed b x) = signed b (places6 x).
Proof. destruct b; [apply places6_opp|reflexivity]. Qed.
Lemma places6_err x : Rabs (places6 x - x) <= / 2000000.
Proof.
  unfold places6. pose proof (Znearest_half (fun t => negb (Z.even t)) (x * 1000000)) as H.
  apply Rabs_le. apply Rabs_le_inv in H. lra.
Qed.
Lemma places6_le x y : x <= y -> places6 x <= places6 y.
Proof.
  intros H. unfold places6. apply Rmult_le_compat_r; [lra|]. apply IZR_le.
  apply Zrnd_le; [typeclasses eauto|lra].
Qed.

Lemma show_fixed_numeral x : dfinite x ->
  exists m, numeral (show_fixed x) (dnegative x) m (-6) /\ signed (dnegative x) (IZR (Z.of_N m) / 1000000) = places6 (dval x).
Proof.
  intros F. assert (Fb : finite b64 (d_bits x)) by (apply d_bits_finite, F).
  pose proof (finite_mag b64 _ std64 Fb) as B. pose proof (finite_val b64 _ std64 Fb) as V. rewrite d_bits_val in V.
  unfold dnegative. rewrite <- d_bits_sign. rewrite (finite_neg b64 _ std64 Fb).
  unfold show_fixed. rewrite decode_finite by first [exact (proj2 B) | apply std_man, std64 | apply std_exp, std64].
  pose proof (decode_abs_ok b64 (std_man _ std64) (std_exp _ std64) (mag_bits b64 (d_bits x)) (proj1 B)) as Q.
  unfold rv in V. destruct (decode_abs b64 (mag_bits b64 (d_bits x))) as [q e]. cbn [fst snd] in *. destruct Q as (Q & _).
  set (n := rne (num_of q e * 10 ^ 6) (den_of e)).
  assert (N : ZnearestE (IZR q * bpow radix2 e * 1000000) = n).
  { unfold n. rewrite <- rne_correct by (apply (den_pos b64); first [apply std_man, std64 | apply std_exp, std64]). f_equal. rewrite <- (num_den b64) by first [apply std_man, std64 | apply std_exp, std64]. rewrite mult_IZR. change (10 ^ 6)%Z with 1000000%Z.
    unfold Rdiv. ring. }
  assert (Np : (0 <= n)%Z).
  { rewrite <- N. rewrite <- (near_IZR 0). apply Zrnd_le; [typeclasses eauto|].
    apply Rmult_le_pos; [|lra]. apply Rmult_le_pos; [apply IZR_le; lia|apply bpow_ge_0]. }
  exists (Z.to_N n). split; [apply fixed_numeral, Np|]. rewrite Z2N.id by exact Np. unfold dval. rewrite V, places6_signed. f_equal.
  unfold places6. rewrite N. reflexivity.
Qed.

(** ** Cutting a text *)

Lemma cut_at (c : ascii) a b a' b' : ~ In c a -> ~ In c a' -> a ++ c :: b = a' ++ c :: b' -> a = a' /\ b = b'.
Proof.
  revert a'. induction a as [|x a IH]; intros [|y a'] A A' E; cbn in E.
  - injection E as <-. auto.
  - injection E as <- _. exfalso. apply A'. left. reflexivity.
  - injection E as -> _. exfalso. apply A. left. reflexivity.
  - injection E as <- E. destruct (IH a') as [-> ->]; [intros H; apply A; right; exact H|intros H; apply A'; right; exact H|exact E|auto].
Qed.

Lemma show_Z_inj z z' : show_Z z = show_Z z' -> z = z'.
Proof.
  assert (G : forall n c r, show_N n = c :: r -> c <> "-"%char).
  { intros n c r E. assert (D : is_digit c) by (apply (show_N_digit n); rewrite E; left; reflexivity). apply (digit_not_sign c D). }
  assert (I : forall a b, show_N a = show_N b -> a = b).
  { intros a b E. pose proof (parse_show_N a) as A. rewrite E, parse_show_N in A. congruence. }
  unfold show_Z. destruct (Z.ltb_spec z 0); destruct (Z.ltb_spec z' 0); intros E.
  - injection E as E. apply I in E. lia.
  - symmetry in E. exfalso. exact (G _ _ _ E eq_refl).
  - exfalso. exact (G _ _ _ E eq_refl).
  - apply I in E. lia.
Qed.

Lemma show_Z_free z c : In c (show_Z z) -> c <> "h"%char /\ c <> "m"%char.
Proof.
  intros H. apply show_Z_chars in H. destruct H as [(d & D & ->)| ->]; [|split; discriminate].
  assert (X : (d = 0 \/ d = 1 \/ d = 2 \/ d = 3 \/ d = 4 \/ d = 5 \/ d = 6 \/ d = 7 \/ d = 8 \/ d = 9)%N) by lia.
  repeat (destruct X as [->|X]; [split; discriminate|]). subst d. split; discriminate.
Qed.

(** ** Printed decimal hours *)

Lemma print_hms_inj t t' : print_hms t = print_hms t' ->
  hms_hours t = hms_hours t' /\ hms_minutes t = hms_minutes t' /\ show_fixed (hms_seconds t) = show_fixed (hms_seconds t').
Proof.
  unfold print_hms. intros E. apply app_inv_head in E.
  change (lit "h ") with ("h"%char :: lit " ") in E. change (lit "m ") with ("m"%char :: lit " ") in E. cbn [app] in E.
  apply cut_at in E; [|intros H; apply show_Z_free in H; tauto|intros H; apply show_Z_free in H; tauto]. destruct E as [E1 E].
  apply app_inv_head in E.
  apply cut_at in E; [|intros H; apply show_Z_free in H; tauto|intros H; apply show_Z_free in H; tauto]. destruct E as [E2 E].
  apply app_inv_head in E. apply app_inv_tail in E. split; [apply show_Z_inj, E1|]. split; [apply show_Z_inj, E2|exact E].
Qed.

(** What the text says: the fields, the seconds to six decimal places. *)
Lemma print_hms_reads t : dfinite (hms_seconds t) -> exists s neg m,
  print_hms t = lit "Hours: " ++ show_Z (hms_hours t) ++ lit "h " ++ show_Z (hms_minutes t) ++ lit "m " ++ s ++ lit "s " /\
  numeral s neg m (-6) /\ signed neg (IZR (Z.of_N m) / 1000000) = places6 (dval (hms_seconds t)).
Proof.
  intros F. destruct (show_fixed_numeral _ F) as (m & A & B). exists (show_fixed (hms_seconds t)), (dnegative (hms_seconds t)), m. auto.
Qed.

Lemma same_places x y : dfinite x -> dfinite y -> show_fixed x = show_fixed y -> places6 (dval x) = places6 (dval y).
Proof.
  intros X Y E. destruct (show_fixed_numeral x X) as (m & A & <-). destruct (show_fixed_numeral y Y) as (m' & A' & <-).
  rewrite E in A. destruct (numeral_unique _ _ _ _ _ _ _ A A') as (-> & -> & _). reflexivity.
Qed.

Lemma print_hms_close d d' t t' : hms_of_double d = Ret t -> hms_of_double d' = Ret t' -> print_hms t = print_hms t' ->
  Rabs (dval d - dval d') <= / 3600000000 + bpow radix2 (-52).
Proof.
  intros T T' E.
  assert (X : forall d t, hms_of_double d = Ret t -> dfinite (hms_seconds t) /\
    Rabs (hours_of (hms_hours t) (hms_minutes t) (dval (hms_seconds t)) - dval d) <= bpow radix2 (-53)).
  { clear. intros d t T. destruct (in_long_dec d) as [I|I]; [|rewrite hms_undefined in T by exact I; discriminate].
    destruct (hms_ok d I) as (t' & T' & _ & _ & F & _ & _ & A). rewrite T in T'. injection T' as <-. auto. }
  destruct (X d t T) as [F A]. destruct (X d' t' T') as [F' A']. destruct (print_hms_inj t t' E) as (Eh & Em & Es).
  pose proof (same_places _ _ F F' Es) as P. rewrite Eh, Em in A.
  pose proof (places6_err (dval (hms_seconds t))) as Q. pose proof (places6_err (dval (hms_seconds t'))) as Q'. rewrite P in Q.
  replace (bpow radix2 (-52)) with (2 * bpow radix2 (-53)) by (change (-52)%Z with (1 + -53)%Z; rewrite bpow_plus; reflexivity).
  unfold hours_of in *. apply Rabs_le. apply Rabs_le_inv in A, A', Q, Q'. lra.
Qed.

(** The printed seconds reach 60 exactly when the seconds are within half a millionth of it. *)
Lemma places6_sixty s : 0 <= s < 60 -> (places6 s = 60 <-> 60 - / 2000000 <= s) /\ 0 <= places6 s <= 60.
Proof.
  intros [L U].
  assert (Z0 : places6 0 = 0) by (unfold places6; rewrite Rmult_0_l, (near_IZR 0); lra).
  assert (Z60 : places6 60 = 60) by (unfold places6; replace (60 * 1000000) with (IZR 60000000) by lra; rewrite near_IZR; lra).
  split; [|split; [rewrite <- Z0|rewrite <- Z60]; apply places6_le; lra]. split; intros H.
  - pose proof (places6_err s) as E. rewrite H in E. apply Rabs_le_inv in E. lra.
  - apply Rle_antisym; [rewrite <- Z60; apply places6_le; lra|].
    assert (T : places6 (60 - / 2000000) = 60).
    { unfold places6. replace ((60 - / 2000000) * 1000000) with (IZR 119999999 / IZR 2) by (rewrite <- (Rmult_1_r (60 - _)); lra).
      rewrite rne_correct by lia. change (rne 119999999 2) with 60000000%Z. lra. }
    rewrite <- T. apply places6_le, H.
Qed.
