(** * The decimal texts of TextModel: what "%g" writes and what the reader finds in it. *)
From Coq Require Import Lia ZifyBool ZifyN ZifyNat.
From Verif Require Import CppProofs TextModel.
Local Open Scope Z_scope.

Definition digits (s : str) : Prop := forall c, In c s -> is_digit c.

Lemma digits_nil : digits []. Proof. intros c []. Qed.
Lemma digits_app a b : digits (a ++ b) <-> digits a /\ digits b.
Proof.
  unfold digits. split.
  - intros H. split; intros c Hc; apply H, in_or_app; auto.
  - intros [A B] c Hc. apply in_app_or in Hc. destruct Hc; auto.
Qed.
Lemma digits_zeros n : digits (repeat "0"%char n).
Proof. intros c Hc. apply repeat_spec in Hc. subst. exists 0%N. split; [lia|reflexivity]. Qed.
Lemma digits_firstn n s : digits s -> digits (firstn n s).
Proof. intros H. rewrite <- (firstn_skipn n s), digits_app in H. apply H. Qed.
Lemma digits_skipn n s : digits s -> digits (skipn n s).
Proof. intros H. rewrite <- (firstn_skipn n s), digits_app in H. apply H. Qed.

Lemma is_digit_char_spec c : is_digit c -> is_digit_char c = true.
Proof. intros (d & H & ->). unfold is_digit_char. rewrite digit_val_char by exact H. reflexivity. Qed.

Lemma digit_run_app a r : digits a -> match r with [] => True | c :: _ => is_digit_char c = false end ->
  digit_run (a ++ r) = (a, r).
Proof.
  intros A R. induction a as [|c a IH]; cbn.
  - destruct r as [|c r]; [reflexivity|]. cbn. rewrite R. reflexivity.
  - rewrite is_digit_char_spec by (apply A; left; reflexivity).
    rewrite IH by (intros x Hx; apply A; right; exact Hx). reflexivity.
Qed.

Lemma digits_parse acc s : digits s -> exists n, parse_digits_from acc s = Some n.
Proof.
  revert acc. induction s as [|c s IH]; intros acc H; cbn; [eauto|].
  destruct (H c (or_introl eq_refl)) as (d & D & ->). rewrite digit_val_char by exact D.
  apply IH. intros x Hx. apply H. right. exact Hx.
Qed.

Lemma parse_bound acc s n : parse_digits_from acc s = Some n -> (n < (acc + 1) * 10 ^ N.of_nat (length s))%N.
Proof.
  revert acc. induction s as [|c s IH]; intros acc H; cbn [parse_digits_from] in H.
  - injection H as <-. cbn. lia.
  - destruct (digit_val c) as [d|] eqn:E; [|discriminate]. apply digit_val_some in E. destruct E as [D _].
    apply IH in H. cbn [length]. rewrite Nat2N.inj_succ, N.pow_succ_r'.
    eapply N.lt_le_trans; [exact H|]. rewrite N.mul_assoc. apply N.mul_le_mono_r. lia.
Qed.

Lemma parse_zeros acc j : parse_digits_from acc (repeat "0"%char j) = Some (acc * 10 ^ N.of_nat j)%N.
Proof.
  revert acc. induction j as [|j IH]; intros acc; [cbn; f_equal; lia|].
  cbn [repeat parse_digits_from]. change (digit_val "0") with (Some 0%N). cbv beta iota. rewrite IH.
  f_equal. rewrite Nat2N.inj_succ, N.pow_succ_r'. lia.
Qed.

Lemma drop_zeros_spec s : exists j, s = repeat "0"%char j ++ drop_zeros s.
Proof.
  induction s as [|c s [j IH]]; [exists O; reflexivity|]. cbn.
  destruct (Ascii.eqb_spec c "0"%char) as [->|]; [|exists O; reflexivity].
  exists (S j). cbn. f_equal. exact IH.
Qed.
Lemma strip_zeros_spec s : exists j, s = strip_zeros s ++ repeat "0"%char j.
Proof.
  unfold strip_zeros. destruct (drop_zeros_spec (rev s)) as [j H]. exists j.
  assert (R : rev (repeat "0"%char j) = repeat "0"%char j).
  { clear. induction j as [|j IH]; [reflexivity|]. cbn. rewrite IH. clear.
    induction j as [|j IH]; [reflexivity|]. cbn. rewrite IH. reflexivity. }
  set (t := drop_zeros (rev s)) in *. clearbody t.
  apply (f_equal (@rev ascii)) in H. rewrite rev_involutive, rev_app_distr, R in H. exact H.
Qed.

Lemma show6_length d : 10 ^ 5 <= d < 10 ^ 6 -> length (show_N (Z.to_N d)) = 6%nat.
Proof.
  intros H. assert (U : (length (show_N (Z.to_N d)) <= 6)%nat).
  { apply show_N_length; [|lia]. change (10 ^ N.of_nat 6)%N with 1000000%N. lia. }
  pose proof (parse_show_N (Z.to_N d)) as P. unfold parse_digits in P.
  destruct (show_N (Z.to_N d)) eqn:E; [discriminate|]. rewrite <- E in P |- *. rewrite <- E in U.
  apply parse_bound in P. destruct (Nat.le_gt_cases 6 (length (show_N (Z.to_N d)))) as [L|L]; [lia|].
  exfalso. assert ((10 ^ N.of_nat (length (show_N (Z.to_N d))) <= 10 ^ 5)%N) by (apply N.pow_le_mono_r; lia).
  change (10 ^ 5)%N with 100000%N in *. lia.
Qed.

(** What the reader makes of digits, an optional fraction and an optional exponent. *)
Definition exp_part (t : str) (x : Z) : Prop :=
  (t = [] /\ x = 0) \/
  exists (eneg : bool) (ed : str) (n : N), t = "e"%char :: (if eneg then "-"%char else "+"%char) :: ed /\ parse_digits ed = Some n /\
    x = (if eneg then - Z.of_N n else Z.of_N n).

Lemma split_sign_text neg c r : is_digit c -> split_sign (sign_text neg ++ c :: r) = (neg, c :: r).
Proof.
  intros H. destruct neg; cbn; [reflexivity|].
  destruct (digit_props c H) as (_ & _ & H1 & H2 & _).
  destruct (Ascii.eqb_spec c "-"%char); [contradiction|]. destruct (Ascii.eqb_spec c "+"%char); [contradiction|]. reflexivity.
Qed.

Lemma parse_digits_some s n : s <> [] -> parse_digits_from 0 s = Some n -> parse_digits s = Some n.
Proof. destruct s; [congruence|auto]. Qed.

Lemma exp_part_head t x : exp_part t x -> match t with [] => True | c :: _ => is_digit_char c = false /\ Ascii.eqb c "." = false end.
Proof. intros [[-> _]|(b & ed & n & -> & _)]; [exact I|]. split; reflexivity. Qed.

Lemma scan_text neg ip fp t x n : digits ip -> ip <> [] -> digits fp -> exp_part t x ->
  parse_digits_from 0 (ip ++ fp) = Some n ->
  scan_decimal (sign_text neg ++ ip ++ point fp ++ t) = Some (neg, n, x - Z.of_nat (length fp)).
Proof.
  intros Ip Ne F T P. unfold scan_decimal.
  destruct ip as [|c ip]; [congruence|]. cbn [app].
  rewrite split_sign_text by (apply Ip; left; reflexivity).
  change (c :: ip ++ point fp ++ t) with ((c :: ip) ++ point fp ++ t).
  assert (Hp : match fp with [] => point fp ++ t = t | _ => point fp ++ t = "."%char :: fp ++ t end) by (destruct fp; reflexivity).
  rewrite digit_run_app; [|exact Ip|].
  2:{ destruct fp as [|d fp]; [|reflexivity]. cbn [point app]. apply exp_part_head in T. destruct t; [exact I|apply T]. }
  assert (R2 : fraction_run (point fp ++ t) = (fp, t)).
  { destruct fp as [|d fp].
    - cbn [point app fraction_run]. apply exp_part_head in T. destruct t as [|e t]; [reflexivity|].
      destruct T as [_ T]. unfold fraction_run. rewrite T. reflexivity.
    - cbn [point app]. unfold fraction_run. change (Ascii.eqb "." ".") with true. cbv iota.
      change (d :: fp ++ t) with ((d :: fp) ++ t). apply digit_run_app; [exact F|].
      apply exp_part_head in T. destruct t; [exact T|apply T]. }
  cbv beta iota. rewrite R2. cbv beta iota.
  rewrite (parse_digits_some ((c :: ip) ++ fp) n) by (discriminate || exact P).
  destruct T as [[-> ->]|(b & ed & m & -> & Ed & ->)].
  - reflexivity.
  - change (Ascii.eqb "e" "e" || Ascii.eqb "e" "E") with true. cbv iota.
    assert (S : split_sign ((if b then "-"%char else "+"%char) :: ed) = (b, ed)) by (destruct b; reflexivity).
    rewrite S, Ed. destruct b; f_equal; f_equal; lia.
Qed.

Lemma exp_text_part x : exp_part (lit "e" ++ exp_text x) x.
Proof.
  right. unfold exp_text. exists (x <? 0).
  exists ((if Z.abs x <? 10 then lit "0" else []) ++ show_N (Z.abs_N x)), (Z.abs_N x). split; [|split].
  - destruct (x <? 0); reflexivity.
  - destruct (Z.abs x <? 10).
    + apply parse_digits_some; [discriminate|]. pose proof (parse_show_N (Z.abs_N x)) as P. unfold parse_digits in P.
      destruct (show_N (Z.abs_N x)); [discriminate|]. exact P.
    + apply parse_show_N.
  - destruct (Z.ltb_spec x 0); lia.
Qed.

(** The text of six digits of weight 10^x: the digits that remain and their weight. *)
Lemma render_scan neg d x : 10 ^ 5 <= d < 10 ^ 6 ->
  exists m j, scan_decimal (sign_text neg ++ render d x) = Some (neg, m, x - 5 + Z.of_nat j) /\
    Z.of_N m * 10 ^ Z.of_nat j = d.
Proof.
  intros H. pose proof (show6_length d H) as L.
  assert (G : digits (show_N (Z.to_N d))) by (intros c; apply show_N_digit).
  assert (P : parse_digits_from 0 (show_N (Z.to_N d)) = Some (Z.to_N d)).
  { pose proof (parse_show_N (Z.to_N d)) as P. unfold parse_digits in P. destruct (show_N (Z.to_N d)); [discriminate|exact P]. }
  unfold render. set (D := show_N (Z.to_N d)) in *. clearbody D.
  (* a text in which the digits are ip, a point, fp *)
  assert (K : forall z ip fp t j e, repeat "0"%char z ++ D = (ip ++ fp) ++ repeat "0"%char j -> ip <> [] -> exp_part t e ->
            e - Z.of_nat (length fp) = x - 5 + Z.of_nat j ->
            exists m j, scan_decimal (sign_text neg ++ ip ++ point fp ++ t) = Some (neg, m, x - 5 + Z.of_nat j) /\
                        Z.of_N m * 10 ^ Z.of_nat j = d).
  { intros z ip fp t j e E Ne T W.
    assert (G2 : digits (ip ++ fp)).
    { assert (G3 : digits (repeat "0"%char z ++ D)) by (rewrite digits_app; split; [apply digits_zeros|exact G]).
      rewrite E, digits_app in G3. apply G3. }
    destruct (digits_parse 0 (ip ++ fp) G2) as [m M].
    rewrite digits_app in G2. destruct G2 as [Gi Gf].
    exists m, j. split.
    - rewrite (scan_text neg ip fp t e m Gi Ne Gf T M). do 2 f_equal. exact W.
    - assert (Q : parse_digits_from 0 (repeat "0"%char z ++ D) = Some (m * 10 ^ N.of_nat j)%N).
      { rewrite E, parse_digits_from_app, M, parse_zeros. reflexivity. }
      rewrite parse_digits_from_app, parse_zeros, N.mul_0_l, P in Q. injection Q as Q.
      apply (f_equal Z.of_N) in Q. rewrite Z2N.id in Q by lia. rewrite N2Z.inj_mul, N2Z.inj_pow, nat_N_Z in Q. symmetry. exact Q. }
  destruct (Z.ltb_spec x (-4)) as [X1|X1]; [|destruct (Z.leb_spec 6 x) as [X2|X2]]; cbn [orb].
  1,2: destruct (strip_zeros_spec (skipn 1 D)) as [j J]; apply (K O _ _ _ j x);
    [cbn [repeat app]; rewrite <- app_assoc, <- J, firstn_skipn; reflexivity
    |destruct D; [discriminate L|discriminate]|apply exp_text_part
    |apply (f_equal (@length ascii)) in J; rewrite app_length, repeat_length, skipn_length, L in J; lia].
  destruct (Z.leb_spec 0 x) as [X3|X3].
  - destruct (strip_zeros_spec (skipn (Z.to_nat (x + 1)) D)) as [j J].
    rewrite <- (app_nil_r (point (strip_zeros (skipn (Z.to_nat (x + 1)) D)))). apply (K O _ _ _ j 0).
    + cbn [repeat app]. rewrite <- app_assoc, <- J, firstn_skipn. reflexivity.
    + intros E. apply (f_equal (@length ascii)) in E. rewrite firstn_length, L in E. cbn in E. lia.
    + left. split; reflexivity.
    + apply (f_equal (@length ascii)) in J. rewrite app_length, repeat_length, skipn_length, L in J. lia.
  - destruct (strip_zeros_spec D) as [j J].
    assert (Sn : strip_zeros D <> []).
    { intros E. rewrite E in J. cbn in J. rewrite J, parse_zeros in P. injection P as P. lia. }
    assert (Pt : lit "0." ++ repeat "0"%char (Z.to_nat (- x - 1)) ++ strip_zeros D =
                 lit "0" ++ point (repeat "0"%char (Z.to_nat (- x - 1)) ++ strip_zeros D) ++ []).
    { rewrite app_nil_r. destruct (repeat "0"%char (Z.to_nat (- x - 1)) ++ strip_zeros D) eqn:E; [|reflexivity].
      apply app_eq_nil in E. destruct E. contradiction. }
    rewrite Pt. apply (K (Z.to_nat (- x)) _ _ _ j 0).
    + replace (Z.to_nat (- x)) with (S (Z.to_nat (- x - 1))) by lia. cbn [repeat]. cbn [lit list_ascii_of_string app].
      f_equal. rewrite <- app_assoc. f_equal. exact J.
    + discriminate.
    + left. split; reflexivity.
    + rewrite app_length, repeat_length. apply (f_equal (@length ascii)) in J. rewrite app_length, repeat_length, L in J. lia.
Qed.

(** Such a text is not one of the special ones, has no blank and no slash, and fits a card. *)
Definition float_char (c : ascii) : Prop := is_digit c \/ In c (lit "+-.enaif").

Lemma float_char_props c : float_char c -> is_space c = false /\ c <> "/"%char /\ c <> sp.
Proof.
  intros [H|H].
  - destruct (digit_props c H) as (A & B & _ & _ & C & _). auto.
  - cbn in H. repeat (destruct H as [<-|H]; [repeat split; discriminate|]). contradiction.
Qed.

Lemma strip_digits s : digits s -> digits (strip_zeros s).
Proof. intros H. destruct (strip_zeros_spec s) as [j J]. rewrite J, digits_app in H. apply H. Qed.
Lemma strip_length s : (length (strip_zeros s) <= length s)%nat.
Proof. destruct (strip_zeros_spec s) as [j J]. apply (f_equal (@length ascii)) in J. rewrite app_length in J. lia. Qed.

Lemma point_chars s c : digits s -> In c (point s) -> float_char c.
Proof.
  intros H. destruct s as [|d s]; [intros []|]. intros [<-|Hc]; [right; cbn; tauto|left; apply H; exact Hc].
Qed.

Lemma exp_text_chars x c : In c (exp_text x) -> float_char c.
Proof.
  intros [H|H].
  - right. destruct (x <? 0); subst c; cbn; tauto.
  - apply in_app_or in H. destruct H as [H|H]; left.
    + destruct (Z.abs x <? 10); [|destruct H]. destruct H as [<-|[]]. exists 0%N. split; [lia|reflexivity].
    + apply show_N_digit in H. exact H.
Qed.

Lemma render_chars d x c : In c (render d x) -> float_char c.
Proof.
  assert (G : digits (show_N (Z.to_N d))) by (intros y; apply show_N_digit).
  unfold render. set (D := show_N (Z.to_N d)) in *. clearbody D.
  destruct ((x <? -4) || (6 <=? x)).
  - intros H. apply in_app_or in H. destruct H as [H|H]; [left; apply (digits_firstn 1 D G), H|].
    apply in_app_or in H. destruct H as [H|H]; [eapply point_chars, H; apply strip_digits, digits_skipn, G|].
    apply in_app_or in H. destruct H as [[<-|[]]|H]; [right; cbn; tauto|]. apply (exp_text_chars x), H.
  - destruct (0 <=? x).
    + intros H. apply in_app_or in H. destruct H as [H|H]; [left; eapply digits_firstn, H; exact G|].
      eapply point_chars, H. apply strip_digits, digits_skipn, G.
    + intros H. apply in_app_or in H. destruct H as [[<-|[<-|[]]]|H]; [left; exists 0%N; split; [lia|reflexivity]|right; cbn; tauto|].
      left. apply in_app_or in H. destruct H as [H|H]; [eapply digits_zeros, H|eapply strip_digits, H; exact G].
Qed.

Lemma point_length s : (length (point s) <= S (length s))%nat.
Proof. destruct s; cbn; lia. Qed.

Lemma exp_text_length x : Z.abs x < 1000 -> (length (exp_text x) <= 4)%nat.
Proof.
  intros H. unfold exp_text. cbn [length]. rewrite app_length.
  destruct (Z.ltb_spec (Z.abs x) 10).
  - assert (length (show_N (Z.abs_N x)) <= 1)%nat by (apply show_N_length; [change (10 ^ N.of_nat 1)%N with 10%N; lia|lia]). cbn [lit list_ascii_of_string length]. lia.
  - assert (length (show_N (Z.abs_N x)) <= 3)%nat by (apply show_N_length; [change (10 ^ N.of_nat 3)%N with 1000%N; lia|lia]). cbn [length]. lia.
Qed.

Lemma render_length d x : 10 ^ 5 <= d < 10 ^ 6 -> Z.abs x < 1000 -> (length (render d x) <= 12)%nat.
Proof.
  intros H X. pose proof (show6_length d H) as L. unfold render. set (D := show_N (Z.to_N d)) in *. clearbody D.
  destruct (Z.ltb_spec x (-4)) as [X1|X1]; [|destruct (Z.leb_spec 6 x) as [X2|X2]]; cbn [orb].
  1,2: rewrite !app_length, firstn_length, L; pose proof (exp_text_length x X);
    pose proof (point_length (strip_zeros (skipn 1 D))); pose proof (strip_length (skipn 1 D));
    rewrite skipn_length, L in *; cbn [lit list_ascii_of_string length]; lia.
  destruct (Z.leb_spec 0 x) as [X3|X3].
  - rewrite app_length, firstn_length, L. pose proof (point_length (strip_zeros (skipn (Z.to_nat (x + 1)) D))).
    pose proof (strip_length (skipn (Z.to_nat (x + 1)) D)). rewrite skipn_length, L in *. lia.
  - rewrite !app_length, repeat_length. pose proof (strip_length D). cbn [lit list_ascii_of_string length]. lia.
Qed.

Lemma render_head d x : 10 ^ 5 <= d < 10 ^ 6 -> exists c r, render d x = c :: r /\ is_digit c.
Proof.
  intros H. pose proof (show6_length d H) as L.
  assert (G : digits (show_N (Z.to_N d))) by (intros y; apply show_N_digit).
  unfold render. set (D := show_N (Z.to_N d)) in *. clearbody D.
  destruct D as [|c D]; [discriminate|].
  assert (Hc : is_digit c) by (apply G; left; reflexivity).
  destruct ((x <? -4) || (6 <=? x)); [cbn; eauto|].
  destruct (Z.leb_spec 0 x).
  - replace (Z.to_nat (x + 1)) with (S (Z.to_nat x)) by lia. cbn. eauto.
  - cbn. exists "0"%char. eexists. split; [reflexivity|]. exists 0%N. split; [lia|reflexivity].
Qed.

Lemma not_special f neg c r : is_digit c -> inf_or_nan f (sign_text neg ++ c :: r) = None.
Proof.
  intros H. unfold inf_or_nan. rewrite split_sign_text by exact H.
  destruct H as (d & D & ->).
  destruct (digit_lt10_cases d D) as [->|[->|[->|[->|[->|[->|[->|[->|[->| ->]]]]]]]]]; reflexivity.
Qed.
