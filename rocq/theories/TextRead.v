(** * Which texts read as a floating point value, and as which. *)
From Coq Require Import ZArith Reals Lia Lra Psatz ZifyBool ZifyN.
From Flocq Require Import Core IEEE754.Binary IEEE754.Bits.
From Verif Require Import CppProofs CardSpec CardProofs TextModel TextSpec TextRound TextScan TextFloat TextProofs TextLaws.
Local Open Scope Z_scope.

#[local] Hint Resolve std_man std_exp prec_f : core.

Lemma digit_run_spec s : s = fst (digit_run s) ++ snd (digit_run s) /\ digits (fst (digit_run s)).
Proof.
  induction s as [|c s [E D]]; cbn; [split; [reflexivity|apply digits_nil]|].
  destruct (is_digit_char c) eqn:C; [|split; [reflexivity|apply digits_nil]].
  destruct (digit_run s) as [a b]. cbn [fst snd] in *. split; [cbn; congruence|].
  intros x [<-|X]; [|apply D, X]. unfold is_digit_char in C. destruct (digit_val c) eqn:V; [|discriminate].
  apply digit_val_some in V. destruct V as [V1 V2]. exists n. auto.
Qed.

Lemma split_sign_spec s : exists sg, a_sign sg (fst (split_sign s)) /\ s = sg ++ snd (split_sign s).
Proof.
  unfold a_sign. destruct s as [|c s]; [exists []; cbn; auto|]. cbn.
  destruct (Ascii.eqb_spec c "-"%char) as [->|]; [exists (lit "-"); cbn; tauto|].
  destruct (Ascii.eqb_spec c "+"%char) as [->|]; [exists (lit "+"); cbn; tauto|]. exists []. cbn. auto.
Qed.

Lemma split_sign_app sg neg r : a_sign sg neg -> match r with [] => True | c :: _ => c <> "+"%char /\ c <> "-"%char end ->
  split_sign (sg ++ r) = (neg, r).
Proof.
  intros [[-> ->]|[[-> ->]|[-> ->]]] H; [|reflexivity|reflexivity]. destruct r as [|c r]; [reflexivity|]. cbn.
  destruct (Ascii.eqb_spec c "-"%char); [tauto|]. destruct (Ascii.eqb_spec c "+"%char); [tauto|reflexivity].
Qed.

Lemma digit_not_sign c : is_digit c -> c <> "+"%char /\ c <> "-"%char.
Proof. intros H. destruct (digit_props c H) as (_ & _ & A & B & _). auto. Qed.

Lemma parse_digits_digits s n : parse_digits s = Some n -> s <> [] /\ digits s.
Proof.
  unfold parse_digits. destruct s as [|c s]; [discriminate|]. intros H. split; [discriminate|]. revert H. generalize 0%N.
  generalize (c :: s). clear. intros s. induction s as [|c s IH]; intros a H; [apply digits_nil|]. cbn in H.
  destruct (digit_val c) as [d|] eqn:V; [|discriminate]. apply digit_val_some in V. intros x [<-|X]; [exists d; exact V|].
  apply (IH _ H), X.
Qed.

Lemma numeral_scan s neg m k : numeral s neg m k -> scan_decimal s = Some (neg, m, k).
Proof.
  intros H. destruct H as [sg neg ip dot fp e k m Sg Dg Dt Pm Ex].
  assert (Di : digits ip /\ digits fp) by (apply digits_app; exact Dg). destruct Di as [Di Df].
  assert (E0 : match e with [] => True | c :: _ => is_digit_char c = false /\ Ascii.eqb c "."%char = false end).
  { destruct Ex as [[-> _]|(c & sg2 & neg2 & ed & x & [->| ->] & _ & -> & _)]; [exact I| |]; split; reflexivity. }
  assert (R : split_sign (sg ++ ip ++ dot ++ fp ++ e) = (neg, ip ++ dot ++ fp ++ e)).
  { apply split_sign_app; [exact Sg|]. destruct ip as [|c ip]; [|apply digit_not_sign, Di; left; reflexivity].
    destruct Dt as [[-> ->]| ->]; [discriminate Pm|]. split; discriminate. }
  assert (R1 : digit_run (ip ++ dot ++ fp ++ e) = (ip, dot ++ fp ++ e)).
  { apply digit_run_app; [exact Di|]. destruct Dt as [[-> ->]| ->]; [|reflexivity]. cbn [app]. destruct e; [exact I|apply E0]. }
  assert (R2 : fraction_run (dot ++ fp ++ e) = (fp, e)).
  { destruct Dt as [[-> ->]| ->].
    - cbn [app]. unfold fraction_run. destruct e as [|c e]; [reflexivity|]. destruct E0 as [_ ->]. reflexivity.
    - cbn [lit list_ascii_of_string app fraction_run]. rewrite Ascii.eqb_refl. apply digit_run_app; [exact Df|]. destruct e; [exact I|apply E0]. }
  unfold scan_decimal. rewrite R, R1, R2, Pm.
  destruct Ex as [[-> ->]|(c & sg2 & neg2 & ed & x & Hc & Sg2 & -> & Px & ->)]; [reflexivity|].
  replace (Ascii.eqb c "e"%char || Ascii.eqb c "E"%char) with true by (destruct Hc as [->| ->]; reflexivity).
  destruct (parse_digits_digits ed x Px) as [Ne De].
  rewrite (split_sign_app sg2 neg2 ed Sg2) by (destruct ed as [|a ed]; [exact I|apply digit_not_sign, De; left; reflexivity]).
  rewrite Px. destruct neg2; do 2 f_equal; lia.
Qed.

Lemma scan_numeral s neg m k : scan_decimal s = Some (neg, m, k) -> numeral s neg m k.
Proof.
  intros H. unfold scan_decimal in H. destruct (split_sign_spec s) as (sg & Sg & Es).
  destruct (split_sign s) as [ng r]. cbn [fst snd] in Sg, Es.
  destruct (digit_run_spec r) as [Er Dr]. destruct (digit_run r) as [ip r1]. cbn [fst snd] in Er, Dr.
  assert (F : exists dot, r1 = dot ++ fst (fraction_run r1) ++ snd (fraction_run r1) /\ digits (fst (fraction_run r1)) /\
              (dot = [] /\ fst (fraction_run r1) = [] \/ dot = lit ".")).
  { unfold fraction_run. destruct r1 as [|c t]; [exists []; split; [reflexivity|]; split; [apply digits_nil|auto]|].
    destruct (Ascii.eqb_spec c "."%char) as [->|]; [|exists []; split; [reflexivity|]; split; [apply digits_nil|auto]].
    exists (lit "."). destruct (digit_run_spec t) as [Et Dt]. split; [cbn; f_equal; exact Et|]. auto. }
  destruct F as (dot & Ef & Df & Hd). destruct (fraction_run r1) as [fp r2]. cbn [fst snd] in Ef, Df, Hd.
  destruct (parse_digits (ip ++ fp)) as [m'|] eqn:Pm; [|discriminate].
  assert (Dall : forall c, In c (ip ++ fp) -> exists d, (d < 10)%N /\ c = digit_char d) by (apply digits_app; auto).
  rewrite Es, Er, Ef.
  destruct r2 as [|c t].
  - injection H as <- <- <-. replace (- Z.of_nat (length fp)) with (0 - Z.of_nat (length fp)) by lia.
    apply Numeral; auto.
  - destruct (Ascii.eqb c "e"%char || Ascii.eqb c "E"%char) eqn:Ec; [|discriminate].
    destruct (split_sign_spec t) as (sg2 & Sg2 & Et). destruct (split_sign t) as [eneg ed]. cbn [fst snd] in Sg2, Et.
    destruct (parse_digits ed) as [x|] eqn:Px; [|discriminate]. injection H as <- <- <-.
    replace (if eneg then - Z.of_nat (length fp) - Z.of_N x else - Z.of_nat (length fp) + Z.of_N x)
      with ((if eneg then - Z.of_N x else Z.of_N x) - Z.of_nat (length fp)) by (destruct eneg; lia).
    apply Numeral; auto. right. exists c, sg2, eneg, ed, x. split; [|split; [exact Sg2|]; split; [rewrite Et; reflexivity|auto]].
    apply orb_true_iff in Ec. destruct Ec as [Ec|Ec]; apply Ascii.eqb_eq in Ec; auto.
Qed.

(** ** Infinity and NaN *)

Lemma lower_head c : c = "+"%char \/ c = "-"%char -> lower c = c.
Proof. intros [->| ->]; reflexivity. Qed.

Lemma word_not_sign r x w : lowers r = w -> match w with [] => False | c :: _ => c <> "+"%char /\ c <> "-"%char end ->
  match r ++ x with [] => True | c :: _ => c <> "+"%char /\ c <> "-"%char end.
Proof.
  intros <- H. destruct r as [|c r]; [contradiction|]. cbn in *.
  split; intros ->; [apply (proj1 H)|apply (proj2 H)]; reflexivity.
Qed.

Lemma special_inf f s neg : text_inf s neg -> inf_or_nan f s = Some (with_sign f neg (inf_bits f)).
Proof.
  intros (sg & r & -> & Sg & L). unfold inf_or_nan.
  rewrite (split_sign_app sg neg r Sg).
  2: { rewrite <- (app_nil_r r). destruct L as [L|L]; apply (word_not_sign r [] _ L); cbn; split; discriminate. }
  replace (str_eqb (lowers r) (lit "inf") || str_eqb (lowers r) (lit "infinity")) with true; [reflexivity|].
  destruct L as [-> | ->]; reflexivity.
Qed.

Lemma special_nan f s neg : text_nan s neg -> inf_or_nan f s = Some (quiet_nan f neg).
Proof.
  intros (sg & r & x & -> & Sg & L & X). unfold inf_or_nan.
  rewrite (split_sign_app sg neg (r ++ x) Sg) by (apply (word_not_sign r x _ L); cbn; split; discriminate).
  assert (Lr : length r = 3%nat) by (rewrite <- (map_length lower r); change (map lower r) with (lowers r); rewrite L; reflexivity).
  assert (NI : str_eqb (lowers (r ++ x)) (lit "inf") || str_eqb (lowers (r ++ x)) (lit "infinity") = false).
  { unfold lowers. rewrite map_app. fold (lowers r). rewrite L. reflexivity. }
  rewrite NI. rewrite firstn_app, Lr, Nat.sub_diag, firstn_O, app_nil_r, firstn_all2, L by lia.
  rewrite skipn_app, Lr, Nat.sub_diag, skipn_O, skipn_all2 by lia. cbn [app].
  destruct X as [->|(t & ->)]; [reflexivity|].
  cbn [lit list_ascii_of_string app]. rewrite rev_app_distr. reflexivity.
Qed.

Lemma special_cases f s w : inf_or_nan f s = Some w ->
  exists neg, (text_inf s neg /\ w = with_sign f neg (inf_bits f)) \/ (text_nan s neg /\ w = quiet_nan f neg).
Proof.
  unfold inf_or_nan. destruct (split_sign_spec s) as (sg & Sg & Es). destruct (split_sign s) as [neg r]. cbn [fst snd] in Sg, Es.
  exists neg. destruct (str_eqb (lowers r) (lit "inf") || str_eqb (lowers r) (lit "infinity")) eqn:E.
  - injection H as <-. left. split; [|reflexivity]. exists sg, r. split; [exact Es|]. split; [exact Sg|].
    apply orb_true_iff in E. destruct E as [E|E]; apply str_eqb_eq in E; auto.
  - destruct (str_eqb (lowers (firstn 3 r)) (lit "nan")) eqn:E2; [|discriminate]. cbn [andb] in H. apply str_eqb_eq in E2.
    right. assert (X : skipn 3 r = [] \/ exists t, skipn 3 r = lit "(" ++ t ++ lit ")").
    { destruct (skipn 3 r) as [|c t] eqn:K; [auto|]. right. destruct (Ascii.eqb_spec c "("%char) as [->|]; [|discriminate]. cbn [andb] in H.
      destruct (rev t) as [|x u] eqn:V; [discriminate|]. destruct (Ascii.eqb_spec x ")"%char) as [->|]; [|discriminate].
      exists (rev u). cbn [lit list_ascii_of_string app]. f_equal. rewrite <- (rev_involutive t), V. reflexivity. }
    split.
    + exists sg, (firstn 3 r), (skipn 3 r). rewrite firstn_skipn. auto.
    + destruct (match skipn 3 r with [] => true | c :: t => Ascii.eqb c "(" && match rev t with [] => false | x :: _ => Ascii.eqb x ")" end end);
        [injection H as <-; reflexivity|discriminate].
Qed.

(** Numerals are neither. *)
Lemma numeral_not_special f s neg m k : numeral s neg m k -> inf_or_nan f s = None.
Proof.
  intros H. destruct H as [sg neg ip dot fp e k m Sg Dg Dt Pm Ex].
  assert (Di : digits ip /\ digits fp) by (apply digits_app; exact Dg). destruct Di as [Di Df].
  destruct ip as [|c ip].
  - assert (Dd : dot = lit ".") by (destruct Dt as [[-> ->]|Dt]; [discriminate Pm|exact Dt]). subst dot.
    unfold inf_or_nan. rewrite (split_sign_app sg neg _ Sg) by (cbn; split; discriminate). reflexivity.
  - assert (Hc : is_digit c) by (apply Di; left; reflexivity).
    unfold inf_or_nan. rewrite (split_sign_app sg neg _ Sg) by (apply digit_not_sign, Hc). cbn [app].
    destruct Hc as (d & D & ->).
    destruct (digit_lt10_cases d D) as [->|[->|[->|[->|[->|[->|[->|[->|[->| ->]]]]]]]]]; reflexivity.
Qed.

(** ** The reader *)

Local Open Scope R_scope.

Lemma read_numeral f s neg m k : standard f -> numeral s neg m k ->
  let y := nearest f (IZR (Z.of_N m) * bpow radix10 k) in
  (y < beyond f -> exists w, read_float f s = Some w /\ pattern f w /\ finite f w /\ negative f w = neg /\ fval f w = signed neg y) /\
  (beyond f <= y -> read_float f s = None).
Proof.
  intros S H y. unfold read_float. rewrite (numeral_not_special f _ _ _ _ H), (numeral_scan _ _ _ _ H).
  destruct (N.eq_dec m 0) as [->|NZ].
  - cbn [nearest_float N.eqb]. unfold y. cbn [Z.of_N]. rewrite Rmult_0_l, nearest_0. split.
    + intros _. exists (with_sign f neg 0). split; [reflexivity|].
      destruct (with_sign_finite f neg 0 S) as (A1 & A2 & A3 & A4); [pose proof (inf_lt_sign f (std_man f S) (std_exp f S)); lia|].
      rewrite A4, rv_0 by auto. auto.
    + intros B. exfalso. unfold beyond in B. pose proof (bpow_gt_0 radix2 (2 ^ (f_exp f - 1))). lra.
  - destruct (nearest_float_ok f (std_man f S) (std_exp f S) neg m k ltac:(lia)) as [A B]. fold y in A, B. split; [|exact B].
    intros L. destruct (A L) as (b & E & R & V). exists (with_sign f neg b). split; [exact E|].
    destruct (with_sign_finite f neg b S R) as (A1 & A2 & A3 & A4). rewrite A4, V. auto.
Qed.

Lemma infinity_pattern f w neg : standard f -> pattern f w -> (float_of f w = F754_infinity neg <-> w = with_sign f neg (inf_bits f)).
Proof.
  intros S P. pose proof (inf_lt_sign f (std_man f S) (std_exp f S)) as I. destruct (float_of_spec f (std_man f S) (std_exp f S) w) as (Fi & _ & _ & J & N). split.
  - intros E. assert (Q : mag_bits f w = inf_bits f).
    { destruct (Z.lt_trichotomy (mag_bits f w) (inf_bits f)) as [L|[L|L]]; [|exact L|].
      - apply Fi in L. unfold finite in L. rewrite E in L. discriminate.
      - specialize (N L). unfold negative in N. rewrite E in N. cbn in N. apply J. rewrite E. f_equal. exact N. }
    pose proof (proj2 J Q) as E2. rewrite E in E2. injection E2 as E2.
    rewrite <- (with_sign_split f (std_man f S) (std_exp f S) w P). rewrite Q, E2. reflexivity.
  - intros E. destruct (split_with_sign f (std_man f S) (std_exp f S) neg (inf_bits f) ltac:(lia)) as (_ & Ng & Mg). rewrite <- E in Ng, Mg.
    apply J in Mg. rewrite Mg, Ng. reflexivity.
Qed.

Lemma finite_below f w : standard f -> finite f w -> - beyond f < fval f w < beyond f.
Proof.
  intros S F. pose proof (finite_mag f w S F) as B. rewrite finite_val by assumption.
  assert (L : rv f (mag_bits f w) < beyond f) by (rewrite <- rv_inf by auto; apply rv_lt; auto; lia).
  assert (G : 0 <= rv f (mag_bits f w)).
  { destruct (Z.eq_dec (mag_bits f w) 0) as [->|]; [rewrite rv_0 by auto; lra|]. apply Rlt_le, rv_pos; auto. lia. }
  destruct (neg_bit f w); cbn; lra.
Qed.

Lemma reads_iff f s w : standard f -> pattern f w ->
  (read_float f s = Some w <->
   (exists neg, text_inf s neg /\ float_of f w = F754_infinity neg) \/
   (exists neg, text_nan s neg /\ w = quiet_nan f neg) \/
   (exists neg m k, numeral s neg m k /\ finite f w /\ negative f w = neg /\
      fval f w = nearest f (signed neg (IZR (Z.of_N m) * bpow radix10 k)))).
Proof.
  intros S P. split.
  - intros H. destruct (inf_or_nan f s) as [v|] eqn:E.
    + unfold read_float in H. rewrite E in H. injection H as ->. destruct (special_cases f s w E) as (neg & [[T V]|[T V]]).
      * left. exists neg. split; [exact T|]. apply infinity_pattern; auto.
      * right; left. exists neg. auto.
    + right; right. assert (K : exists neg m k, scan_decimal s = Some (neg, m, k)).
      { unfold read_float in H. rewrite E in H. destruct (scan_decimal s) as [[[neg m] k]|]; [eauto|discriminate]. }
      destruct K as (neg & m & k & K). exists neg, m, k. apply scan_numeral in K. split; [exact K|].
      destruct (read_numeral f s neg m k S K) as [A B]. destruct (Rlt_le_dec (nearest f (IZR (Z.of_N m) * bpow radix10 k)) (beyond f)) as [L|L].
      * destruct (A L) as (v & V & _ & F & Ng & X). rewrite V in H. injection H as ->. rewrite nearest_signed. auto.
      * rewrite (B L) in H. discriminate.
  - intros [(neg & T & E)|[(neg & T & E)|(neg & m & k & K & F & Ng & E)]].
    + apply infinity_pattern in E; auto. unfold read_float. rewrite (special_inf f s neg T), E. reflexivity.
    + unfold read_float. rewrite (special_nan f s neg T), E. reflexivity.
    + destruct (read_numeral f s neg m k S K) as [A _]. rewrite nearest_signed in E. pose proof (finite_below f w S F) as B.
      destruct A as (v & V & Pv & Fv & Nv & X); [rewrite E in B; destruct neg; cbn in B; lra|].
      rewrite V. f_equal. apply (finite_determined f); auto; congruence.
Qed.

Lemma overflow_refused f s neg m k : standard f -> numeral s neg m k -> beyond f <= nearest f (IZR (Z.of_N m) * bpow radix10 k) ->
  read_float f s = None.
Proof. intros S H. apply (read_numeral f s neg m k S H). Qed.

(** ** Texts that are refused *)

Lemma parse_digits_in s n c : parse_digits s = Some n -> In c s -> is_digit c.
Proof. intros H. apply parse_digits_digits in H. apply H. Qed.

Lemma sign_in sg neg c : a_sign sg neg -> In c sg -> c = "+"%char \/ c = "-"%char.
Proof. intros [[-> _]|[[-> _]|[-> _]]]; cbn; intuition. Qed.

Lemma numeral_chars s neg m k c : numeral s neg m k -> In c s -> is_digit c \/ In c (lit "+-.eE").
Proof.
  intros H. destruct H as [sg neg ip dot fp e k m Sg Dg Dt Pm Ex]. intros I.
  assert (Di : digits ip /\ digits fp) by (apply digits_app; exact Dg). destruct Di as [Di Df].
  apply in_app_or in I. destruct I as [I|I]; [destruct (sign_in _ _ _ Sg I) as [->| ->]; right; cbn; tauto|].
  apply in_app_or in I. destruct I as [I|I]; [left; apply Di, I|].
  apply in_app_or in I. destruct I as [I|I].
  { destruct Dt as [[-> _]| ->]; [destruct I|]. destruct I as [<-|[]]. right; cbn; tauto. }
  apply in_app_or in I. destruct I as [I|I]; [left; apply Df, I|].
  destruct Ex as [[-> _]|(c0 & sg2 & neg2 & ed & x & Hc & Sg2 & -> & Px & _)]; [destruct I|].
  destruct I as [<-|I]; [right; destruct Hc as [->| ->]; cbn; tauto|].
  apply in_app_or in I. destruct I as [I|I]; [destruct (sign_in _ _ _ Sg2 I) as [->| ->]; right; cbn; tauto|].
  left. apply (parse_digits_in _ _ _ Px I).
Qed.

(** A text that starts with a digit (after a sign) and holds any other character than those of a numeral is refused; so is a text with a blank in front. *)
Lemma stray_refused f sg neg d r c : a_sign sg neg -> is_digit d -> In c r -> ~ is_digit c -> ~ In c (lit "+-.eE") -> read_float f (sg ++ d :: r) = None.
Proof.
  intros Sg D I N1 N2. unfold read_float.
  assert (SP : inf_or_nan f (sg ++ d :: r) = None).
  { destruct (inf_or_nan f (sg ++ d :: r)) as [w|] eqn:E; [|reflexivity]. exfalso.
    destruct (digit_not_sign d D) as [D1 D2]. unfold inf_or_nan in E. rewrite (split_sign_app sg neg (d :: r) Sg) in E by auto.
    destruct D as (x & X & ->). revert E.
    destruct (digit_lt10_cases x X) as [->|[->|[->|[->|[->|[->|[->|[->|[->| ->]]]]]]]]]; discriminate. }
  rewrite SP. destruct (scan_decimal (sg ++ d :: r)) as [[[n m] k]|] eqn:E; [|reflexivity]. exfalso.
  apply scan_numeral in E. apply (numeral_chars _ _ _ _ c) in E; [tauto|]. apply in_or_app. right. right. exact I.
Qed.

Lemma blank_refused f s : read_float f (sp :: s) = None.
Proof. reflexivity. Qed.
