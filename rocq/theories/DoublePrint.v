(** * The text of coordinates. *)
From Coq Require Import ZArith Reals Lia Lra Psatz ZifyBool ZifyN ZifyNat.
From Flocq Require Import Core Relative IEEE754.BinarySingleNaN IEEE754.Binary IEEE754.Bits.
From Verif Require Import CppProofs CardSpec CardProofs TextModel TextSpec TextRound TextScan TextFloat TextProofs TextLaws TextRead TextCard DoubleModel DoubleSpec DoubleProofs DoubleText DoubleUnits.
Local Open Scope R_scope.

#[local] Existing Instance near.
#[local] Existing Instance prec6.
#[local] Hint Resolve std64 : core.

(** ** Six digits survive small errors *)

Lemma near_six d z : generic_format radix10 (FLX_exp 6) d -> Rabs (z - d) < / 2 * (/ 1000000 * Rabs d) -> decimal6 z = d.
Proof.
  assert (G : forall d z, 0 < d -> generic_format radix10 (FLX_exp 6) d -> Rabs (z - d) < / 2 * (/ 1000000 * d) -> decimal6 z = d).
  { clear. intros d z P F E. apply Rabs_lt_inv in E.
    assert (V : Valid_exp (FLX_exp 6)) by typeclasses eauto.
    pose proof (ulp_FLX_ge radix10 6 d) as U. rewrite Rabs_pos_eq in U by lra.
    change (- (6))%Z with (-6)%Z in U. rewrite bpow10_m6 in U.
    apply Rle_antisym.
    - apply round_N_le_midp; [exact V|exact F|]. rewrite succ_eq_pos by lra. lra.
    - apply round_N_ge_midp; [exact V|exact F|]. rewrite pred_eq_pos by lra. unfold pred_pos.
      destruct (Req_bool_spec d (bpow radix10 (mag radix10 d - 1))) as [Q|Q]; [|lra].
      assert (W : bpow radix10 (FLX_exp 6 (mag radix10 d - 1)) = / 1000000 * d).
      { unfold FLX_exp. replace (mag radix10 d - 1 - 6)%Z with (-6 + (mag radix10 d - 1))%Z by lia.
        rewrite bpow_plus, <- Q, bpow10_m6. reflexivity. }
      rewrite W. lra. }
  intros F E. destruct (Rtotal_order d 0) as [N|[->|N]].
  - rewrite (Rabs_left d) in E by exact N. rewrite <- (Ropp_involutive z), decimal6_opp, (G (- d)); [ring|lra|apply generic_format_opp, F|].
    replace (- z - - d) with (- (z - d)) by ring. rewrite Rabs_Ropp. exact E.
  - rewrite Rabs_R0 in E. pose proof (Rabs_pos (z - 0)). lra.
  - rewrite (Rabs_pos_eq d) in E by lra. apply G; assumption.
Qed.

Lemma sign_val x : fin x = true -> val x <> 0 -> Bsign 53 1024 x = Rlt_bool (val x) 0.
Proof.
  intros F N. destruct x as [s|s|s pl e|s m e B]; try discriminate F; [exfalso; apply N; reflexivity|].
  cbn [Bsign B2R]. symmetry. destruct s; [apply Rlt_bool_true, F2R_lt_0; reflexivity|].
  apply Rlt_bool_false, F2R_ge_0. cbn. lia.
Qed.

Lemma six_format m k : (Z.abs m < 10 ^ 6)%Z -> generic_format radix10 (FLX_exp 6) (IZR m * bpow radix10 k).
Proof. intros H. apply generic_format_FLX. exists (Float radix10 m k); [reflexivity|exact H]. Qed.

(** A moderate double nearest to a six-digit number: that number is its six digits. *)
Lemma six_digit_of x : moderate x -> six_digit x -> exists d, generic_format radix10 (FLX_exp 6) d /\ val x = rnd d /\ d <> 0 /\ Rabs (val x - d) <= u53 * Rabs d.
Proof.
  intros M (m & k & Hm & E). destruct (moderate_parts x M) as (F & Z & B). unfold dval in E. set (d := IZR m * bpow radix10 k) in *.
  exists d. split; [apply six_format, Hm|]. split; [exact E|].
  assert (D : d <> 0) by (intros D; rewrite D, nearest_0 in E; contradiction). split; [exact D|].
  rewrite E. apply rnd_rel. destruct (Rle_lt_dec (bpow radix2 (-1022)) (Rabs d)) as [L|L]; [exact L|exfalso].
  pose proof (rnd_bound d (-1022) ltac:(lia) ltac:(lra)) as U. rewrite <- E in U.
  assert (bpow radix2 (-1022) < bpow radix2 (-500)) by (apply bpow_lt; lia). lra.
Qed.

(** ** A quantity shown after it was stored *)

Lemma zero_back u x : usable u -> dfinite x -> dval x = 0 -> show_double (from_stored u (to_stored u x)) = show_double x.
Proof.
  unfold usable, from_stored, to_stored, dfinite, dval. destruct (u_factor u) as [c|]; [|reflexivity]. intros M F Z.
  destruct (inverse_ok c M) as (Fi & Vi & Ei & Bi). destruct (moderate_parts c M) as (Fc & Zc & Bc).
  assert (Zi : val (d_div (d_of_Z 1) c) <> 0).
  { rewrite Vi. intros E. rewrite E, Rabs_R0 in Bi. pose proof (bpow_gt_0 radix2 (-501)). lra. }
  assert (Si : Bsign 53 1024 (d_div (d_of_Z 1) c) = Bsign 53 1024 c).
  { rewrite !sign_val by assumption. rewrite Vi. rewrite Vi in Zi. destruct (Rlt_or_le (val c) 0) as [N|N].
    - rewrite (Rlt_bool_true (val c)) by exact N. apply Rlt_bool_true. pose proof (Rinv_lt_0_compat _ N) as I.
      assert (rnd (/ val c) <= 0) by (rewrite <- (nearest_0 b64); apply nearest_le; [exact std64|lra]). lra.
    - rewrite (Rlt_bool_false (val c)) by exact N. apply Rlt_bool_false. assert (P : 0 < val c) by lra. pose proof (Rinv_0_lt_compat _ P).
      rewrite <- (nearest_0 b64). apply nearest_le; [exact std64|lra]. }
  set (i := d_div (d_of_Z 1) c) in *. clearbody i.
  destruct x as [s|s|s pl e|s m e B]; try discriminate F.
  2:{ exfalso. revert Z. cbn [B2R]. destruct s; [apply Rlt_not_eq, F2R_lt_0|apply Rgt_not_eq, F2R_gt_0]; reflexivity. }
  destruct c as [sc|sc|sc plc ec|sc mc ec Bc']; try discriminate Fc; [exfalso; apply Zc; reflexivity|].
  destruct i as [si|si|si pli ei|si mi ei Bi']; try discriminate Fi; [exfalso; apply Zi; reflexivity|].
  cbn [Bsign] in Si. subst si. unfold d_mul, b64_mult. cbn [Bmult]. f_equal. f_equal. destruct s, sc; reflexivity.
Qed.

Lemma six_back u x : usable u -> moderate x -> six_digit x -> show_double (from_stored u (to_stored u x)) = show_double x.
Proof.
  intros U M S. destruct (back_ok u x U M) as [Fz Ez]. destruct (moderate_parts x M) as (Fx & Zx & Bx).
  destruct (six_digit_of x M S) as (d & G & V & D & E). unfold dfinite, dval in *. set (z := from_stored u (to_stored u x)) in *. clearbody z.
  pose proof (Rabs_pos_lt d D) as Pd.
  assert (Xd : Rabs (val x) <= 2 * Rabs d).
  { replace (val x) with (d + (val x - d)) by ring. eapply Rle_trans; [apply Rabs_triang|]. rewrite u53_eq in E. lra. }
  replace (bpow radix2 (-51)) with (/ 2251799813685248) in Ez by reflexivity. rewrite u53_eq in E.
  assert (Zd : Rabs (val z - d) < / 2 * (/ 1000000 * Rabs d)).
  { replace (val z - d) with ((val z - val x) + (val x - d)) by ring. eapply Rle_lt_trans; [apply Rabs_triang|]. lra. }
  assert (Zx' : Rabs (val x - d) < / 2 * (/ 1000000 * Rabs d)) by lra.
  assert (Nz : val z <> 0).
  { intros Q. rewrite Q in Ez. replace (0 - val x) with (- val x) in Ez by ring. rewrite Rabs_Ropp in Ez. pose proof (Rabs_pos_lt _ Zx). lra. }
  unfold show_double. apply same_text; [exact std64|apply d_bits_finite, Fz|apply d_bits_finite, Fx| | |rewrite d_bits_val; exact Nz|rewrite d_bits_val; exact Zx].
  - rewrite !d_bits_sign, !sign_val by assumption. destruct (Rlt_or_le (val x) 0) as [N|N].
    + rewrite (Rlt_bool_true (val x)) by exact N. apply Rlt_bool_true. rewrite (Rabs_left (val x)) in Ez by exact N. apply Rabs_le_inv in Ez. lra.
    + rewrite (Rlt_bool_false (val x)) by exact N. apply Rlt_bool_false. rewrite (Rabs_pos_eq (val x)) in Ez by exact N. apply Rabs_le_inv in Ez. lra.
  - rewrite !d_bits_val. rewrite (near_six d (val z) G Zd), (near_six d (val x) G Zx'). reflexivity.
Qed.

Lemma given_back u x : usable u -> givable x -> six_digit x -> show_double (from_stored u (to_stored u x)) = show_double x.
Proof. intros U [[F Z]|M] S; [apply zero_back; assumption|apply six_back; assumption]. Qed.

(** The number shown can be read back: exactly the double given. *)
Lemma given_read x : givable x -> six_digit x -> read_float b64 (show_double x) = Some (d_bits x).
Proof.
  intros G S. assert (F : fin x = true) by (destruct G as [[F _]|M]; [exact F|apply (moderate_parts x M)]).
  unfold show_double. apply survives_iff; [exact std64|apply pattern64, d_bits_pattern|apply d_bits_finite, F|]. rewrite d_bits_val.
  destruct G as [[_ Z]|M].
  - unfold dval in Z. rewrite Z, decimal6_0, nearest_0. reflexivity.
  - destruct (six_digit_of x M S) as (d & Gd & V & D & E). rewrite (near_six d (val x) Gd); [exact V|].
    eapply Rle_lt_trans; [exact E|]. rewrite u53_eq. pose proof (Rabs_pos_lt d D). lra.
Qed.

(** ** The object *)

Lemma printed_text k l : Forall (fun q => usable (fst q) /\ givable (snd q) /\ six_digit (snd q)) l ->
  print_object (make_printable k l) = label k ++ join (separator k) (map (fun q => print_quantity (fst q) (snd q)) l) ++ closing k.
Proof.
  intros H. unfold print_object, make_printable. cbn [pr_kind pr_parts]. rewrite map_map. f_equal. f_equal. f_equal.
  apply map_ext_in. intros [u x] I. cbn [fst snd]. rewrite Forall_forall in H. destruct (H _ I) as (U & G & S). cbn [fst snd] in *.
  unfold print_quantity. rewrite given_back by assumption. reflexivity.
Qed.

(** ** What the text determines *)

Lemma shown_comma x : ~ In ","%char (show_double x).
Proof.
  intros H. apply show_chars in H; [|exact std64]. destruct H as [H|H].
  - destruct H as (d & D & E). revert E. destruct (digit_lt10_cases d D) as [->|[->|[->|[->|[->|[->|[->|[->|[->| ->]]]]]]]]]; discriminate.
  - cbn in H. intuition discriminate.
Qed.
Lemma shown_blank x : ~ In " "%char (show_double x).
Proof. intros H. apply show_chars in H; [|exact std64]. apply float_char_props in H. destruct H as (_ & _ & H). apply H. reflexivity. Qed.

Lemma quantity_comma u x : plain_symbol u -> ~ In ","%char (print_quantity u x).
Proof.
  intros P H. unfold print_quantity in H. apply in_app_or in H. destruct H as [H|H]; [exact (shown_comma x H)|].
  destruct H as [H|H]; [discriminate H|exact (P H)].
Qed.

Lemma quantity_inj u x u' x' : print_quantity u x = print_quantity u' x' -> show_double x = show_double x' /\ u_symbol u = u_symbol u'.
Proof. unfold print_quantity. change (lit " ") with [" "%char]. cbn [app]. apply cut_at; apply shown_blank. Qed.

(** Separators have exactly one comma, with nothing or a blank before it. *)
Lemma separator_split k : exists a b, separator k = a ++ ","%char :: b /\ ~ In ","%char a.
Proof. destruct k; [exists (lit " "), (lit " ")|exists (lit " "), (lit " ")|exists (lit " "), (lit " ")|exists [], (lit " Azimuth: ")|exists [], (lit " Galactic Longitude: ")|exists [], (lit " Ecliptic Longitude: ")|exists [], (lit " Declination: ")|exists [], (lit " Declination: ")];
  (split; [reflexivity|cbn; intuition discriminate]). Qed.

Lemma join_cons sep a b l : join sep (a :: b :: l) = a ++ sep ++ join sep (b :: l). Proof. reflexivity. Qed.

Lemma join_inj sep l l' : (exists a b, sep = a ++ ","%char :: b /\ ~ In ","%char a) -> length l = length l' ->
  Forall (fun s => ~ In ","%char s) l -> Forall (fun s => ~ In ","%char s) l' -> join sep l = join sep l' -> l = l'.
Proof.
  intros (a & b & -> & A). revert l'. induction l as [|x l IH]; intros [|y l'] L Hl Hl' E; try discriminate L; [reflexivity|].
  inversion Hl as [|? ? X Hr]; subst. inversion Hl' as [|? ? Y Hr']; subst. injection L as L.
  destruct l as [|x2 l]; destruct l' as [|y2 l']; try discriminate L; [cbn [join] in E; congruence|].
  rewrite (join_cons _ x x2 l), (join_cons _ y y2 l') in E.
  remember (join (a ++ ","%char :: b) (x2 :: l)) as r. remember (join (a ++ ","%char :: b) (y2 :: l')) as r'. rewrite <- !app_assoc in E. cbn [app] in E.
  rewrite (app_assoc x), (app_assoc y) in E. apply cut_at in E.
  - destruct E as [E1 E2]. apply app_inv_tail in E1. apply app_inv_head in E2. rewrite E1. f_equal. apply IH; [exact L|exact Hr|exact Hr'|first [exact E2|rewrite Heqr; exact E2|subst; exact E2]].
  - intros I. apply in_app_or in I. tauto.
  - intros I. apply in_app_or in I. tauto.
Qed.

Lemma label_inj k k' r r' : label k ++ r = label k' ++ r' -> k = k'.
Proof. destruct k, k'; intros E; try reflexivity; cbn in E; discriminate E. Qed.

Lemma print_inj p p' : well_formed p -> well_formed p' -> print_object p = print_object p' -> pr_kind p = pr_kind p' /\ shown p = shown p'.
Proof.
  intros [L W] [L' W'] E. unfold print_object in E. pose proof (label_inj _ _ _ _ E) as K. split; [exact K|].
  rewrite <- K in *. apply app_inv_head, app_inv_tail in E. apply join_inj in E.
  - unfold shown. revert E. generalize (pr_parts p'). generalize (pr_parts p). clear. induction l as [|[u x] l IH]; intros [|[u' x'] l'] E; try discriminate E; [reflexivity|].
    cbn [map] in *. injection E as E1 E2. apply quantity_inj in E1. destruct E1 as [A B]. cbn [fst snd] in *. rewrite A, B. f_equal. apply IH, E2.
  - apply separator_split.
  - rewrite !map_length. congruence.
  - apply Forall_map. revert W. apply Forall_impl. intros q. apply quantity_comma.
  - apply Forall_map. revert W'. apply Forall_impl. intros q. apply quantity_comma.
Qed.

(** The same text of two numbers: the same sign and the same six digits. *)
Lemma same_show x y : dfinite x -> dfinite y -> show_double x = show_double y -> dnegative x = dnegative y /\ decimal6 (dval x) = decimal6 (dval y).
Proof.
  intros X Y E. destruct (show_numeral b64 (d_bits x) std64) as (m & k & A & B); [apply d_bits_finite, X|].
  destruct (show_numeral b64 (d_bits y) std64) as (m' & k' & A' & B'); [apply d_bits_finite, Y|].
  unfold show_double in E. rewrite E in A. destruct (numeral_unique _ _ _ _ _ _ _ A A') as (N & -> & ->).
  rewrite d_bits_val in B, B'. rewrite !d_bits_sign in *. unfold dnegative, dval. split; [exact N|]. rewrite <- B, <- B', N. reflexivity.
Qed.
