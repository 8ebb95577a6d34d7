(** * Double arithmetic of Cartesian vectors: relative errors. *)
From Coq Require Import ZArith Reals Lia Lra Psatz.
From Flocq Require Import Core Relative Plus_error IEEE754.BinarySingleNaN IEEE754.Binary IEEE754.Bits.
From Verif Require Import TextModel TextSpec TextRound TextScan TextFloat TextProofs TextLaws TextRead TextCard DoubleModel DoubleSpec DoubleProofs DoubleUnits VectorModel VectorSpec.
Local Open Scope R_scope.

#[local] Instance prec53 : Prec_gt_0 53 := eq_refl.
#[local] Existing Instance near.

Lemma u53_pos : 0 < u53. Proof. apply bpow_gt_0. Qed.

(** ** Relative errors *)

(** [a] is [x] up to [c] roundings. *)
Definition rel (c a x : R) : Prop := Rabs (a - x) <= c * u53 * Rabs x.

Lemma rel_refl x : rel 0 x x.
Proof. unfold rel. rewrite Rminus_diag_eq, Rabs_R0 by reflexivity. lra. Qed.

Lemma rel_weaken c d a x : c <= d -> rel c a x -> rel d a x.
Proof. unfold rel. intros L H. pose proof (Rabs_pos x). pose proof u53_pos. eapply Rle_trans; [exact H|]. apply Rmult_le_compat_r; [lra|]. nra. Qed.

Lemma rel_zero c a : rel c a 0 -> a = 0.
Proof. unfold rel. rewrite Rabs_R0, Rmult_0_r, Rminus_0_r. intros H. destruct (Req_dec a 0) as [E|E]; [exact E|]. apply Rabs_pos_lt in E. lra. Qed.

Lemma rel_form c a x : 0 <= c -> rel c a x -> exists e, a = x * (1 + e) /\ Rabs e <= c * u53.
Proof.
  intros C H. destruct (Req_dec x 0) as [->|N].
  - exists 0. split; [rewrite (rel_zero _ _ H); ring|]. rewrite Rabs_R0. pose proof u53_pos. nra.
  - exists ((a - x) / x). split; [field; exact N|]. unfold Rdiv. rewrite Rabs_mult, Rabs_inv. unfold rel in H.
    apply (Rmult_le_reg_r (Rabs x)); [apply Rabs_pos_lt, N|]. rewrite Rmult_assoc, Rinv_l by (apply Rabs_no_R0, N). lra.
Qed.

Lemma form_rel c a x e : a = x * (1 + e) -> Rabs e <= c * u53 -> rel c a x.
Proof.
  intros -> H. unfold rel. replace (x * (1 + e) - x) with (e * x) by ring. rewrite Rabs_mult.
  apply Rmult_le_compat_r; [apply Rabs_pos|exact H].
Qed.

Lemma rel_abs c a x : 0 <= c <= 100 -> rel c a x -> Rabs x / 2 <= Rabs a <= 2 * Rabs x.
Proof.
  unfold rel. intros C H. rewrite u53_eq in H. pose proof (Rabs_pos x).
  pose proof (Rabs_triang (a - x) x) as T1. replace (a - x + x) with a in T1 by ring.
  pose proof (Rabs_triang (x - a) a) as T2. replace (x - a + a) with x in T2 by ring. rewrite (Rabs_minus_sym x a) in T2. nra.
Qed.

Lemma rel_mul c d a b x y : 0 <= c <= 100 -> 0 <= d <= 100 -> rel c a x -> rel d b y -> rel (c + d + / 1000000) (a * b) (x * y).
Proof.
  intros C D A B. destruct (rel_form _ _ _ (proj1 C) A) as (e & -> & E). destruct (rel_form _ _ _ (proj1 D) B) as (g & -> & G).
  apply (form_rel _ _ _ (e + g + e * g)); [ring|]. eapply Rle_trans; [apply Rabs_triang|]. rewrite Rabs_mult.
  pose proof (Rabs_triang e g). pose proof (Rabs_pos e). pose proof (Rabs_pos g). rewrite u53_eq in *.
  assert (Rabs e * Rabs g <= (100 * / 9007199254740992) * (100 * / 9007199254740992)) by (apply Rmult_le_compat; lra). lra.
Qed.

Lemma rel_add c a b x y : 0 <= x -> 0 <= y -> rel c a x -> rel c b y -> rel c (a + b) (x + y).
Proof.
  unfold rel. intros X Y A B. replace (a + b - (x + y)) with ((a - x) + (b - y)) by ring. eapply Rle_trans; [apply Rabs_triang|].
  rewrite (Rabs_pos_eq x) in A by exact X. rewrite (Rabs_pos_eq y) in B by exact Y. rewrite (Rabs_pos_eq (x + y)) by lra. lra.
Qed.

Lemma rel_round c a x : 0 <= c <= 100 -> rel c a x -> (a = 0 \/ bpow radix2 (-1022) <= Rabs a) -> rel (c + 1 + / 1000000) (rnd a) x.
Proof.
  intros C A S. assert (R : rel 1 (rnd a) a).
  { unfold rel. destruct S as [->|S]; [rewrite nearest_0, Rminus_0_r, Rabs_R0, Rmult_0_r; apply Rle_refl|]. rewrite Rmult_1_l. apply rnd_rel, S. }
  destruct (rel_form _ _ _ (proj1 C) A) as (e & E1 & E). destruct (rel_form 1 _ _ Rle_0_1 R) as (g & -> & G). subst a.
  apply (form_rel _ _ _ (e + g + e * g)); [ring|]. eapply Rle_trans; [apply Rabs_triang|]. rewrite Rabs_mult.
  pose proof (Rabs_triang e g). pose proof (Rabs_pos e). pose proof (Rabs_pos g). rewrite u53_eq in *.
  assert (Rabs e * Rabs g <= (100 * / 9007199254740992) * (1 * / 9007199254740992)) by (apply Rmult_le_compat; lra). lra.
Qed.

Lemma rel_div c d a b x y : 0 <= c <= 100 -> 0 <= d <= 100 -> y <> 0 -> rel c a x -> rel d b y -> b <> 0 /\ rel (c + d + / 1000000) (a / b) (x / y).
Proof.
  intros C D Y A B. destruct (rel_form _ _ _ (proj1 C) A) as (e & -> & E). destruct (rel_form _ _ _ (proj1 D) B) as (g & -> & G).
  rewrite u53_eq in E, G. apply Rabs_le_inv in G as G1. assert (P : 0 < 1 + g) by lra. split; [apply Rmult_integral_contrapositive; split; [exact Y|lra]|].
  apply (form_rel _ _ _ ((e - g) / (1 + g))); [field; split; lra|].
  unfold Rdiv. rewrite Rabs_mult, Rabs_inv, (Rabs_pos_eq (1 + g)) by lra.
  apply (Rmult_le_reg_r (1 + g)); [exact P|]. rewrite Rmult_assoc, Rinv_l, Rmult_1_r by lra. rewrite u53_eq.
  assert (Rabs (e - g) <= Rabs e + Rabs g) by (unfold Rminus; rewrite <- (Rabs_Ropp g); apply Rabs_triang).
  pose proof (Rabs_pos e). pose proof (Rabs_pos g).
  assert (0 <= c + d <= 200) by lra.
  assert (- ((c + d + / 1000000) * / 9007199254740992 * (100 * / 9007199254740992)) <= (c + d + / 1000000) * / 9007199254740992 * g) by nra.
  nra.
Qed.

Lemma rel_sqrt c a x : 0 <= c <= 100 -> 0 <= x -> rel c a x -> 0 <= a /\ rel (c / 2 + / 1000000) (sqrt a) (sqrt x).
Proof.
  intros C X A. destruct (rel_form _ _ _ (proj1 C) A) as (e & -> & E). rewrite u53_eq in E. apply Rabs_le_inv in E as E1.
  assert (P : 0 <= 1 + e) by lra. split; [apply Rmult_le_pos; lra|]. rewrite sqrt_mult by lra.
  apply (form_rel _ _ _ (sqrt (1 + e) - 1)); [ring|]. rewrite u53_eq.
  pose proof (sqrt_pos (1 + e)) as Q. pose proof (sqrt_sqrt (1 + e) P) as S.
  assert (L : 1 - 100 * / 9007199254740992 <= sqrt (1 + e)).
  { apply Rsqr_incr_0_var; [|exact Q]. unfold Rsqr. rewrite S. lra. }
  replace (sqrt (1 + e) - 1) with (e / (sqrt (1 + e) + 1)) by (apply (Rmult_eq_reg_r (sqrt (1 + e) + 1)); [field_simplify; [|lra]; replace (sqrt (1 + e) ^ 2) with (1 + e) by (rewrite <- S at 1; ring); ring|lra]).
  unfold Rdiv. rewrite Rabs_mult, Rabs_inv, (Rabs_pos_eq (sqrt (1 + e) + 1)) by lra.
  apply (Rmult_le_reg_r (sqrt (1 + e) + 1)); [lra|]. rewrite Rmult_assoc, Rinv_l, Rmult_1_r by lra. nra.
Qed.

(** ** Operations on numbers of known size *)

(** A double that is zero or between 2^-k and 2^k. *)
Definition sized (k : Z) (x : double) : Prop := fin x = true /\ (val x = 0 \/ bpow radix2 (- k) <= Rabs (val x) <= bpow radix2 k).

Lemma range_sized x : in_range x <-> sized 250 x. Proof. reflexivity. Qed.
Lemma sized_fin k x : sized k x -> fin x = true. Proof. intros [H _]. exact H. Qed.
Lemma sized_le k x : (0 <= k)%Z -> sized k x -> Rabs (val x) <= bpow radix2 k.
Proof. intros K [_ [->|H]]; [rewrite Rabs_R0; apply bpow_ge_0|apply H]. Qed.
Lemma sized_weaken k l x : (k <= l)%Z -> sized k x -> sized l x.
Proof.
  intros L [F [H|[H1 H2]]]; (split; [exact F|]); [left; exact H|right]. split; (eapply Rle_trans; [|eassumption || (apply bpow_le; exact L)]); [apply bpow_le; lia|exact H2].
Qed.

Lemma pow_fmt k : (-1074 <= k)%Z -> fmt (bpow radix2 k).
Proof. intros K. replace (bpow radix2 k) with (IZR 1 * bpow radix2 k) by (cbn; ring). apply fmt_intro; lia. Qed.

Lemma rnd_bound_low y k : (-1074 <= k)%Z -> bpow radix2 k <= Rabs y -> bpow radix2 k <= Rabs (rnd y).
Proof. intros K H. apply abs_round_ge_generic; [typeclasses eauto|typeclasses eauto|apply pow_fmt, K|exact H]. Qed.

Lemma fits k y : (k < 1024)%Z -> Rabs y <= bpow radix2 k -> Rabs y < bpow radix2 1024.
Proof. intros K H. eapply Rle_lt_trans; [exact H|]. apply bpow_lt, K. Qed.

Lemma mul_sized k l x y : (0 <= k)%Z -> (0 <= l)%Z -> (k + l <= 1020)%Z -> sized k x -> sized l y ->
  sized (k + l) (d_mul x y) /\ val (d_mul x y) = rnd (val x * val y) /\ rel 1 (val (d_mul x y)) (val x * val y).
Proof.
  intros K L M X Y. pose proof (sized_le _ _ K X) as X1. pose proof (sized_le _ _ L Y) as Y1.
  assert (U : Rabs (rnd (val x * val y)) <= bpow radix2 (k + l)).
  { apply rnd_bound; [lia|]. rewrite Rabs_mult, bpow_plus. apply Rmult_le_compat; auto using Rabs_pos. }
  destruct (mul_ok x y (sized_fin _ _ X) (sized_fin _ _ Y)) as [F V]; [apply (fits (k + l)); [lia|exact U]|].
  assert (S : val x * val y = 0 \/ bpow radix2 (- (k + l)) <= Rabs (val x * val y)).
  { destruct X as [_ [X|X]]; [left; rewrite X; ring|]. destruct Y as [_ [Y|Y]]; [left; rewrite Y; ring|]. right.
    rewrite Rabs_mult, Z.opp_add_distr, bpow_plus. apply Rmult_le_compat; try apply bpow_ge_0; [apply X|apply Y]. }
  split; [|split; [exact V|]].
  - split; [exact F|]. rewrite V. destruct S as [S|S]; [left; rewrite S; apply nearest_0|right]. split; [|exact U]. apply rnd_bound_low; [lia|exact S].
  - rewrite V. unfold rel. rewrite Rmult_1_l. destruct S as [S|S]; [rewrite S, nearest_0, Rminus_0_r, Rabs_R0, Rmult_0_r; apply Rle_refl|].
    apply rnd_rel. eapply Rle_trans; [|exact S]. apply bpow_le. lia.
Qed.

Lemma add_exact_small x y : Rabs (val x + val y) <= bpow radix2 (-1022) -> rnd (val x + val y) = val x + val y.
Proof.
  intros H. apply rnd_id. apply (FLT_format_plus_small radix2 (-1074) 53); [apply val_fmt|apply val_fmt|].
  eapply Rle_trans; [exact H|]. apply bpow_le. lia.
Qed.

(** Sums have a relative error, whatever the size. *)
Lemma add_rel x y : rel 1 (rnd (val x + val y)) (val x + val y).
Proof.
  unfold rel. rewrite Rmult_1_l. destruct (Rle_dec (Rabs (val x + val y)) (bpow radix2 (-1022))) as [L|L].
  - rewrite add_exact_small by exact L. rewrite Rminus_diag_eq, Rabs_R0 by reflexivity. apply Rmult_le_pos; [left; apply u53_pos|apply Rabs_pos].
  - apply rnd_rel. lra.
Qed.

Lemma add_bounded k x y : (0 <= k < 1020)%Z -> fin x = true -> fin y = true -> Rabs (val x) <= bpow radix2 k -> Rabs (val y) <= bpow radix2 k ->
  fin (d_add x y) = true /\ val (d_add x y) = rnd (val x + val y) /\ Rabs (val (d_add x y)) <= bpow radix2 (k + 1).
Proof.
  intros K X Y Bx By. assert (U : Rabs (rnd (val x + val y)) <= bpow radix2 (k + 1)).
  { apply rnd_bound; [lia|]. eapply Rle_trans; [apply Rabs_triang|]. rewrite bpow_double. lra. }
  destruct (add_ok x y X Y) as [F V]; [apply (fits (k + 1)); [lia|exact U]|]. split; [exact F|]. split; [exact V|]. rewrite V. exact U.
Qed.

Lemma sub_bounded k x y : (0 <= k < 1020)%Z -> fin x = true -> fin y = true -> Rabs (val x) <= bpow radix2 k -> Rabs (val y) <= bpow radix2 k ->
  fin (d_sub x y) = true /\ val (d_sub x y) = rnd (val x - val y) /\ Rabs (val (d_sub x y)) <= bpow radix2 (k + 1).
Proof.
  intros K X Y Bx By. assert (U : Rabs (rnd (val x - val y)) <= bpow radix2 (k + 1)).
  { apply rnd_bound; [lia|]. unfold Rminus. eapply Rle_trans; [apply Rabs_triang|]. rewrite Rabs_Ropp, bpow_double. lra. }
  destruct (sub_ok x y X Y) as [F V]; [apply (fits (k + 1)); [lia|exact U]|]. split; [exact F|]. split; [exact V|]. rewrite V. exact U.
Qed.

Lemma sub_rel x y : rel 1 (rnd (val x - val y)) (val x - val y).
Proof.
  unfold rel. rewrite Rmult_1_l. destruct (Rle_dec (Rabs (val x - val y)) (bpow radix2 (-1022))) as [L|L].
  - rewrite rnd_id; [rewrite Rminus_diag_eq, Rabs_R0 by reflexivity; apply Rmult_le_pos; [left; apply u53_pos|apply Rabs_pos]|].
    unfold Rminus. apply (FLT_format_plus_small radix2 (-1074) 53); [apply val_fmt|apply generic_format_opp, val_fmt|].
    eapply Rle_trans; [exact L|]. apply bpow_le. lia.
  - apply rnd_rel. lra.
Qed.

Lemma sqrt_ok x : fin x = true -> 0 <= val x -> fin (d_sqrt x) = true /\ val (d_sqrt x) = rnd (sqrt (val x)).
Proof.
  intros X P. unfold d_sqrt, b64_sqrt.
  match goal with |- context [Bsqrt _ _ ?a ?b ?n ?m x] => pose proof (Bsqrt_correct 53 1024 a b n m x) as C end.
  destruct C as (C1 & C2 & _). split; [|exact C1]. rewrite C2. destruct x as [s|s|s pl H|s m e H]; try discriminate; try reflexivity.
  destruct s; [|reflexivity]. exfalso. unfold B2R in P. assert (N : F2R (Float radix2 (cond_Zopp true (Z.pos m)) e) < 0) by (apply F2R_lt_0; reflexivity). lra.
Qed.

(** Casts. *)
Lemma cast_sized f x : VectorSpec.cast_ok f -> in_range x -> sized 500 (cast f x) /\ rel 1 (val (cast f x)) (val x * ratio f).
Proof.
  intros F X. apply range_sized in X. destruct f as [c|]; cbn [cast ratio].
  - destruct F as [Fc Bc]. unfold dfinite, dval in *. assert (C : sized 250 c).
    { split; [exact Fc|]. right. rewrite Rabs_pos_eq; [exact Bc|]. pose proof (bpow_gt_0 radix2 (-250)). lra. }
    destruct (mul_sized 250 250 x c ltac:(lia) ltac:(lia) ltac:(lia) X C) as (S & _ & R). split; [exact S|exact R].
  - split; [apply (sized_weaken 250); [lia|exact X]|]. rewrite Rmult_1_r. apply (rel_weaken 0); [lra|apply rel_refl].
Qed.
