(** * Mean and standard deviation of doubles. *)
From Coq Require Import ZArith NArith Reals List Lia Lra Psatz Permutation ZifyBool ZifyN ZifyNat.
From Flocq Require Import Core Relative IEEE754.BinarySingleNaN IEEE754.Binary IEEE754.Bits.
From Verif Require Import TextModel TextSpec TextRound TextScan TextFloat TextProofs TextLaws TextRead TextCard DoubleModel DoubleSpec DoubleProofs DoubleUnits VectorModel VectorSpec VectorProofs VectorArith PixelModel PixelSpec PixelProofs PixelSums.
Import ListNotations.
Local Open Scope R_scope.

#[local] Instance prec53 : Prec_gt_0 53 := eq_refl.
#[local] Existing Instance near.

Definition tame (x : double) : Prop := fin x = true /\ Rabs (val x) <= bpow radix2 400 /\ on_grid (-333) (val x).

Lemma tame_bounded l : Forall tame l -> Forall (fun x => fin x = true /\ Rabs (val x) <= bpow radix2 400) l.
Proof. intros A. eapply Forall_impl; [|exact A]. intros x (F & B & _). auto. Qed.
Lemma tame_grid l : Forall tame l -> Forall (fun x => on_grid (-333) (val x)) l.
Proof. intros A. eapply Forall_impl; [|exact A]. intros x (_ & _ & G). exact G. Qed.

Lemma count_ok n : (Z.of_nat n < 2 ^ 53)%Z -> fin (count_d n) = true /\ val (count_d n) = INR n.
Proof. intros H. unfold count_d. destruct (small_int_ok (Z.of_nat n) ltac:(lia)) as [F V]. rewrite INR_IZR_INZ. auto. Qed.

Lemma count_pos n : (1 <= n)%nat -> 1 <= INR n. Proof. intros H. apply (le_INR 1), H. Qed.
Lemma count_below n : (Z.of_nat n < 2 ^ 53)%Z -> INR n <= bpow radix2 53.
Proof. intros H. rewrite INR_IZR_INZ. change (bpow radix2 53) with (IZR (2 ^ 53)). apply IZR_le. lia. Qed.

(** Dividing what is not too small by a count. *)
Lemma div_low k x n : (1 <= n)%nat -> (Z.of_nat n < 2 ^ 53)%Z -> bpow radix2 k <= Rabs x -> bpow radix2 (k - 53) <= Rabs (x / INR n).
Proof.
  intros N L H. pose proof (count_pos n N) as P. pose proof (count_below n L) as Q. unfold Rdiv. rewrite Rabs_mult, (Rabs_pos_eq (/ INR n)) by (left; apply Rinv_0_lt_compat; lra).
  unfold Zminus. rewrite bpow_plus. apply Rmult_le_compat; [apply bpow_ge_0|apply bpow_ge_0|exact H|]. rewrite bpow_opp. apply Rinv_le; lra.
Qed.
Lemma div_size x n : (1 <= n)%nat -> Rabs (x / INR n) = Rabs x / INR n.
Proof. intros N. pose proof (count_pos n N) as P. unfold Rdiv. rewrite Rabs_mult, (Rabs_pos_eq (/ INR n)); [reflexivity|left; apply Rinv_0_lt_compat; lra]. Qed.

(** ** Mean *)
Lemma mean_step K l : (-1074 <= K <= 900)%Z -> l <> [] -> Forall (fun x => fin x = true /\ Rabs (val x) <= bpow radix2 K) l -> (Z.of_nat (length l) < 2 ^ 53)%Z ->
  fin (mean_doubles l) = true /\ val (mean_doubles l) = rnd (val (accumulate_d l) / INR (length l)) /\ Rabs (val (mean_doubles l)) <= bpow radix2 K.
Proof.
  intros HK N A L. destruct (sum_error K l HK N A L) as (F & B & _). destruct (count_ok _ L) as [_ C].
  assert (N1 : (1 <= length l)%nat) by (destruct l; [contradiction|cbn; lia]). pose proof (count_pos _ N1) as P.
  assert (Q : Rabs (rnd (val (accumulate_d l) / INR (length l))) <= bpow radix2 K).
  { apply rnd_bound; [lia|]. rewrite div_size by exact N1. apply (Rmult_le_reg_r (INR (length l))); [lra|]. unfold Rdiv. rewrite Rmult_assoc, Rinv_l, Rmult_1_r by lra. lra. }
  assert (E : mean_doubles l = d_div (accumulate_d l) (count_d (length l))) by (destruct l; [contradiction|reflexivity]). rewrite E.
  destruct (div_ok (accumulate_d l) (count_d (length l)) F) as [G V]; [rewrite C; lra|rewrite C; apply (fits K); [lia|exact Q]|]. rewrite C in V.
  split; [exact G|]. split; [exact V|]. rewrite V. exact Q.
Qed.

(** The division of the sum [s] of [n] numbers of sizes [a] in all. *)
Lemma quotient_error s t a n e : (1 <= n)%nat -> Rabs t <= a -> Rabs (s - t) <= ((1 + u53) ^ (n - 1) - 1) * a -> 0 <= e ->
  Rabs (rnd (s / INR n) - s / INR n) <= u53 * Rabs (s / INR n) + e -> Rabs (rnd (s / INR n) - t / INR n) <= ((1 + u53) ^ n - 1) * (a / INR n) + e.
Proof.
  intros N T E E0 R. pose proof (count_pos n N) as P. pose proof u53_pos as U. assert (I : 0 < / INR n) by (apply Rinv_0_lt_compat; lra).
  replace ((1 + u53) ^ n) with ((1 + u53) * (1 + u53) ^ (n - 1)) by (rewrite (tech_pow_Rmult (1 + u53) (n - 1)); f_equal; lia).
  rewrite div_size in R by exact N. set (w := (1 + u53) ^ (n - 1)) in *. unfold Rdiv in *. set (i := / INR n) in *.
  replace (rnd (s * i) - t * i) with ((rnd (s * i) - s * i) + (s - t) * i) by ring. eapply Rle_trans; [apply Rabs_triang|]. rewrite (Rabs_mult (s - t)), (Rabs_pos_eq i) by lra.
  assert (B : Rabs s <= w * a). { replace s with ((s - t) + t) by ring. eapply Rle_trans; [apply Rabs_triang|]. lra. }
  assert (B1 : Rabs s * i <= w * a * i) by (apply Rmult_le_compat_r; lra).
  assert (B2 : Rabs (s - t) * i <= (w - 1) * a * i) by (apply Rmult_le_compat_r; lra).
  assert (B3 : u53 * (Rabs s * i) <= u53 * (w * a * i)) by (apply Rmult_le_compat_l; lra). lra.
Qed.

Theorem mean_error K l : (-1074 <= K <= 900)%Z -> l <> [] -> Forall (fun x => fin x = true /\ Rabs (val x) <= bpow radix2 K) l -> (Z.of_nat (length l) < 2 ^ 53)%Z ->
  Rabs (val (mean_doubles l) - true_mean (vals l)) <= ((1 + u53) ^ length l - 1) * (total_size (vals l) / INR (length l)) + t1075.
Proof.
  intros HK N A L. destruct (mean_step K l HK N A L) as (_ & V & _). destruct (sum_error K l HK N A L) as (_ & _ & E). rewrite V. unfold true_mean. rewrite map_length.
  apply quotient_error; [destruct l; [contradiction|cbn; lia]|apply total_abs|exact E|unfold t1075; apply bpow_ge_0|apply rnd_err].
Qed.

Lemma mean_low l : l <> [] -> Forall tame l -> (Z.of_nat (length l) < 2 ^ 53)%Z -> val (accumulate_d l) = 0 \/ bpow radix2 (-386) <= Rabs (val (accumulate_d l) / INR (length l)).
Proof.
  intros N A L. pose proof (sum_grid 400 (-333) l ltac:(lia) ltac:(lia) (tame_bounded l A) (tame_grid l A) L) as G. destruct (grid_low _ _ G) as [Z|B]; [left; exact Z|right].
  apply (div_low (-333)); [destruct l; [contradiction|cbn; lia]|exact L|exact B].
Qed.

Theorem tame_mean l : l <> [] -> Forall tame l -> (Z.of_nat (length l) < 2 ^ 53)%Z ->
  fin (mean_doubles l) = true /\ Rabs (val (mean_doubles l) - true_mean (vals l)) <= ((1 + u53) ^ length l - 1) * (total_size (vals l) / INR (length l)).
Proof.
  intros N A L. destruct (mean_step 400 l ltac:(lia) N (tame_bounded l A) L) as (F & V & _). split; [exact F|].
  destruct (sum_error 400 l ltac:(lia) N (tame_bounded l A) L) as (_ & _ & E). rewrite V. unfold true_mean. rewrite map_length.
  pose proof (quotient_error (val (accumulate_d l)) (total (vals l)) (total_size (vals l)) (length l) 0 ltac:(destruct l; [contradiction|cbn; lia]) (total_abs _) E (Rle_refl 0)) as Q.
  rewrite !Rplus_0_r in Q. apply Q. destruct (mean_low l N A L) as [Z|B].
  - rewrite Z. unfold Rdiv. rewrite Rmult_0_l, rnd_id by apply generic_format_0. rewrite Rminus_0_r, Rabs_R0. lra.
  - apply rnd_rel. eapply Rle_trans; [|exact B]. apply bpow_le. lia.
Qed.

(** ** Standard deviation *)

Lemma mean_grid l : l <> [] -> Forall tame l -> (Z.of_nat (length l) < 2 ^ 53)%Z -> on_grid (-439) (val (mean_doubles l)).
Proof.
  intros N A L. destruct (mean_step 400 l ltac:(lia) N (tame_bounded l A) L) as (_ & V & _). apply (fmt_grid (-386)); [lia|apply val_fmt|]. rewrite V. destruct (mean_low l N A L) as [Z|B].
  - left. rewrite Z. unfold Rdiv. rewrite Rmult_0_l. apply rnd_id, generic_format_0.
  - right. apply rnd_bound_low; [lia|exact B].
Qed.

Lemma near_square j a t : 0 <= t -> 0 <= a -> near_pos j a t -> near_pos (j + j) (a * a) (t * t).
Proof.
  intros T A [L U]. pose proof (low_pow_pos j) as P. pose proof (pow_ge_1 j) as Q. split; rewrite pow_add.
  - replace ((1 - u53) ^ j * (1 - u53) ^ j * (t * t)) with (((1 - u53) ^ j * t) * ((1 - u53) ^ j * t)) by ring. apply Rmult_le_compat; try exact L; apply Rmult_le_pos; lra.
  - replace ((1 + u53) ^ j * (1 + u53) ^ j * (t * t)) with (((1 + u53) ^ j * t) * ((1 + u53) ^ j * t)) by ring. apply Rmult_le_compat; lra.
Qed.

Lemma near_refl t : near_pos 0 t t. Proof. split; cbn [pow]; lra. Qed.

Lemma abs_round y b : Rabs (b - y) <= u53 * Rabs y -> near_pos 1 (Rabs b) (Rabs y).
Proof.
  intros H. apply (near_round 0 (Rabs y)); [apply Rabs_pos|apply near_refl|]. rewrite (Rabs_pos_eq (Rabs y)) by apply Rabs_pos.
  eapply Rle_trans; [|exact H]. apply Rabs_triang_inv2.
Qed.
Lemma abs_square y : Rabs y * Rabs y = y * y. Proof. rewrite <- Rabs_mult. apply Rabs_pos_eq. exact (Rle_0_sqr _). Qed.

Lemma square_of_diff x a : tame x -> fin a = true -> Rabs (val a) <= bpow radix2 400 -> on_grid (-439) (val a) ->
  let q := d_mul (d_sub x a) (d_sub x a) in
  fin q = true /\ Rabs (val q) <= bpow radix2 802 /\ on_grid (-931) (val q) /\ near_pos 3 (val q) ((val x - val a) * (val x - val a)).
Proof.
  intros (X & Bx & Gx) A Ba Ga. cbv zeta.
  assert (B : Rabs (val x - val a) <= bpow radix2 401).
  { replace (bpow radix2 401) with (bpow radix2 400 + bpow radix2 400) by (change 401%Z with (400 + 1)%Z; rewrite (bpow_plus radix2 400 1); change (bpow radix2 1) with 2; ring).
    unfold Rminus. eapply Rle_trans; [apply Rabs_triang|]. rewrite Rabs_Ropp. lra. }
  pose proof (rnd_bound _ 401 ltac:(lia) B) as B'. destruct (sub_ok x a X A) as [F V]; [apply (fits 401); [lia|exact B']|].
  assert (G : on_grid (-439) (val (d_sub x a))) by (rewrite V; apply grid_rnd; [lia|]; apply grid_sub; [apply (grid_finer (-333)); [lia|exact Gx]|exact Ga]).
  pose proof (sub_rel x a) as R. unfold rel in R. rewrite Rmult_1_l in R. apply abs_round in R. rewrite <- V in R, B'. set (d := d_sub x a) in *.
  apply near_square in R; [|apply Rabs_pos|apply Rabs_pos]. rewrite !abs_square in R. cbn [Nat.add] in R.
  assert (B2 : Rabs (val d * val d) <= bpow radix2 802).
  { change 802%Z with (401 + 401)%Z. rewrite Rabs_mult, bpow_plus. apply Rmult_le_compat; try apply Rabs_pos; exact B'. }
  pose proof (rnd_bound _ 802 ltac:(lia) B2) as B2'. destruct (mul_ok d d F F) as [H W]; [apply (fits 802); [lia|exact B2']|].
  assert (LOW : val d * val d = 0 \/ bpow radix2 (-878) <= Rabs (val d * val d)).
  { destruct (grid_low _ _ G) as [->|Lo]; [left; ring|right]. rewrite Rabs_mult. change (-878)%Z with (-439 + -439)%Z. rewrite bpow_plus. apply Rmult_le_compat; try apply bpow_ge_0; exact Lo. }
  split; [exact H|]. split; [rewrite W; exact B2'|]. split.
  - apply (fmt_grid (-878)); [lia|apply val_fmt|]. rewrite W. destruct LOW as [E|Lo]; [left; rewrite E; apply rnd_id, generic_format_0|right; apply rnd_bound_low; [lia|exact Lo]].
  - rewrite W. apply (near_round 2 (val d * val d)); [exact (Rle_0_sqr _)|exact R|]. destruct LOW as [E|Lo].
    + rewrite E, rnd_id by apply generic_format_0. rewrite Rminus_0_r, Rabs_R0. lra.
    + apply rnd_rel. eapply Rle_trans; [|exact Lo]. apply bpow_le. lia.
Qed.

Lemma std_dev_unfold l : l <> [] ->
  std_dev_doubles l = d_sqrt (d_div (accumulate_d (map (fun v => d_mul (d_sub v (mean_doubles l)) (d_sub v (mean_doubles l))) l)) (count_d (length l - 1))).
Proof. intros N. destruct l as [|x l]; [contradiction|]. unfold std_dev_doubles. rewrite map_map. reflexivity. Qed.

Lemma squares_pos a l : 0 <= squares_about a l.
Proof. unfold squares_about. induction l as [|x l IH]; [cbn; lra|]. cbn [map]. rewrite total_cons. pose proof (Rle_0_sqr (x - a)) as H. unfold Rsqr in H. lra. Qed.

Theorem tame_std_dev l : (2 <= length l)%nat -> Forall tame l -> (Z.of_nat (length l) < 2 ^ 53)%Z ->
  let a := val (mean_doubles l) in let v := squares_about a (vals l) / INR (length l - 1) in let s := val (std_dev_doubles l) in
  fin (std_dev_doubles l) = true /\ 0 <= s /\ near_pos (length l + 5) (s * s) v.
Proof.
  intros N2 A L. assert (N : l <> []) by (destruct l; [cbn in N2; lia|discriminate]). cbv zeta. rewrite (std_dev_unfold l N).
  destruct (mean_step 400 l ltac:(lia) N (tame_bounded l A) L) as (Fa & _ & Ba). pose proof (mean_grid l N A L) as Ga. set (a := mean_doubles l) in *. clearbody a.
  set (q := map (fun v => d_mul (d_sub v a) (d_sub v a)) l). assert (Lq : length q = length l) by apply map_length.
  assert (Q : Forall (fun y => fin y = true /\ Rabs (val y) <= bpow radix2 802 /\ on_grid (-931) (val y)) q).
  { apply Forall_map. eapply Forall_impl; [|exact A]. intros x T. destruct (square_of_diff x a T Fa Ba Ga) as (F & B & G & _). auto. }
  assert (Q2 : Forall2 (fun y t => fin y = true /\ Rabs (val y) <= bpow radix2 802 /\ 0 <= t /\ near_pos 3 (val y) t) q (map (fun x => (x - val a) * (x - val a)) (vals l))).
  { unfold q. rewrite map_map. clear - A Fa Ba Ga. induction A as [|x l T A IH]; constructor; [|exact IH]. destruct (square_of_diff x a T Fa Ba Ga) as (F & B & _ & M). split; [exact F|]. split; [exact B|]. split; [exact (Rle_0_sqr _)|exact M]. }
  assert (Nq : q <> []) by (intros E; rewrite E in Lq; destruct l; [contradiction|discriminate]).
  assert (Qb : Forall (fun y => fin y = true /\ Rabs (val y) <= bpow radix2 802) q) by (eapply Forall_impl; [|exact Q]; intros y (F & B & _); auto).
  assert (Qg : Forall (fun y => on_grid (-931) (val y)) q) by (eapply Forall_impl; [|exact Q]; intros y (_ & _ & G); exact G).
  rewrite <- Lq in L. destruct (sum_error 802 q ltac:(lia) Nq Qb L) as (F & B & _). pose proof (sum_grid 802 (-931) q ltac:(lia) ltac:(lia) Qb Qg L) as G.
  pose proof (sum_near 802 3 q _ ltac:(lia) Nq Q2 L) as M. fold (squares_about (val a) (vals l)) in M. pose proof (squares_pos (val a) (vals l)) as P.
  assert (B0 : Rabs (val (accumulate_d q)) <= INR (length l) * bpow radix2 802) by (rewrite <- Lq; exact B).
  assert (M0 : near_pos (3 + length l - 1) (val (accumulate_d q)) (squares_about (val a) (vals l))) by (rewrite <- Lq; exact M).
  assert (L0 : (Z.of_nat (length l) < 2 ^ 53)%Z) by (rewrite <- Lq; exact L). clear B M L. rename B0 into B, M0 into M, L0 into L. set (S := accumulate_d q) in *. clearbody S.
  set (t := squares_about (val a) (vals l)) in *. clearbody t. clear q Lq Q Q2 Nq Qb Qg. pose proof (near_pos_pos _ _ _ P M) as PS.
  set (n := length l) in *. assert (N1 : (1 <= n - 1)%nat) by lia. assert (L1 : (Z.of_nat (n - 1) < 2 ^ 53)%Z) by lia. destruct (count_ok _ L1) as [_ C]. pose proof (count_pos _ N1) as P1.
  assert (I : 0 < / INR (n - 1)) by (apply Rinv_0_lt_compat; lra).
  assert (B1 : Rabs (val S / INR (n - 1)) <= bpow radix2 855).
  { rewrite div_size by exact N1. apply (Rmult_le_reg_r (INR (n - 1))); [lra|]. unfold Rdiv. rewrite Rmult_assoc, Rinv_l, Rmult_1_r by lra. eapply Rle_trans; [exact B|].
    apply Rle_trans with (bpow radix2 855 * 1); [|apply Rmult_le_compat_l; [apply bpow_ge_0|exact P1]]. rewrite Rmult_1_r. change 855%Z with (53 + 802)%Z. rewrite bpow_plus.
    apply Rmult_le_compat_r; [apply bpow_ge_0|]. apply count_below. lia. }
  pose proof (rnd_bound _ 855 ltac:(lia) B1) as B1'. destruct (div_ok S (count_d (n - 1)) F) as [F2 V2]; [rewrite C; lra|rewrite C; apply (fits 855); [lia|exact B1']|]. rewrite C in V2.
  assert (LOW : val S / INR (n - 1) = 0 \/ bpow radix2 (-984) <= Rabs (val S / INR (n - 1))).
  { destruct (grid_low _ _ G) as [->|Lo]; [left; unfold Rdiv; ring|right]. apply (div_low (-931)); assumption. }
  assert (M1 : near_pos (n + 2) (val S / INR (n - 1)) (t / INR (n - 1))).
  { replace (3 + n - 1)%nat with (n + 2)%nat in M by lia. destruct M as [ML MU]. unfold Rdiv. split; rewrite <- Rmult_assoc; apply Rmult_le_compat_r; lra. }
  assert (T1 : 0 <= t / INR (n - 1)) by (apply Rmult_le_pos; lra).
  assert (M2 : near_pos (n + 3) (val (d_div S (count_d (n - 1)))) (t / INR (n - 1))).
  { rewrite V2. replace (n + 3)%nat with (Datatypes.S (n + 2)) by lia. apply (near_round (n + 2) (val S / INR (n - 1))); [exact T1|exact M1|]. destruct LOW as [E|Lo].
    - rewrite E, rnd_id by apply generic_format_0. rewrite Rminus_0_r, Rabs_R0. lra.
    - apply rnd_rel. eapply Rle_trans; [|exact Lo]. apply bpow_le. lia. }
  assert (LOW2 : val (d_div S (count_d (n - 1))) = 0 \/ bpow radix2 (-984) <= Rabs (val (d_div S (count_d (n - 1))))).
  { rewrite V2. destruct LOW as [E|Lo]; [left; rewrite E; apply rnd_id, generic_format_0|right; apply rnd_bound_low; [lia|exact Lo]]. }
  pose proof (near_pos_pos _ _ _ T1 M2) as P2. set (w := d_div S (count_d (n - 1))) in *. clearbody w. destruct (sqrt_ok w F2 P2) as [F3 V3]. split; [exact F3|].
  assert (R : Rabs (rnd (sqrt (val w)) - sqrt (val w)) <= u53 * Rabs (sqrt (val w))).
  { destruct LOW2 as [E|Lo]; [rewrite E, sqrt_0, rnd_id by apply generic_format_0; rewrite Rminus_0_r, Rabs_R0; lra|]. apply rnd_rel. rewrite Rabs_pos_eq by apply sqrt_pos. rewrite Rabs_pos_eq in Lo by exact P2.
    apply Rle_trans with (sqrt (bpow radix2 (-984))); [|apply sqrt_le_1_alt; exact Lo]. replace (bpow radix2 (-984)) with (bpow radix2 (-492) * bpow radix2 (-492)) by (rewrite <- bpow_plus; reflexivity).
    rewrite R_sqrt.sqrt_square by apply bpow_ge_0. apply bpow_le. lia. }
  assert (Ps : 0 <= val (d_sqrt w)). { rewrite V3. rewrite <- (rnd_id 0) by apply generic_format_0. apply round_le; [typeclasses eauto|typeclasses eauto|apply sqrt_pos]. }
  split; [exact Ps|]. pose proof (near_round 0 (sqrt (val w)) _ _ (sqrt_pos _) (near_refl _) R) as NS. rewrite <- V3 in NS. apply near_square in NS; [|apply sqrt_pos|exact Ps]. rewrite sqrt_sqrt in NS by exact P2.
  destruct NS as [NL NU]. destruct M2 as [ML MU]. cbn [Nat.add] in *. replace (n + 5)%nat with (2 + (n + 3))%nat by lia. pose proof u53_lt1 as U. split; rewrite pow_add, Rmult_assoc.
  - eapply Rle_trans; [|exact NL]. apply Rmult_le_compat_l; [left; apply low_pow_pos|exact ML].
  - eapply Rle_trans; [exact NU|]. apply Rmult_le_compat_l; [pose proof (pow_ge_1 2); lra|exact MU].
Qed.
