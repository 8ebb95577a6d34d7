(** * Sums of doubles, one after the other. *)
From Coq Require Import ZArith NArith Reals List Lia Lra Psatz Permutation ZifyBool ZifyN ZifyNat.
From Flocq Require Import Core Relative IEEE754.BinarySingleNaN IEEE754.Binary IEEE754.Bits.
From Verif Require Import TextModel TextSpec TextRound TextScan TextFloat TextProofs TextLaws TextRead TextCard DoubleModel DoubleSpec DoubleProofs DoubleUnits VectorModel VectorSpec VectorProofs VectorArith PixelModel PixelSpec PixelProofs.
Import ListNotations.
Local Open Scope R_scope.

#[local] Instance prec53 : Prec_gt_0 53 := eq_refl.
#[local] Existing Instance near.

Notation vals := (map (B2R 53 1024)).

Lemma total_size_pos l : 0 <= total_size l.
Proof. induction l as [|x l IH]; [cbn; lra|]. change (total_size (x :: l)) with (Rabs x + total_size l). pose proof (Rabs_pos x). lra. Qed.
Lemma total_size_cons x l : total_size (x :: l) = Rabs x + total_size l. Proof. reflexivity. Qed.
Lemma total_cons x l : total (x :: l) = x + total l. Proof. reflexivity. Qed.
Lemma total_abs l : Rabs (total l) <= total_size l.
Proof. induction l as [|x l IH]; [cbn; rewrite Rabs_R0; lra|]. rewrite total_cons, total_size_cons. pose proof (Rabs_triang x (total l)). lra. Qed.

(** ** No overflow *)

Lemma multiple_bound K m y : (-1074 <= K)%Z -> (0 <= m < 2 ^ 53)%Z -> Rabs y <= IZR m * bpow radix2 K -> Rabs (rnd y) <= IZR m * bpow radix2 K.
Proof. intros HK M H. apply abs_round_le_generic; [typeclasses eauto|typeclasses eauto|apply fmt_intro; lia|exact H]. Qed.

Lemma multiple_fits K m : (K <= 900)%Z -> (0 <= m < 2 ^ 53)%Z -> IZR m * bpow radix2 K < bpow radix2 1024.
Proof.
  intros HK M. apply Rlt_le_trans with (bpow radix2 (53 + K)); [|apply bpow_le; lia]. rewrite bpow_plus. apply Rmult_lt_compat_r; [apply bpow_gt_0|].
  change (bpow radix2 53) with (IZR (2 ^ 53)). apply IZR_lt. lia.
Qed.

(** One addition. *)
Lemma add_step K m s x : (-1074 <= K <= 900)%Z -> (0 <= m)%Z -> (m + 1 < 2 ^ 53)%Z -> fin s = true -> fin x = true ->
  Rabs (val s) <= IZR m * bpow radix2 K -> Rabs (val x) <= bpow radix2 K ->
  fin (d_add s x) = true /\ val (d_add s x) = rnd (val s + val x) /\ Rabs (val (d_add s x)) <= IZR (m + 1) * bpow radix2 K.
Proof.
  intros HK M0 M S X Bs Bx. assert (B : Rabs (val s + val x) <= IZR (m + 1) * bpow radix2 K).
  { rewrite plus_IZR. pose proof (Rabs_triang (val s) (val x)). lra. }
  apply multiple_bound in B; [|lia|lia]. destruct (add_ok s x S X) as [F V].
  - eapply Rle_lt_trans; [exact B|]. apply multiple_fits; lia.
  - split; [exact F|]. split; [exact V|]. rewrite V. exact B.
Qed.

Lemma fold_bound K l : (-1074 <= K <= 900)%Z -> Forall (fun x => fin x = true /\ Rabs (val x) <= bpow radix2 K) l -> forall m s,
  (0 <= m)%Z -> (m + Z.of_nat (length l) < 2 ^ 53)%Z -> fin s = true -> Rabs (val s) <= IZR m * bpow radix2 K ->
  fin (fold_left d_add l s) = true /\ Rabs (val (fold_left d_add l s)) <= IZR (m + Z.of_nat (length l)) * bpow radix2 K.
Proof.
  intros HK A. induction A as [|x l [X Bx] A IH]; intros m s M0 M S Bs.
  - cbn [fold_left length Z.of_nat]. rewrite Z.add_0_r. auto.
  - cbn [length] in M. destruct (add_step K m s x HK M0 ltac:(lia) S X Bs Bx) as (F & V & B). cbn [fold_left].
    destruct (IH (m + 1)%Z (d_add s x) ltac:(lia) ltac:(lia) F B) as [G C]. split; [exact G|]. replace (m + Z.of_nat (length (x :: l)))%Z with (m + 1 + Z.of_nat (length l))%Z by (cbn [length]; lia). exact C.
Qed.

(** ** The error *)

Lemma pow_ge_1 j : 1 <= (1 + u53) ^ j. Proof. apply pow_R1_Rle. pose proof u53_pos. lra. Qed.

Lemma fold_error K l : (-1074 <= K <= 900)%Z -> Forall (fun x => fin x = true /\ Rabs (val x) <= bpow radix2 K) l -> forall m s j s0 a,
  (0 <= m)%Z -> (m + Z.of_nat (length l) < 2 ^ 53)%Z -> fin s = true -> Rabs (val s) <= IZR m * bpow radix2 K ->
  Rabs s0 <= a -> Rabs (val s - s0) <= ((1 + u53) ^ j - 1) * a ->
  Rabs (val (fold_left d_add l s) - (s0 + total (vals l))) <= ((1 + u53) ^ (j + length l) - 1) * (a + total_size (vals l)).
Proof.
  intros HK A. induction A as [|x l [X Bx] A IH]; intros m s j s0 a M0 M S Bs S0 E.
  - cbn [fold_left map total total_size fold_right length]. rewrite Nat.add_0_r, !Rplus_0_r. exact E.
  - cbn [length] in M. destruct (add_step K m s x HK M0 ltac:(lia) S X Bs Bx) as (F & V & B). cbn [fold_left map].
    rewrite total_cons, total_size_cons. rewrite <- Rplus_assoc, <- (Rplus_assoc a). cbn [length]. rewrite <- plus_n_Sm, <- plus_Sn_m.
    apply (IH (m + 1)%Z (d_add s x) (Datatypes.S j) (s0 + val x) (a + Rabs (val x)) ltac:(lia) ltac:(lia) F B).
    + pose proof (Rabs_triang s0 (val x)). lra.
    + rewrite V. pose proof (add_rel s x) as R. unfold rel in R. rewrite Rmult_1_l in R. pose proof u53_pos as U. pose proof (pow_ge_1 j) as P. pose proof (Rabs_pos (val x)) as Px.
      cbn [pow]. set (w := (1 + u53) ^ j) in *. set (y := rnd (val s + val x)) in *.
      replace (y - (s0 + val x)) with ((y - (val s + val x)) + (val s - s0)) by ring. eapply Rle_trans; [apply Rabs_triang|].
      assert (T : Rabs (val s + val x) <= Rabs (val s - s0) + (a + Rabs (val x))).
      { replace (val s + val x) with ((val s - s0) + (s0 + val x)) by ring. eapply Rle_trans; [apply Rabs_triang|]. pose proof (Rabs_triang s0 (val x)). lra. }
      assert (Pa : 0 <= a) by (pose proof (Rabs_pos s0); lra).
      assert (T2 : u53 * Rabs (val s + val x) <= u53 * ((w - 1) * a + (a + Rabs (val x)))) by (apply Rmult_le_compat_l; lra).
      assert (Q : 0 <= (w - 1) * (1 + u53) * Rabs (val x)) by (apply Rmult_le_pos; [apply Rmult_le_pos; lra|exact Px]).
      nra.
Qed.

(** The sum from zero: the first addition is exact. *)
Lemma zero_plus x : fin x = true -> fin (d_add (d_of_Z 0) x) = true /\ val (d_add (d_of_Z 0) x) = val x.
Proof.
  intros X. destruct (small_int_ok 0 eq_refl) as [F V]. assert (E : rnd (val (d_of_Z 0) + val x) = val x) by (rewrite V, Rplus_0_l; apply rnd_id, val_fmt).
  destruct (add_ok (d_of_Z 0) x F X) as [G W]; [rewrite E; apply val_below, X|]. rewrite E in W. auto.
Qed.

Lemma sum_error K l : (-1074 <= K <= 900)%Z -> l <> [] -> Forall (fun x => fin x = true /\ Rabs (val x) <= bpow radix2 K) l -> (Z.of_nat (length l) < 2 ^ 53)%Z ->
  fin (accumulate_d l) = true /\ Rabs (val (accumulate_d l)) <= INR (length l) * bpow radix2 K /\
  Rabs (val (accumulate_d l) - total (vals l)) <= ((1 + u53) ^ (length l - 1) - 1) * total_size (vals l).
Proof.
  intros HK N A L. destruct l as [|x l]; [contradiction|]. clear N. inversion A as [|? ? [X Bx] A']; subst. destruct (zero_plus x X) as [F V].
  unfold accumulate_d. cbn [fold_left map]. rewrite total_cons, total_size_cons.
  assert (B1 : Rabs (val (d_add (d_of_Z 0) x)) <= IZR 1 * bpow radix2 K) by (rewrite V, Rmult_1_l; exact Bx).
  cbn [length] in L. destruct (fold_bound K l HK A' 1%Z _ ltac:(lia) ltac:(lia) F B1) as [G C]. split; [exact G|]. split.
  - rewrite INR_IZR_INZ. cbn [length]. replace (Z.of_nat (S (length l))) with (1 + Z.of_nat (length l))%Z by lia. exact C.
  - replace (length (x :: l) - 1)%nat with (0 + length l)%nat by (cbn [length]; lia).
    apply (fold_error K l HK A' 1%Z _ 0%nat (val x) (Rabs (val x)) ltac:(lia) ltac:(lia) F B1); [lra|]. rewrite V, Rminus_diag_eq, Rabs_R0 by reflexivity. cbn [pow]. lra.
Qed.

(** ** Staying on a grid *)
Lemma fold_grid K g l : (-1074 <= K <= 900)%Z -> (-1074 <= g)%Z -> Forall (fun x => fin x = true /\ Rabs (val x) <= bpow radix2 K) l -> Forall (fun x => on_grid g (val x)) l -> forall m s,
  (0 <= m)%Z -> (m + Z.of_nat (length l) < 2 ^ 53)%Z -> fin s = true -> Rabs (val s) <= IZR m * bpow radix2 K -> on_grid g (val s) ->
  on_grid g (val (fold_left d_add l s)).
Proof.
  intros HK G A. induction A as [|x l [X Bx] A IH]; intros D m s M0 M S Bs Gs; [exact Gs|].
  inversion D; subst. cbn [length] in M. destruct (add_step K m s x HK M0 ltac:(lia) S X Bs Bx) as (F & V & B). cbn [fold_left].
  apply (IH ltac:(assumption) (m + 1)%Z); [lia|lia|exact F|exact B|]. rewrite V. apply grid_rnd; [exact G|]. apply grid_add; assumption.
Qed.

Lemma sum_grid K g l : (-1074 <= K <= 900)%Z -> (-1074 <= g)%Z -> Forall (fun x => fin x = true /\ Rabs (val x) <= bpow radix2 K) l -> Forall (fun x => on_grid g (val x)) l -> (Z.of_nat (length l) < 2 ^ 53)%Z ->
  on_grid g (val (accumulate_d l)).
Proof.
  intros HK G A D L. destruct (small_int_ok 0 eq_refl) as [F V]. apply (fold_grid K g l HK G A D 0%Z); [lia|lia|exact F|rewrite V, Rabs_R0; lra|rewrite V; apply grid_zero].
Qed.

(** ** Integers: the sum is exact *)
Lemma fold_exact l : Forall (fun x => fin x = true /\ exists z, val x = IZR z) l -> forall s z, fin s = true -> val s = IZR z ->
  Rabs (val s) + total_size (vals l) < bpow radix2 53 -> fin (fold_left d_add l s) = true /\ val (fold_left d_add l s) = val s + total (vals l).
Proof.
  intros A. induction A as [|x l [X [y Y]] A IH]; intros s z S Z B.
  - cbn. split; [exact S|ring].
  - cbn [fold_left map] in *. rewrite total_size_cons in B. rewrite total_cons. pose proof (total_size_pos (vals l)) as P. pose proof (Rabs_triang (val s) (val x)) as T.
    assert (E : rnd (val s + val x) = val s + val x).
    { apply rnd_id. rewrite Z, Y, <- plus_IZR. replace (IZR (z + y)) with (IZR (z + y) * bpow radix2 0) by (cbn; ring). apply fmt_intro; [|lia].
      apply lt_IZR. rewrite abs_IZR, plus_IZR. rewrite <- Z, <- Y. change (IZR (2 ^ 53)) with (bpow radix2 53). lra. }
    destruct (add_ok s x S X) as [F V]; [rewrite E; eapply Rlt_trans with (bpow radix2 53); [lra|apply bpow_lt; lia]|]. rewrite E in V.
    destruct (IH (d_add s x) (z + y)%Z F) as [G W]; [rewrite V, Z, Y, plus_IZR; reflexivity|rewrite V; lra|]. split; [exact G|]. rewrite W, V. ring.
Qed.

Lemma sum_exact l : Forall (fun x => fin x = true /\ exists z, val x = IZR z) l -> total_size (vals l) < bpow radix2 53 ->
  fin (accumulate_d l) = true /\ val (accumulate_d l) = total (vals l).
Proof.
  intros A B. destruct (small_int_ok 0 eq_refl) as [F V]. destruct (fold_exact l A (d_of_Z 0) 0%Z F V) as [G W]; [rewrite V, Rabs_R0; lra|].
  split; [exact G|]. unfold accumulate_d. rewrite W, V. ring.
Qed.

(** ** Sums of positive numbers, known up to some roundings *)

Definition near_pos (j : nat) (a t : R) : Prop := (1 - u53) ^ j * t <= a <= (1 + u53) ^ j * t.

Lemma u53_lt1 : 0 < u53 < 1. Proof. rewrite u53_eq. lra. Qed.
Lemma low_pow_pos j : 0 < (1 - u53) ^ j. Proof. apply pow_lt. pose proof u53_lt1. lra. Qed.

Lemma near_weaken j k a t : 0 <= t -> (j <= k)%nat -> near_pos j a t -> near_pos k a t.
Proof.
  intros T L [A B]. pose proof u53_lt1 as U. split.
  - eapply Rle_trans; [|exact A]. apply Rmult_le_compat_r; [exact T|]. replace k with ((k - j) + j)%nat by lia. rewrite pow_add.
    rewrite <- (Rmult_1_l ((1 - u53) ^ j)) at 2. apply Rmult_le_compat_r; [left; apply low_pow_pos|]. pose proof (pow_incr (1 - u53) 1 (k - j) ltac:(lra)) as H. rewrite pow1 in H. exact H.
  - eapply Rle_trans; [exact B|]. apply Rmult_le_compat_r; [exact T|]. apply Rle_pow; [lra|exact L].
Qed.

Lemma near_add j a b s t : near_pos j a s -> near_pos j b t -> near_pos j (a + b) (s + t).
Proof. intros [A B] [C D]. split; rewrite Rmult_plus_distr_l; lra. Qed.

Lemma near_pos_pos j a t : 0 <= t -> near_pos j a t -> 0 <= a.
Proof. intros T [A _]. eapply Rle_trans; [|exact A]. apply Rmult_le_pos; [left; apply low_pow_pos|exact T]. Qed.

(** One more rounding. *)
Lemma near_round j a b t : 0 <= t -> near_pos j a t -> Rabs (b - a) <= u53 * Rabs a -> near_pos (S j) b t.
Proof.
  intros T N H. pose proof (near_pos_pos _ _ _ T N) as P. rewrite (Rabs_pos_eq a) in H by exact P. destruct N as [A B]. pose proof u53_lt1 as U. apply Rabs_le_inv in H. split; cbn [pow].
  - apply Rle_trans with ((1 - u53) * a); [rewrite Rmult_assoc; apply Rmult_le_compat_l; lra|lra].
  - apply Rle_trans with ((1 + u53) * a); [lra|rewrite Rmult_assoc; apply Rmult_le_compat_l; lra].
Qed.

Lemma fold_near K p l : (-1074 <= K <= 900)%Z -> forall ts, Forall2 (fun x t => fin x = true /\ Rabs (val x) <= bpow radix2 K /\ 0 <= t /\ near_pos p (val x) t) l ts -> forall m s j t0,
  (0 <= m)%Z -> (m + Z.of_nat (length l) < 2 ^ 53)%Z -> fin s = true -> Rabs (val s) <= IZR m * bpow radix2 K -> (p <= j)%nat -> 0 <= t0 -> near_pos j (val s) t0 ->
  near_pos (j + length l) (val (fold_left d_add l s)) (t0 + total ts).
Proof.
  intros HK ts A. induction A as [|x t l ts (X & Bx & T & N) A IH]; intros m s j t0 M0 M S Bs J T0 Ns.
  - cbn [fold_left total fold_right length]. rewrite Nat.add_0_r, Rplus_0_r. exact Ns.
  - cbn [length] in *. destruct (add_step K m s x HK M0 ltac:(lia) S X Bs Bx) as (F & V & B). cbn [fold_left]. rewrite total_cons, <- Rplus_assoc, <- plus_n_Sm, <- plus_Sn_m.
    apply (IH (m + 1)%Z); [lia|lia|exact F|exact B|lia|lra|]. rewrite V.
    apply (near_round j (val s + val x)); [lra|apply near_add; [exact Ns|apply (near_weaken p); assumption]|].
    pose proof (add_rel s x) as R. unfold rel in R. rewrite Rmult_1_l in R. exact R.
Qed.

Lemma sum_near K p l ts : (-1074 <= K <= 900)%Z -> l <> [] -> Forall2 (fun x t => fin x = true /\ Rabs (val x) <= bpow radix2 K /\ 0 <= t /\ near_pos p (val x) t) l ts -> (Z.of_nat (length l) < 2 ^ 53)%Z ->
  near_pos (p + length l - 1) (val (accumulate_d l)) (total ts).
Proof.
  intros HK N A L. destruct A as [|x t l ts (X & Bx & T & Nx) A]; [contradiction|]. unfold accumulate_d. cbn [fold_left length] in *. destruct (zero_plus x X) as [F V].
  rewrite total_cons. replace (p + S (length l) - 1)%nat with (p + length l)%nat by lia.
  apply (fold_near K p l HK ts A 1%Z); [lia|lia|exact F|rewrite V, Rmult_1_l; exact Bx|lia|exact T|rewrite V; exact Nx].
Qed.

(** ** What is not a number stays so *)
Lemma add_finite x y : fin (d_add x y) = true -> fin x = true /\ fin y = true.
Proof. destruct x as [s|s|s p H|s m e H], y as [s'|s'|s' p' H'|s' m' e' H']; cbn; auto; try discriminate; destruct s, s'; cbn; auto; discriminate. Qed.
Lemma sub_finite x y : fin (d_sub x y) = true -> fin x = true /\ fin y = true.
Proof. destruct x as [s|s|s p H|s m e H], y as [s'|s'|s' p' H'|s' m' e' H']; cbn; auto; try discriminate; destruct s, s'; cbn; auto; discriminate. Qed.
Lemma square_finite x : fin (d_mul x x) = true -> fin x = true.
Proof. destruct x as [s|s|s p H|s m e H]; cbn; auto. Qed.
Lemma div_finite x y : fin (d_div x y) = true -> fin x = true.
Proof. destruct x as [s|s|s p H|s m e H], y as [s'|s'|s' p' H'|s' m' e' H']; cbn; auto; discriminate. Qed.
Lemma sqrt_finite x : fin (d_sqrt x) = true -> fin x = true.
Proof. destruct x as [s|s|s p H|s m e H]; cbn; auto. destruct s; cbn; auto. Qed.

Lemma fold_finite l : forall s, fin (fold_left d_add l s) = true -> fin s = true /\ Forall (fun x => fin x = true) l.
Proof.
  induction l as [|x l IH]; intros s H; [cbn in *; auto|]. cbn [fold_left] in H. destruct (IH _ H) as [A B]. destruct (add_finite _ _ A) as [C D]. auto.
Qed.
