(** * Sum, mean, dot and cross product in doubles. *)
From Coq Require Import ZArith Reals Lia Lra Psatz.
From Flocq Require Import Core Relative Plus_error Mult_error IEEE754.BinarySingleNaN IEEE754.Binary IEEE754.Bits.
From Verif Require Import TextModel TextSpec TextRound TextScan TextFloat TextProofs TextLaws TextRead TextCard DoubleModel DoubleSpec DoubleProofs DoubleUnits VectorModel VectorSpec VectorProofs.
Local Open Scope R_scope.

#[local] Instance prec53 : Prec_gt_0 53 := eq_refl.
#[local] Existing Instance near.

(** ** Sum *)

Theorem sum_nearest a b : vfinite a -> vfinite b -> each (fun c => no_overflow (dval (c a) + dval (c b))) ->
  vfinite (sum_d None None None a b) /\
  each (fun c => dval (c (sum_d None None None a b)) = nearest_double (dval (c a) + dval (c b)) /\
    Rabs (dval (c (sum_d None None None a b)) - (dval (c a) + dval (c b))) <= bpow radix2 (-53) * Rabs (dval (c a) + dval (c b))).
Proof.
  intros (A1 & A2 & A3) (B1 & B2 & B3) (O1 & O2 & O3). unfold vfinite, each, dfinite, no_overflow, nearest_double, dval in *.
  cbn [sum_d dx dy dz cast].
  destruct (add_ok _ _ A1 B1 O1) as [F1 V1]. destruct (add_ok _ _ A2 B2 O2) as [F2 V2]. destruct (add_ok _ _ A3 B3 O3) as [F3 V3].
  rewrite V1, V2, V3. split; [auto|].
  pose proof (add_rel (dx a) (dx b)) as R1. pose proof (add_rel (dy a) (dy b)) as R2. pose proof (add_rel (dz a) (dz b)) as R3.
  unfold rel in *. rewrite Rmult_1_l in *. auto.
Qed.

Lemma overflow_sym a b : each (fun c => no_overflow (dval (c a) + dval (c b))) -> each (fun c => no_overflow (dval (c b) + dval (c a))).
Proof.
  intros (O1 & O2 & O3). split; [|split]; rewrite Rplus_comm; assumption.
Qed.

Theorem sum_commutes a b : vfinite a -> vfinite b -> each (fun c => no_overflow (dval (c a) + dval (c b))) ->
  vsame (sum_d None None None a b) (sum_d None None None b a).
Proof.
  intros A B O. destruct (sum_nearest a b A B O) as [F V].
  destruct (sum_nearest b a B A) as [F' V']; [exact (overflow_sym a b O)|].
  split; [exact F|]. split; [exact F'|]. destruct V as ((V1 & _) & (V2 & _) & (V3 & _)). destruct V' as ((W1 & _) & (W2 & _) & (W3 & _)).
  unfold each. rewrite V1, V2, V3, W1, W2, W3. split; [|split]; f_equal; apply Rplus_comm.
Qed.

Lemma val_nearest x : nearest_double (dval x) = dval x.
Proof. apply rnd_id, val_fmt. Qed.
Lemma val_below x : fin x = true -> Rabs (val x) < bpow radix2 1024.
Proof. intros _. apply (abs_B2R_lt_emax 53 1024 x). Qed.

Theorem sum_zero a b : vfinite a -> vfinite b -> rnull (vval b) -> vsame (sum_d None None None a b) a /\ vsame (sum_d None None None b a) a.
Proof.
  intros A B (N1 & N2 & N3). cbn [vval rx ry rz] in *.
  assert (E : each (fun c => dval (c b) = 0)) by (split; auto).
  assert (O : each (fun c => no_overflow (dval (c a) + dval (c b)))).
  { unfold each, no_overflow. rewrite N1, N2, N3, !Rplus_0_r, !val_nearest. destruct A as (A1 & A2 & A3). split; [|split]; apply val_below; assumption. }
  destruct (sum_nearest a b A B O) as [F V]. destruct (sum_commutes a b A B O) as (_ & F' & C).
  assert (S : vsame (sum_d None None None a b) a).
  { split; [exact F|]. split; [exact A|]. destruct V as ((V1 & _) & (V2 & _) & (V3 & _)). unfold each. rewrite V1, V2, V3, N1, N2, N3, !Rplus_0_r, !val_nearest. auto. }
  split; [exact S|]. split; [exact F'|]. split; [exact A|]. destruct C as (C1 & C2 & C3). destruct S as (_ & _ & S1 & S2 & S3). unfold each. rewrite <- C1, <- C2, <- C3. auto.
Qed.

Theorem sum_opposite a b : opposite a b -> vfinite (sum_d None None None a b) /\ rnull (vval (sum_d None None None a b)).
Proof.
  intros (A & B & N1 & N2 & N3).
  assert (Z : nearest_double 0 = 0) by (apply nearest_0).
  assert (O : each (fun c => no_overflow (dval (c a) + dval (c b)))).
  { unfold each, no_overflow. rewrite N1, N2, N3, !Rplus_opp_l, Z, Rabs_R0. pose proof (bpow_gt_0 radix2 1024). auto. }
  destruct (sum_nearest a b A B O) as [F ((V1 & _) & (V2 & _) & (V3 & _))]. split; [exact F|].
  unfold rnull, vval. cbn [rx ry rz]. rewrite V1, V2, V3, N1, N2, N3, !Rplus_opp_l, Z. auto.
Qed.

(** With a change of units. *)
Lemma add_cast f x y : cast_ok f -> in_range x -> in_range y ->
  fin (d_add x (cast f y)) = true /\ val (d_add x (cast f y)) = rnd (val x + val (cast f y)) /\ Rabs (val (d_add x (cast f y))) <= bpow radix2 501 /\
  Rabs (val (d_add x (cast f y)) - (val x + val y * ratio f)) <= 3 * u53 * (Rabs (val x) + Rabs (val y * ratio f)).
Proof.
  intros F X Y. destruct (cast_sized f y F Y) as [S R]. apply range_sized in X. apply (sized_weaken 250 500 _ ltac:(lia)) in X.
  destruct (add_bounded 500 x (cast f y) ltac:(lia) (sized_fin _ _ X) (sized_fin _ _ S) (sized_le 500 _ ltac:(lia) X) (sized_le 500 _ ltac:(lia) S)) as (G & V & U).
  split; [exact G|]. split; [exact V|]. split; [exact U|]. rewrite V. pose proof (add_rel x (cast f y)) as E. unfold rel in E, R.
  set (p := val x) in *. set (q := val (cast f y)) in *. set (r := val y * ratio f) in *. clearbody p q r. clear -E R.
  replace (rnd (p + q) - (p + r)) with ((rnd (p + q) - (p + q)) + (q - r)) by ring. eapply Rle_trans; [apply Rabs_triang|].
  pose proof (Rabs_triang p q). pose proof (Rabs_triang (q - r) r) as T. replace (q - r + r) with q in T by ring.
  pose proof (Rabs_pos p). pose proof (Rabs_pos r). rewrite u53_eq in *. lra.
Qed.

Lemma three_u : 3 * u53 <= bpow radix2 (-51).
Proof. change (bpow radix2 (-51)) with (/ 2251799813685248). rewrite u53_eq. lra. Qed.

Theorem sum_close fx fy fz a b : cast_ok fx -> cast_ok fy -> cast_ok fz -> vrange a -> vrange b ->
  vfinite (sum_d fx fy fz a b) /\
  Rabs (dval (dx (sum_d fx fy fz a b)) - (dval (dx a) + dval (dx b) * ratio fx)) <= bpow radix2 (-51) * (Rabs (dval (dx a)) + Rabs (dval (dx b) * ratio fx)) /\
  Rabs (dval (dy (sum_d fx fy fz a b)) - (dval (dy a) + dval (dy b) * ratio fy)) <= bpow radix2 (-51) * (Rabs (dval (dy a)) + Rabs (dval (dy b) * ratio fy)) /\
  Rabs (dval (dz (sum_d fx fy fz a b)) - (dval (dz a) + dval (dz b) * ratio fz)) <= bpow radix2 (-51) * (Rabs (dval (dz a)) + Rabs (dval (dz b) * ratio fz)).
Proof.
  intros Fx Fy Fz (A1 & A2 & A3) (B1 & B2 & B3). cbn [sum_d dx dy dz].
  destruct (add_cast fx _ _ Fx A1 B1) as (G1 & _ & _ & E1). destruct (add_cast fy _ _ Fy A2 B2) as (G2 & _ & _ & E2). destruct (add_cast fz _ _ Fz A3 B3) as (G3 & _ & _ & E3).
  split; [split; [exact G1|split; [exact G2|exact G3]]|].
  unfold dval. split; [|split]; (eapply Rle_trans; [eassumption|]); (apply Rmult_le_compat_r; [|apply three_u]);
    (apply Rplus_le_le_0_compat; apply Rabs_pos).
Qed.

(** ** Mean *)

Lemma two_ok : fin (d_of_Z 2) = true /\ val (d_of_Z 2) = 2. Proof. apply (small_int_ok 2 eq_refl). Qed.

Lemma fmt_double x : fmt x -> fmt (2 * x).
Proof.
  intros F. destruct (fmt_elim x F) as (m & e & -> & M & E). replace (2 * (IZR m * bpow radix2 e)) with (IZR m * bpow radix2 (e + 1)) by (rewrite bpow_double; ring).
  apply fmt_intro; lia.
Qed.

Lemma half_ok x : fin x = true -> fin (d_div x (d_of_Z 2)) = true /\ val (d_div x (d_of_Z 2)) = rnd (val x / 2).
Proof.
  intros F. destruct two_ok as [_ V2]. destruct (div_ok x (d_of_Z 2) F) as [G V].
  - rewrite V2. lra.
  - rewrite V2. apply Rle_lt_trans with (Rabs (val x)); [|apply val_below, F].
    apply abs_round_le_generic; [typeclasses eauto|typeclasses eauto|apply generic_format_abs, val_fmt|].
    unfold Rdiv. rewrite Rabs_mult, (Rabs_pos_eq (/ 2)) by lra. pose proof (Rabs_pos (val x)). lra.
  - rewrite V2 in V. auto.
Qed.

Lemma mean_between x y : fin x = true -> fin y = true -> Rabs (rnd (val x + val y)) < bpow radix2 1024 ->
  fin (d_div (d_add x y) (d_of_Z 2)) = true /\ Rmin (val x) (val y) <= val (d_div (d_add x y) (d_of_Z 2)) <= Rmax (val x) (val y) /\
  Rabs (val (d_div (d_add x y) (d_of_Z 2)) - (val x + val y) / 2) <= u53 * Rabs ((val x + val y) / 2) + bpow radix2 (-1075).
Proof.
  intros X Y O. destruct (add_ok x y X Y O) as [F V]. destruct (half_ok _ F) as [G W]. split; [exact G|]. rewrite W, V. split.
  - assert (B : 2 * Rmin (val x) (val y) <= rnd (val x + val y) <= 2 * Rmax (val x) (val y)).
    { split.
      - apply round_ge_generic; [typeclasses eauto|typeclasses eauto|apply fmt_double; unfold Rmin; destruct (Rle_dec _ _); apply val_fmt|].
        pose proof (Rmin_l (val x) (val y)). pose proof (Rmin_r (val x) (val y)). lra.
      - apply round_le_generic; [typeclasses eauto|typeclasses eauto|apply fmt_double; unfold Rmax; destruct (Rle_dec _ _); apply val_fmt|].
        pose proof (Rmax_l (val x) (val y)). pose proof (Rmax_r (val x) (val y)). lra. }
    split.
    + apply round_ge_generic; [typeclasses eauto|typeclasses eauto|unfold Rmin; destruct (Rle_dec _ _); apply val_fmt|]. lra.
    + apply round_le_generic; [typeclasses eauto|typeclasses eauto|unfold Rmax; destruct (Rle_dec _ _); apply val_fmt|]. lra.
  - (* either the half is exact, or the sum was *)
    set (s := val x + val y) in *. assert (H2 : Rabs (s / 2) = Rabs s / 2) by (unfold Rdiv; rewrite Rabs_mult, (Rabs_pos_eq (/ 2)) by lra; reflexivity).
    destruct (Rle_dec (bpow radix2 (-1021)) (Rabs s)) as [L|L].
    + assert (K : rnd (rnd s / 2) = rnd s / 2).
      { apply rnd_id. assert (L2 : bpow radix2 (-1021) <= Rabs (rnd s)) by (apply rnd_bound_low; [lia|exact L]).
        replace (rnd s / 2) with (rnd s * bpow radix2 (-1)) by (change (bpow radix2 (-1)) with (/ 2); unfold Rdiv; ring).
        apply mult_bpow_exact_FLT; [apply rnd_fmt|].
        assert (M : (-1021 < mag radix2 (rnd s))%Z).
        { apply mag_gt_bpow. exact L2. }
        lia. }
      rewrite K. pose proof (add_rel x y) as R. unfold rel in R. fold s in R. replace (rnd s / 2 - s / 2) with ((rnd s - s) / 2) by field.
      unfold Rdiv at 1. rewrite Rabs_mult, (Rabs_pos_eq (/ 2)) by lra. rewrite H2. pose proof (bpow_ge_0 radix2 (-1075)). lra.
    + assert (K : rnd s = s).
      { apply rnd_id. apply (FLT_format_plus_small radix2 (-1074) 53); [apply val_fmt|apply val_fmt|]. change (53 + -1074)%Z with (-1021)%Z. fold s. lra. }
      rewrite K. apply rnd_err.
Qed.

Theorem mean_ok a b : vfinite a -> vfinite b -> each (fun c => no_overflow (dval (c a) + dval (c b))) ->
  vfinite (mean_d None None None a b) /\
  each (fun c => Rmin (dval (c a)) (dval (c b)) <= dval (c (mean_d None None None a b)) <= Rmax (dval (c a)) (dval (c b)) /\
    Rabs (dval (c (mean_d None None None a b)) - (dval (c a) + dval (c b)) / 2) <= bpow radix2 (-53) * Rabs ((dval (c a) + dval (c b)) / 2) + bpow radix2 (-1075)).
Proof.
  intros (A1 & A2 & A3) (B1 & B2 & B3) (O1 & O2 & O3).
  destruct (mean_between _ _ A1 B1 O1) as (F1 & M1 & E1). destruct (mean_between _ _ A2 B2 O2) as (F2 & M2 & E2). destruct (mean_between _ _ A3 B3 O3) as (F3 & M3 & E3).
  split; [split; [exact F1|split; [exact F2|exact F3]]|]. split; [|split]; split; assumption.
Qed.

Theorem mean_commutes a b : vfinite a -> vfinite b -> each (fun c => no_overflow (dval (c a) + dval (c b))) ->
  vsame (mean_d None None None a b) (mean_d None None None b a).
Proof.
  intros A B O. assert (O' : each (fun c => no_overflow (dval (c b) + dval (c a)))) by exact (overflow_sym a b O).
  split; [apply (mean_ok a b A B O)|]. split; [apply (mean_ok b a B A O')|].
  destruct (sum_commutes a b A B O) as (S1 & S2 & S3). unfold each, dval, vfinite, dfinite, each in *. cbn [sum_d mean_d dx dy dz cast] in *.
  destruct S1 as (P1 & P2 & P3). destruct S2 as (Q1 & Q2 & Q3). destruct S3 as (E1 & E2 & E3).
  destruct (half_ok _ P1) as [_ ->]. destruct (half_ok _ P2) as [_ ->]. destruct (half_ok _ P3) as [_ ->].
  destruct (half_ok _ Q1) as [_ ->]. destruct (half_ok _ Q2) as [_ ->]. destruct (half_ok _ Q3) as [_ ->]. rewrite E1, E2, E3. auto.
Qed.

Theorem mean_self a : vfinite a -> each (fun c => Rabs (dval (c a)) < bpow radix2 1023) -> vsame (mean_d None None None a a) a.
Proof.
  intros A (H1 & H2 & H3). pose proof A as (A1 & A2 & A3).
  assert (K : forall x, fin x = true -> Rabs (dval x) < bpow radix2 1023 -> no_overflow (dval x + dval x)).
  { intros x X H. unfold no_overflow, nearest_double. replace (dval x + dval x) with (2 * dval x) by ring. rewrite rnd_id by apply fmt_double, val_fmt.
    rewrite Rabs_mult, (Rabs_pos_eq 2) by lra. change 1024%Z with (1023 + 1)%Z. rewrite bpow_double. lra. }
  destruct (mean_ok a a A A) as [F M]; [split; [|split]; apply K; assumption|].
  split; [exact F|]. split; [exact A|].
  assert (E : forall p q, Rmin q q <= p <= Rmax q q -> p = q) by (intros p q; unfold Rmin, Rmax; destruct (Rle_dec q q); lra).
  destruct M as ((M1 & _) & (M2 & _) & (M3 & _)). split; [|split]; apply E; assumption.
Qed.

(** With a change of units. *)
Lemma half_cast s r t : fin s = true -> Rabs (val s - r) <= 3 * u53 * t -> Rabs r <= t ->
  fin (d_div s (d_of_Z 2)) = true /\ Rabs (val (d_div s (d_of_Z 2)) - r / 2) <= bpow radix2 (-51) * t + bpow radix2 (-1075).
Proof.
  intros F E B. destruct (half_ok s F) as [G V]. split; [exact G|]. rewrite V. pose proof (rnd_err (val s / 2)) as D.
  change (bpow radix2 (-51)) with (/ 2251799813685248). pose proof (Rabs_pos r) as Pr.
  change t1075 with (bpow radix2 (-1075)) in D. set (e := bpow radix2 (-1075)) in *. clearbody e.
  replace (rnd (val s / 2) - r / 2) with ((rnd (val s / 2) - val s / 2) + (val s - r) / 2) by field. eapply Rle_trans; [apply Rabs_triang|].
  assert (H : Rabs ((val s - r) / 2) = Rabs (val s - r) / 2) by (unfold Rdiv; rewrite Rabs_mult, (Rabs_pos_eq (/ 2)) by lra; reflexivity). rewrite H.
  assert (H2 : Rabs (val s / 2) = Rabs (val s) / 2) by (unfold Rdiv; rewrite Rabs_mult, (Rabs_pos_eq (/ 2)) by lra; reflexivity). rewrite H2 in D.
  pose proof (Rabs_triang (val s - r) r) as T. replace (val s - r + r) with (val s) in T by ring.
  rewrite u53_eq in *. lra.
Qed.

Theorem mean_close fx fy fz a b : cast_ok fx -> cast_ok fy -> cast_ok fz -> vrange a -> vrange b ->
  let m := mean_d fx fy fz a b in
  vfinite m /\
  Rabs (dval (dx m) - (dval (dx a) + dval (dx b) * ratio fx) / 2) <= bpow radix2 (-51) * (Rabs (dval (dx a)) + Rabs (dval (dx b) * ratio fx)) + bpow radix2 (-1075) /\
  Rabs (dval (dy m) - (dval (dy a) + dval (dy b) * ratio fy) / 2) <= bpow radix2 (-51) * (Rabs (dval (dy a)) + Rabs (dval (dy b) * ratio fy)) + bpow radix2 (-1075) /\
  Rabs (dval (dz m) - (dval (dz a) + dval (dz b) * ratio fz) / 2) <= bpow radix2 (-51) * (Rabs (dval (dz a)) + Rabs (dval (dz b) * ratio fz)) + bpow radix2 (-1075).
Proof.
  intros Fx Fy Fz (A1 & A2 & A3) (B1 & B2 & B3) m.
  destruct (add_cast fx _ _ Fx A1 B1) as (G1 & _ & _ & E1). destruct (add_cast fy _ _ Fy A2 B2) as (G2 & _ & _ & E2). destruct (add_cast fz _ _ Fz A3 B3) as (G3 & _ & _ & E3).
  destruct (half_cast _ _ _ G1 E1 (Rabs_triang _ _)) as [H1 D1]. destruct (half_cast _ _ _ G2 E2 (Rabs_triang _ _)) as [H2 D2]. destruct (half_cast _ _ _ G3 E3 (Rabs_triang _ _)) as [H3 D3].
  split; [split; [exact H1|split; [exact H2|exact H3]]|]. split; [exact D1|split; [exact D2|exact D3]].
Qed.
