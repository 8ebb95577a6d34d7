From Coq Require Export ZArith Reals Lia Lra List.
From Coq Require Import ZifyBool.
From Verif Require Export CppModel TimeModel TimeSpec.
Local Open Scope Z_scope.
Ltac Zify.zify_post_hook ::= Z.to_euclidean_division_equations.

(** ** The calendar *)

Definition base (y : Z) : Z := (1461 * y) / 4.
Definition century (y : Z) : Z := 2 - y / 100 + y / 100 / 4.

Lemma base_step y : base y = base (y - 1) + 365 + (if y mod 4 =? 0 then 1 else 0).
Proof. unfold base. destruct (Z.eqb_spec (y mod 4) 0); lia. Qed.

Lemma century_step y : century y = century (y - 1) - (if y mod 100 =? 0 then 1 else 0) + (if y mod 400 =? 0 then 1 else 0).
Proof.
  unfold century. rewrite !Z.div_div by lia. change (100 * 4) with 400.
  assert (A : y / 100 = (y - 1) / 100 + (if y mod 100 =? 0 then 1 else 0)) by (destruct (Z.eqb_spec (y mod 100) 0); lia).
  assert (B : y / 400 = (y - 1) / 400 + (if y mod 400 =? 0 then 1 else 0)) by (destruct (Z.eqb_spec (y mod 400) 0); lia).
  rewrite A, B. ring.
Qed.

Lemma leap_number y : (if leap y then 1 else 0) = (if y mod 4 =? 0 then 1 else 0) - (if y mod 100 =? 0 then 1 else 0) + (if y mod 400 =? 0 then 1 else 0).
Proof.
  unfold leap.
  assert (A : y mod 100 = 0 -> y mod 4 = 0) by lia. assert (B : y mod 400 = 0 -> y mod 100 = 0) by lia.
  destruct (Z.eqb_spec (y mod 4) 0), (Z.eqb_spec (y mod 100) 0), (Z.eqb_spec (y mod 400) 0); reflexivity || (exfalso; lia).
Qed.

(** The number of the day, in the two calendars. *)
Definition day_number (greg : bool) (dt : date) : Z :=
  let (y, m) := shifted dt in
  (if greg then century y else 0) + base y + 306001 * (m + 1) / 10000 + d_day dt + 1720994.

Lemma julian_day_number t : 0 < d_year (p_date t) ->
  julian_day t = day_number (later (p_date t) (mk_date 1582 10 1)) (p_date t).
Proof.
  intros H. unfold julian_day, day_number, jd_B, jd_C, jd_D, century, base. cbv zeta.
  destruct (shifted (p_date t)) as [y m] eqn:E.
  assert (Hy : 0 <= y) by (unfold shifted in E; destruct (_ || _); injection E as <- <-; lia).
  destruct (Z.ltb_spec y 0); [lia|]. destruct (later _ _); lia.
Qed.

Lemma months m : 1 <= m <= 12 -> m = 1 \/ m = 2 \/ m = 3 \/ m = 4 \/ m = 5 \/ m = 6 \/ m = 7 \/ m = 8 \/ m = 9 \/ m = 10 \/ m = 11 \/ m = 12.
Proof. lia. Qed.

Lemma day_number_next dt : gregorian dt -> day_number true (next_day dt) = day_number true dt + 1.
Proof.
  destruct dt as [y m d]. unfold gregorian, next_day. cbn [d_year d_month d_day]. intros [Hm Hd].
  destruct (Z.ltb_spec d (month_days y m)) as [L|L].
  { unfold day_number, shifted. cbn [d_year d_month d_day]. destruct (_ || _); lia. }
  assert (d = month_days y m) as -> by lia. clear Hd L. pose proof (base_step y) as Bs. pose proof (century_step y) as Cs. pose proof (leap_number y) as Ls.
  destruct (months m Hm) as [->|[->|[->|[->|[->|[->|[->|[->|[->|[->|[->| ->]]]]]]]]]]];
    unfold day_number, shifted, month_days; cbn [d_year d_month d_day Z.eqb Z.ltb Z.compare Pos.compare Pos.compare_cont orb Pos.eqb Z.add Pos.add Pos.succ Pos.add_carry]; 
    rewrite ?Z.add_simpl_r; try (cbn; lia).
  destruct (leap y); cbn; lia.
Qed.

Lemma day_number_next_julian dt : 1 <= d_month dt <= 12 -> 1 <= d_day dt <= month_days_julian (d_year dt) (d_month dt) ->
  day_number false (next_day_julian dt) = day_number false dt + 1.
Proof.
  destruct dt as [y m d]. unfold next_day_julian. cbn [d_year d_month d_day]. intros Hm Hd.
  destruct (Z.ltb_spec d (month_days_julian y m)) as [L|L].
  { unfold day_number, shifted. cbn [d_year d_month d_day]. destruct (_ || _); lia. }
  assert (d = month_days_julian y m) as -> by lia. clear Hd L. pose proof (base_step y) as Bs.
  destruct (months m Hm) as [->|[->|[->|[->|[->|[->|[->|[->|[->|[->|[->| ->]]]]]]]]]]];
    unfold day_number, shifted, month_days_julian; cbn [d_year d_month d_day Z.eqb Z.ltb Z.compare Pos.compare Pos.compare_cont orb Pos.eqb Z.add Pos.add Pos.succ Pos.add_carry]; 
    rewrite ?Z.add_simpl_r; try (cbn; lia).
  destruct (y mod 4 =? 0); cbn; lia.
Qed.

Lemma later_spec a b : later a b = true <->
  (d_year b < d_year a \/ d_year a = d_year b /\ (d_month b < d_month a \/ d_month a = d_month b /\ d_day b < d_day a)).
Proof. unfold later. lia. Qed.

Definition reform : date := mk_date 1582 10 1.

Lemma next_day_gregorian dt : gregorian dt -> gregorian (next_day dt).
Proof.
  destruct dt as [y m d]. unfold gregorian, next_day. cbn [d_year d_month d_day]. intros [Hm Hd].
  assert (P : forall y m, 28 <= month_days y m) by (intros y0 m0; unfold month_days; destruct (m0 =? 2), (leap y0), ((m0 =? 4) || (m0 =? 6) || (m0 =? 9) || (m0 =? 11)); lia).
  destruct (Z.ltb_spec d (month_days y m)); cbn [d_year d_month d_day]; [lia|].
  destruct (Z.ltb_spec m 12); cbn [d_year d_month d_day].
  - pose proof (P y (m + 1)). lia.
  - pose proof (P (y + 1) 1). lia.
Qed.

Lemma next_day_later dt b : gregorian dt -> later dt b = true -> later (next_day dt) b = true.
Proof.
  destruct dt as [y m d]. unfold gregorian. rewrite !later_spec. unfold next_day. cbn [d_year d_month d_day]. intros [Hm Hd] H.
  destruct (Z.ltb_spec d (month_days y m)); cbn [d_year d_month d_day]; [lia|].
  destruct (Z.ltb_spec m 12); cbn [d_year d_month d_day]; lia.
Qed.

Theorem julian_after n : forall t t', gregorian (p_date t) -> later (p_date t) reform = true ->
  p_date t' = days_later n (p_date t) -> julian_day t' = julian_day t + Z.of_nat n.
Proof.
  assert (Y : forall t, later (p_date t) reform = true -> julian_day t = day_number true (p_date t)).
  { intros t L. rewrite julian_day_number; fold reform; [rewrite L; reflexivity|]. apply later_spec in L. cbn in L. lia. }
  assert (G : forall n d, gregorian d -> later d reform = true ->
    later (days_later n d) reform = true /\ day_number true (days_later n d) = day_number true d + Z.of_nat n).
  { clear. induction n as [|n IH]; intros d Hg L; [split; [exact L|cbn; lia]|]. cbn [days_later].
    destruct (IH (next_day d)) as [I1 I2]; [apply next_day_gregorian; exact Hg|apply next_day_later; assumption|].
    split; [exact I1|]. rewrite I2, day_number_next by exact Hg. lia. }
  intros t t' Hg L E. destruct (G n _ Hg L) as [G1 G2]. rewrite <- E in G1, G2. rewrite (Y t' G1), (Y t L). exact G2.
Qed.

Theorem julian_before t t' : gregorian (p_date t) -> 0 < d_year (p_date t) ->
  later (p_date t') reform = false -> p_date t' = next_day (p_date t) ->
  julian_day t' = julian_day t + 1 +
    (if (d_month (p_date t) =? 2) && (d_day (p_date t) =? 28) && (d_year (p_date t) mod 100 =? 0) && negb (d_year (p_date t) mod 400 =? 0) then 1 else 0).
Proof.
  intros Hg Hy L E.
  assert (Ln : later (p_date t) reform = false).
  { destruct (later (p_date t) reform) eqn:La; [|reflexivity]. apply next_day_later in La; [|exact Hg]. congruence. }
  assert (Hy' : 0 < d_year (p_date t')).
  { rewrite E. unfold next_day. destruct (_ <? _); cbn; [lia|]. destruct (_ <? _); cbn; lia. }
  rewrite !julian_day_number by assumption. fold reform. rewrite L, Ln.
  assert (A : forall d, day_number true d = day_number false d + century (fst (shifted d))).
  { intros d. unfold day_number. destruct (shifted d) as [y m]. cbn [fst]. lia. }
  pose proof (day_number_next (p_date t) Hg) as N. rewrite <- E, !A in N.
  assert (C : century (fst (shifted (p_date t))) - century (fst (shifted (p_date t'))) =
    if (d_month (p_date t) =? 2) && (d_day (p_date t) =? 28) && (d_year (p_date t) mod 100 =? 0) && negb (d_year (p_date t) mod 400 =? 0) then 1 else 0); [|lia].
  rewrite E. clear -Hg. destruct (p_date t) as [y m d]. destruct Hg as [Hm Hd]. unfold next_day. cbn [d_year d_month d_day] in *.
  pose proof (century_step y) as Cs.
  destruct (Z.eqb_spec m 2) as [->|N2].
  - unfold month_days in *. cbn [Z.eqb Pos.eqb] in *.
    assert (Lp : leap y = (y mod 4 =? 0) && (negb (y mod 100 =? 0) || (y mod 400 =? 0))) by reflexivity.
    assert (M4 : y mod 100 = 0 -> y mod 4 = 0) by lia. assert (M100 : y mod 400 = 0 -> y mod 100 = 0) by lia.
    destruct (Z.ltb_spec d (if leap y then 29 else 28)) as [L|L]; unfold shifted; cbn [d_year d_month d_day fst Z.eqb orb Z.ltb Z.compare Pos.compare Pos.compare_cont Pos.eqb Z.add Pos.add Pos.succ].
    + destruct (Z.eqb_spec d 28) as [->|N28]; cbn [andb]; [|lia].
      destruct (leap y) eqn:Ly; [|lia]. destruct (Z.eqb_spec (y mod 100) 0), (Z.eqb_spec (y mod 400) 0), (Z.eqb_spec (y mod 4) 0); cbn in *; try discriminate; lia.
    + destruct (leap y) eqn:Ly.
      * assert (d = 29) as -> by lia. cbn [Z.eqb Pos.eqb andb].
        destruct (Z.eqb_spec (y mod 100) 0), (Z.eqb_spec (y mod 400) 0), (Z.eqb_spec (y mod 4) 0); cbn in *; try discriminate; lia.
      * assert (d = 28) as -> by lia. cbn [Z.eqb Pos.eqb andb].
        destruct (Z.eqb_spec (y mod 100) 0), (Z.eqb_spec (y mod 400) 0), (Z.eqb_spec (y mod 4) 0); cbn in *; try discriminate; lia.
  - cbn [andb]. destruct (d <? month_days y m); [unfold shifted; cbn [d_year d_month d_day]; destruct (_ || _); cbn [fst]; lia|].
    destruct (Z.ltb_spec m 12); unfold shifted; cbn [d_year d_month d_day].
    + destruct (Z.eqb_spec m 1) as [->|N1]; [cbn; lia|]. destruct (Z.eqb_spec m 2); [lia|].
      destruct (Z.eqb_spec (m + 1) 1); [lia|]. destruct (Z.eqb_spec (m + 1) 2); [lia|]. cbn [orb fst]. lia.
    + assert (m = 12) as -> by lia. cbn [Z.eqb Pos.eqb orb fst]. rewrite Z.add_simpl_r. lia.
Qed.

(** Dates of the Julian calendar. *)
Theorem julian_old_style t t' : 1 <= d_month (p_date t) <= 12 -> 1 <= d_day (p_date t) <= month_days_julian (d_year (p_date t)) (d_month (p_date t)) ->
  0 < d_year (p_date t) -> later (p_date t') reform = false -> later (p_date t) reform = false -> p_date t' = next_day_julian (p_date t) ->
  julian_day t' = julian_day t + 1.
Proof.
  intros Hm Hd Hy L Ln E.
  assert (Hy' : 0 < d_year (p_date t')).
  { rewrite E. unfold next_day_julian. destruct (_ <? _); cbn; [lia|]. destruct (_ <? _); cbn; lia. }
  rewrite !julian_day_number by assumption. fold reform. rewrite L, Ln, E. apply day_number_next_julian; assumption.
Qed.

Lemma julian_same_date t t' : p_date t = p_date t' -> julian_date t = julian_date t'.
Proof. intros E. unfold julian_date, julian_day. rewrite E. reflexivity. Qed.

(** ** Reduction to 24 hours *)
Local Open Scope R_scope.

Lemma floor_bounds x : IZR (floorR x) <= x < IZR (floorR x) + 1.
Proof. unfold floorR. destruct (base_Int_part x) as [A B]. split; lra. Qed.

Lemma floor_unique x k : IZR k <= x < IZR k + 1 -> floorR x = k.
Proof.
  intros [A B]. destruct (floor_bounds x) as [C D].
  assert (IZR (floorR x) < IZR (k + 1)) by (rewrite plus_IZR; lra).
  assert (IZR k < IZR (floorR x + 1)) by (rewrite plus_IZR; lra).
  apply lt_IZR in H. apply lt_IZR in H0. lia.
Qed.

Lemma reduce_range x : 0 <= reduce24 x < 24.
Proof. unfold reduce24. destruct (floor_bounds (x / 24)) as [A B]. lra. Qed.

Lemma reduce_same x : same_hour (reduce24 x) x.
Proof. exists (- floorR (x / 24))%Z. unfold reduce24. rewrite opp_IZR. lra. Qed.

Lemma same_sym a b : same_hour a b -> same_hour b a.
Proof. intros (k & H). exists (- k)%Z. rewrite opp_IZR. lra. Qed.
Lemma same_trans a b c : same_hour a b -> same_hour b c -> same_hour a c.
Proof. intros (k & H) (j & G). exists (k + j)%Z. rewrite plus_IZR. lra. Qed.
Lemma same_add a b c : same_hour a b -> same_hour (a + c) (b + c).
Proof. intros (k & H). exists k. lra. Qed.
Lemma same_refl a : same_hour a a.
Proof. exists 0%Z. lra. Qed.

Lemma same_unique a b : same_hour a b -> 0 <= a < 24 -> 0 <= b < 24 -> a = b.
Proof.
  intros (k & H) A B. assert (-1 < IZR k < 1) by lra. assert (k = 0%Z) by (destruct H0 as [H1 H2]; apply lt_IZR in H1; apply lt_IZR in H2; lia).
  subst k. lra.
Qed.

Lemma reduce_eq a b : same_hour a b -> reduce24 a = reduce24 b.
Proof.
  intros H. apply same_unique; [|apply reduce_range|apply reduce_range].
  eapply same_trans; [apply reduce_same|]. eapply same_trans; [exact H|]. apply same_sym, reduce_same.
Qed.

(** ** Decimal hours *)

Lemma trunc_nonneg x : 0 <= x -> 0 <= IZR (truncR x) /\ 0 <= x - IZR (truncR x) < 1.
Proof.
  intros H. unfold truncR. destruct (Rle_dec 0 x); [|contradiction]. fold (floorR x). destruct (floor_bounds x) as [A B].
  assert (0 <= floorR x)%Z; [|split; [apply IZR_le; assumption|lra]].
  assert (IZR (-1) < IZR (floorR x)) by (change (IZR (-1)) with (-1); lra). apply lt_IZR in H0. lia.
Qed.

Lemma trunc_neg x : x < 0 -> truncR x = (- truncR (- x))%Z.
Proof.
  intros H. unfold truncR. destruct (Rle_dec 0 x); [lra|]. destruct (Rle_dec 0 (- x)); [reflexivity|lra].
Qed.

Lemma trunc_nonpos x : x <= 0 -> IZR (truncR x) <= 0 /\ -1 < x - IZR (truncR x) <= 0.
Proof.
  intros H. destruct (Req_dec x 0) as [->|N].
  - destruct (trunc_nonneg 0) as [A B]; [lra|]. assert (IZR (truncR 0) = 0).
    { assert (-1 < IZR (truncR 0) < 1) as [C D] by lra. apply lt_IZR in C. apply lt_IZR in D. assert (truncR 0 = 0)%Z by lia. rewrite H0. reflexivity. }
    lra.
  - rewrite trunc_neg by lra. rewrite opp_IZR. destruct (trunc_nonneg (- x)) as [A B]; lra.
Qed.

Lemma to_long_in x : - IZR (2 ^ 63) - 1 < x < IZR (2 ^ 63) -> to_long x = Ret (truncR x).
Proof. intros [A B]. unfold to_long. destruct (Rlt_dec _ _); [|contradiction]. destruct (Rlt_dec _ _); [reflexivity|contradiction]. Qed.

Lemma big : 100 < IZR (2 ^ 63).
Proof. apply IZR_lt. reflexivity. Qed.

Theorem hour_spec d : - IZR (2 ^ 63) - 1 < d < IZR (2 ^ 63) ->
  exists h m s, hour_of d = Ret (mk_hour d h m s) /\
  IZR h + IZR m / 60 + s / 3600 = d /\
  (0 <= d -> 0 <= IZR h <= d /\ (0 <= m <= 59)%Z /\ 0 <= s < 60) /\
  (d <= 0 -> d <= IZR h <= 0 /\ (-59 <= m <= 0)%Z /\ -60 < s <= 0).
Proof.
  intros H. set (h := truncR d). set (mr := (d - IZR h) * 60). set (m := truncR mr). exists h, m, ((mr - IZR m) * 60).
  assert (R : -60 < mr < 60).
  { unfold mr, h. destruct (Rle_dec 0 d) as [P|P]; [destruct (trunc_nonneg d P)|destruct (trunc_nonpos d)]; lra. }
  split; [|split; [unfold mr; field|split]].
  - unfold hour_of. rewrite to_long_in by exact H. cbn [bind]. fold h mr. pose proof big. rewrite to_long_in by lra. reflexivity.
  - intros P. destruct (trunc_nonneg d P) as [A B]. fold h in A, B.
    assert (M : 0 <= mr) by (unfold mr; lra). destruct (trunc_nonneg mr M) as [C D]. fold m in C, D.
    split; [lra|]. split; [|lra].
    assert (IZR m < IZR 60) by lra. apply le_IZR in C. apply lt_IZR in H0. lia.
  - intros P. destruct (trunc_nonpos d P) as [A B]. fold h in A, B.
    assert (M : mr <= 0) by (unfold mr; lra). destruct (trunc_nonpos mr M) as [C D]. fold m in C, D.
    split; [lra|]. split; [|lra].
    assert (IZR (-60) < IZR m) by (change (IZR (-60)) with (-60); lra). apply le_IZR in C. apply lt_IZR in H0. lia.
Qed.

Theorem hour_undefined d : IZR (2 ^ 63) <= d \/ d <= - IZR (2 ^ 63) - 1 -> hour_of d = Undef.
Proof.
  intros H. unfold hour_of, to_long. destruct (Rlt_dec _ _); [|reflexivity]. destruct (Rlt_dec _ _); [|reflexivity]. exfalso. lra.
Qed.

Lemma hour_ret d x : hour_of d = Ret x -> dh x = d.
Proof.
  unfold hour_of. destruct (to_long d) as [h| | |]; try discriminate. cbn [bind]. destruct (to_long _) as [m| | |]; try discriminate.
  intros H. cbn [bind] in H. injection H as <-. reflexivity.
Qed.

Lemma hour_24 d : 0 <= d < 24 -> exists x, hour_of d = Ret x /\ dh x = d.
Proof.
  intros H. pose proof big. destruct (hour_spec d) as (h & m & s & E & _); [lra|]. eexists. split; [exact E|reflexivity].
Qed.

(** ** Sidereal times *)

(** The formula before any reduction. *)
Definition sidereal (t : ptime) : R := gst0 (julian_date t) + ut_hours t * (1002737909 / 1000000000).

Theorem gst_spec t : exists x, GST t = Ret x /\ 0 <= dh x < 24 /\ same_hour (dh x) (sidereal t).
Proof.
  destruct (hour_24 (gst_hours t)) as (x & E & D); [apply reduce_range|]. exists x. split; [exact E|]. rewrite D. split; [apply reduce_range|].
  unfold gst_hours, sidereal. eapply same_trans; [apply reduce_same|]. apply same_add, reduce_same.
Qed.

Definition signed (dir : direction) (l : R) : R := match dir with WEST => - l | EAST => l end.

Theorem lst_spec l dir t : exists g x, GST t = Ret g /\ LST l dir t = Ret x /\ 0 <= dh x < 24 /\
  same_hour (dh x) (dh g + signed dir l / 15).
Proof.
  destruct (gst_spec t) as (g & G & Rg & _). exists g. unfold LST. rewrite G. cbn [bind].
  destruct (Req_EM_T l 0) as [->|N].
  - destruct (hour_24 (dh g) Rg) as (x & E & D). exists x. rewrite D. split; [reflexivity|]. split; [exact E|]. split; [exact Rg|].
    exists 0%Z. destruct dir; cbn [signed]; lra.
  - set (v := (match dir with WEST => -1 * (l / 15) | EAST => 1 * (l / 15) end) + dh g).
    destruct (hour_24 (reduce24 v) (reduce_range v)) as (x & E & D). exists x. split; [reflexivity|]. split; [exact E|]. rewrite D.
    split; [apply reduce_range|]. eapply same_trans; [apply reduce_same|]. exists 0%Z. unfold v. destruct dir; cbn [signed]; lra.
Qed.

Lemma lst_congruent l dir l' dir' t x x' : same_hour (signed dir l / 15) (signed dir' l' / 15) ->
  LST l dir t = Ret x -> LST l' dir' t = Ret x' -> dh x = dh x'.
Proof.
  intros H E E'. destruct (lst_spec l dir t) as (g & y & G & Ey & Ry & Sy). destruct (lst_spec l' dir' t) as (g' & y' & G' & Ey' & Ry' & Sy').
  assert (y = x) by congruence. assert (y' = x') by congruence. assert (g' = g) by congruence. subst.
  apply same_unique; [|assumption|assumption]. eapply same_trans; [exact Sy|]. eapply same_trans; [|apply same_sym; exact Sy'].
  rewrite !(Rplus_comm (dh g)). apply same_add. exact H.
Qed.

Theorem lst_periodic l dir t x x' k : LST l dir t = Ret x -> LST (l + 360 * IZR k) dir t = Ret x' -> dh x = dh x'.
Proof.
  apply lst_congruent. exists (match dir with WEST => k | EAST => - k end)%Z. destruct dir; cbn [signed]; rewrite ?opp_IZR; field.
Qed.

Theorem lst_opposite l t x x' : LST l WEST t = Ret x -> LST (- l) EAST t = Ret x' -> dh x = dh x'.
Proof. apply lst_congruent. cbn [signed]. apply same_refl. Qed.

Theorem lst_average l t e w g : LST l EAST t = Ret e -> LST l WEST t = Ret w -> GST t = Ret g ->
  same_hour (dh e + dh w) (2 * dh g).
Proof.
  intros E W G. destruct (lst_spec l EAST t) as (g1 & y & G1 & Ey & _ & (k & Hk)). destruct (lst_spec l WEST t) as (g2 & y' & G2 & Ey' & _ & (j & Hj)).
  assert (y = e) by congruence. assert (y' = w) by congruence. assert (g1 = g) by congruence. assert (g2 = g) by congruence. subst.
  exists (k + j)%Z. rewrite plus_IZR. rewrite Hk, Hj. cbn [signed]. lra.
Qed.

(** ** The rate of sidereal time *)

Lemma julian_range t : valid_date (p_date t) -> later (p_date t) reform = true -> (2298000 <= julian_day t <= 5374000)%Z.
Proof.
  intros [Hy [Hm Hd]] L. rewrite julian_day_number by lia. fold reform. rewrite L. unfold day_number.
  apply later_spec in L. cbn [reform d_year d_month d_day] in L.
  assert (Hd' : (1 <= d_day (p_date t) <= 31)%Z).
  { unfold month_days in Hd. repeat match type of Hd with context [if ?b then _ else _] => destruct b end; lia. }
  unfold shifted, century, base. destruct (_ || _)%bool eqn:E; lia.
Qed.

Lemma julian_any_range t : valid_date (p_date t) -> (2232000 <= julian_day t <= 5374000)%Z.
Proof.
  intros [Hy [Hm Hd]]. rewrite julian_day_number by lia. unfold day_number.
  assert (Hd' : (1 <= d_day (p_date t) <= 31)%Z).
  { unfold month_days in Hd. repeat match type of Hd with context [if ?b then _ else _] => destruct b end; lia. }
  unfold shifted, century, base. destruct (_ || _)%bool eqn:E; destruct (later _ _); lia.
Qed.

(** Hours of mean solar time from one time to another [n] days later. *)
Definition elapsed (n : nat) (t t' : ptime) : R := 24 * INR n + ut_hours t' - ut_hours t.

Theorem gst_rate n t t' g g' : valid_date (p_date t) -> valid_date (p_date t') -> later (p_date t) reform = true ->
  p_date t' = days_later n (p_date t) -> GST t = Ret g -> GST t' = Ret g' ->
  exists e, same_hour (dh g') (dh g + elapsed n t t' * (1002737909 / 1000000000) + e) /\
    - (INR n * (2 / 10000000)) <= e <= INR n * (2 / 10000000).
Proof.
  intros V V' L E G G'.
  destruct (gst_spec t) as (x & X1 & _ & X2). destruct (gst_spec t') as (x' & X1' & _ & X2').
  assert (x = g) by congruence. assert (x' = g') by congruence. subst x x'.
  pose proof (julian_after n t t' (proj2 V) L E) as J.
  assert (L' : later (p_date t') reform = true).
  { rewrite E. assert (Q : forall n d, gregorian d -> later d reform = true -> later (days_later n d) reform = true).
    { clear. induction n as [|n IH]; intros d Hg L; [exact L|]. cbn [days_later]. apply IH; [apply next_day_gregorian; exact Hg|apply next_day_later; assumption]. }
    apply Q; [exact (proj2 V)|exact L]. }
  pose proof (julian_range t V L) as [R1 R2]. pose proof (julian_range t' V' L') as [R1' R2'].
  apply IZR_le in R1, R2, R1', R2'.
  set (T := (julian_date t - 2451545) / 36525). set (T' := (julian_date t' - 2451545) / 36525).
  assert (D : julian_date t' = julian_date t + INR n) by (unfold julian_date; rewrite J, plus_IZR, <- INR_IZR_INZ; ring).
  assert (DT : T' = T + INR n / 36525) by (unfold T, T'; rewrite D; field).
  exists (INR n * (2400051336 / 1000000 / 36525 + 25862 / 1000000000 * (T + T') / 36525 - 65709816 / 1000000000)).
  split.
  - eapply same_trans; [exact X2'|]. apply same_sym. eapply same_trans; [apply same_add, same_add; exact X2|].
    exists (Z.of_nat n). rewrite <- INR_IZR_INZ. unfold sidereal, elapsed, gst0. fold T T'. rewrite DT. field.
  - assert (B : -5 <= T <= 81) by (unfold T, julian_date; lra). assert (B' : -5 <= T' <= 81) by (unfold T', julian_date; lra).
    pose proof (pos_INR n) as P.
    assert (Q : - (2 / 10000000) <= 2400051336 / 1000000 / 36525 + 25862 / 1000000000 * (T + T') / 36525 - 65709816 / 1000000000 <= 2 / 10000000) by lra.
    destruct Q as [Q1 Q2]. split.
    + rewrite Ropp_mult_distr_r. apply Rmult_le_compat_l; assumption.
    + apply Rmult_le_compat_l; assumption.
Qed.

(** Dates of the Julian calendar after the reform of the code, before that of the pope. *)
Theorem julian_october y m d h mi s k : (y, m) = (1582, 10)%Z -> (2 <= d <= 4)%Z ->
  julian_day (mk_ptime (mk_date y m d) h mi s k) = (day_number false (mk_date y m d) - 10)%Z.
Proof. intros E H. injection E as -> ->. assert (d = 2 \/ d = 3 \/ d = 4)%Z as [->|[->| ->]] by lia; reflexivity. Qed.
