(** * Conversions between systems of sky coordinates in doubles: how far the angles are off. *)
From Coq Require Import ZArith Reals Lia Lra Psatz.
From Flocq Require Import Core Relative IEEE754.BinarySingleNaN IEEE754.Binary IEEE754.Bits.
From Verif Require Import TextModel TextSpec TextRound TextScan TextFloat TextProofs TextLaws TextRead TextCard DoubleModel DoubleSpec DoubleProofs DoubleUnits VectorModel VectorSpec VectorProofs VectorArith VectorProducts VectorLength VectorUnit SkyModel SkySpec SkyAngles SkyProofs.
Local Open Scope R_scope.

Lemma sq_le x g : 0 <= g -> x * x <= g * g -> Rabs x <= g.
Proof. intros G H. apply Rsqr_le_abs_0 in H. rewrite (Rabs_pos_eq g G) in H. exact H. Qed.

Lemma p49 : bpow radix2 (-49) = 16 * u53. Proof. change (-49)%Z with (4 + -53)%Z. rewrite bpow_plus. reflexivity. Qed.
Lemma p50 : bpow radix2 (-50) = 8 * u53. Proof. change (-50)%Z with (3 + -53)%Z. rewrite bpow_plus. reflexivity. Qed.
Lemma p51 : bpow radix2 (-51) = 4 * u53. Proof. change (-51)%Z with (2 + -53)%Z. rewrite bpow_plus. reflexivity. Qed.
Lemma p52 : bpow radix2 (-52) = 2 * u53. Proof. change (-52)%Z with (1 + -53)%Z. rewrite bpow_plus. reflexivity. Qed.
Lemma p48 : bpow radix2 (-48) = 32 * u53. Proof. change (-48)%Z with (5 + -53)%Z. rewrite bpow_plus. reflexivity. Qed.
Lemma p47 : bpow radix2 (-47) = 64 * u53. Proof. change (-47)%Z with (6 + -53)%Z. rewrite bpow_plus. reflexivity. Qed.
Lemma p46 : bpow radix2 (-46) = 128 * u53. Proof. change (-46)%Z with (7 + -53)%Z. rewrite bpow_plus. reflexivity. Qed.
Lemma p45 : bpow radix2 (-45) = 256 * u53. Proof. change (-45)%Z with (8 + -53)%Z. rewrite bpow_plus. reflexivity. Qed.
Lemma p44 : bpow radix2 (-44) = 512 * u53. Proof. change (-44)%Z with (9 + -53)%Z. rewrite bpow_plus. reflexivity. Qed.
Lemma p43 : bpow radix2 (-43) = 1024 * u53. Proof. change (-43)%Z with (10 + -53)%Z. rewrite bpow_plus. reflexivity. Qed.
Lemma p22 : bpow radix2 (-22) = 2147483648 * u53. Proof. change (-22)%Z with (31 + -53)%Z. rewrite bpow_plus. reflexivity. Qed.

(** The sine is off by 2^-49: the latitude by the square root of that. *)
Lemma gap49 x y : -1 <= x <= 1 -> -1 <= y <= 1 -> Rabs (x - y) <= bpow radix2 (-49) -> Rabs (asin x - asin y) <= 3 * bpow radix2 (-24).
Proof.
  intros X Y D. apply sq_le; [pose proof (bpow_gt_0 radix2 (-24)); lra|]. eapply Rle_trans; [apply (asin_close x y _ X Y D)|].
  replace (3 * bpow radix2 (-24) * (3 * bpow radix2 (-24))) with (9 * bpow radix2 (-24 + -24)) by (rewrite bpow_plus; ring).
  change (-24 + -24)%Z with (-49 + 1)%Z. rewrite bpow_double. lra.
Qed.

(** ** The true maps are rotations or reflections *)

Lemma true_unit L a m t p : conversion L a m t -> runit p -> runit (t p).
Proof.
  intros H U. unfold runit in *. destruct p as [x y z]. destruct H; unfold true_horizon, true_ra_dec, true_from_ecliptic, true_to_ecliptic; cbn [rx ry rz] in *;
    pose proof (sin2_cos2 (dval a)) as P; unfold Rsqr in P; set (s := sin (dval a)) in *; set (c := cos (dval a)) in *; clearbody s c.
  - replace ((- (s * x) + c * z) * (- (s * x) + c * z) + - y * - y + (c * x + s * z) * (c * x + s * z)) with ((s * s + c * c) * (x * x + z * z) + y * y) by ring. rewrite P. lra.
  - replace ((c * x + s * y) * (c * x + s * y) + (s * x - c * y) * (s * x - c * y) + z * z) with ((s * s + c * c) * (x * x + y * y) + z * z) by ring. rewrite P. lra.
  - replace (x * x + (c * y - s * z) * (c * y - s * z) + (s * y + c * z) * (s * y + c * z)) with (x * x + (s * s + c * c) * (y * y + z * z)) by ring. rewrite P. lra.
  - replace (x * x + (c * y + s * z) * (c * y + s * z) + (- (s * y) + c * z) * (- (s * y) + c * z)) with (x * x + (s * s + c * c) * (y * y + z * z)) by ring. rewrite P. lra.
Qed.

Lemma two_terms a b x y x' y' e : Rabs a <= 1 -> Rabs b <= 1 -> Rabs (x - x') <= e -> Rabs (y - y') <= e -> Rabs (a * (x - x') + b * (y - y')) <= 2 * e.
Proof.
  intros A B X Y. eapply Rle_trans; [apply Rabs_triang|]. pose proof (abs_le_mul _ _ _ A X). pose proof (abs_le_mul _ _ _ B Y). lra.
Qed.

Lemma true_within L a m t p q e : conversion L a m t -> within e p q -> within (2 * e) (t p) (t q).
Proof.
  intros H (X & Y & Z). assert (E0 : 0 <= e) by (eapply Rle_trans; [apply Rabs_pos|exact X]). pose proof (sin_abs_1 (dval a)) as S. pose proof (cos_abs_1 (dval a)) as C.
  assert (S' : Rabs (- sin (dval a)) <= 1) by (rewrite Rabs_Ropp; exact S). assert (C' : Rabs (- cos (dval a)) <= 1) by (rewrite Rabs_Ropp; exact C).
  assert (O : Rabs 1 <= 1) by (rewrite Rabs_R1; apply Rle_refl). assert (N : Rabs 0 <= 1) by (rewrite Rabs_R0; lra). assert (M : Rabs (-1) <= 1) by (apply Rabs_le; lra).
  destruct p as [x y z], q as [x' y' z']. cbn [rx ry rz] in *.
  destruct H; unfold true_horizon, true_ra_dec, true_from_ecliptic, true_to_ecliptic, within, each_r; cbn [rx ry rz];
    set (s := sin (dval a)) in *; set (c := cos (dval a)) in *; clearbody s c; split; [|split| |split| |split| |split].
  - replace (- (s * x) + c * z - (- (s * x') + c * z')) with (- s * (x - x') + c * (z - z')) by ring. apply two_terms; assumption.
  - replace (- y - - y') with (-1 * (y - y') + 0 * (x - x')) by ring. apply two_terms; assumption.
  - replace (c * x + s * z - (c * x' + s * z')) with (c * (x - x') + s * (z - z')) by ring. apply two_terms; assumption.
  - replace (c * x + s * y - (c * x' + s * y')) with (c * (x - x') + s * (y - y')) by ring. apply two_terms; assumption.
  - replace (s * x - c * y - (s * x' - c * y')) with (s * (x - x') + - c * (y - y')) by ring. apply two_terms; assumption.
  - lra.
  - lra.
  - replace (c * y - s * z - (c * y' - s * z')) with (c * (y - y') + - s * (z - z')) by ring. apply two_terms; assumption.
  - replace (s * y + c * z - (s * y' + c * z')) with (s * (y - y') + c * (z - z')) by ring. apply two_terms; assumption.
  - lra.
  - replace (c * y + s * z - (c * y' + s * z')) with (c * (y - y') + s * (z - z')) by ring. apply two_terms; assumption.
  - replace (- (s * y) + c * z - (- (s * y') + c * z')) with (- s * (y - y') + c * (z - z')) by ring. apply two_terms; assumption.
Qed.

Lemma undone_true L a m n : undone_by L a m n -> exists t t', conversion L a m t /\ conversion L a n t' /\ forall p, t' (t p) = p.
Proof.
  pose proof (sin2_cos2 (dval a)) as P. unfold Rsqr in P.
  intros H. destruct H.
  - exists (true_horizon (dval a)), (true_horizon (dval a)). split; [constructor|]. split; [constructor|]. intros [x y z]. unfold true_horizon. cbn [rx ry rz].
    set (s := sin (dval a)) in *. set (c := cos (dval a)) in *. clearbody s c. f_equal; [transitivity ((s * s + c * c) * x); [ring|rewrite P; ring]|ring|transitivity ((s * s + c * c) * z); [ring|rewrite P; ring]].
  - exists (true_ra_dec (dval a)), (true_ra_dec (dval a)). split; [constructor|]. split; [constructor|]. intros [x y z]. unfold true_ra_dec. cbn [rx ry rz].
    set (s := sin (dval a)) in *. set (c := cos (dval a)) in *. clearbody s c. f_equal; [transitivity ((s * s + c * c) * x); [ring|rewrite P; ring]|transitivity ((s * s + c * c) * y); [ring|rewrite P; ring]].
  - exists (true_from_ecliptic (dval a)), (true_to_ecliptic (dval a)). split; [constructor|]. split; [constructor|]. intros [x y z]. unfold true_from_ecliptic, true_to_ecliptic. cbn [rx ry rz].
    set (s := sin (dval a)) in *. set (c := cos (dval a)) in *. clearbody s c. f_equal; [transitivity ((s * s + c * c) * y); [ring|rewrite P; ring]|transitivity ((s * s + c * c) * z); [ring|rewrite P; ring]].
  - exists (true_to_ecliptic (dval a)), (true_from_ecliptic (dval a)). split; [constructor|]. split; [constructor|]. intros [x y z]. unfold true_from_ecliptic, true_to_ecliptic. cbn [rx ry rz].
    set (s := sin (dval a)) in *. set (c := cos (dval a)) in *. clearbody s c. f_equal; [transitivity ((s * s + c * c) * y); [ring|rewrite P; ring]|transitivity ((s * s + c * c) * z); [ring|rewrite P; ring]].
Qed.

(** ** Extraction of the angles *)

Section Library.
Context (L : libm) (G : good_libm L).

(** From computed coordinates close to those of a direction. *)
Lemma extract_close w p : vfinite w -> within (bpow radix2 (-49)) (vval w) p -> runit p ->
  let q := extract_coordinates_d L w in
  dfinite (fst q) /\
  (dfinite (snd q) <-> -1 <= dval (dz w) <= 1) /\
  (dfinite (snd q) -> Rabs (sin (dval (snd q)) - rz p) <= bpow radix2 (-48) /\ Rabs (dval (snd q) - asin (rz p)) <= bpow radix2 (-22) /\
     within (bpow radix2 (-22)) (direction (dval (fst q)) (dval (snd q))) p) /\
  (Rabs (rz p) <= 1 - bpow radix2 (-49) -> dfinite (snd q)) /\
  (Rabs (rz p) <= 9 / 10 -> dfinite (snd q) /\ Rabs (dval (snd q) - asin (rz p)) <= bpow radix2 (-45) /\
     within (bpow radix2 (-45)) (direction (dval (fst q)) (dval (snd q))) p).
Proof.
  intros (F0 & F1 & F2) (W0 & W1 & W2) U q. unfold q, extract_coordinates_d. cbn [fst snd]. clear q. unfold vval in *. cbn [rx ry rz] in *.
  destruct (atan2_good L G (dy w) (dx w) F1 F0) as (Ft & t & A & E).
  pose proof (runit_z p U) as Z. pose proof u53_pos as U0. pose proof u53_eq as Ue.
  assert (Dom : dfinite (m_asin L (dz w)) <-> -1 <= dval (dz w) <= 1).
  { split; [|intros B; apply (asin_good L G); split; assumption]. intros F.
    destruct (Rle_dec (-1) (dval (dz w))) as [B1|B1]; [destruct (Rle_dec (dval (dz w)) 1) as [B2|B2]; [lra|]|];
      (exfalso; apply (asin_domain L G (dz w)); [intros [_ B]; lra|exact F]). }
  split; [exact Ft|]. split; [exact Dom|].
  assert (Main : forall g, -1 <= dval (dz w) <= 1 -> Rabs (asin (dval (dz w)) - asin (rz p)) <= g ->
    Rabs (sin (dval (m_asin L (dz w))) - rz p) <= 16 * u53 + 4 * u53 /\ Rabs (dval (m_asin L (dz w)) - asin (rz p)) <= g + 4 * u53 /\
    within (g + 2 * (4 * u53) + 3 * (16 * u53)) (direction (dval (m_atan2 L (dy w) (dx w))) (dval (m_asin L (dz w)))) p).
  { intros g B Hg. destruct (asin_good L G (dz w) (conj F2 B)) as [_ Ea]. rewrite <- p51, <- p49.
    apply (direction_close p (dval (dx w)) (dval (dy w)) (dval (dz w)) t); try assumption.
    eapply Rle_trans; [exact Ea|]. apply bpow_le. lia. }
  split; [|split].
  - intros F. apply Dom in F. destruct (Main _ F (gap49 _ _ F Z W2)) as (M1 & M2 & M3). rewrite p48, p22. assert (P24 : bpow radix2 (-24) = 536870912 * u53) by (change (-24)%Z with (29 + -53)%Z; rewrite bpow_plus; reflexivity). rewrite P24 in M2, M3.
    split; [lra|]. split; [lra|]. destruct M3 as (N1 & N2 & N3). unfold within, each_r. lra.
  - intros B. apply Dom. apply Rabs_le_inv in W2, B. lra.
  - intros B. assert (I : -1 <= dval (dz w) <= 1) by (rewrite p49, Ue in W2; apply Rabs_le_inv in W2, B; lra). split; [apply Dom, I|].
    assert (Hg : Rabs (asin (dval (dz w)) - asin (rz p)) <= 8 * (16 * u53)).
    { rewrite <- p49. apply asin_close_mid; [|lra|exact W2]. rewrite p49, Ue in W2. apply Rabs_le_inv in W2, B. apply Rabs_le. lra. }
    destruct (Main _ I Hg) as (M1 & M2 & M3). rewrite p45. split; [lra|]. destruct M3 as (N1 & N2 & N3). unfold within, each_r. lra.
Qed.

(** The longitude, in terms of the point it should have in the plane. *)
Lemma longitude_close w p : vfinite w -> within (bpow radix2 (-49)) (vval w) p -> sqrt (rx p * rx p + ry p * ry p) <= 2 ->
  let lon := dval (fst (extract_coordinates_d L w)) in let r := sqrt (rx p * rx p + ry p * ry p) in
  Rabs (r * cos lon - rx p) <= bpow radix2 (-47) /\ Rabs (r * sin lon - ry p) <= bpow radix2 (-47).
Proof.
  intros (F0 & F1 & _) (W0 & W1 & _) R lon r. unfold lon, extract_coordinates_d. cbn [fst]. clear lon. unfold vval in *. cbn [rx ry rz] in *.
  destruct (atan2_good L G (dy w) (dx w) F1 F0) as (Ft & t & A & E). destruct (angle_position _ _ _ _ t _ A W0 W1) as [P Q].
  change (hyp (rx p) (ry p)) with r in P, Q. fold r in R. pose proof (hyp_pos (rx p) (ry p)) as R0. change (hyp (rx p) (ry p)) with r in R0. clearbody r. pose proof u53_pos.
  rewrite p49 in P, Q. rewrite p51 in E. rewrite p47. set (l := dval (m_atan2 L (dy w) (dx w))) in *. clearbody l.
  pose proof (cos_lipschitz l t) as C1. pose proof (sin_lipschitz l t) as S1.
  assert (C2 : Rabs (r * (cos l - cos t)) <= 8 * u53) by (rewrite Rabs_mult, (Rabs_pos_eq r R0); pose proof (Rabs_pos (cos l - cos t)); nra).
  assert (S2 : Rabs (r * (sin l - sin t)) <= 8 * u53) by (rewrite Rabs_mult, (Rabs_pos_eq r R0); pose proof (Rabs_pos (sin l - sin t)); nra).
  split.
  - replace (r * cos l - rx p) with (r * (cos l - cos t) + (r * cos t - rx p)) by ring. eapply Rle_trans; [apply Rabs_triang|]. lra.
  - replace (r * sin l - ry p) with (r * (sin l - sin t) + (r * sin t - ry p)) by ring. eapply Rle_trans; [apply Rabs_triang|]. lra.
Qed.

Lemma runit_hyp_le p : runit p -> sqrt (rx p * rx p + ry p * ry p) <= 2.
Proof. intros U. change (hyp (rx p) (ry p) <= 2). rewrite (runit_hyp p U). pose proof (COS_bound (asin (rz p))). lra. Qed.

(** ** Conversions *)

Theorem conversion_angles a m t u v : conversion L a m t -> dfinite a -> dfinite u -> dfinite v ->
  let q := convert_angles_d L m (u, v) in let p := t (direction (dval u) (dval v)) in let r := sqrt (rx p * rx p + ry p * ry p) in
  dfinite (fst q) /\
  Rabs (r * cos (dval (fst q)) - rx p) <= bpow radix2 (-47) /\ Rabs (r * sin (dval (fst q)) - ry p) <= bpow radix2 (-47) /\
  (dfinite (snd q) -> Rabs (sin (dval (snd q)) - rz p) <= bpow radix2 (-48) /\ Rabs (dval (snd q) - asin (rz p)) <= bpow radix2 (-22) /\
     within (bpow radix2 (-22)) (direction (dval (fst q)) (dval (snd q))) p) /\
  (Rabs (rz p) <= 1 - bpow radix2 (-49) -> dfinite (snd q)) /\
  (Rabs (rz p) <= 9 / 10 -> Rabs (dval (snd q) - asin (rz p)) <= bpow radix2 (-45) /\
     within (bpow radix2 (-45)) (direction (dval (fst q)) (dval (snd q))) p).
Proof.
  intros H A U V q p r. destruct (conversion_close L G a m t u v H A U V) as [F W].
  assert (Up : runit p) by (apply (true_unit L a m t _ H), direction_unit).
  destruct (extract_close _ p F W Up) as (E1 & E2 & E3 & E4 & E5). destruct (longitude_close _ p F W (runit_hyp_le p Up)) as [L1 L2].
  split; [exact E1|]. split; [exact L1|]. split; [exact L2|]. split; [exact E3|]. split; [exact E4|]. intros B. exact (proj2 (E5 B)).
Qed.

(** The latitude is missing exactly if the computed sine is beyond 1. *)
Theorem conversion_domain a m t u v : conversion L a m t -> dfinite a -> dfinite u -> dfinite v ->
  (dfinite (snd (convert_angles_d L m (u, v))) <-> -1 <= dval (dz (product_d m (column_vector_d L u v))) <= 1).
Proof.
  intros H A U V. destruct (conversion_close L G a m t u v H A U V) as [F W].
  destruct (extract_close _ _ F W (true_unit L a m t _ H (direction_unit _ _))) as (_ & E2 & _). exact E2.
Qed.

Lemma within_trans e f p q s : within e p q -> within f q s -> within (e + f) p s.
Proof.
  intros (A & B & C) (D & E & F). unfold within, each_r. split; [|split].
  - replace (rx p - rx s) with ((rx p - rx q) + (rx q - rx s)) by ring. eapply Rle_trans; [apply Rabs_triang|lra].
  - replace (ry p - ry s) with ((ry p - ry q) + (ry q - ry s)) by ring. eapply Rle_trans; [apply Rabs_triang|lra].
  - replace (rz p - rz s) with ((rz p - rz q) + (rz q - rz s)) by ring. eapply Rle_trans; [apply Rabs_triang|lra].
Qed.

Theorem round_trip_angles a m n u v : undone_by L a m n -> dfinite a -> dfinite u -> dfinite v ->
  let q := convert_angles_d L m (u, v) in let b := convert_angles_d L n q in
  (dfinite (snd q) -> dfinite (snd b) -> within (bpow radix2 (-20)) (direction (dval (fst b)) (dval (snd b))) (direction (dval u) (dval v))) /\
  (Rabs (dval (dz (product_d m (column_vector_d L u v)))) <= 8 / 9 -> Rabs (sin (dval v)) <= 8 / 9 ->
     dfinite (fst b) /\ dfinite (snd b) /\ within (bpow radix2 (-43)) (direction (dval (fst b)) (dval (snd b))) (direction (dval u) (dval v))).
Proof.
  intros H A U V q b. destruct (undone_true L a m n H) as (t & t' & Ht & Ht' & I).
  destruct (conversion_close L G a m t u v Ht A U V) as [F W].
  destruct (extract_close _ _ F W (true_unit L a m t _ Ht (direction_unit _ _))) as (Q1 & Q2 & Q3 & _ & Q5). change (extract_coordinates_d L (product_d m (column_vector_d L u v))) with q in Q1, Q2, Q3, Q5.
  assert (Second : dfinite (snd q) -> vfinite (product_d n (column_vector_d L (fst q) (snd q))) /\
    within (bpow radix2 (-49)) (vval (product_d n (column_vector_d L (fst q) (snd q)))) (t' (direction (dval (fst q)) (dval (snd q))))) by (intros Fq; apply (conversion_close L G a n t' (fst q) (snd q) Ht' A Q1 Fq)).
  assert (E : b = extract_coordinates_d L (product_d n (column_vector_d L (fst q) (snd q)))) by reflexivity. clearbody b. subst b.
  pose proof u53_pos as U0. split.
  - intros Fq Fb. destruct (Second Fq) as [F' W']. destruct (Q3 Fq) as (_ & _ & D1).
    destruct (extract_close _ _ F' W' (true_unit L a n t' _ Ht' (direction_unit _ _))) as (_ & _ & B3 & _). destruct (B3 Fb) as (_ & _ & D2).
    pose proof (true_within L a n t' _ _ _ Ht' D1) as D3. rewrite I in D3. pose proof (within_trans _ _ _ _ _ D2 D3) as D4.
    change (-20)%Z with (-22 + 1 + 1)%Z. rewrite !bpow_double. destruct D4 as (X & Y & Z). pose proof (bpow_gt_0 radix2 (-22)). unfold within, each_r, dval in *. lra.
  - intros Bz Bv. pose proof u53_eq as Ue.
    assert (B1 : Rabs (rz (t (direction (val u) (val v)))) <= 9 / 10).
    { destruct W as (_ & _ & W2). unfold vval in W2. cbn [rz] in W2. rewrite p49, Ue in W2. apply Rabs_le_inv in W2, Bz. apply Rabs_le. lra. }
    destruct (Q5 B1) as (Fq & _ & D1). destruct (Second Fq) as [F' W'].
    pose proof (true_within L a n t' _ _ _ Ht' D1) as D3. rewrite I in D3.
    assert (B2 : Rabs (rz (t' (direction (dval (fst q)) (dval (snd q))))) <= 9 / 10).
    { destruct D3 as (_ & _ & D3). unfold direction in D3 at 2. cbn [rz] in D3. change (dval v) with (val v) in Bv. rewrite p45, Ue in D3. apply Rabs_le_inv in D3, Bv. apply Rabs_le. lra. }
    destruct (extract_close _ _ F' W' (true_unit L a n t' _ Ht' (direction_unit _ _))) as (B0 & _ & _ & _ & B5). destruct (B5 B2) as (Fb & _ & D2).
    split; [exact B0|]. split; [exact Fb|]. pose proof (within_trans _ _ _ _ _ D2 D3) as D4. destruct D4 as (X & Y & Z). rewrite p45 in X, Y, Z. rewrite p43. unfold within, each_r. unfold dval in *. lra.
Qed.

(** ** Galactic coordinates *)

Lemma galactic_third x y z : x * x + y * y + z * z = 1 -> Rabs (- 8676008 * x + 1883746 * y + 4601998 * z) <= 999999998 / 100.
Proof.
  intros H. apply sq_le; [lra|].
  assert (C : (- 8676008 * x + 1883746 * y + 4601998 * z) * (- 8676008 * x + 1883746 * y + 4601998 * z) <=
    (8676008 * 8676008 + 1883746 * 1883746 + 4601998 * 4601998) * (x * x + y * y + z * z)).
  { assert (Q1 : 0 <= (- 8676008 * y - 1883746 * x) * (- 8676008 * y - 1883746 * x)) by apply Rle_0_sqr.
    assert (Q2 : 0 <= (- 8676008 * z - 4601998 * x) * (- 8676008 * z - 4601998 * x)) by apply Rle_0_sqr.
    assert (Q3 : 0 <= (1883746 * z - 4601998 * y) * (1883746 * z - 4601998 * y)) by apply Rle_0_sqr.
    match goal with |- ?a <= ?b => replace b with (a + ((- 8676008 * y - 1883746 * x) * (- 8676008 * y - 1883746 * x) + (- 8676008 * z - 4601998 * x) * (- 8676008 * z - 4601998 * x) + (1883746 * z - 4601998 * y) * (1883746 * z - 4601998 * y))) by ring end. lra. }
  rewrite H in C. lra.
Qed.

(** The length of the image of a direction is almost 1 (the digits of the matrix end somewhere). *)
Lemma abs_prod_half x y : x * x + y * y <= 1 -> Rabs (x * y) <= / 2.
Proof. intros H. assert (0 <= (x - y) * (x - y)) by apply Rle_0_sqr. assert (0 <= (x + y) * (x + y)) by apply Rle_0_sqr. apply Rabs_le. lra. Qed.

Lemma galactic_hyp p : runit p -> let q := tenmillionth (galactic_matrix p) in sqrt (rx q * rx q + ry q * ry q) <= 2 /\ Rabs (rz q) <= 1 - / 1000000000.
Proof.
  intros U q. destruct p as [x y z]. unfold runit in U. unfold q, tenmillionth, galactic_matrix. cbn [rx ry rz] in *. clear q.
  assert (Px : 0 <= x * x) by apply Rle_0_sqr. assert (Py : 0 <= y * y) by apply Rle_0_sqr. assert (Pz : 0 <= z * z) by apply Rle_0_sqr.
  pose proof (abs_prod_half x y ltac:(lra)) as A. pose proof (abs_prod_half y z ltac:(lra)) as B. pose proof (abs_prod_half x z ltac:(lra)) as C. apply Rabs_le_inv in A, B, C. split.
  - rewrite <- (R_sqrt.sqrt_square 2) by lra. apply sqrt_le_1_alt. nra.
  - pose proof (galactic_third x y z U) as T. apply Rabs_le_inv in T. apply Rabs_le. lra.
Qed.

Lemma to_galactic_hyp p : runit p -> let q := tenmillionth (to_galactic_matrix p) in sqrt (rx q * rx q + ry q * ry q) <= 2 /\ Rabs (rz q) <= 1 - / 1000000000.
Proof.
  intros U q. destruct p as [x y z]. unfold runit in U. unfold q, tenmillionth, to_galactic_matrix. cbn [rx ry rz] in *. clear q.
  assert (Px : 0 <= x * x) by apply Rle_0_sqr. assert (Py : 0 <= y * y) by apply Rle_0_sqr. assert (Pz : 0 <= z * z) by apply Rle_0_sqr.
  pose proof (abs_prod_half x y ltac:(lra)) as A. pose proof (abs_prod_half y z ltac:(lra)) as B. pose proof (abs_prod_half x z ltac:(lra)) as C. apply Rabs_le_inv in A, B, C. split.
  - rewrite <- (R_sqrt.sqrt_square 2) by lra. apply sqrt_le_1_alt. nra.
  - pose proof (galactic_third x (- y) z ltac:(lra)) as T. apply Rabs_le_inv in T. apply Rabs_le. lra.
Qed.

(** Coordinates close to those of a vector whose z is clearly below 1. *)
Lemma extract_inside w p : vfinite w -> within (bpow radix2 (-49)) (vval w) p -> sqrt (rx p * rx p + ry p * ry p) <= 2 -> Rabs (rz p) <= 1 - / 1000000000 ->
  let q := extract_coordinates_d L w in let r := sqrt (rx p * rx p + ry p * ry p) in
  dfinite (fst q) /\ dfinite (snd q) /\ Rabs (r * cos (dval (fst q)) - rx p) <= bpow radix2 (-47) /\ Rabs (r * sin (dval (fst q)) - ry p) <= bpow radix2 (-47) /\
  Rabs (sin (dval (snd q)) - rz p) <= bpow radix2 (-48) /\ Rabs (dval (snd q) - asin (rz p)) <= bpow radix2 (-22).
Proof.
  intros F W R Z q r. destruct (longitude_close w p F W R) as [L1 L2]. destruct F as (F0 & F1 & F2). destruct W as (_ & _ & W2). unfold vval in W2. cbn [rz] in W2.
  unfold q, extract_coordinates_d in *. cbn [fst snd] in *. pose proof u53_pos as U0. pose proof u53_eq as Ue.
  assert (I : -1 <= dval (dz w) <= 1) by (rewrite p49, Ue in W2; apply Rabs_le_inv in W2, Z; lra).
  assert (Zp : -1 <= rz p <= 1) by (apply Rabs_le_inv in Z; lra).
  destruct (asin_good L G (dz w) (conj F2 I)) as [Fa Ea]. split; [apply (atan2_good L G); assumption|]. split; [exact Fa|]. split; [exact L1|]. split; [exact L2|].
  rewrite p52 in Ea. pose proof (gap49 _ _ I Zp W2) as Gp. split.
  - replace (sin (dval (m_asin L (dz w))) - rz p) with ((sin (dval (m_asin L (dz w))) - sin (asin (dval (dz w)))) + (dval (dz w) - rz p)) by (rewrite sin_asin by exact I; ring).
    eapply Rle_trans; [apply Rabs_triang|]. pose proof (sin_lipschitz (dval (m_asin L (dz w))) (asin (dval (dz w)))). rewrite p49 in W2. rewrite p48. lra.
  - replace (dval (m_asin L (dz w)) - asin (rz p)) with ((dval (m_asin L (dz w)) - asin (dval (dz w))) + (asin (dval (dz w)) - asin (rz p))) by ring.
    eapply Rle_trans; [apply Rabs_triang|]. assert (P24 : bpow radix2 (-24) = 536870912 * u53) by (change (-24)%Z with (29 + -53)%Z; rewrite bpow_plus; reflexivity). rewrite P24 in Gp. rewrite p22. lra.
Qed.

Theorem galactic_angles u v : dfinite u -> dfinite v ->
  let q := convert_angles_d L galactic_to_ra_dec_d (u, v) in let p := tenmillionth (galactic_matrix (direction (dval u) (dval v))) in let r := sqrt (rx p * rx p + ry p * ry p) in
  dfinite (fst q) /\ dfinite (snd q) /\ Rabs (r * cos (dval (fst q)) - rx p) <= bpow radix2 (-47) /\ Rabs (r * sin (dval (fst q)) - ry p) <= bpow radix2 (-47) /\
  Rabs (sin (dval (snd q)) - rz p) <= bpow radix2 (-48) /\ Rabs (dval (snd q) - asin (rz p)) <= bpow radix2 (-22).
Proof.
  intros U V. destruct (galactic_close L G u v U V) as [F W]. destruct (galactic_hyp _ (direction_unit (dval u) (dval v))) as [R Z]. exact (extract_inside _ _ F W R Z).
Qed.

Theorem to_galactic_angles u v : dfinite u -> dfinite v ->
  let q := convert_angles_d L ra_dec_to_galactic_d (u, v) in let p := tenmillionth (to_galactic_matrix (direction (dval u) (dval v))) in let r := sqrt (rx p * rx p + ry p * ry p) in
  dfinite (fst q) /\ dfinite (snd q) /\ Rabs (r * cos (dval (fst q)) - rx p) <= bpow radix2 (-47) /\ Rabs (r * sin (dval (fst q)) - ry p) <= bpow radix2 (-47) /\
  Rabs (sin (dval (snd q)) - rz p) <= bpow radix2 (-48) /\ Rabs (dval (snd q) - asin (rz p)) <= bpow radix2 (-22).
Proof.
  intros U V. destruct (to_galactic_close L G u v U V) as [F W]. destruct (to_galactic_hyp _ (direction_unit (dval u) (dval v))) as [R Z]. exact (extract_inside _ _ F W R Z).
Qed.

End Library.
