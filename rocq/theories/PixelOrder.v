(** * Largest, smallest and middle pixel, with infinities and blanks. *)
From Coq Require Import ZArith NArith Reals List Lia Lra Permutation Sorted ZifyBool ZifyN ZifyNat.
From Flocq Require Import Core IEEE754.BinarySingleNaN IEEE754.Binary IEEE754.Bits.
From Verif Require Import CppProofs ConvSpec ImageModel TextModel TextSpec DoubleModel DoubleSpec DoubleProofs DoubleUnits VectorModel PixelModel PixelSpec PixelProofs.
Import ListNotations.
Local Open Scope R_scope.

Notation isnan := (is_nan 53 1024).

(** ** Doubles *)
Definition dle (x y : double) : Prop :=
  B2FF 53 1024 x = F754_infinity true \/ B2FF 53 1024 y = F754_infinity false \/ (fin x = true /\ fin y = true /\ val x <= val y).

Lemma lt_finite x y : fin x = true -> fin y = true -> (d_lt x y = true <-> val x < val y).
Proof.
  intros X Y. unfold d_lt. change (b64_compare x y) with (Bcompare 53 1024 x y). rewrite (Bcompare_correct 53 1024 x y X Y).
  destruct (Rcompare_spec (val x) (val y)) as [H|H|H]; split; intros K; try discriminate; try reflexivity; lra.
Qed.

Lemma lt_spec x y : isnan x = false -> isnan y = false -> (d_lt x y = true <-> ~ dle y x).
Proof.
  intros X Y. assert (D : fin x = true /\ fin y = true \/ fin x = false \/ fin y = false) by (destruct (fin x), (fin y); auto).
  destruct D as [[Fx Fy]|D].
  - rewrite (lt_finite x y Fx Fy). unfold dle. split.
    + intros L [H|[H|(_ & _ & H)]]; [destruct y; discriminate|destruct x; discriminate|lra].
    + intros N. apply Rnot_le_lt. intros H. apply N. auto.
  - unfold d_lt, dle. change (b64_compare x y) with (Bcompare 53 1024 x y).
    destruct x as [s|s|s p Hp|s m e H]; try discriminate X; destruct y as [s'|s'|s' p' Hp'|s' m' e' H']; try discriminate Y;
      try (destruct D as [D|D]; discriminate D); cbn [B2FF is_finite Bcompare B2SF SpecFloat.SFcompare]; unfold Bcompare; cbn [B2SF SpecFloat.SFcompare];
      try destruct s; try destruct s'; cbn; split; intros K; try reflexivity; try discriminate K; try (intros [E|[E|(E & E' & _)]]; discriminate); exfalso; apply K; auto.
Qed.

Lemma lt_blank x y : isnan x = true \/ isnan y = true -> d_lt x y = false.
Proof. unfold d_lt. change (b64_compare x y) with (Bcompare 53 1024 x y). intros [H|H]; [destruct x; try discriminate H; reflexivity|]. destruct y; try discriminate H. destruct x as [t|t|t p E|t m' e' E]; try reflexivity; destruct t; reflexivity. Qed.

Lemma dle_refl x : isnan x = false -> dle x x.
Proof. destruct x as [s|s|s p E|s m e E]; intros H; try discriminate H; try (right; right; split; [reflexivity|split; [reflexivity|apply Rle_refl]]). destruct s; [left|right; left]; reflexivity. Qed.
Lemma dle_trans x y z : isnan y = false -> dle x y -> dle y z -> dle x z.
Proof.
  intros N [A|[A|(A1 & A2 & A3)]] B; [left; exact A| |].
  - destruct B as [B|[B|(B & _)]]; [rewrite A in B; discriminate|right; left; exact B|destruct y; discriminate].
  - destruct B as [B|[B|(B1 & B2 & B3)]]; [destruct y; discriminate|right; left; exact B|]. right; right. split; [exact A1|]. split; [exact B2|]. lra.
Qed.
Lemma dle_dec x y : isnan x = false -> isnan y = false -> dle x y \/ ~ dle x y.
Proof. intros X Y. destruct (d_lt y x) eqn:E; [right; apply (lt_spec y x Y X), E|left]. assert (H : ~ ~ dle x y) by (rewrite <- (lt_spec y x Y X), E; discriminate).
  unfold dle in *. destruct (fin x) eqn:Fx, (fin y) eqn:Fy.
  - right; right. split; [reflexivity|]. split; [reflexivity|]. apply Rnot_lt_le. intros L. apply H. intros [K|[K|(_ & _ & K)]]; [destruct x; discriminate|destruct y; discriminate|lra].
  - destruct y as [s|s|s p Q|s m e Q]; try discriminate. destruct s; [|auto]. exfalso. apply H. intros [K|[K|(_ & K & _)]]; try discriminate. destruct x; discriminate.
  - destruct x as [s|s|s p Q|s m e Q]; try discriminate. destruct s; [auto|]. exfalso. apply H. intros [K|[K|(K & _)]]; try discriminate. destruct y; discriminate.
  - destruct x as [s|s|s p Q|s m e Q]; try discriminate. destruct s; [auto|]. destruct y as [s|s|s p' Q'|s m' e' Q']; try discriminate. destruct s; [|auto]. exfalso. apply H. intros [K|[K|(K & _)]]; discriminate.
Qed.
Lemma not_lt x y : isnan x = false -> isnan y = false -> d_lt x y = false -> dle y x.
Proof. intros X Y H. destruct (dle_dec y x Y X) as [D|D]; [exact D|]. apply (lt_spec x y X Y) in D. congruence. Qed.
Lemma dle_total x y : isnan x = false -> isnan y = false -> dle x y \/ dle y x.
Proof.
  intros X Y. destruct (d_lt x y) eqn:E; [left|right; apply not_lt; assumption]. apply (lt_spec x y X Y) in E. apply not_lt; [exact Y|exact X|].
  destruct (d_lt y x) eqn:E2; [|reflexivity]. apply (lt_spec y x Y X) in E2. exfalso.
  destruct x as [s|s|s p Q|s m e Q]; try discriminate X; destruct y as [s'|s'|s' p' Q'|s' m' e' Q']; try discriminate Y; unfold dle in *; cbn [B2FF is_finite] in *;
    try (destruct s; [apply E2; left; reflexivity|apply E; right; left; reflexivity]); try (destruct s'; [apply E; left; reflexivity|apply E2; right; left; reflexivity]);
    match goal with H : ~ (_ \/ _ \/ (_ /\ _ /\ ?p <= ?q)) |- _ => destruct (Rle_dec p q) as [L|L]; [apply H; auto|] end; first [apply E2; right; right; split; [reflexivity|split; [reflexivity|lra]]|apply E; right; right; split; [reflexivity|split; [reflexivity|lra]]].
Qed.

(** ** Pixels *)
Lemma pixel_lt_ok b v w : pixel_pattern b v -> pixel_pattern b w -> pixel_lt b v w = d_lt (pixel_double b v) (pixel_double b w).
Proof.
  assert (K : forall k, (1 <= k <= 4)%nat -> (v < 256 ^ N.of_nat k)%N -> (w < 256 ^ N.of_nat k)%N -> (signed_word k v <? signed_word k w)%Z = d_lt (d_of_Z (signed_word k v)) (d_of_Z (signed_word k w))).
  { intros k Hk V W. rewrite !word_signed. pose proof (signed_range_ok k v ltac:(lia) V). pose proof (signed_range_ok k w ltac:(lia) W). assert (E : (2 ^ (8 * Z.of_nat k - 1) <= 2 ^ 31)%Z) by (apply Z.pow_le_mono_r; lia).
    destruct (small_int_ok (signed_of k v) ltac:(lia)) as [Fv Vv]. destruct (small_int_ok (signed_of k w) ltac:(lia)) as [Fw Vw]. pose proof (lt_finite _ _ Fv Fw) as L. rewrite Vv, Vw in L.
    destruct (Z.ltb_spec (signed_of k v) (signed_of k w)) as [G|G]; symmetry; [apply L, IZR_lt, G|]. apply Bool.not_true_is_false. intros T. apply L in T. apply lt_IZR in T. lia. }
  unfold pixel_pattern. intros V W. destruct b; cbn [pixel_lt pixel_double]; try reflexivity; apply K; try lia; assumption.
Qed.

Lemma pixel_le_ok b v w : pixel_pattern b v -> pixel_pattern b w -> (pixel_le b v w <-> dle (pixel_double b v) (pixel_double b w)).
Proof.
  intros V W. destruct (pixel_ok b v V) as (Fv & Vv & Iv & _). destruct (pixel_ok b w W) as (Fw & Vw & Iw & _). unfold pixel_le, dle, dfinite in *. rewrite Iv, Iw. split.
  - intros [H|[H|(H1 & H2 & H3)]]; auto. right; right. rewrite Vv, Vw by assumption. rewrite Fv, Fw. auto.
  - intros [H|[H|(H1 & H2 & H3)]]; auto. right; right. rewrite Fv in H1. rewrite Fw in H2. rewrite Vv, Vw in H3 by assumption. auto.
Qed.

Lemma blank_ok b w : pixel_pattern b w -> (pixel_blank b w <-> isnan (pixel_double b w) = true).
Proof. intros P. destruct (pixel_ok b w P) as (_ & _ & _ & N). symmetry. exact N. Qed.
Lemma not_blank_ok b w : pixel_pattern b w -> (~ pixel_blank b w <-> isnan (pixel_double b w) = false).
Proof. intros P. rewrite (blank_ok b w P). destruct (isnan (pixel_double b w)); split; intros H; try reflexivity; try discriminate; exfalso; apply H; reflexivity. Qed.
Lemma blank_dec b w : pixel_pattern b w -> pixel_blank b w \/ ~ pixel_blank b w.
Proof. intros P. destruct (isnan (pixel_double b w)) eqn:E; [left; apply (blank_ok b w P), E|right; apply (not_blank_ok b w P), E]. Qed.

Theorem le_refl b v : pixel_pattern b v -> ~ pixel_blank b v -> pixel_le b v v.
Proof. intros P N. apply pixel_le_ok; [exact P|exact P|]. apply dle_refl, (not_blank_ok b v P), N. Qed.
Theorem le_trans b u v w : pixel_pattern b u -> pixel_pattern b v -> pixel_pattern b w -> ~ pixel_blank b v -> pixel_le b u v -> pixel_le b v w -> pixel_le b u w.
Proof. intros U V W N. rewrite !pixel_le_ok by assumption. apply dle_trans, (not_blank_ok b v V), N. Qed.
Theorem le_total b v w : pixel_pattern b v -> pixel_pattern b w -> ~ pixel_blank b v -> ~ pixel_blank b w -> pixel_le b v w \/ pixel_le b w v.
Proof. intros V W Nv Nw. rewrite !pixel_le_ok by assumption. apply dle_total; apply not_blank_ok; assumption. Qed.

Lemma lt_le b v w : pixel_pattern b v -> pixel_pattern b w -> ~ pixel_blank b v -> ~ pixel_blank b w -> if pixel_lt b v w then pixel_le b v w /\ ~ pixel_le b w v else pixel_le b w v.
Proof.
  intros V W Nv Nw. rewrite (pixel_lt_ok b v w V W). apply (not_blank_ok b v V) in Nv. apply (not_blank_ok b w W) in Nw. destruct (d_lt _ _) eqn:E; rewrite !pixel_le_ok by assumption.
  - apply lt_spec in E; [|assumption|assumption]. split; [|exact E]. destruct (dle_total (pixel_double b v) (pixel_double b w) Nv Nw); [assumption|contradiction].
  - apply not_lt; assumption.
Qed.
Lemma lt_blank_pixel b v w : pixel_pattern b v -> pixel_pattern b w -> pixel_blank b v \/ pixel_blank b w -> pixel_lt b v w = false.
Proof. intros V W H. rewrite (pixel_lt_ok b v w V W). apply lt_blank. rewrite (blank_ok b v V), (blank_ok b w W) in H. exact H. Qed.

(** ** Largest and smallest: the relation [r] is [pixel_le] one way or the other *)
Section Extreme.
  Variables (b : bitpix) (better : N -> N -> bool) (r : N -> N -> Prop).
  Hypothesis trans : forall u v w, pixel_pattern b u -> pixel_pattern b v -> pixel_pattern b w -> ~ pixel_blank b v -> r u v -> r v w -> r u w.
  Hypothesis refl : forall v, pixel_pattern b v -> ~ pixel_blank b v -> r v v.
  Hypothesis spec : forall m v, pixel_pattern b m -> pixel_pattern b v -> ~ pixel_blank b m -> ~ pixel_blank b v -> if better m v then r m v /\ ~ r v m else r v m.
  Hypothesis blank : forall m v, pixel_pattern b m -> pixel_pattern b v -> pixel_blank b m \/ pixel_blank b v -> better m v = false.
  Definition pick (l : list N) (m : N) : N := fold_left (fun m v => if better m v then v else m) l m.

  Lemma pick_blank l m : Forall (pixel_pattern b) l -> pixel_pattern b m -> pixel_blank b m -> pick l m = m.
  Proof. intros P M B. induction P as [|v l V P IH]; [reflexivity|]. unfold pick in *. cbn [fold_left]. rewrite blank; auto. Qed.

  (** Of the pixels that are not blank, all after the one found are no better, and all before it are worse. *)
  Lemma pick_ok l : Forall (pixel_pattern b) l -> forall m, pixel_pattern b m -> ~ pixel_blank b m -> let x := pick l m in
    ~ pixel_blank b x /\ pixel_pattern b x /\
    exists before after, m :: l = before ++ x :: after /\ Forall (fun v => ~ pixel_blank b v -> r v x /\ ~ r x v) before /\ Forall (fun v => ~ pixel_blank b v -> r v x) after.
  Proof.
    intros P. induction P as [|v l V P IH]; intros m M B.
    - cbn. split; [exact B|]. split; [exact M|]. exists [], []. split; [reflexivity|]. split; constructor.
    - unfold pick in *. cbn [fold_left]. destruct (blank_dec b v V) as [Bv|Bv].
      + rewrite blank by auto. destruct (IH m M B) as (X & PX & bef & aft & E & F & G). split; [exact X|]. split; [exact PX|]. set (x := fold_left _ l m) in *. clearbody x. destruct bef as [|y bef].
        * cbn in E. injection E as E1 E2. subst x. exists [], (v :: l). split; [reflexivity|]. split; [constructor|]. constructor; [contradiction|]. rewrite E2. exact G.
        * cbn in E. injection E as E1 E2. subst y. exists (m :: v :: bef), aft. split; [cbn; rewrite E2; reflexivity|]. inversion F as [|? ? H F']; subst. split; [|exact G]. constructor; [exact H|]. constructor; [contradiction|exact F'].
      + pose proof (spec m v M V B Bv) as S. destruct (better m v).
        * destruct S as [S1 S2]. destruct (IH v V Bv) as (X & PX & bef & aft & E & F & G). split; [exact X|]. split; [exact PX|]. exists (m :: bef), aft. split; [cbn; rewrite E at 1; reflexivity|]. split; [|exact G]. constructor; [|exact F]. intros _.
          set (x := fold_left _ l v) in *. clearbody x. assert (L : r v x).
          { destruct bef as [|y bef]; cbn in E; injection E as E1 E2; [rewrite <- E1; apply refl; assumption|]. subst y. inversion F as [|? ? H]; subst. apply (H Bv). }
          split; [apply (trans m v x); assumption|]. intros C. apply S2. apply (trans v x m); assumption.
        * destruct (IH m M B) as (X & PX & bef & aft & E & F & G). split; [exact X|]. split; [exact PX|]. set (x := fold_left _ l m) in *. clearbody x. destruct bef as [|y bef].
          -- cbn in E. injection E as E1 E2. subst x. exists [], (v :: l). split; [reflexivity|]. split; [constructor|]. constructor; [intros _; exact S|]. rewrite E2. exact G.
          -- cbn in E. injection E as E1 E2. subst y. exists (m :: v :: bef), aft. split; [cbn; rewrite E2; reflexivity|]. inversion F as [|? ? H F']; subst. split; [|exact G]. constructor; [exact H|]. constructor; [|exact F']. intros _.
             destruct (H B) as [H1 H2]. split; [apply (trans v m x); assumption|]. intros C. apply H2. apply (trans x v m); assumption.
  Qed.
End Extreme.

Theorem max_ok b im x rest : proper b im -> pixels im = x :: rest -> ~ pixel_blank b x -> exists m before after,
  pixel_max b im = Ret m /\ pixels im = before ++ m :: after /\ ~ pixel_blank b m /\
  Forall (fun v => ~ pixel_blank b v -> pixel_le b v m /\ ~ pixel_le b m v) before /\ Forall (fun v => ~ pixel_blank b v -> pixel_le b v m) after.
Proof.
  intros P E B. unfold pixel_max, proper in *. rewrite E in *. inversion P; subst.
  destruct (pick_ok b (pixel_lt b) (pixel_le b) (le_trans b) (le_refl b) (fun m v => lt_le b m v) (fun m v => lt_blank_pixel b m v) rest ltac:(assumption) x ltac:(assumption) B) as (X & _ & bef & aft & Q & F & G).
  exists (pick (pixel_lt b) rest x), bef, aft. split; [reflexivity|]. auto.
Qed.

Theorem min_ok b im x rest : proper b im -> pixels im = x :: rest -> ~ pixel_blank b x -> exists m before after,
  pixel_min b im = Ret m /\ pixels im = before ++ m :: after /\ ~ pixel_blank b m /\
  Forall (fun v => ~ pixel_blank b v -> pixel_le b m v /\ ~ pixel_le b v m) before /\ Forall (fun v => ~ pixel_blank b v -> pixel_le b m v) after.
Proof.
  intros P E B. unfold pixel_min, proper in *. rewrite E in *. inversion P; subst.
  destruct (pick_ok b (fun m v => pixel_lt b v m) (fun v w => pixel_le b w v)) with (l := rest) (m := x) as (X & _ & bef & aft & Q & F & G); try assumption.
  - intros u v w U V W N A C. apply (le_trans b w v u); assumption.
  - apply le_refl.
  - intros m v M V Nm Nv. pose proof (lt_le b v m V M Nv Nm) as S. destruct (pixel_lt b v m); exact S.
  - intros m v M V H. apply lt_blank_pixel; [assumption|assumption|]. destruct H; auto.
  - exists (pick (fun m v => pixel_lt b v m) rest x), bef, aft. split; [reflexivity|]. auto.
Qed.

Theorem first_blank b im x rest : proper b im -> pixels im = x :: rest -> pixel_blank b x -> pixel_max b im = Ret x /\ pixel_min b im = Ret x.
Proof.
  intros P E B. unfold pixel_max, pixel_min, proper in *. rewrite E in *. inversion P; subst. split; f_equal.
  - apply (pick_blank b (pixel_lt b)); auto. intros m v. apply lt_blank_pixel.
  - apply (pick_blank b (fun m v => pixel_lt b v m)); auto. intros m v M V H. apply lt_blank_pixel; auto. destruct H; auto.
Qed.

(** ** Median *)
Lemma insert_perm b x l : Permutation (pixel_insert b x l) (x :: l).
Proof. induction l as [|y l IH]; [reflexivity|]. cbn. destruct (pixel_lt b y x); [|reflexivity]. rewrite IH. apply perm_swap. Qed.
Lemma sort_perm b l : Permutation (pixel_sort b l) l.
Proof. induction l as [|y l IH]; [reflexivity|]. cbn. rewrite insert_perm. constructor. exact IH. Qed.

Definition plain b w := pixel_pattern b w /\ ~ pixel_blank b w.

Lemma insert_sorted b x l : plain b x -> Forall (plain b) l -> StronglySorted (pixel_le b) l -> StronglySorted (pixel_le b) (pixel_insert b x l).
Proof.
  intros [X Nx] P S. induction S as [|y l S IH F]; [repeat constructor|]. inversion P as [|? ? [Y Ny] P']; subst. cbn. pose proof (lt_le b y x Y X Ny Nx) as L. destruct (pixel_lt b y x).
  - constructor; [apply IH; exact P'|]. apply Forall_forall. intros z Z. apply (Permutation_in z (insert_perm b x l)) in Z. destruct Z as [<-|Z]; [apply L|]. rewrite Forall_forall in F. apply F, Z.
  - constructor; [constructor; assumption|]. constructor; [exact L|]. rewrite Forall_forall in *. intros z Z. destruct (P' z Z) as [Pz Nz]. apply (le_trans b x y z); auto.
Qed.
Lemma sort_sorted b l : Forall (plain b) l -> StronglySorted (pixel_le b) (pixel_sort b l).
Proof.
  induction 1 as [|x l X P IH]; [constructor|]. cbn. apply insert_sorted; [exact X| |exact IH]. rewrite Forall_forall in *. intros z Z. apply P. apply (Permutation_in z (sort_perm b l)), Z.
Qed.

Lemma sorted_split b l1 v l2 : StronglySorted (pixel_le b) (l1 ++ v :: l2) -> Forall (fun w => pixel_le b w v) l1 /\ Forall (pixel_le b v) l2.
Proof.
  induction l1 as [|x l1 IH]; cbn; intros S; inversion S as [|? ? S' F]; subst; [split; [constructor|exact F]|]. destruct (IH S') as [A B]. split; [|exact B]. constructor; [|exact A]. rewrite Forall_forall in F. apply F. apply in_or_app. right. left. reflexivity.
Qed.

Theorem median_ok b im : proper b im -> pixels im <> [] -> Forall (fun w => ~ pixel_blank b w) (pixels im) -> exists v, pixel_median b im = Ret v /\ middle b (pixels im) v.
Proof.
  intros P N B. unfold pixel_median, proper in *. set (l := pixels im) in *. clearbody l.
  assert (E : existsb (fun w => isnan (pixel_double b w)) l = false).
  { apply Bool.not_true_is_false. intros H. apply existsb_exists in H. destruct H as (w & W & H). rewrite Forall_forall in *. apply (B w W). apply (blank_ok b w (P w W)), H. }
  rewrite E. assert (A : Forall (plain b) l) by (rewrite Forall_forall in *; intros w W; split; auto). pose proof (sort_sorted b l A) as S. pose proof (sort_perm b l) as Q. pose proof (Permutation_length Q) as QL.
  destruct (nth_error (pixel_sort b l) (length l / 2)) as [v|] eqn:V.
  - exists v. split; [reflexivity|]. destruct (nth_error_split _ _ V) as (l1 & l2 & E2 & L). rewrite E2 in S. destruct (sorted_split b l1 v l2 S) as [S1 S2]. exists l1, l2. rewrite <- E2. split; [symmetry; exact Q|]. auto.
  - apply nth_error_None in V. destruct l as [|x l]; [contradiction|]. assert ((length (x :: l) / 2 < length (x :: l))%nat) by (apply Nat.div_lt; cbn; lia). lia.
Qed.

Lemma filter_perm {A} (f : A -> bool) l l' : Permutation l l' -> length (filter f l) = length (filter f l').
Proof. induction 1 as [|x l l' H IH|x y l|l l' l'' H IH H' IH']; [reflexivity| | |congruence]; cbn; [destruct (f x); cbn; congruence|destruct (f x), (f y); reflexivity]. Qed.
Lemma filter_all {A} (f : A -> bool) l : Forall (fun x => f x = true) l -> length (filter f l) = length l.
Proof. induction 1 as [|x l H P IH]; [reflexivity|]. cbn. rewrite H. cbn. congruence. Qed.
Lemma filter_none {A} (f : A -> bool) l : Forall (fun x => f x = false) l -> length (filter f l) = 0%nat.
Proof. induction 1 as [|x l H P IH]; [reflexivity|]. cbn. rewrite H. exact IH. Qed.
Lemma filter_le {A} (f : A -> bool) l : (length (filter f l) <= length l)%nat.
Proof. induction l as [|x l IH]; [reflexivity|]. cbn. destruct (f x); cbn; lia. Qed.

Lemma middle_le b l l' v w : Permutation l l' -> Forall (plain b) l -> middle b l v -> middle b l' w -> pixel_le b w v.
Proof.
  intros Q A (lo & hi & P1 & L1 & A1 & B1) (lo' & hi' & P2 & L2 & A2 & B2). pose proof (Permutation_length Q) as LQ.
  assert (Av : Forall (plain b) (lo ++ v :: hi)) by (rewrite Forall_forall in *; intros z Z; apply A, (Permutation_in z (Permutation_sym P1) Z)).
  assert (Aw : Forall (plain b) (lo' ++ w :: hi')) by (rewrite Forall_forall in *; intros z Z; apply A, (Permutation_in z (Permutation_sym Q)), (Permutation_in z (Permutation_sym P2) Z)).
  assert (Pv : plain b v) by (rewrite Forall_forall in Av; apply Av, in_or_app; right; left; reflexivity). assert (Pw : plain b w) by (rewrite Forall_forall in Aw; apply Aw, in_or_app; right; left; reflexivity).
  destruct Pv as [Pv Nv], Pw as [Pw Nw]. pose proof (lt_le b v w Pv Pw Nv Nw) as S. destruct (pixel_lt b v w) eqn:E; [|exact S]. destruct S as [S1 S2]. exfalso.
  set (f := fun z => pixel_lt b z w).
  assert (F1 : (length lo + 1 <= length (filter f l))%nat).
  { rewrite (filter_perm f _ _ P1), filter_app, app_length. rewrite filter_all; [cbn [filter]; unfold f at 1; rewrite E; cbn [length]; lia|]. apply Forall_app in Av. destruct Av as [Alo _]. rewrite Forall_forall in *. intros z Z. destruct (Alo z Z) as [Pz Nz]. unfold f.
    pose proof (lt_le b z w Pz Pw Nz Nw) as T. destruct (pixel_lt b z w); [reflexivity|]. exfalso. apply S2. apply (le_trans b w z v); auto. }
  assert (F2 : (length (filter f l) <= length lo')%nat).
  { rewrite (filter_perm f _ _ Q), (filter_perm f _ _ P2), filter_app, app_length. pose proof (filter_le f lo'). rewrite (filter_none f (w :: hi')); [lia|]. apply Forall_app in Aw. destruct Aw as [_ Ahi]. inversion Ahi; subst. constructor.
    - unfold f. pose proof (lt_le b w w Pw Pw Nw Nw) as T. destruct (pixel_lt b w w); [destruct T; contradiction|reflexivity].
    - rewrite Forall_forall in *. intros z Z. match goal with H : forall x, In x hi' -> plain b x |- _ => destruct (H z Z) as [Pz Nz] end. unfold f. pose proof (lt_le b z w Pz Pw Nz Nw) as T. destruct (pixel_lt b z w); [destruct T as [_ T]; exfalso; apply T, B2, Z|reflexivity]. }
  rewrite LQ in L1. lia.
Qed.

Lemma middle_perm b l l' v : Permutation l l' -> middle b l v -> middle b l' v.
Proof. intros Q (lo & hi & P & L & A & B). exists lo, hi. rewrite <- (Permutation_length Q). split; [rewrite <- Q; exact P|auto]. Qed.

(** The median does not depend on the order of the pixels, up to equality of values. *)
Theorem median_order b im im' v w : proper b im -> Permutation (pixels im) (pixels im') -> pixel_median b im = Ret v -> pixel_median b im' = Ret w -> pixel_le b v w /\ pixel_le b w v.
Proof.
  intros P Q V W. assert (P' : proper b im') by (unfold proper in *; rewrite Forall_forall in *; intros z Z; apply P, (Permutation_in z (Permutation_sym Q) Z)).
  assert (K : forall i x, proper b i -> pixel_median b i = Ret x -> Forall (plain b) (pixels i) /\ middle b (pixels i) x).
  { intros i x Pi X. unfold proper in Pi. assert (B : Forall (fun w => ~ pixel_blank b w) (pixels i)).
    { unfold pixel_median in X. destruct (existsb _ (pixels i)) eqn:E; [discriminate|]. apply Forall_forall. intros z Z C. rewrite Forall_forall in Pi. apply (blank_ok b z (Pi z Z)) in C.
      assert (existsb (fun w => isnan (pixel_double b w)) (pixels i) = true) by (apply existsb_exists; exists z; auto). congruence. }
    split; [rewrite Forall_forall in *; intros z Z; split; auto|]. assert (N : pixels i <> []) by (intros E; unfold pixel_median in X; rewrite E in X; discriminate). destruct (median_ok b i Pi N B) as (y & Y & M). rewrite X in Y. injection Y as <-. exact M. }
  destruct (K im v P V) as [A M]. destruct (K im' w P' W) as [A' M']. split; [apply (middle_le b (pixels im') (pixels im) w v (Permutation_sym Q) A' M' M)|apply (middle_le b (pixels im) (pixels im') v w Q A M M')].
Qed.

Theorem median_undefined b im : proper b im -> (pixel_median b im = Undef <-> pixels im = [] \/ Exists (pixel_blank b) (pixels im)).
Proof.
  intros P. split.
  - intros U. destruct (pixels im) as [|x l] eqn:E; [left; reflexivity|right]. apply Exists_exists. destruct (existsb (fun w => isnan (pixel_double b w)) (pixels im)) eqn:X.
    + apply existsb_exists in X. destruct X as (w & W & H). exists w. rewrite <- E. split; [exact W|]. unfold proper in P. rewrite Forall_forall in P. apply (blank_ok b w (P w W)), H.
    + exfalso. destruct (median_ok b im P ltac:(rewrite E; discriminate)) as (v & V & _); [|congruence]. apply Forall_forall. intros z Z C. unfold proper in P. rewrite Forall_forall in P. apply (blank_ok b z (P z Z)) in C.
      assert (existsb (fun w => isnan (pixel_double b w)) (pixels im) = true) by (apply existsb_exists; exists z; auto). congruence.
  - unfold pixel_median. intros [E|E]; [rewrite E; reflexivity|]. apply Exists_exists in E. destruct E as (w & W & B). unfold proper in P. rewrite Forall_forall in P. apply (blank_ok b w (P w W)) in B.
    assert (X : existsb (fun w => isnan (pixel_double b w)) (pixels im) = true) by (apply existsb_exists; exists w; auto). rewrite X. reflexivity.
Qed.
