(** * Bit patterns and real numbers: decoding, rounding, and what is read back from a written value. *)
From Coq Require Import ZArith Reals Lia Lra Psatz ZifyBool ZifyN.
From Flocq Require Import Core IEEE754.Binary IEEE754.Bits.
From Verif Require Import CppProofs TextModel TextSpec TextRound TextScan.
Local Open Scope R_scope.

Section Format.
Set Default Proof Using "All".
Variable f : ffmt.
Hypothesis Hm : (1 <= f_man f)%Z.
Hypothesis He : (2 <= f_exp f)%Z.

Notation M := (2 ^ f_man f)%Z.
Notation emin := (f_emin f).
Notation fexp := (FLT_exp (f_emin f) (f_man f + 1)).

Lemma M_pos : (2 <= M)%Z.
Proof. change 2%Z with (2 ^ 1)%Z at 1. apply Z.pow_le_mono_r; lia. Qed.
Lemma E_pos : (4 <= 2 ^ f_exp f)%Z.
Proof. change 4%Z with (2 ^ 2)%Z. apply Z.pow_le_mono_r; lia. Qed.
Lemma sign_bit_eq : sign_bit f = (M * 2 ^ f_exp f)%Z.
Proof. unfold sign_bit. apply Z.pow_add_r; lia. Qed.
Lemma inf_lt_sign : (0 < inf_bits f < sign_bit f)%Z.
Proof. pose proof M_pos. pose proof E_pos. rewrite sign_bit_eq. unfold inf_bits. nia. Qed.

(** ** Magnitudes *)

Definition rv (b : Z) : R := IZR (fst (decode_abs f b)) * bpow radix2 (snd (decode_abs f b)).

Lemma decode_abs_ok b : (0 <= b)%Z ->
  let (q, e) := decode_abs f b in
  (0 <= q < 2 * M)%Z /\ (emin <= e)%Z /\ (e = emin \/ M <= q)%Z /\ ((e - emin) * M + q = b)%Z.
Proof.
  intros B. pose proof M_pos as P. unfold decode_abs.
  pose proof (Z.mod_pos_bound b M ltac:(lia)) as R. pose proof (Z_div_mod_eq_full b M) as D.
  pose proof (Z.div_pos b M B ltac:(lia)) as Q.
  set (h := (b / M)%Z) in *. set (r := (b mod M)%Z) in *. clearbody h r.
  destruct (Z.eqb_spec h 0) as [->|N].
  - repeat split; try lia.
  - repeat split; try lia.
Qed.

Lemma encode_rv q e : (0 <= q <= 2 * M)%Z -> (emin <= e)%Z -> (e = emin \/ M <= q)%Z ->
  rv ((e - emin) * M + q) = IZR q * bpow radix2 e.
Proof.
  intros Q E C. pose proof M_pos as P. unfold rv, decode_abs.
  destruct (Z.lt_ge_cases q M) as [L|G].
  - destruct C as [->|C]; [|lia]. replace ((emin - emin) * M + q)%Z with q by lia.
    rewrite Z.div_small, Z.mod_small by lia. cbn [Z.eqb fst snd]. reflexivity.
  - destruct (Z.eq_dec q (2 * M)) as [->|N].
    + replace ((e - emin) * M + 2 * M)%Z with ((e - emin + 2) * M)%Z by ring.
      rewrite Z.div_mul, Z.mod_mul by lia.
      destruct (Z.eqb_spec (e - emin + 2) 0); [lia|]. cbn [fst snd].
      replace (emin + (e - emin + 2) - 1)%Z with (e + 1)%Z by lia. rewrite Z.add_0_l, mult_IZR.
      rewrite (bpow_plus radix2 e 1). change (bpow radix2 1) with 2. ring.
    + replace ((e - emin) * M + q)%Z with ((e - emin + 1) * M + (q - M))%Z by ring.
      rewrite Z.div_add_l, Z.div_small by lia. rewrite (Z.add_comm ((e - emin + 1) * M) (q - M)), Z.mod_add, Z.mod_small by lia.
      destruct (Z.eqb_spec (e - emin + 1 + 0) 0); [lia|]. cbn [fst snd]. f_equal; f_equal; lia.
Qed.

Lemma rv_succ b : (0 <= b)%Z -> rv b < rv (b + 1).
Proof.
  intros B. pose proof (decode_abs_ok b B) as H. pose proof (encode_rv) as EV. unfold rv at 1.
  destruct (decode_abs f b) as [q e]. destruct H as (Q & E & C & D). cbn [fst snd].
  rewrite <- D. replace ((e - emin) * M + q + 1)%Z with ((e - emin) * M + (q + 1))%Z by lia.
  rewrite EV by lia. apply Rmult_lt_compat_r; [apply bpow_gt_0|]. apply IZR_lt. lia.
Qed.

Lemma rv_lt b c : (0 <= b < c)%Z -> rv b < rv c.
Proof.
  intros [B C]. assert (G : forall n, (0 <= n)%Z -> rv b < rv (b + 1 + n)).
  { apply natlike_ind.
    - rewrite Z.add_0_r. apply rv_succ, B.
    - intros n N IH. eapply Rlt_trans; [exact IH|]. replace (b + 1 + Z.succ n)%Z with (b + 1 + n + 1)%Z by lia.
      apply rv_succ. lia. }
  replace c with (b + 1 + (c - b - 1))%Z by lia. apply G. lia.
Qed.
Lemma rv_lt_inv b c : (0 <= b)%Z -> (0 <= c)%Z -> rv b < rv c -> (b < c)%Z.
Proof.
  intros B C H. destruct (Z.lt_trichotomy b c) as [L|[->|G]]; [exact L|lra|].
  pose proof (rv_lt c b ltac:(lia)). lra.
Qed.
Lemma rv_inj b c : (0 <= b)%Z -> (0 <= c)%Z -> rv b = rv c -> b = c.
Proof.
  intros B C H. destruct (Z.lt_trichotomy b c) as [L|[->|G]]; [|reflexivity|].
  - pose proof (rv_lt b c ltac:(lia)). lra.
  - pose proof (rv_lt c b ltac:(lia)). lra.
Qed.
Lemma rv_0 : rv 0 = 0.
Proof.
  pose proof M_pos. unfold rv, decode_abs. rewrite Z.div_0_l, Z.mod_0_l by lia. cbn [Z.eqb fst snd]. ring.
Qed.
Lemma rv_pos b : (0 < b)%Z -> 0 < rv b.
Proof. intros H. rewrite <- rv_0. apply rv_lt. lia. Qed.

Lemma rv_format b : (0 <= b)%Z -> generic_format radix2 fexp (rv b).
Proof.
  intros B. pose proof (decode_abs_ok b B) as H. unfold rv. destruct (decode_abs f b) as [q e].
  destruct H as (Q & E & _). cbn [fst snd].
  apply generic_format_FLT. exists (Float radix2 q e); [reflexivity| |exact E].
  cbn [Fnum]. change (radix_val radix2) with 2%Z. rewrite Z.pow_add_r by lia. change (2 ^ 1)%Z with 2%Z. lia.
Qed.

Lemma emax_eq : (emin + 2 ^ f_exp f - 2 + f_man f = 2 ^ (f_exp f - 1))%Z.
Proof.
  unfold f_emin. replace (2 ^ f_exp f)%Z with (2 * 2 ^ (f_exp f - 1))%Z; [lia|].
  rewrite <- Z.pow_succ_r by lia. f_equal. lia.
Qed.

Lemma rv_inf : rv (inf_bits f) = beyond f.
Proof.
  pose proof M_pos. pose proof E_pos. unfold rv, decode_abs, inf_bits. rewrite Z.div_mul, Z.mod_mul by lia.
  destruct (Z.eqb_spec (2 ^ f_exp f - 1) 0); [lia|]. cbn [fst snd]. rewrite Z.add_0_l.
  change 2%Z with (radix_val radix2) at 1. rewrite IZR_Zpower by lia. rewrite <- bpow_plus. unfold beyond. f_equal.
  pose proof emax_eq. lia.
Qed.

Lemma rv_min_normal : rv M = min_normal f.
Proof.
  pose proof M_pos. unfold rv, decode_abs. rewrite Z.div_same, Z.mod_same by lia. cbn [Z.eqb fst snd]. rewrite Z.add_0_l.
  change 2%Z with (radix_val radix2) at 1. rewrite IZR_Zpower by lia. rewrite <- bpow_plus. unfold min_normal. f_equal. lia.
Qed.

(** ** Patterns *)

Definition mag_bits (w : N) : Z := (Z.of_N w mod sign_bit f)%Z.
Definition neg_bit (w : N) : bool := (sign_bit f <=? Z.of_N w)%Z.

Lemma mag_bits_range w : (0 <= mag_bits w < sign_bit f)%Z.
Proof. apply Z.mod_pos_bound. pose proof inf_lt_sign. lia. Qed.

Lemma with_sign_split w : pattern f w -> with_sign f (neg_bit w) (mag_bits w) = w.
Proof.
  unfold pattern. fold (sign_bit f). intros W. pose proof inf_lt_sign as I. unfold with_sign, neg_bit, mag_bits.
  destruct (Z.leb_spec (sign_bit f) (Z.of_N w)) as [L|L].
  - rewrite <- (Z.mod_unique (Z.of_N w) (sign_bit f) 1 (Z.of_N w - sign_bit f)) by lia. lia.
  - rewrite Z.mod_small by lia. lia.
Qed.

Lemma split_with_sign neg b : (0 <= b < sign_bit f)%Z ->
  pattern f (with_sign f neg b) /\ neg_bit (with_sign f neg b) = neg /\ mag_bits (with_sign f neg b) = b.
Proof.
  intros B. unfold pattern, neg_bit, mag_bits, with_sign. fold (sign_bit f). rewrite Z2N.id by (destruct neg; lia).
  destruct neg; (split; [lia|split]).
  - destruct (Z.leb_spec (sign_bit f) (sign_bit f + b)); [reflexivity|lia].
  - symmetry. apply (Z.mod_unique _ _ 1); lia.
  - destruct (Z.leb_spec (sign_bit f) b); [lia|reflexivity].
  - apply Z.mod_small. lia.
Qed.

(** What Flocq says of a pattern. *)
Lemma float_of_spec w :
  (finite f w <-> (mag_bits w < inf_bits f)%Z) /\
  negative f w = (if (inf_bits f <? mag_bits w)%Z then negative f w else neg_bit w) /\
  (finite f w -> fval f w = signed (neg_bit w) (rv (mag_bits w))) /\
  (float_of f w = F754_infinity (neg_bit w) <-> mag_bits w = inf_bits f) /\
  ((inf_bits f < mag_bits w)%Z -> negative f w = neg_bit w).
Proof.
  pose proof M_pos as P. pose proof E_pos as Q. pose proof inf_lt_sign as I.
  assert (S : split_bits (f_man f) (f_exp f) (Z.of_N w) = (neg_bit w, (mag_bits w mod M)%Z, (mag_bits w / M)%Z)).
  { unfold split_bits, neg_bit, mag_bits. rewrite sign_bit_eq. f_equal; [f_equal|].
    - rewrite Z.mul_comm. symmetry. apply Zaux.Zmod_mod_mult; lia.
    - symmetry. apply Zaux.Zdiv_mod_mult; lia. }
  pose proof (mag_bits_range w) as R. rewrite sign_bit_eq in R.
  assert (D : (0 <= mag_bits w / M < 2 ^ f_exp f)%Z).
  { split; [apply Z.div_pos; lia|]. apply Z.div_lt_upper_bound; lia. }
  pose proof (Z.mod_pos_bound (mag_bits w) M ltac:(lia)) as R2. pose proof (Z_div_mod_eq_full (mag_bits w) M) as R3.
  assert (B : float_of f w =
     (if (mag_bits w <? inf_bits f)%Z then
        match fst (decode_abs f (mag_bits w)) with Zpos p => F754_finite (neg_bit w) p (snd (decode_abs f (mag_bits w))) | _ => F754_zero (neg_bit w) end
      else match (mag_bits w - inf_bits f)%Z with Zpos p => F754_nan (neg_bit w) p | _ => F754_infinity (neg_bit w) end)).
  { unfold float_of, binary_float_of_bits_aux. rewrite S. unfold decode_abs.
    set (h := (mag_bits w / M)%Z) in *. set (r := (mag_bits w mod M)%Z) in *. set (b := mag_bits w) in *. clearbody h r b.
    assert (Em : SpecFloat.emin (f_man f + 1) (2 ^ (f_exp f - 1)) = emin) by (unfold SpecFloat.emin, f_emin; lia).
    rewrite Em. unfold inf_bits in *.
    destruct (Z.eqb_spec h 0) as [->|N].
    - change (Zeq_bool 0 0) with true. cbv iota. destruct (Z.ltb_spec b ((2 ^ f_exp f - 1) * M)); [|nia].
      cbn [fst snd]. destruct r; try reflexivity. lia.
    - rewrite Zeq_bool_false by exact N. destruct (Z.eq_dec h (2 ^ f_exp f - 1)) as [E|E].
      + rewrite (Zeq_bool_true _ _ E). destruct (Z.ltb_spec b ((2 ^ f_exp f - 1) * M)); [nia|].
        replace (b - (2 ^ f_exp f - 1) * M)%Z with r by (rewrite <- E; lia). destruct r; try reflexivity. lia.
      + rewrite Zeq_bool_false by exact E. destruct (Z.ltb_spec b ((2 ^ f_exp f - 1) * M)); [|nia].
        cbn [fst snd]. destruct (r + M)%Z eqn:G; [lia| |lia]. f_equal. lia. }
  pose proof (decode_abs_ok (mag_bits w) ltac:(lia)) as K. unfold rv.
  unfold finite, negative, fval. rewrite B. destruct (decode_abs f (mag_bits w)) as [q e]. destruct K as (K1 & _). cbn [fst snd].
  destruct (Z.ltb_spec (mag_bits w) (inf_bits f)) as [L|L].
  - destruct (Z.ltb_spec (inf_bits f) (mag_bits w)); [lia|].
    destruct q as [|p|p]; [| |lia].
    + split; [split; [lia|reflexivity]|]. split; [reflexivity|]. split; [|split; [split; [discriminate|lia]|lia]].
      intros _. cbn. unfold signed. destruct (neg_bit w); ring.
    + split; [split; [lia|reflexivity]|]. split; [reflexivity|]. split; [|split; [split; [discriminate|lia]|lia]].
      intros _. cbn [FF2R]. unfold F2R, signed. cbn [Fnum Fexp]. destruct (neg_bit w); cbn [SpecFloat.cond_Zopp]; [|reflexivity].
      change (- Z.pos p)%Z with (Z.opp (Z.pos p)). rewrite opp_IZR. ring.
  - destruct (mag_bits w - inf_bits f)%Z eqn:G; [| |lia].
    + split; [split; [discriminate|lia]|]. split; [|split; [discriminate|split; [split; [lia|reflexivity]|lia]]].
      destruct (Z.ltb_spec (inf_bits f) (mag_bits w)); [lia|reflexivity].
    + split; [split; [discriminate|lia]|]. split; [|split; [discriminate|split; [split; [discriminate|lia]|reflexivity]]].
      destruct (Z.ltb_spec (inf_bits f) (mag_bits w)); [reflexivity|lia].
Qed.

(** ** Reading: the nearest number of the format *)

Lemma prec_gt : Prec_gt_0 (f_man f + 1). Proof. unfold Prec_gt_0. lia. Qed.
#[local] Existing Instance prec_gt.

Lemma bpow_M : bpow radix2 (f_man f) = IZR M.
Proof. rewrite <- IZR_Zpower by lia. reflexivity. Qed.

Lemma dec_ratio m k : IZR (dnum_of m k) / IZR (dden_of k) = IZR (Z.of_N m) * bpow radix10 k.
Proof.
  unfold dnum_of, dden_of. destruct (Z.leb_spec 0 k) as [K|K].
  - rewrite mult_IZR. change 10%Z with (radix_val radix10). rewrite IZR_Zpower by exact K. field.
  - change 10%Z with (radix_val radix10). rewrite IZR_Zpower by lia. rewrite bpow_opp. pose proof (bpow_gt_0 radix10 k). field. lra.
Qed.
Lemma dden_pos k : (0 < dden_of k)%Z.
Proof. unfold dden_of. destruct (Z.leb_spec 0 k); [lia|]. apply Z.pow_pos_nonneg; lia. Qed.
Lemma dnum_pos m k : (0 < m)%N -> (0 < dnum_of m k)%Z.
Proof. intros H. unfold dnum_of. destruct (Z.leb_spec 0 k); [|lia]. pose proof (Z.pow_pos_nonneg 10 k). nia. Qed.

(** The significand of a rounded number. *)
Lemma significand_range beta (expo : Z -> Z) (x : R) (q e p : Z) : 0 < x -> e = expo (mag beta x) -> IZR q * bpow beta e = round beta expo ZnearestE x ->
  (0 <= p)%Z -> (mag beta x - p <= e)%Z ->
  (0 <= q <= beta ^ p)%Z /\ ((mag beta x - p)%Z = e -> (beta ^ (p - 1) <= q)%Z \/ p = 0%Z).
Proof.
  intros X E R P L.
  assert (Q : q = ZnearestE (x * bpow beta (- e))).
  { unfold round, F2R, scaled_mantissa, cexp in R. cbn [Fnum Fexp] in R. rewrite <- E in R.
    apply eq_IZR. apply Rmult_eq_reg_r with (bpow beta e); [exact R|]. apply Rgt_not_eq, bpow_gt_0. }
  destruct (mag beta x) as [k K]. cbn [mag_val] in *. specialize (K ltac:(lra)). rewrite Rabs_pos_eq in K by lra.
  pose proof (bpow_gt_0 beta (- e)) as B.
  assert (U : x * bpow beta (- e) <= IZR (beta ^ p)).
  { rewrite IZR_Zpower by exact P. apply Rle_trans with (bpow beta k * bpow beta (- e)).
    - apply Rmult_le_compat_r; lra.
    - rewrite <- bpow_plus. apply bpow_le. lia. }
  assert (V : Valid_rnd ZnearestE) by apply valid_rnd_N.
  assert (ZI : forall n, ZnearestE (IZR n) = n) by (intros n; destruct V as [_ V]; apply V).
  assert (ZL : forall a b, a <= b -> (ZnearestE a <= ZnearestE b)%Z) by (intros a b; destruct V as [V _]; apply V).
  split.
  - split.
    + rewrite <- (ZI 0%Z), Q. apply ZL. apply Rmult_le_pos; lra.
    + rewrite <- (ZI (beta ^ p)%Z), Q. apply ZL. exact U.
  - intros D. destruct (Z.eq_dec p 0) as [|N]; [right; assumption|left].
    rewrite <- (ZI (beta ^ (p - 1))%Z), Q. apply ZL.
    rewrite IZR_Zpower by lia. apply Rle_trans with (bpow beta (k - 1) * bpow beta (- e)).
    + rewrite <- bpow_plus. apply bpow_le. lia.
    + apply Rmult_le_compat_r; lra.
Qed.

Lemma nearest_float_ok neg m k : (0 < m)%N ->
  let y := nearest f (IZR (Z.of_N m) * bpow radix10 k) in
  (y < beyond f -> exists b, nearest_float f neg m k = Some (with_sign f neg b) /\ (0 <= b < inf_bits f)%Z /\ rv b = y) /\
  (beyond f <= y -> nearest_float f neg m k = None).
Proof.
  intros Mp y. pose proof M_pos as P2. unfold nearest_float. destruct (N.eqb_spec m 0); [lia|].
  pose proof (round_ratio_correct radix2 (f_expo f) _ _ (dnum_pos m k Mp) (dden_pos k)) as R.
  rewrite dec_ratio in R. set (x := IZR (Z.of_N m) * bpow radix10 k) in *.
  assert (X : 0 < x) by (apply Rmult_lt_0_compat; [apply (IZR_lt 0); lia|apply bpow_gt_0]).
  destruct (round_ratio radix2 (f_expo f) (dnum_of m k) (dden_of k)) as [q e]. destruct R as [E R].
  destruct (significand_range radix2 (f_expo f) x q e (f_man f + 1) X E R ltac:(lia)) as [Q1 Q2].
  { rewrite E. unfold f_expo. lia. }
  change (radix2 ^ (f_man f + 1))%Z with (2 ^ (f_man f + 1))%Z in Q1.
  replace (radix2 ^ (f_man f + 1 - 1))%Z with M in Q2 by (change (radix_val radix2) with 2%Z; f_equal; lia).
  rewrite Z.pow_add_r in Q1 by lia. change (2 ^ 1)%Z with 2%Z in Q1.
  assert (Ee : (emin <= e)%Z) by (rewrite E; unfold f_expo; lia).
  assert (C : (e = emin \/ M <= q)%Z).
  { destruct (Z.eq_dec e emin) as [|N]; [left; assumption|right].
    destruct Q2; [rewrite E; rewrite E in N; unfold f_expo in *; lia|assumption|lia]. }
  pose proof (encode_rv q e ltac:(lia) Ee C) as V.
  assert (Y : IZR q * bpow radix2 e = y) by exact R.
  unfold encode. set (b := ((e - emin) * M + q)%Z) in *.
  assert (B0 : (0 <= b)%Z) by (subst b; nia).
  pose proof inf_lt_sign as I.
  split; intros H.
  - assert (B1 : (b < inf_bits f)%Z).
    { apply rv_lt_inv; [lia|lia|]. rewrite rv_inf, V. lra. }
    destruct (Z.ltb_spec b (inf_bits f)); [|lia]. exists b. split; [reflexivity|]. split; [lia|]. lra.
  - destruct (Z.ltb_spec b (inf_bits f)) as [L|L]; [|reflexivity].
    pose proof (rv_lt b (inf_bits f) ltac:(lia)) as L2. rewrite rv_inf, V in L2. lra.
Qed.

(** ** Writing: six digits of the number *)

Lemma num_den q e : IZR (num_of q e) / IZR (den_of e) = IZR q * bpow radix2 e.
Proof.
  unfold num_of, den_of. destruct (Z.leb_spec 0 e) as [K|K].
  - rewrite mult_IZR. change 2%Z with (radix_val radix2) at 1. rewrite IZR_Zpower by exact K. field.
  - change 2%Z with (radix_val radix2). rewrite IZR_Zpower by lia. rewrite bpow_opp. pose proof (bpow_gt_0 radix2 e). field. lra.
Qed.
Lemma den_pos e : (0 < den_of e)%Z.
Proof. unfold den_of. destruct (Z.leb_spec 0 e); [lia|]. apply Z.pow_pos_nonneg; lia. Qed.
Lemma num_pos q e : (0 < q)%Z -> (0 < num_of q e)%Z.
Proof. intros H. unfold num_of. destruct (Z.leb_spec 0 e); [|lia]. pose proof (Z.pow_pos_nonneg 2 e). nia. Qed.

Lemma six_digits_ok num den : (0 < num)%Z -> (0 < den)%Z ->
  let (d, x) := six_digits num den in
  (10 ^ 5 <= d < 10 ^ 6)%Z /\ IZR d * bpow radix10 (x - 5) = decimal6 (IZR num / IZR den) /\
  (mag radix10 (IZR num / IZR den) - 1 <= x <= mag radix10 (IZR num / IZR den))%Z.
Proof.
  intros Np Dp. unfold six_digits. pose proof (round_ratio_correct radix10 (fun k => (k - 6)%Z) num den Np Dp) as R.
  assert (X : 0 < IZR num / IZR den).
  { apply Rdiv_lt_0_compat; apply (IZR_lt 0); lia. }
  set (v := IZR num / IZR den) in *.
  destruct (round_ratio radix10 _ num den) as [q e]. destruct R as [E R].
  destruct (significand_range radix10 _ v q e 6 X E R ltac:(lia)) as [Q1 Q2]; [lia|].
  change (radix10 ^ 6)%Z with 1000000%Z in Q1. change (radix10 ^ (6 - 1))%Z with 100000%Z in Q2.
  destruct (Q2 (eq_sym E)) as [Q3|]; [|lia].
  assert (V : IZR q * bpow radix10 e = decimal6 v) by exact R.
  change (10 ^ 6)%Z with 1000000%Z. change (10 ^ 5)%Z with 100000%Z.
  destruct (Z.eqb_spec q 1000000) as [->|N].
  - split; [lia|]. split; [|lia]. rewrite <- V. replace (e + 6 - 5)%Z with (1 + e)%Z by lia. rewrite bpow_plus.
    change (bpow radix10 1) with 10. lra.
  - split; [lia|]. split; [|lia]. rewrite <- V. f_equal. f_equal. lia.
Qed.

Lemma decode_finite w : (mag_bits w < inf_bits f)%Z ->
  decode f w = FFin (neg_bit w) (fst (decode_abs f (mag_bits w))) (snd (decode_abs f (mag_bits w))).
Proof.
  intros H. unfold decode. fold (mag_bits w). fold (neg_bit w).
  destruct (Z.eqb_spec (mag_bits w) (inf_bits f)); [lia|]. destruct (Z.ltb_spec (inf_bits f) (mag_bits w)); [lia|reflexivity].
Qed.

Lemma show_finite w : (0 < mag_bits w < inf_bits f)%Z ->
  exists d x, show_float f w = sign_text (neg_bit w) ++ render d x /\ (10 ^ 5 <= d < 10 ^ 6)%Z /\
    IZR d * bpow radix10 (x - 5) = decimal6 (rv (mag_bits w)) /\
    (mag radix10 (rv (mag_bits w)) - 1 <= x <= mag radix10 (rv (mag_bits w)))%Z.
Proof.
  intros H. unfold show_float. rewrite decode_finite by lia.
  pose proof (decode_abs_ok (mag_bits w) ltac:(lia)) as K. pose proof (rv_pos (mag_bits w) ltac:(lia)) as V. unfold rv in *.
  destruct (decode_abs f (mag_bits w)) as [q e]. cbn [fst snd] in *. destruct K as (K & _).
  destruct (Z.eqb_spec q 0) as [->|Q]; [rewrite Rmult_0_l in V; lra|].
  pose proof (six_digits_ok _ _ (num_pos q e ltac:(lia)) (den_pos e)) as S. rewrite num_den in S.
  destruct (six_digits (num_of q e) (den_of e)) as [d x]. exists d, x. tauto.
Qed.

Lemma show_zero w : mag_bits w = 0%Z -> show_float f w = sign_text (neg_bit w) ++ lit "0".
Proof.
  intros H. pose proof M_pos. pose proof inf_lt_sign. unfold show_float. rewrite decode_finite by lia. rewrite H.
  unfold decode_abs. rewrite Z.div_0_l, Z.mod_0_l by lia. reflexivity.
Qed.

(** Writing and reading back, on magnitudes. *)
Lemma read_show_pos w : (0 < mag_bits w < inf_bits f)%Z ->
  let y := nearest f (decimal6 (rv (mag_bits w))) in
  (y < beyond f -> exists b, read_float f (show_float f w) = Some (with_sign f (neg_bit w) b) /\ (0 <= b < inf_bits f)%Z /\ rv b = y) /\
  (beyond f <= y -> read_float f (show_float f w) = None).
Proof.
  intros H y. destruct (show_finite w H) as (d & x & -> & D & V & _).
  unfold read_float. destruct (render_head d x D) as (c & r & E & Hc).
  rewrite E at 1. rewrite not_special by exact Hc.
  assert (SP : inf_or_nan f (sign_text (neg_bit w) ++ render d x) = None) by (rewrite E; apply not_special, Hc).
  rewrite SP. destruct (render_scan (neg_bit w) d x D) as (m & j & S & J). rewrite S.
  assert (Mp : (0 < m)%N).
  { destruct (N.eq_dec m 0) as [->|]; [|lia]. rewrite Z.mul_0_l in J. lia. }
  pose proof (nearest_float_ok (neg_bit w) m (x - 5 + Z.of_nat j) Mp) as NF.
  replace (IZR (Z.of_N m) * bpow radix10 (x - 5 + Z.of_nat j)) with (decimal6 (rv (mag_bits w))) in NF.
  - exact NF.
  - rewrite <- V, <- J, mult_IZR. change 10%Z with (radix_val radix10). rewrite IZR_Zpower by lia. rewrite bpow_plus. ring.
Qed.

Lemma read_show_zero w : mag_bits w = 0%Z -> read_float f (show_float f w) = Some (with_sign f (neg_bit w) 0).
Proof. intros H. rewrite show_zero by exact H. destruct (neg_bit w); reflexivity. Qed.
End Format.
