(** Proofs about frames. *)

From Coq Require Import Reals Lra List.
From Verif Require Import CoordModel CoordSpec CoordProofs CoordArith.
From Verif Require Import DiffModel DiffSpec FrameModel FrameSpec.
Import ListNotations.
Local Open Scope R_scope.

(** ** Accessors *)

Lemma convert_there : forall u x, 0 < u -> convert 1 u (convert u 1 x) = x.
Proof. intros u x H. unfold convert, conversion_factor. field. lra. Qed.

Lemma perform_good : forall f c, good_frame f -> good_frame (perform f c).
Proof. intros f c (A & (B1 & B2 & B3) & C & (D1 & D2 & D3)). destruct c; repeat split; assumption. Qed.

Lemma perform_type : forall f c, same_type f (perform f c).
Proof. intros f []; split; reflexivity. Qed.

Lemma perform_reads : forall f c k, good_frame f ->
  read k (perform f c) = match writes c k with Some x => x | None => read k f end.
Proof.
  intros f c k (A & (B1 & B2 & B3) & C & (D1 & D2 & D3)).
  destruct f as [[s p u1 u2 u3] [kk q v1 v2 v3]]. cbn in A, B1, B2, B3, C, D1, D2, D3. subst s kk.
  destruct c, k; cbn [perform writes read]; try reflexivity;
    unfold get_first, get_second, get_distance, get_pm_first, get_pm_second, get_radial,
      get1, get2, get3, dget1, dget2, dget3; cbn;
    try reflexivity; apply convert_there; assumption.
Qed.

Lemma history_reads : forall h f k, good_frame f ->
  read k (fold_left perform h f) = last_written k (read k f) h.
Proof.
  induction h as [|c t IH]; intros f k H; [reflexivity|].
  cbn [fold_left last_written]. rewrite IH by (apply perform_good; exact H).
  rewrite perform_reads by exact H. reflexivity.
Qed.

Lemma history_good : forall h f, good_frame f -> good_frame (fold_left perform h f).
Proof.
  induction h as [|c t IH]; intros f H; [exact H|]. cbn. apply IH, perform_good, H.
Qed.

Lemma kperform_reads : forall k c, 0 < k_u1 k -> 0 < k_u2 k ->
  kget1 (kperform k c) = match c with KFirst x => x | KBoth x _ => x | _ => kget1 k end /\
  kget2 (kperform k c) = match c with KSecond x => x | KBoth _ y => y | _ => kget2 k end.
Proof.
  intros [a b u v] c U W. cbn in U, W.
  destruct c; unfold kget1, kget2; cbn; rewrite ?convert_there by assumption; split; reflexivity.
Qed.

Lemma khistory : forall h k, 0 < k_u1 k -> 0 < k_u2 k ->
  kget1 (fold_left kperform h k) = klast false (kget1 k) h /\
  kget2 (fold_left kperform h k) = klast true (kget2 k) h.
Proof.
  induction h as [|c t IH]; intros k U W; [split; reflexivity|].
  cbn [fold_left klast].
  destruct (kperform_reads k c U W) as [A B].
  destruct (IH (kperform k c)) as [C D]; [destruct c; exact U | destruct c; exact W |].
  rewrite C, D, A, B. destruct c; split; reflexivity.
Qed.

Lemma frame6_reads : forall t k a b c x y z, t_sys t = Spherical -> proper_type t ->
  dt_kind k = DCoslat -> dproper_type k ->
  let f := frame6 t k a b c x y z in
  good_frame f /\
  get_first f = a /\ get_second f = b /\ get_distance f = c /\
  get_pm_first f = x /\ get_pm_second f = y /\ get_radial f = z.
Proof.
  intros [s u1 u2 u3] [kk v1 v2 v3] a b c x y z A (B1 & B2 & B3) C (D1 & D2 & D3) f.
  cbn in A, B1, B2, B3, C, D1, D2, D3. subst s kk.
  subst f. unfold get_first, get_second, get_distance, get_pm_first, get_pm_second, get_radial,
      get1, get2, get3, dget1, dget2, dget3; cbn.
  rewrite !convert_there by assumption. repeat split; assumption.
Qed.

(** A frame built from a representation and a differential of other units
    stands for the same position and the same components of motion. *)
Lemma frame_of_ok : forall t k r d, t_sys t = Spherical -> proper_type t ->
  dt_kind k = DCoslat -> dproper_type k ->
  r_sys r = Spherical -> proper r -> d_kind d = DCoslat -> dproper d ->
  let f := frame_of t k r d in
  good_frame f /\ position (f_data f) = position r /\ velocity (f_motion f) = velocity d /\
  type_of (f_data f) = t /\ dtype_of (f_motion f) = k.
Proof.
  intros [s u1 u2 u3] [kk v1 v2 v3] [rs [p0 p1 p2] w1 w2 w3] [dk [q0 q1 q2] x1 x2 x3]
    A (B1 & B2 & B3) C (D1 & D2 & D3) E (F1 & F2 & F3) G (H1 & H2 & H3) f.
  cbn in A, B1, B2, B3, C, D1, D2, D3, E, F1, F2, F3, G, H1, H2, H3. subst s kk rs dk.
  assert (P : f_data f = Rep Spherical (V p0 p1 (convert w3 u3 p2)) u1 u2 u3).
  { subst f. unfold frame_of, change_units, build, get1, get2, get3. cbn.
    unfold set123, set3, set2, set1, set_pt, of_type; cbn. f_equal.
    f_equal; unfold convert, conversion_factor; field; lra. }
  assert (Q : f_motion f = Diff DCoslat (V q0 q1 (convert x3 v3 q2)) v1 v2 v3).
  { subst f. unfold frame_of, dchange_units, dbuild, dget1, dget2, dget3. cbn.
    unfold dset123, dset3, dset2, dset1, dset_pt, of_dtype; cbn. f_equal.
    f_equal; unfold convert, conversion_factor; field; lra. }
  unfold good_frame. rewrite P, Q. cbn -[velocity position].
  split; [repeat split; assumption|].
  split; [unfold position; cbn; rewrite convert_same by assumption; reflexivity|].
  split; [unfold velocity; cbn; rewrite convert_same by assumption; reflexivity|].
  split; reflexivity.
Qed.

(** ** Proper motion *)

Lemma proper_motion_scaled : forall f, good_frame f ->
  fst (get_proper_motion f) = d_u1 (f_motion f) * get_pm_first f /\
  snd (get_proper_motion f) = d_u2 (f_motion f) * get_pm_second f /\
  base_radial_velocity f = get_radial f.
Proof.
  intros [r [kk q v1 v2 v3]] (A & B & C & (D1 & D2 & D3)). cbn in C, D1, D2, D3. subst kk.
  unfold get_pm_first, get_pm_second, get_radial, base_radial_velocity, dget1, dget2, dget3; cbn.
  unfold convert, conversion_factor. repeat split; field; lra.
Qed.

Lemma proper_motion_iff : forall f, good_frame f ->
  (get_proper_motion f = (get_pm_first f, get_pm_second f) <->
   (d_u1 (f_motion f) = 1 \/ get_pm_first f = 0) /\ (d_u2 (f_motion f) = 1 \/ get_pm_second f = 0)).
Proof.
  intros f H. destruct (proper_motion_scaled f H) as (A & B & _).
  destruct (get_proper_motion f) as [x y]. cbn [fst snd] in A, B. subst x y.
  set (u := d_u1 (f_motion f)). set (v := d_u2 (f_motion f)).
  set (a := get_pm_first f). set (b := get_pm_second f). clearbody u v a b.
  split.
  - intros E. injection E as E1 E2.
    assert (G : forall w z, w * z = z -> w = 1 \/ z = 0).
    { intros w z K. assert (W : (w - 1) * z = 0) by lra.
      apply Rmult_integral in W. destruct W; [left; lra | right; exact H0]. }
    split; apply G; assumption.
  - intros [[E|E] [F|F]]; rewrite E, F; apply (f_equal2 pair); ring.
Qed.

(** ** Separation *)

Lemma radians_stored : forall f, good_frame f ->
  first_radians f = c0 (r_pt (f_data f)) /\ second_radians f = c1 (r_pt (f_data f)).
Proof.
  intros [[s p u1 u2 u3] d] (A & (B1 & B2 & B3) & _). cbn in A, B1, B2, B3. subst s.
  unfold first_radians, second_radians, get_first, get_second, get1, get2; cbn.
  unfold convert, conversion_factor. split; field; lra.
Qed.

Lemma direction_unit : forall a b, vdot (direction a b) (direction a b) = 1.
Proof.
  intros a b. unfold vdot, direction; cbn.
  replace (sin b * cos a * (sin b * cos a) + sin b * sin a * (sin b * sin a) + cos b * cos b)
    with (sin b * sin b * (cos a * cos a + sin a * sin a) + cos b * cos b) by ring.
  rewrite sincos1, Rmult_1_r, Rplus_comm. apply sincos1.
Qed.

Lemma unit_dot_range : forall m n, vdot m m = 1 -> vdot n n = 1 -> -1 <= vdot m n <= 1.
Proof.
  intros m n M N. pose proof (cauchy m n) as C. unfold vnorm in C. rewrite M, N, sqrt_1 in C.
  rewrite Rmult_1_l in C. unfold Rabs in C. destruct (Rcase_abs (vdot m n)); lra.
Qed.

Definition dir (f : frame) : vec := direction (first_radians f) (second_radians f).

Lemma separation_dir : forall f g, good_frame f -> good_frame g -> same_type f g ->
  get_distance f <> 0 -> get_distance g <> 0 ->
  separation f g = acos (vdot (dir f) (dir g)).
Proof.
  intros f g F G [T _] X Y. unfold dir.
  destruct (radians_stored f F) as [-> ->]. destruct (radians_stored g G) as [-> ->].
  destruct f as [[s p u1 u2 u3] d]; destruct g as [[s' p' u1' u2' u3'] d'].
  destruct F as (A & (B1 & B2 & B3) & _). destruct G as (A' & (B1' & B2' & B3') & _).
  unfold type_of in T. cbn in *. subst s s'. injection T as -> -> ->.
  unfold get_distance, get3 in X, Y; cbn in X, Y.
  unfold separation, dot, magnitude, in_unit1, dot_product, vdot, direction; cbn.
  unfold get1, get2, get3, convert, conversion_factor; cbn.
  f_equal. field. repeat split; lra.
Qed.

Lemma cos_separation : forall f g, good_frame f -> good_frame g -> same_type f g ->
  get_distance f <> 0 -> get_distance g <> 0 ->
  cos (separation f g) = vdot (dir f) (dir g) /\ 0 <= separation f g <= PI.
Proof.
  intros f g F G T X Y. rewrite (separation_dir f g F G T X Y).
  split; [|apply acos_bound].
  apply cos_acos, unit_dot_range; apply direction_unit.
Qed.

Lemma unit_dot_one : forall m n, vdot m m = 1 -> vdot n n = 1 -> (vdot m n = 1 <-> m = n).
Proof.
  intros m n M N. split.
  - intros H.
    assert (Z : vdot (vadd m (vscale (-1) n)) (vadd m (vscale (-1) n)) = 0).
    { unfold vdot, vadd, vscale in *; cbn in *. lra. }
    apply vdot_self_zero in Z. destruct m as [x y z], n as [x' y' z'].
    unfold vadd, vscale, vzero in Z; cbn in Z. injection Z as Z1 Z2 Z3. f_equal; lra.
  - intros ->. exact N.
Qed.

Lemma unit_dot_minus : forall m n, vdot m m = 1 -> vdot n n = 1 ->
  (vdot m n = -1 <-> m = vscale (-1) n).
Proof.
  intros m n M N. split.
  - intros H.
    assert (Z : vdot (vadd m n) (vadd m n) = 0).
    { unfold vdot, vadd, vscale in *; cbn in *. lra. }
    apply vdot_self_zero in Z. destruct m as [x y z], n as [x' y' z'].
    unfold vadd, vscale, vzero in Z; cbn in Z. injection Z as Z1 Z2 Z3.
    unfold vscale; cbn. f_equal; lra.
  - intros ->. unfold vdot, vscale in *; cbn in *. lra.
Qed.

Lemma acos_inj : forall x y, -1 <= x <= 1 -> -1 <= y <= 1 -> acos x = acos y -> x = y.
Proof. intros x y X Y H. rewrite <- (cos_acos x X), <- (cos_acos y Y), H. reflexivity. Qed.

Lemma separation_sym : forall f g, good_frame f -> good_frame g -> same_type f g ->
  get_distance f <> 0 -> get_distance g <> 0 -> separation f g = separation g f.
Proof.
  intros f g F G T X Y. rewrite (separation_dir f g F G T X Y).
  rewrite (separation_dir g f G F); [rewrite vdot_comm; reflexivity| | exact Y | exact X].
  destruct T; split; symmetry; assumption.
Qed.

Lemma separation_zero : forall f g, good_frame f -> good_frame g -> same_type f g ->
  get_distance f <> 0 -> get_distance g <> 0 -> (separation f g = 0 <-> dir f = dir g).
Proof.
  intros f g F G T X Y. rewrite (separation_dir f g F G T X Y).
  rewrite <- unit_dot_one by apply direction_unit.
  rewrite <- acos_1. split.
  - apply acos_inj; [apply unit_dot_range; apply direction_unit | lra].
  - intros ->. reflexivity.
Qed.

Lemma acos_minus1 : acos (-1) = PI.
Proof. replace (-1) with (-(1)) by ring. rewrite acos_opp, acos_1. ring. Qed.

Lemma separation_pi : forall f g, good_frame f -> good_frame g -> same_type f g ->
  get_distance f <> 0 -> get_distance g <> 0 ->
  (separation f g = PI <-> dir f = vscale (-1) (dir g)).
Proof.
  intros f g F G T X Y. rewrite (separation_dir f g F G T X Y).
  rewrite <- unit_dot_minus by apply direction_unit.
  rewrite <- acos_minus1. split.
  - apply acos_inj; [apply unit_dot_range; apply direction_unit | lra].
  - intros ->. reflexivity.
Qed.

Lemma separation_distance : forall f g d e, good_frame f -> good_frame g -> same_type f g ->
  get_distance f <> 0 -> get_distance g <> 0 -> d <> 0 -> e <> 0 ->
  separation (set_distance f d) (set_distance g e) = separation f g.
Proof.
  intros f g d e F G T X Y D E.
  rewrite (separation_dir f g F G T X Y).
  rewrite separation_dir; [reflexivity | | | | exact D | exact E].
  - apply (perform_good f (CallDistance d) F).
  - apply (perform_good g (CallDistance e) G).
  - exact T.
Qed.

(** The angle between unit vectors satisfies the triangle inequality. *)
Lemma angle_triangle : forall a b c, vdot a a = 1 -> vdot b b = 1 -> vdot c c = 1 ->
  acos (vdot a c) <= acos (vdot a b) + acos (vdot b c).
Proof.
  intros a b c A B C.
  pose proof (unit_dot_range a b A B) as AB. pose proof (unit_dot_range b c B C) as BC.
  pose proof (unit_dot_range a c A C) as AC.
  set (x := vdot a b) in *. set (y := vdot b c) in *. set (z := vdot a c) in *.
  destruct (acos_bound x) as [x0 x1], (acos_bound y) as [y0 y1], (acos_bound z) as [z0 z1].
  destruct (Rle_lt_dec (acos x + acos y) PI) as [L|L]; [|lra].
  assert (K : cos (acos x + acos y) <= z).
  { rewrite cos_plus, !cos_acos, !sin_acos by assumption.
    set (p := vadd a (vscale (- x) b)). set (q := vadd c (vscale (- y) b)).
    assert (PQ : vdot p q = z - x * y).
    { unfold p, q, x, y, z, vdot, vadd, vscale in *; cbn in *.
      transitivity ((c0 a * c0 c + c1 a * c1 c + c2 a * c2 c)
        - (c0 a * c0 b + c1 a * c1 b + c2 a * c2 b) * (c0 b * c0 c + c1 b * c1 c + c2 b * c2 c)
          * (2 - (c0 b * c0 b + c1 b * c1 b + c2 b * c2 b))); [ring | rewrite B; ring]. }
    assert (PP : vdot p p = 1 - x²).
    { unfold Rsqr, p, x, vdot, vadd, vscale in *; cbn in *.
      transitivity ((c0 a * c0 a + c1 a * c1 a + c2 a * c2 a)
        - (c0 a * c0 b + c1 a * c1 b + c2 a * c2 b) * (c0 a * c0 b + c1 a * c1 b + c2 a * c2 b)
          * (2 - (c0 b * c0 b + c1 b * c1 b + c2 b * c2 b))); [ring | rewrite A, B; ring]. }
    assert (QQ : vdot q q = 1 - y²).
    { unfold Rsqr, q, y, vdot, vadd, vscale in *; cbn in *.
      transitivity ((c0 c * c0 c + c1 c * c1 c + c2 c * c2 c)
        - (c0 b * c0 c + c1 b * c1 c + c2 b * c2 c) * (c0 b * c0 c + c1 b * c1 c + c2 b * c2 c)
          * (2 - (c0 b * c0 b + c1 b * c1 b + c2 b * c2 b))); [ring | rewrite C, B; ring]. }
    pose proof (cauchy p q) as H. unfold vnorm in H. rewrite PQ, PP, QQ in H.
    revert H. set (r := sqrt (1 - x²) * sqrt (1 - y²)). intros H. clearbody r.
    unfold Rabs in H. destruct (Rcase_abs (z - x * y)); lra. }
  rewrite <- (cos_acos z AC) in K.
  destruct (Rle_lt_dec (acos z) (acos x + acos y)) as [M|M]; [exact M|].
  exfalso. assert (cos (acos z) < cos (acos x + acos y)) by (apply cos_decreasing_1; lra). lra.
Qed.

Lemma separation_triangle : forall f g h, good_frame f -> good_frame g -> good_frame h ->
  same_type f g -> same_type g h ->
  get_distance f <> 0 -> get_distance g <> 0 -> get_distance h <> 0 ->
  separation f h <= separation f g + separation g h.
Proof.
  intros f g h F G H T U X Y Z.
  assert (W : same_type f h) by (destruct T, U; split; etransitivity; eassumption).
  rewrite (separation_dir f h), (separation_dir f g), (separation_dir g h) by assumption.
  apply angle_triangle; apply direction_unit.
Qed.

(** ** Positional angle *)

Definition sky (f : frame) : vec := sky_direction (second_radians f) (first_radians f).

Lemma sky_unit : forall a b, vdot (sky_direction a b) (sky_direction a b) = 1.
Proof.
  intros a b. unfold vdot, sky_direction; cbn.
  replace (cos b * cos a * (cos b * cos a) + cos b * sin a * (cos b * sin a) + sin b * sin b)
    with (cos b * cos b * (cos a * cos a + sin a * sin a) + sin b * sin b) by ring.
  rewrite sincos1, Rmult_1_r. apply sincos1.
Qed.

Lemma positional_parts : forall f g, good_frame f -> good_frame g -> same_type f g ->
  positional_angle f g =
  atan2 (vdot (sky g) (east (second_radians f)))
        (vdot (sky g) (north (second_radians f) (first_radians f))).
Proof.
  intros f g F G [T _]. unfold sky.
  destruct (radians_stored f F) as [-> ->]. destruct (radians_stored g G) as [-> ->].
  destruct f as [[s p u1 u2 u3] d]; destruct g as [[s' p' u1' u2' u3'] d'].
  destruct F as (A & (B1 & B2 & B3) & _). destruct G as (A' & (B1' & B2' & B3') & _).
  unfold type_of in T. cbn in *. subst s s'. injection T as -> -> ->.
  unfold positional_angle, get1, get2; cbn.
  replace (convert u1' 1 (convert 1 u1' (c0 p))) with (c0 p)
    by (unfold convert, conversion_factor; field; lra).
  replace (convert u1' 1 (convert 1 u1' (c0 p'))) with (c0 p')
    by (unfold convert, conversion_factor; field; lra).
  replace (convert u2' 1 (convert 1 u2' (c1 p') - convert 1 u2' (c1 p))) with (c1 p' - c1 p)
    by (unfold convert, conversion_factor; field; lra).
  unfold vdot, sky_direction, north, east; cbn. rewrite sin_minus, cos_minus.
  f_equal; ring.
Qed.

Lemma tangent_sum : forall f g,
  let e := vdot (sky g) (east (second_radians f)) in
  let n := vdot (sky g) (north (second_radians f) (first_radians f)) in
  n * n + e * e + vdot (sky f) (sky g) * vdot (sky f) (sky g) = 1.
Proof.
  intros f g e n. subst e n. rewrite <- (sky_unit (second_radians g) (first_radians g)).
  unfold sky. generalize (sky_direction (second_radians g) (first_radians g)).
  intros [x y z]. unfold vdot, sky_direction, north, east; cbn.
  set (l := second_radians f). set (b := first_radians f).
  pose proof (sincos1 l) as L. pose proof (sincos1 b) as B.
  transitivity ((cos b * cos b + sin b * sin b)
     * ((x * cos l + y * sin l) * (x * cos l + y * sin l) + z * z)
     + (y * cos l - x * sin l) * (y * cos l - x * sin l)); [ring|].
  rewrite B. transitivity ((x * x + y * y) * (cos l * cos l + sin l * sin l) + z * z); [ring|].
  rewrite L. ring.
Qed.

Lemma positional_ok : forall f g, good_frame f -> good_frame g -> same_type f g ->
  sky g <> sky f -> sky g <> vscale (-1) (sky f) ->
  let rho := sqrt (1 - vdot (sky f) (sky g) * vdot (sky f) (sky g)) in
  0 < rho /\
  vdot (sky g) (north (second_radians f) (first_radians f)) = rho * cos (positional_angle f g) /\
  vdot (sky g) (east (second_radians f)) = rho * sin (positional_angle f g) /\
  - PI < positional_angle f g <= PI.
Proof.
  intros f g F G T N1 N2 rho. rewrite (positional_parts f g F G T).
  pose proof (tangent_sum f g) as S. cbn zeta in S.
  set (e := vdot (sky g) (east (second_radians f))) in *.
  set (n := vdot (sky g) (north (second_radians f) (first_radians f))) in *.
  set (x := vdot (sky f) (sky g)) in *.
  assert (U : vdot (sky f) (sky f) = 1) by apply sky_unit.
  assert (W : vdot (sky g) (sky g) = 1) by apply sky_unit.
  assert (X1 : x <> 1).
  { intros E. apply N1. symmetry. apply (unit_dot_one _ _ U W). exact E. }
  assert (X2 : x <> -1).
  { intros E. apply N2. apply (unit_dot_minus _ _ W U). rewrite vdot_comm. exact E. }
  assert (XR : -1 <= x <= 1) by (apply unit_dot_range; assumption).
  assert (P : 0 < n * n + e * e).
  { assert (0 < (1 - x) * (1 + x)) by (apply Rmult_lt_0_compat; lra). lra. }
  assert (RR : rho = sqrt (n * n + e * e)) by (unfold rho; f_equal; lra).
  assert (Q : 0 < sqrt (n * n + e * e)) by (apply sqrt_lt_R0; exact P).
  rewrite RR. split; [exact Q|].
  rewrite (atan2_cos e n P), (atan2_sin e n P).
  split; [field; lra|]. split; [field; lra|]. apply atan2_range.
Qed.

(** Points on one meridian. *)
Lemma positional_meridian : forall f g, good_frame f -> good_frame g -> same_type f g ->
  second_radians f = second_radians g ->
  - (PI / 2) <= first_radians f <= PI / 2 -> - (PI / 2) <= first_radians g <= PI / 2 ->
  (first_radians f < first_radians g -> first_radians g - first_radians f < PI -> positional_angle f g = 0) /\
  (first_radians g < first_radians f -> first_radians f - first_radians g < PI -> positional_angle f g = PI).
Proof.
  intros f g F G T E A B. rewrite (positional_parts f g F G T).
  unfold sky. rewrite E. set (l := second_radians g).
  set (a := first_radians f) in *. set (b := first_radians g) in *.
  assert (Z : vdot (sky_direction l b) (east l) = 0) by (unfold vdot, sky_direction, east; cbn; ring).
  assert (N : vdot (sky_direction l b) (north l a) = sin (b - a)).
  { unfold vdot, sky_direction, north; cbn. rewrite sin_minus.
    transitivity (sin b * cos a - cos b * sin a * (cos l * cos l + sin l * sin l)); [ring|].
    rewrite sincos1. ring. }
  rewrite Z, N. split; intros L M.
  - assert (P : 0 < sin (b - a)) by (apply sin_gt_0; lra).
    unfold atan2. destruct (Rlt_dec 0 (sin (b - a))) as [_|K]; [|lra].
    unfold Rdiv. rewrite Rmult_0_l. apply atan_0.
  - assert (P : sin (b - a) < 0).
    { replace (b - a) with (- (a - b)) by ring. rewrite sin_neg.
      assert (0 < sin (a - b)) by (apply sin_gt_0; lra). lra. }
    unfold atan2. destruct (Rlt_dec 0 (sin (b - a))) as [K|_]; [lra|].
    destruct (Rlt_dec (sin (b - a)) 0) as [_|K]; [|lra].
    destruct (Rle_dec 0 0) as [_|K]; [|lra].
    unfold Rdiv. rewrite Rmult_0_l, atan_0. ring.
Qed.
