(** Proofs about representations. *)

From Coq Require Import Reals Lra Psatz.
From Verif Require Import CoordModel CoordSpec.
Local Open Scope R_scope.

(** ** atan2 *)

Lemma sqrt_pos_of : forall a, 0 < a -> 0 < sqrt a.
Proof. exact sqrt_lt_R0. Qed.

Lemma cos_atan_div : forall x y, 0 < x ->
  cos (atan (y / x)) = x / sqrt (x * x + y * y).
Proof.
  intros x y Hx. rewrite cos_atan.
  assert (H : 0 < x * x + y * y) by nra.
  replace (1 + (y / x)²) with ((x * x + y * y) / (x * x)) by (unfold Rsqr; field; lra).
  rewrite sqrt_div_alt by nra. rewrite sqrt_square by lra.
  assert (0 < sqrt (x * x + y * y)) by (now apply sqrt_lt_R0).
  field. lra.
Qed.

Lemma sin_atan_div : forall x y, 0 < x ->
  sin (atan (y / x)) = y / sqrt (x * x + y * y).
Proof.
  intros x y Hx. rewrite sin_atan.
  assert (H : 0 < x * x + y * y) by nra.
  replace (1 + (y / x)²) with ((x * x + y * y) / (x * x)) by (unfold Rsqr; field; lra).
  rewrite sqrt_div_alt by nra. rewrite sqrt_square by lra.
  assert (0 < sqrt (x * x + y * y)) by (now apply sqrt_lt_R0).
  field. lra.
Qed.

Lemma atan_neg_div : forall x y, x < 0 -> atan (y / x) = atan ((- y) / (- x)).
Proof. intros. f_equal. field. lra. Qed.

Lemma sqrt_sum0 : forall y, 0 < y -> sqrt (0 * 0 + y * y) = y.
Proof. intros. replace (0 * 0 + y * y) with (y * y) by ring. apply sqrt_square. lra. Qed.

Lemma atan2_cos : forall y x, 0 < x * x + y * y ->
  cos (atan2 y x) = x / sqrt (x * x + y * y).
Proof.
  intros y x H. unfold atan2.
  destruct (Rlt_dec 0 x). { now apply cos_atan_div. }
  destruct (Rlt_dec x 0).
  { replace (x * x + y * y) with ((-x) * (-x) + (-y) * (-y)) in * by ring.
    assert (0 < sqrt (- x * - x + - y * - y)) by (now apply sqrt_lt_R0).
    destruct (Rle_dec 0 y).
    - rewrite neg_cos, (atan_neg_div x y), cos_atan_div by lra. field. lra.
    - replace (atan (y / x) - PI) with (- (PI - atan (y / x))) by ring.
      rewrite cos_neg, Rtrigo_facts.cos_pi_minus, (atan_neg_div x y), cos_atan_div by lra.
      field. lra. }
  assert (x = 0) by lra. subst x.
  destruct (Rlt_dec 0 y). { rewrite cos_PI2. unfold Rdiv. ring. }
  destruct (Rlt_dec y 0).
  { replace (- PI / 2) with (- (PI / 2)) by field. rewrite cos_neg, cos_PI2. unfold Rdiv. ring. }
  nra.
Qed.

Lemma atan2_sin : forall y x, 0 < x * x + y * y ->
  sin (atan2 y x) = y / sqrt (x * x + y * y).
Proof.
  intros y x H. unfold atan2.
  destruct (Rlt_dec 0 x). { now apply sin_atan_div. }
  destruct (Rlt_dec x 0).
  { replace (x * x + y * y) with ((-x) * (-x) + (-y) * (-y)) in * by ring.
    assert (0 < sqrt (- x * - x + - y * - y)) by (now apply sqrt_lt_R0).
    destruct (Rle_dec 0 y).
    - rewrite neg_sin, (atan_neg_div x y), sin_atan_div by lra. field. lra.
    - replace (atan (y / x) - PI) with (- (PI - atan (y / x))) by ring.
      rewrite sin_neg, sin_PI_x, (atan_neg_div x y), sin_atan_div by lra.
      field. lra. }
  assert (x = 0) by lra. subst x.
  destruct (Rlt_dec 0 y).
  { rewrite sin_PI2, sqrt_sum0 by lra. field. lra. }
  destruct (Rlt_dec y 0).
  { replace (- PI / 2) with (- (PI / 2)) by field. rewrite sin_neg, sin_PI2.
    replace (0 * 0 + y * y) with (0 * 0 + (-y) * (-y)) by ring.
    rewrite sqrt_sum0 by lra. field. lra. }
  nra.
Qed.

Lemma atan2_range : forall y x, - PI < atan2 y x <= PI.
Proof.
  intros y x. pose proof PI_RGT_0. unfold atan2.
  pose proof (atan_bound (y / x)) as B.
  destruct (Rlt_dec 0 x). { lra. }
  destruct (Rlt_dec x 0).
  { destruct (Rle_dec 0 y).
    - assert (atan (y / x) <= 0).
      { destruct (Req_dec y 0) as [->|].
        - replace (0 / x) with 0 by (field; lra). rewrite atan_0. lra.
        - left. rewrite <- atan_0. apply atan_increasing.
          apply Rmult_lt_reg_r with (- x); [lra|].
          replace (y / x * - x) with (- y) by (field; lra). lra. }
      lra.
    - assert (0 < atan (y / x)).
      { rewrite <- atan_0. apply atan_increasing.
        apply Rmult_lt_reg_r with (- x); [lra|].
        replace (y / x * - x) with (- y) by (field; lra). lra. }
      lra. }
  destruct (Rlt_dec 0 y); [lra|]. destruct (Rlt_dec y 0); lra.
Qed.

Lemma angle_unique : forall a b,
  - PI < a <= PI -> - PI < b <= PI -> cos a = cos b -> sin a = sin b -> a = b.
Proof.
  intros a b Ha Hb C S.
  assert (E : cos (a - b) = 1).
  { rewrite cos_minus, C, S. pose proof (sin2_cos2 b). unfold Rsqr in *. lra. }
  pose proof PI_RGT_0.
  assert (P : forall t, 0 <= t < 2 * PI -> cos t = 1 -> t = 0).
  { intros t Ht Et.
    assert (S0 : sin t = 0). { pose proof (sin2_cos2 t) as Q. rewrite Et in Q. unfold Rsqr in Q. nra. }
    destruct (Rle_dec t PI).
    - destruct (Req_dec t 0); [assumption|exfalso].
      destruct (Req_dec t PI) as [->|]. { rewrite cos_PI in Et. lra. }
      pose proof (sin_gt_0 t ltac:(lra) ltac:(lra)). lra.
    - exfalso. pose proof (sin_lt_0 t ltac:(lra) ltac:(lra)). lra. }
  destruct (Rle_dec 0 (a - b)).
  - pose proof (P (a - b) ltac:(lra) E). lra.
  - rewrite <- cos_neg in E. pose proof (P (- (a - b)) ltac:(lra) E). lra.
Qed.

Lemma sincos1 : forall a, cos a * cos a + sin a * sin a = 1.
Proof. intros a. pose proof (sin2_cos2 a). unfold Rsqr in *. lra. Qed.

Lemma atan2_polar : forall k a, 0 < k -> - PI < a <= PI ->
  atan2 (k * sin a) (k * cos a) = a.
Proof.
  intros k a Hk Ha.
  assert (E : k * cos a * (k * cos a) + k * sin a * (k * sin a) = k * k).
  { pose proof (sincos1 a). nra. }
  assert (P : 0 < k * cos a * (k * cos a) + k * sin a * (k * sin a)) by nra.
  apply angle_unique; [apply atan2_range|assumption| |].
  - rewrite atan2_cos by assumption. rewrite E, sqrt_square by lra. field. lra.
  - rewrite atan2_sin by assumption. rewrite E, sqrt_square by lra. field. lra.
Qed.

(** ** from_cartesian is a section of to_cartesian *)

Lemma length_nonneg : forall p, 0 <= length_of p.
Proof. intros. apply sqrt_pos. Qed.

Lemma length_sq : forall p,
  length_of p * length_of p = c0 p * c0 p + c1 p * c1 p + c2 p * c2 p.
Proof. intros. unfold length_of. apply sqrt_sqrt. nra. Qed.

Lemma length_zero : forall p, length_of p = 0 -> p = V 0 0 0.
Proof.
  intros [x y z] H. pose proof (length_sq (V x y z)) as L. rewrite H in L. cbn in L.
  f_equal; nra.
Qed.

Lemma div_bound : forall z r, 0 < r -> z * z <= r * r -> -1 <= z / r <= 1.
Proof.
  intros z r Hr H. assert (- r <= z <= r) by nra. split.
  - apply Rmult_le_reg_r with r; [lra|]. replace (z / r * r) with z by (field; lra). lra.
  - apply Rmult_le_reg_r with r; [lra|]. replace (z / r * r) with z by (field; lra). lra.
Qed.

Lemma planar : forall p, 0 < length_of p ->
  length_of p * sqrt (1 - (c2 p / length_of p)²) = sqrt (c0 p * c0 p + c1 p * c1 p).
Proof.
  intros p H.
  replace (1 - (c2 p / length_of p)²)
    with ((c0 p * c0 p + c1 p * c1 p) / (length_of p * length_of p)).
  - rewrite sqrt_div_alt by nra. rewrite sqrt_square by lra. field. lra.
  - rewrite (length_sq p) at 1.
    unfold Rsqr. pose proof (length_sq p) as L.
    replace (1 - c2 p / length_of p * (c2 p / length_of p))
      with ((length_of p * length_of p - c2 p * c2 p) / (length_of p * length_of p)) by (field; lra).
    rewrite L. f_equal. ring.
Qed.

Lemma polar_parts : forall x y, 
  sqrt (x * x + y * y) * cos (atan2 y x) = x /\ sqrt (x * x + y * y) * sin (atan2 y x) = y.
Proof.
  intros x y. destruct (Req_dec (x * x + y * y) 0) as [E|E].
  - rewrite E, sqrt_0. assert (x = 0) by nra. assert (y = 0) by nra. subst. lra.
  - assert (P : 0 < x * x + y * y) by nra.
    assert (0 < sqrt (x * x + y * y)) by (now apply sqrt_lt_R0).
    rewrite atan2_cos, atan2_sin by assumption. split; field; lra.
Qed.

Lemma section_ok : forall s old p, to_cartesian s (from_cartesian s old p) = p.
Proof.
  intros s old p. destruct s; [reflexivity| |].
  - unfold from_cartesian, to_cartesian. cbn [c0 c1 c2].
    destruct (Rlt_dec 0 (length_of p)) as [H|H].
    + pose proof (length_sq p) as L.
      assert (B : -1 <= c2 p / length_of p <= 1) by (apply div_bound; [assumption|nra]).
      rewrite sin_acos, cos_acos by assumption. rewrite planar by assumption.
      destruct (polar_parts (c0 p) (c1 p)) as [-> ->].
      destruct p as [x y z]. cbn. f_equal. field. cbn in H. lra.
    + assert (E : length_of p = 0) by (pose proof (length_nonneg p); lra).
      rewrite E. apply length_zero in E. subst p. cbn. f_equal; ring.
  - unfold from_cartesian, to_cartesian. cbn [c0 c1 c2].
    destruct (Rlt_dec 0 (length_of p)) as [H|H].
    + pose proof (length_sq p) as L.
      assert (B : -1 <= c2 p / length_of p <= 1) by (apply div_bound; [assumption|nra]).
      rewrite cos_asin, sin_asin by assumption. rewrite planar by assumption.
      destruct (polar_parts (c0 p) (c1 p)) as [-> ->].
      destruct p as [x y z]. cbn. f_equal. field. cbn in H. lra.
    + assert (E : length_of p = 0) by (pose proof (length_nonneg p); lra).
      rewrite E. apply length_zero in E. subst p. cbn. f_equal; ring.
Qed.

Lemma from_principal : forall s old p, (length_of p = 0 -> 
    match s with Spherical => 0 <= old <= PI | _ => - (PI/2) <= old <= PI/2 end) ->
  principal s (from_cartesian s old p).
Proof.
  intros s old p Ho. destruct s; cbn; [trivial| |].
  - split; [apply length_nonneg|]. split; [apply atan2_range|].
    destruct (Rlt_dec 0 (length_of p)); [apply acos_bound|].
    apply Ho. pose proof (length_nonneg p). lra.
  - split; [apply length_nonneg|]. split; [apply atan2_range|].
    destruct (Rlt_dec 0 (length_of p)); [apply asin_bound|].
    apply Ho. pose proof (length_nonneg p). lra.
Qed.

Lemma length_to_cartesian : forall s p, s <> Cartesian ->
  length_of (to_cartesian s p) = Rabs (c2 p).
Proof.
  intros s [a b r] Hs. destruct s; [now destruct Hs| |].
  - unfold length_of, to_cartesian; cbn [c0 c1 c2].
    rewrite <- sqrt_Rsqr_abs. f_equal. unfold Rsqr.
    pose proof (sincos1 a) as A. pose proof (sincos1 b) as B.
    transitivity (r * r * (sin b * sin b * (cos a * cos a + sin a * sin a) + cos b * cos b)); [ring|].
    rewrite A. replace (sin b * sin b * 1 + cos b * cos b) with 1 by lra. ring.
  - unfold length_of, to_cartesian; cbn [c0 c1 c2].
    rewrite <- sqrt_Rsqr_abs. f_equal. unfold Rsqr.
    pose proof (sincos1 a) as A. pose proof (sincos1 b) as B.
    transitivity (r * r * (cos b * cos b * (cos a * cos a + sin a * sin a) + sin b * sin b)); [ring|].
    rewrite A. replace (cos b * cos b * 1 + sin b * sin b) with 1 by lra. ring.
Qed.

Lemma retraction_ok : forall s old p, regular s p ->
  from_cartesian s old (to_cartesian s p) = p.
Proof.
  intros s old p H. destruct s; [reflexivity| |].
  - destruct H as [Hr [Ha Hb]].
    pose proof (length_to_cartesian Spherical p ltac:(discriminate)) as L.
    unfold from_cartesian. rewrite L, Rabs_pos_eq by lra.
    destruct (Rlt_dec 0 (c2 p)) as [_|]; [|lra].
    destruct p as [a b r]. cbn in *. 
    assert (0 < sin b) by (apply sin_gt_0; lra).
    f_equal.
    + apply atan2_polar; [nra|assumption].
    + replace (r * cos b / r) with (cos b) by (field; lra). apply acos_cos. lra.
  - destruct H as [Hr [Ha Hb]].
    pose proof (length_to_cartesian Equatorial p ltac:(discriminate)) as L.
    unfold from_cartesian. rewrite L, Rabs_pos_eq by lra.
    destruct (Rlt_dec 0 (c2 p)) as [_|]; [|lra].
    destruct p as [a b r]. cbn in *.
    assert (0 < cos b) by (apply cos_gt_0; lra).
    f_equal.
    + apply atan2_polar; [nra|assumption].
    + replace (r * sin b / r) with (sin b) by (field; lra). apply asin_sin. lra.
Qed.

(** Distance and second angle come back also at the poles. *)
Lemma retraction_radial : forall s old p, principal s p -> 0 < c2 p -> s <> Cartesian ->
  c1 (from_cartesian s old (to_cartesian s p)) = c1 p /\
  c2 (from_cartesian s old (to_cartesian s p)) = c2 p.
Proof.
  intros s old p H Hr Hs. pose proof (length_to_cartesian s p Hs) as L.
  destruct s; [now destruct Hs| |]; unfold from_cartesian; cbn [c0 c1 c2];
    rewrite L, Rabs_pos_eq by lra; destruct (Rlt_dec 0 (c2 p)) as [Z|Z]; try lra; cbn [to_cartesian c2];
    destruct p as [a b r]; cbn in *; (split; [|reflexivity]).
  - replace (r * cos b / r) with (cos b) by (field; lra). apply acos_cos. lra.
  - replace (r * sin b / r) with (sin b) by (field; lra). apply asin_sin. lra.
Qed.

(** ** Positions *)

Lemma position_cart_eq : forall r, proper r ->
  position r = position (make_cartesian r).
Proof.
  intros [s [a b d] u1 u2 u3] P. destruct s; cbn; [reflexivity| |]; f_equal; ring.
Qed.

Lemma make_cartesian_position : forall r, position (make_cartesian r) = position r.
Proof.
  intros [s [a b d] u1 u2 u3]. destruct s; cbn; [reflexivity| |]; f_equal; ring.
Qed.

Lemma make_cartesian_proper : forall r, proper r -> proper (make_cartesian r).
Proof. intros [s p u1 u2 u3] (H1 & H2 & H3). destruct s; cbn in *; repeat split; assumption. Qed.

Lemma make_cartesian_sys : forall r, r_sys (make_cartesian r) = Cartesian.
Proof. intros [s p u1 u2 u3]. destruct s; reflexivity. Qed.

(** Position of an object made from a cartesian point. *)
Lemma from_point_position : forall t old p,
  position (from_point t old Cartesian p) =
  match t_sys t with
  | Cartesian => V (c0 p * t_u1 t) (c1 p * t_u2 t) (c2 p * t_u3 t)
  | _ => vscale (t_u3 t) p
  end.
Proof.
  intros [s u1 u2 u3] old p. unfold from_point, of_type; cbn [t_sys t_u1 t_u2 t_u3].
  destruct s; [reflexivity| |].
  - pose proof (section_ok Spherical old p) as S.
    change (to_cartesian Cartesian p) with p.
    set (q := from_cartesian Spherical old p) in *. 
    unfold position, vscale; cbn [r_sys r_pt r_u3]. rewrite <- S. cbn. f_equal; ring.
  - pose proof (section_ok Equatorial old p) as S.
    change (to_cartesian Cartesian p) with p.
    set (q := from_cartesian Equatorial old p) in *.
    unfold position, vscale; cbn [r_sys r_pt r_u3]. rewrite <- S. cbn. f_equal; ring.
Qed.

Lemma from_point_through : forall t old s p,
  from_point t old s p = from_point t old Cartesian (to_cartesian s p).
Proof. reflexivity. Qed.

Lemma vec_eta : forall p, V (c0 p) (c1 p) (c2 p) = p.
Proof. now intros []. Qed.

Lemma make_angular_position : forall s old r, s <> Cartesian -> proper r ->
  position (make_angular s old r) = position r.
Proof.
  intros s old r Hs P.
  assert (G : forall s, s <> Cartesian ->
    position (let t := make_cartesian r in
      let p := V (get1 t) (convert (r_u2 t) (r_u1 t) (get2 t))
                 (convert (r_u3 t) (r_u1 t) (get3 t)) in
      from_point (RType s 1 1 (r_u1 t)) old s (from_cartesian s 0 p)) = position r).
  { clear s Hs. intros s Hs. cbv zeta.
    rewrite from_point_through, section_ok, from_point_position.
    rewrite <- (make_cartesian_position r).
    pose proof (make_cartesian_proper r P) as (H1 & H2 & H3).
    pose proof (make_cartesian_sys r) as E.
    destruct (make_cartesian r) as [s' p u1 u2 u3]; cbn in E; subst s'; cbn in *.
    destruct s; [now destruct Hs| |]; unfold vscale, convert, conversion_factor, position; cbn; unfold get1, get2, get3; cbn; f_equal; field; lra. }
  unfold make_angular. destruct s; [now destruct Hs| |]; destruct (r_sys r);
    try reflexivity; apply G; discriminate.
Qed.

Lemma make_angular_proper : forall s old r, proper r -> proper (make_angular s old r).
Proof.
  intros s old r P. pose proof (make_cartesian_proper r P) as (H1 & H2 & H3).
  unfold make_angular. destruct s, (r_sys r); try assumption;
    cbn; repeat split; cbn; try lra; assumption.
Qed.

Lemma make_angular_sys : forall s old r, s <> Cartesian -> r_sys (make_angular s old r) = s.
Proof.
  intros s old r Hs. unfold make_angular.
  destruct s; [now destruct Hs| |]; destruct (r_sys r) eqn:E; try assumption; reflexivity.
Qed.

Lemma convert_same : forall u v x, 0 < u -> 0 < v -> convert u v x * v = x * u.
Proof. intros. unfold convert, conversion_factor. field. lra. Qed.

Lemma construct_position : forall t old r, proper_type t -> proper r ->
  position (construct t old r) = position r.
Proof.
  intros t old r (T1 & T2 & T3) P. unfold construct.
  destruct t as [s v1 v2 v3]; cbn [t_sys t_u1 t_u2 t_u3] in *. destruct s.
  - rewrite <- (make_cartesian_position r).
    pose proof (make_cartesian_proper r P) as (H1 & H2 & H3).
    pose proof (make_cartesian_sys r) as E.
    destruct (make_cartesian r) as [s' p u1 u2 u3]; cbn in E; subst s'; cbn in *.
    rewrite !convert_same by assumption. reflexivity.
  - pose proof (make_angular_position Spherical old r ltac:(discriminate) P) as Q.
    rewrite <- Q.
    pose proof (make_angular_proper Spherical old r P) as (H1 & H2 & H3).
    pose proof (make_angular_sys Spherical old r ltac:(discriminate)) as E.
    destruct (make_angular Spherical old r) as [s' p u1 u2 u3]; cbn in E; subst s'; cbn in *.
    rewrite convert_same by assumption.
    unfold get1, get2, convert, conversion_factor; cbn.
    replace (c0 p * (1 / u1) * (u1 / 1)) with (c0 p) by (field; lra).
    replace (c1 p * (1 / u2) * (u2 / 1)) with (c1 p) by (field; lra).
    reflexivity.
  - pose proof (make_angular_position Equatorial old r ltac:(discriminate) P) as Q.
    rewrite <- Q.
    pose proof (make_angular_proper Equatorial old r P) as (H1 & H2 & H3).
    pose proof (make_angular_sys Equatorial old r ltac:(discriminate)) as E.
    destruct (make_angular Equatorial old r) as [s' p u1 u2 u3]; cbn in E; subst s'; cbn in *.
    rewrite convert_same by assumption.
    unfold get1, get2, convert, conversion_factor; cbn.
    replace (c0 p * (1 / u1) * (u1 / 1)) with (c0 p) by (field; lra).
    replace (c1 p * (1 / u2) * (u2 / 1)) with (c1 p) by (field; lra).
    reflexivity.
Qed.

Lemma construct_type : forall t old r, type_of (construct t old r) = t.
Proof. intros [s u1 u2 u3] old r. destruct s; reflexivity. Qed.

Lemma change_units_position : forall u1 u2 u3 r,
  0 < u1 -> 0 < u2 -> 0 < u3 -> proper r ->
  position (change_units u1 u2 u3 r) = position r.
Proof.
  intros v1 v2 v3 [s [a b d] u1 u2 u3] V1 V2 V3 (H1 & H2 & H3); cbn in *.
  destruct s; unfold change_units, build, position, get1, get2, get3; cbn;
    rewrite ?convert_same by assumption; try reflexivity;
    unfold convert, conversion_factor; 
    replace (a * (1 / u1) * (u1 / v1) * (v1 / 1)) with a by (field; lra);
    replace (b * (1 / u2) * (u2 / v2) * (v2 / 1)) with b by (field; lra); 
    f_equal; field; lra.
Qed.

(** ** Cartesian round trips *)

Lemma cart_roundtrip : forall s old r,
  s <> Cartesian -> r_sys r = Cartesian -> proper r ->
  r_u2 r = r_u1 r -> r_u3 r = r_u1 r ->
  make_cartesian (make_angular s old r) = r.
Proof.
  intros s old [s' [x y z] u1 u2 u3] Hs E (H1 & H2 & H3) E2 E3; cbn in *. subst s' u2 u3.
  unfold make_angular; cbn [r_sys].
  assert (K : forall v, convert u1 u1 v = v).
  { intros. unfold convert, conversion_factor. field. lra. }
  destruct s; [now destruct Hs| |]; cbn -[from_cartesian to_cartesian];
    unfold get1, get2, get3; cbn -[from_cartesian to_cartesian]; rewrite !K;
    unfold make_cartesian, from_point, of_type; cbn -[from_cartesian to_cartesian];
    now rewrite !section_ok.
Qed.

Lemma cart_convert_back : forall s t old old' r,
  s <> Cartesian -> t_sys t = s -> proper_type t -> r_sys r = Cartesian -> proper r ->
  construct (type_of r) old' (construct t old r) = r.
Proof.
  intros s t old old' r Hs Ht T E P.
  pose proof (construct_position t old r T P) as Q.
  assert (P' : proper (construct t old r)).
  { pose proof (construct_type t old r) as K. destruct T as (T1 & T2 & T3).
    unfold proper. rewrite <- K in T1, T2, T3. now cbn in *. }
  assert (TR : proper_type (type_of r)) by exact P.
  pose proof (construct_position (type_of r) old' _ TR P') as Q2.
  rewrite Q in Q2. pose proof (construct_type (type_of r) old' (construct t old r)) as K.
  destruct (construct (type_of r) old' (construct t old r)) as [s2 [x2 y2 z2] w1 w2 w3].
  destruct r as [s1 [x y z] u1 u2 u3]. unfold type_of in K. cbn in *. injection K; intros; subst.
  unfold position in Q2. cbn in Q2. destruct P as (P1 & P2 & P3); cbn in *.
  injection Q2; intros A B C.
  apply Rmult_eq_reg_r in A; [|lra]. apply Rmult_eq_reg_r in B; [|lra].
  apply Rmult_eq_reg_r in C; [|lra]. now subst.
Qed.
