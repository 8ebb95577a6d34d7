(** Proofs about differentials. *)

From Coq Require Import Reals Lra Psatz Bool.
From Verif Require Import CoordModel CoordSpec CoordProofs CoordArith DiffModel DiffSpec.
Local Open Scope R_scope.

Lemma make_cartesian_diff_velocity : forall d, velocity (make_cartesian_diff d) = velocity d.
Proof.
  intros [k [a b r] u1 u2 u3]. destruct k; cbn; try reflexivity; unfold velocity, polar; cbn; f_equal; ring.
Qed.

Lemma make_cartesian_diff_proper : forall d, dproper d -> dproper (make_cartesian_diff d).
Proof. intros [k p u1 u2 u3] (H1 & H2 & H3). destruct k; cbn in *; repeat split; assumption. Qed.

Lemma make_cartesian_diff_kind : forall d, d_kind (make_cartesian_diff d) = DCartesian.
Proof. intros [k p u1 u2 u3]. destruct k; reflexivity. Qed.

(** Velocity of an object of a plain kind made from a cartesian point. *)
Lemma dfrom_point_velocity : forall t old p, dt_kind t <> DCoslat ->
  velocity (dfrom_point t old Cartesian p) =
  match dt_kind t with
  | DCartesian => V (c0 p * dt_u1 t) (c1 p * dt_u2 t) (c2 p * dt_u3 t)
  | _ => vscale (dt_u3 t) p
  end.
Proof.
  intros [k u1 u2 u3] old p H. unfold dfrom_point, of_dtype; cbn [dt_kind dt_u1 dt_u2 dt_u3] in *.
  destruct k; cbn [dsystem]; [reflexivity| | |now destruct H].
  - pose proof (section_ok Spherical old p) as S.
    change (to_cartesian Cartesian p) with p. set (q := from_cartesian Spherical old p) in *.
    unfold velocity, polar, vscale; cbn [d_kind d_pt d_u3]. rewrite <- S. cbn. f_equal; ring.
  - pose proof (section_ok Equatorial old p) as S.
    change (to_cartesian Cartesian p) with p. set (q := from_cartesian Equatorial old p) in *.
    unfold velocity, vscale; cbn [d_kind d_pt d_u3]. rewrite <- S. cbn. f_equal; ring.
Qed.

Lemma dfrom_point_through : forall t old s p,
  dfrom_point t old s p = dfrom_point t old Cartesian (to_cartesian s p).
Proof. reflexivity. Qed.

Lemma dcart_form : forall d, dproper d -> exists x y z u1 u2 u3,
  make_cartesian_diff d = Diff DCartesian (V x y z) u1 u2 u3 /\
  0 < u1 /\ 0 < u2 /\ 0 < u3 /\
  velocity d = V (x * u1) (y * u2) (z * u3) /\
  match d_kind d with
  | DCartesian => u1 = d_u1 d /\ u2 = d_u2 d /\ u3 = d_u3 d
  | _ => u1 = d_u3 d /\ u2 = d_u3 d /\ u3 = d_u3 d
  end.
Proof.
  intros d P. pose proof (make_cartesian_diff_velocity d) as Q.
  pose proof (make_cartesian_diff_kind d) as S. pose proof (make_cartesian_diff_proper d P) as (H1 & H2 & H3).
  destruct (make_cartesian_diff d) as [s [x y z] u1 u2 u3] eqn:E. cbn in *. subst s.
  exists x, y, z, u1, u2, u3. do 4 (split; [assumption||reflexivity|]). split; [now rewrite <- Q|].
  unfold make_cartesian_diff in E. destruct d as [s p v1 v2 v3]; cbn in *.
  destruct s; injection E; intros; subst; repeat split.
Qed.

Definition plain (k : dkind) : Prop := k = DSpherical \/ k = DEquatorial.

Lemma make_angular_diff_velocity : forall k old d, plain k -> dproper d ->
  velocity (make_angular_diff k old d) = velocity d.
Proof.
  intros k old d Hk P.
  assert (G : forall k, plain k ->
    velocity (let t := make_cartesian_diff d in
      let p := V (dget1 t) (convert (d_u2 t) (d_u1 t) (dget2 t))
                 (convert (d_u3 t) (d_u1 t) (dget3 t)) in
      dfrom_point (DType k 1 1 (d_u1 t)) old (dsystem k) (from_cartesian (dsystem k) 0 p)) = velocity d).
  { clear k Hk. intros k Hk. cbv zeta.
    rewrite dfrom_point_through, section_ok, dfrom_point_velocity by (destruct Hk; subst; discriminate).
    destruct (dcart_form d P) as (x & y & z & u1 & u2 & u3 & E & U1 & U2 & U3 & Q & _).
    rewrite E, Q. unfold dget1, dget2, dget3, convert, conversion_factor; cbn.
    destruct Hk; subst k; unfold vscale; cbn; f_equal; field; lra. }
  unfold make_angular_diff. destruct Hk; subst k; destruct (d_kind d);
    try reflexivity; apply G; unfold plain; auto.
Qed.

Lemma make_angular_diff_proper : forall k old d, dproper d -> dproper (make_angular_diff k old d).
Proof.
  intros k old d P. pose proof (make_cartesian_diff_proper d P) as (H1 & H2 & H3).
  unfold make_angular_diff. destruct k, (d_kind d); try assumption;
    cbn; repeat split; cbn; try lra; assumption.
Qed.

Lemma make_angular_diff_kind : forall k old d, plain k -> d_kind (make_angular_diff k old d) = k.
Proof.
  intros k old d Hk. unfold make_angular_diff.
  destruct Hk; subst k; destruct (d_kind d) eqn:E; try assumption; reflexivity.
Qed.

Lemma make_coslat_diff_proper : forall old d, dproper d -> dproper (make_coslat_diff old d).
Proof.
  intros old d P. unfold make_coslat_diff.
  pose proof (make_angular_diff_proper DSpherical old d P) as (H1 & H2 & H3).
  destruct (d_kind d); try assumption; cbn; repeat split; cbn; try lra; assumption.
Qed.

Lemma make_coslat_diff_kind : forall old d, d_kind (make_coslat_diff old d) = DCoslat.
Proof. intros old d. unfold make_coslat_diff. destruct (d_kind d) eqn:E; try reflexivity. assumption. Qed.

Lemma make_diff_kind : forall k old d, d_kind (make_diff k old d) = k.
Proof.
  intros. destruct k; cbn [make_diff].
  - apply make_cartesian_diff_kind.
  - apply make_angular_diff_kind. now left.
  - apply make_angular_diff_kind. now right.
  - apply make_coslat_diff_kind.
Qed.

Lemma make_diff_proper : forall k old d, dproper d -> dproper (make_diff k old d).
Proof.
  intros. destruct k; cbn [make_diff].
  - now apply make_cartesian_diff_proper.
  - now apply make_angular_diff_proper.
  - now apply make_angular_diff_proper.
  - now apply make_coslat_diff_proper.
Qed.

Lemma make_diff_velocity : forall k old d, k <> DCoslat -> dproper d ->
  velocity (make_diff k old d) = velocity d.
Proof.
  intros k old d Hk P. destruct k; cbn [make_diff].
  - apply make_cartesian_diff_velocity.
  - apply make_angular_diff_velocity; [now left|assumption].
  - apply make_angular_diff_velocity; [now right|assumption].
  - now destruct Hk.
Qed.

Lemma dconstruct_make : forall t old d, dproper_type t -> dproper d ->
  velocity (dconstruct t old d) = velocity (make_diff (dt_kind t) old d).
Proof.
  intros [k v1 v2 v3] old d (T1 & T2 & T3) P. unfold dconstruct; cbn [dt_kind dt_u1 dt_u2 dt_u3] in *.
  pose proof (make_diff_kind k old d) as K. pose proof (make_diff_proper k old d P) as (H1 & H2 & H3).
  destruct (make_diff k old d) as [k' [a b r] u1 u2 u3]. cbn in K; subst k'. cbn in H1, H2, H3.
  assert (K1 : convert u1 1 (convert 1 u1 a) = a) by (unfold convert, conversion_factor; field; lra).
  assert (K2 : convert u2 1 (convert 1 u2 b) = b) by (unfold convert, conversion_factor; field; lra).
  destruct k; unfold dget1, dget2, dget3; cbn; unfold velocity; cbn;
    rewrite ?K1, ?K2, !convert_same by assumption; reflexivity.
Qed.

Lemma dconstruct_velocity : forall t old d, dt_kind t <> DCoslat -> dproper_type t -> dproper d ->
  velocity (dconstruct t old d) = velocity d.
Proof.
  intros t old d Hk T P. rewrite dconstruct_make by assumption. now apply make_diff_velocity.
Qed.

Lemma dconstruct_type : forall t old d, dtype_of (dconstruct t old d) = t.
Proof. intros [k u1 u2 u3] old d. unfold dconstruct. destruct k; reflexivity. Qed.

(** ** Conversion to coslat *)

(** The spherical coordinates of a non-zero planar part. *)
Lemma sph_coords : forall x y z, 0 < x * x + y * y ->
  let q := from_cartesian Spherical 0 (V x y z) in
  regular Spherical q /\ to_cartesian Spherical q = V x y z.
Proof.
  intros x y z H q. split; [|apply section_ok].
  assert (L : 0 < length_of (V x y z)).
  { unfold length_of; cbn. apply sqrt_lt_R0. nra. }
  unfold q. cbn. split; [exact L|]. split; [apply atan2_range|].
  destruct (Rlt_dec 0 (length_of (V x y z))) as [Lr|Lr]; [|lra].
  set (r := length_of (V x y z)) in *.
  pose proof (length_sq (V x y z)) as S. cbn in S. fold r in S.
  pose proof (acos_bound (z / r)) as B.
  assert (Z1 : -1 <= z / r <= 1) by (apply div_bound; [assumption|nra]).
  assert (Zs : z / r * r = z) by (field; lra).
  split.
  - destruct (Req_dec (acos (z / r)) 0) as [E|E]; [|lra]. exfalso.
    apply (f_equal cos) in E. rewrite cos_acos, cos_0 in E by assumption. rewrite E in Zs. nra.
  - destruct (Req_dec (acos (z / r)) PI) as [E|E]; [|lra]. exfalso.
    apply (f_equal cos) in E. rewrite cos_acos, cos_PI in E by assumption. rewrite E in Zs. nra.
Qed.

(** Multiply the second angle by the cosine of the first and normalise. *)
Definition coslat_point (old : R) (q : vec) : vec :=
  from_cartesian Spherical old (to_cartesian Spherical (V (c0 q) (c1 q * cos (c0 q)) (c2 q))).

(** And back to cartesian. *)
Definition uncoslat (p : vec) : vec := to_cartesian Spherical (V (c0 p) (c1 p / cos (c0 p)) (c2 p)).

Lemma cos_le1 : forall a, -1 <= cos a <= 1.
Proof. apply COS_bound. Qed.

Lemma coslat_pos : forall old q, regular Spherical q -> 0 < cos (c0 q) ->
  coslat_point old q = V (c0 q) (c1 q * cos (c0 q)) (c2 q).
Proof.
  intros old [a b r] (Hr & Ha & Hb) C; cbn in Hr, Ha, Hb, C. unfold coslat_point; cbn [c0 c1 c2].
  apply retraction_ok. cbn. pose proof (cos_le1 a). repeat split; try lra; nra.
Qed.

Definition opposite_azimuth (a : R) : R := if Rlt_dec 0 a then a - PI else a + PI.

Lemma opposite_trig : forall a, cos (opposite_azimuth a) = - cos a /\ sin (opposite_azimuth a) = - sin a.
Proof.
  intros a. unfold opposite_azimuth. destruct (Rlt_dec 0 a).
  - replace (a - PI) with (- (PI - a)) by ring.
    rewrite cos_neg, sin_neg, Rtrigo_facts.cos_pi_minus, sin_PI_x. split; ring.
  - rewrite neg_cos, neg_sin. split; ring.
Qed.

Lemma coslat_neg : forall old q, regular Spherical q -> cos (c0 q) < 0 ->
  coslat_point old q = V (opposite_azimuth (c0 q)) (- (c1 q * cos (c0 q))) (c2 q).
Proof.
  intros old [a b r] (Hr & Ha & Hb) C; cbn in Hr, Ha, Hb, C. unfold coslat_point; cbn [c0 c1 c2].
  destruct (opposite_trig a) as [OC OS].
  replace (to_cartesian Spherical (V a (b * cos a) r))
    with (to_cartesian Spherical (V (opposite_azimuth a) (- (b * cos a)) r)).
  - apply retraction_ok. cbn. pose proof (cos_le1 a). pose proof PI_RGT_0.
    unfold opposite_azimuth. destruct (Rlt_dec 0 a); repeat split; try lra; nra.
  - cbn. rewrite OC, OS, sin_neg, cos_neg. f_equal; ring.
Qed.

Lemma uncoslat_pos : forall old q, regular Spherical q -> 0 < cos (c0 q) ->
  uncoslat (coslat_point old q) = to_cartesian Spherical q.
Proof.
  intros old q R C. rewrite coslat_pos by assumption. unfold uncoslat; cbn [c0 c1 c2].
  destruct q as [a b r]; cbn [c0 c1 c2] in *. replace (b * cos a / cos a) with b by (field; lra). reflexivity.
Qed.

Lemma uncoslat_neg : forall old q, regular Spherical q -> cos (c0 q) < 0 ->
  uncoslat (coslat_point old q) =
    V (- c0 (to_cartesian Spherical q)) (- c1 (to_cartesian Spherical q)) (c2 (to_cartesian Spherical q)).
Proof.
  intros old q R C. rewrite coslat_neg by assumption. unfold uncoslat; cbn [c0 c1 c2].
  destruct q as [a b r]; cbn in *. destruct (opposite_trig a) as [OC OS]. rewrite OC, OS.
  replace (- (b * cos a) / - cos a) with b by (field; lra). f_equal; ring.
Qed.

Lemma acos_1' : acos 1 = 0.
Proof. apply acos_1. Qed.

Lemma from_axis : forall s old z, 0 < z -> s = Spherical -> from_cartesian s old (V 0 0 z) = V 0 0 z.
Proof.
  intros s old z H ->. unfold from_cartesian; cbn [c0 c1 c2].
  assert (L : length_of (V 0 0 z) = z).
  { unfold length_of; cbn. replace (0 * 0 + 0 * 0 + z * z) with (z * z) by ring. apply sqrt_square. lra. }
  rewrite L. destruct (Rlt_dec 0 z); [|lra].
  replace (z / z) with 1 by (field; lra). rewrite acos_1'.
  unfold atan2. destruct (Rlt_dec 0 0); [lra|]. reflexivity.
Qed.

Lemma uncoslat_meridian : forall old q, 0 < c2 q -> cos (c0 q) = 0 ->
  uncoslat (coslat_point old q) = V 0 0 (c2 q).
Proof.
  intros old [a b r] Hr C; cbn in Hr, C. unfold coslat_point; cbn [c0 c1 c2]. rewrite C, Rmult_0_r.
  replace (to_cartesian Spherical (V a 0 r)) with (V 0 0 r).
  - rewrite from_axis by (trivial; lra). unfold uncoslat; cbn. rewrite cos_0.
    replace (0 / 1) with 0 by field. rewrite sin_0, cos_0. f_equal; ring.
  - cbn. rewrite sin_0, cos_0. f_equal; ring.
Qed.

(** make_coslat of a cartesian differential. *)
Lemma make_coslat_of_cartesian : forall old d, d_kind d = DCartesian -> dproper d ->
  exists p, p = V (c0 (d_pt d)) (convert (d_u2 d) (d_u1 d) (c1 (d_pt d))) (convert (d_u3 d) (d_u1 d) (c2 (d_pt d))) /\
  make_coslat_diff old d =
    Diff DCoslat (coslat_point old (from_cartesian Spherical old p)) 1 1 (d_u1 d).
Proof.
  intros old [k [x y z] u1 u2 u3] K (H1 & H2 & H3); cbn in *; subst k.
  eexists; split; [reflexivity|].
  unfold make_coslat_diff, make_angular_diff. cbn [d_kind make_cartesian_diff].
  unfold dget1, dget2, dget3, dset2, dset_pt, dfrom_point, of_dtype, coslat_point.
  cbn [d_kind d_pt d_u1 d_u2 d_u3 dt_kind dt_u1 dt_u2 dt_u3 dsystem c0 c1 c2].
  rewrite section_ok.
  assert (K : forall v, convert 1 1 v = v) by (intros; unfold convert, conversion_factor; field).
  rewrite !K. reflexivity.
Qed.

Lemma make_cartesian_of_coslat : forall p u1 u2 u3,
  make_cartesian_diff (Diff DCoslat p u1 u2 u3) = Diff DCartesian (uncoslat p) u3 u3 u3.
Proof. reflexivity. Qed.

Lemma regular_cos : forall x y z, 0 < x * x + y * y ->
  let q := from_cartesian Spherical 0 (V x y z) in
  exists k, 0 < k /\ x = k * cos (c0 q) /\ y = k * sin (c0 q).
Proof.
  intros x y z H q. exists (sqrt (x * x + y * y)).
  split; [now apply sqrt_lt_R0|]. unfold q; cbn.
  destruct (polar_parts x y) as [A B]. split; symmetry; assumption.
Qed.

Lemma from_cartesian_old : forall s o1 o2 p, 0 < length_of p ->
  from_cartesian s o1 p = from_cartesian s o2 p.
Proof.
  intros s o1 o2 p H. destruct s; [reflexivity| |]; cbn; destruct (Rlt_dec 0 (length_of p)); trivial; lra.
Qed.

Lemma length_pos_planar : forall x y z, 0 < x * x + y * y -> 0 < length_of (V x y z).
Proof. intros. unfold length_of; cbn. apply sqrt_lt_R0. nra. Qed.

(** The round trip cartesian -> coslat -> cartesian on velocities. *)
Lemma coslat_round_trip : forall old d, d_kind d = DCartesian -> dproper d ->
  let v := velocity d in
  let w := velocity (make_cartesian_diff (make_coslat_diff old d)) in
  (0 < c0 v -> w = v) /\
  (c0 v < 0 -> w = V (- c0 v) (- c1 v) (c2 v)) /\
  (c0 v = 0 -> c1 v <> 0 -> w = V 0 0 (vnorm v)).
Proof.
  intros old d K P v w.
  destruct (make_coslat_of_cartesian old d K P) as [p [Ep Em]].
  assert (Hv : v = vscale (d_u1 d) p).
  { unfold v. rewrite Ep. destruct d as [k [x y z] u1 u2 u3]; cbn in K; subst k.
    destruct P as (H1 & H2 & H3); cbn in *. unfold velocity, vscale, convert, conversion_factor; cbn. f_equal; field; lra. }
  assert (Hw : w = vscale (d_u1 d) (uncoslat (coslat_point old (from_cartesian Spherical old p)))).
  { unfold w. rewrite Em, make_cartesian_of_coslat. unfold velocity, vscale; cbn. f_equal; ring. }
  destruct P as (U & _ & _). set (u := d_u1 d) in *. clearbody w v u. subst v w. clear Ep Em d K.
  destruct p as [x y z]. cbn [c0 c1 c2 vscale].
  assert (Hx : forall a, 0 < u * a <-> 0 < a).
  { intros a. split; intros; [|nra]. apply Rmult_lt_reg_l with u; lra. }
  split; [|split].
  - intros X. assert (X' : 0 < x) by (apply Hx; exact X). assert (N : 0 < x * x + y * y) by nra.
    rewrite (from_cartesian_old Spherical old 0) by (now apply length_pos_planar).
    destruct (sph_coords x y z N) as [R E]. destruct (regular_cos x y z N) as (k & Hk & Ex & _).
    rewrite uncoslat_pos; [|assumption|nra]. now rewrite E.
  - intros X. assert (X' : x < 0) by nra. assert (N : 0 < x * x + y * y) by nra.
    rewrite (from_cartesian_old Spherical old 0) by (now apply length_pos_planar).
    destruct (sph_coords x y z N) as [R E]. destruct (regular_cos x y z N) as (k & Hk & Ex & _).
    rewrite uncoslat_neg; [|assumption|nra]. rewrite E. unfold vscale; cbn. f_equal; ring.
  - intros X Y. assert (x = 0) by nra. subst x. assert (Y' : y <> 0) by nra.
    assert (N : 0 < 0 * 0 + y * y) by nra.
    rewrite (from_cartesian_old Spherical old 0) by (now apply length_pos_planar).
    destruct (regular_cos 0 y z N) as (k & Hk & Ex & _).
    rewrite uncoslat_meridian; [|cbn; now apply length_pos_planar|nra].
    change (V (u * 0) (u * y) (u * z)) with (vscale u (V 0 y z)). rewrite vnorm_scale.
    rewrite Rabs_pos_eq by lra. unfold vscale; cbn. f_equal; try ring.
Qed.

(** Along the axis nothing changes. *)
Lemma from_axis_neg : forall old z, z < 0 -> from_cartesian Spherical old (V 0 0 z) = V 0 PI (- z).
Proof.
  intros old z H. unfold from_cartesian; cbn [c0 c1 c2].
  assert (L : length_of (V 0 0 z) = - z).
  { unfold length_of; cbn. replace (0 * 0 + 0 * 0 + z * z) with ((- z) * (- z)) by ring. apply sqrt_square. lra. }
  rewrite L. destruct (Rlt_dec 0 (- z)); [|lra].
  replace (z / - z) with (-1) by (field; lra).
  assert (A : acos (-1) = PI). { rewrite <- cos_PI. apply acos_cos. pose proof PI_RGT_0. lra. }
  rewrite A. unfold atan2. destruct (Rlt_dec 0 0); [lra|]. reflexivity.
Qed.

Lemma uncoslat_zero : forall p, c2 p = 0 -> uncoslat p = V 0 0 0.
Proof. intros [a b r] H; cbn in H; subst r. unfold uncoslat; cbn. f_equal; ring. Qed.

Lemma length0 : length_of (V 0 0 0) = 0.
Proof. unfold length_of; cbn. replace (0 * 0 + 0 * 0 + 0 * 0) with 0 by ring. apply sqrt_0. Qed.

Lemma coslat_round_trip_axis : forall old d, d_kind d = DCartesian -> dproper d ->
  c0 (velocity d) = 0 -> c1 (velocity d) = 0 ->
  velocity (make_cartesian_diff (make_coslat_diff old d)) = velocity d.
Proof.
  intros old d K P X Y.
  destruct (make_coslat_of_cartesian old d K P) as [p [Ep Em]].
  rewrite Em, make_cartesian_of_coslat.
  assert (Hv : velocity d = vscale (d_u1 d) p).
  { rewrite Ep. destruct d as [k [x y z] u1 u2 u3]; cbn in K; subst k.
    destruct P as (H1 & H2 & H3); cbn in *. unfold velocity, vscale, convert, conversion_factor; cbn. f_equal; field; lra. }
  rewrite Hv in *. destruct P as (U & _ & _). destruct p as [x y z]. cbn in X, Y.
  assert (x = 0) by nra. assert (y = 0) by nra. subst x y.
  assert (G : uncoslat (coslat_point old (from_cartesian Spherical old (V 0 0 z))) = V 0 0 z).
  { destruct (Rtotal_order z 0) as [L|[E|L]].
    - rewrite from_axis_neg by assumption. unfold coslat_point; cbn [c0 c1 c2].
      rewrite cos_0, Rmult_1_r.
      replace (to_cartesian Spherical (V 0 PI (- z))) with (V 0 0 z).
      + rewrite from_axis_neg by assumption. unfold uncoslat; cbn [c0 c1 c2]. rewrite cos_0.
        replace (PI / 1) with PI by field. cbn. rewrite sin_PI, cos_PI. f_equal; ring.
      + cbn. rewrite sin_PI, cos_PI. f_equal; ring.
    - subst z. rewrite uncoslat_zero; [reflexivity|].
      unfold coslat_point. cbn [from_cartesian c2 c0 c1 to_cartesian]. rewrite length0.
      rewrite !Rmult_0_l. apply length0.
    - rewrite from_axis by trivial. unfold coslat_point; cbn [c0 c1 c2]. rewrite cos_0, Rmult_0_l.
      replace (to_cartesian Spherical (V 0 0 z)) with (V 0 0 z)
        by (cbn; rewrite sin_0, cos_0; f_equal; ring).
      rewrite from_axis by trivial. unfold uncoslat; cbn. rewrite cos_0.
      replace (0 / 1) with 0 by field. rewrite sin_0, cos_0. f_equal; ring. }
  rewrite G. unfold velocity, vscale; cbn. f_equal; ring.
Qed.

(** ** Multiplication by a time *)

Lemma dtimes_velocity : forall old d dt, d_kind d <> DCoslat -> dproper d ->
  velocity (dtimes old d dt) = vscale (physical dt) (velocity d).
Proof.
  intros old [k [a b r] u1 u2 u3] [x u] Hk (H1 & H2 & H3). unfold dtimes, physical; cbn in *.
  destruct k; [|idtac|idtac|now destruct Hk].
  - unfold velocity, vscale, dget1, dget2, dget3; cbn. f_equal; ring.
  - pose proof (section_ok Spherical old (to_cartesian Spherical (V a b r))) as S.
    unfold dfrom_point, of_dtype, dget1, dget2, dget3; cbn -[to_cartesian from_cartesian].
    set (q := from_cartesian Spherical old _) in *. destruct q as [a' b' r'].
    unfold velocity, polar, vscale; cbn in *.
    replace (convert u1 1 (convert 1 u1 a')) with a' by (unfold convert, conversion_factor; field; lra).
    replace (convert u2 1 (convert 1 u2 b')) with b' by (unfold convert, conversion_factor; field; lra).
    injection S as S0 S1 S2.
    f_equal; [transitivity (x * u * u3 * (r' * sin b' * cos a'))|transitivity (x * u * u3 * (r' * sin b' * sin a'))|
              transitivity (x * u * u3 * (r' * cos b'))]; try ring; rewrite ?S0, ?S1, ?S2; ring.
  - pose proof (section_ok Equatorial old (to_cartesian Equatorial (V a b r))) as S.
    unfold dfrom_point, of_dtype, dget1, dget2, dget3; cbn -[to_cartesian from_cartesian].
    set (q := from_cartesian Equatorial old _) in *. destruct q as [a' b' r'].
    unfold velocity, vscale; cbn in *.
    replace (convert u1 1 (convert 1 u1 a')) with a' by (unfold convert, conversion_factor; field; lra).
    replace (convert u2 1 (convert 1 u2 b')) with b' by (unfold convert, conversion_factor; field; lra).
    injection S as S0 S1 S2.
    f_equal; [transitivity (x * u * u3 * (r' * cos b' * cos a'))|transitivity (x * u * u3 * (r' * cos b' * sin a'))|
              transitivity (x * u * u3 * (r' * sin b'))]; try ring; rewrite ?S0, ?S1, ?S2; ring.
Qed.

(** For the coslat kind, when the stored coordinates are regular. *)
Lemma dtimes_coslat_regular : forall old d dt, d_kind d = DCoslat -> dproper d ->
  regular Spherical (d_pt d) ->
  dget1 (dtimes old d dt) = dget1 d /\ dget2 (dtimes old d dt) = dget2 d /\
  dget3 (dtimes old d dt) = dget3 d * q_value dt /\
  velocity (dtimes old d dt) = vscale (physical dt) (velocity d).
Proof.
  intros old [k [a b r] u1 u2 u3] [x u] K (H1 & H2 & H3) R; cbn in K; subst k.
  unfold dtimes, physical. cbn [d_kind d_pt dsystem] in *.
  unfold dfrom_point, of_dtype. cbn [dtype_of dt_kind d_kind dsystem dt_u1 dt_u2 dt_u3 d_u1 d_u2 d_u3].
  rewrite retraction_ok by assumption.
  unfold dget1, dget2, dget3; cbn in *.
  unfold velocity, polar, vscale; cbn.
  replace (convert u1 1 (convert 1 u1 a)) with a by (unfold convert, conversion_factor; field; lra).
  replace (convert u2 1 (convert 1 u2 b)) with b by (unfold convert, conversion_factor; field; lra).
  repeat split; f_equal; ring.
Qed.

(** And in general: the stored point is replaced by its principal representative. *)
Lemma dtimes_coslat_negative : forall old r,
  0 < r ->
  dtimes old (Diff DCoslat (V 0 (-1) r) 1 1 1) (Q 1 1) = Diff DCoslat (V PI 1 r) 1 1 1.
Proof.
  intros old r Hr. unfold dtimes. cbn [d_kind d_pt dsystem]. unfold dfrom_point, of_dtype.
  cbn [dtype_of dt_kind d_kind dsystem dt_u1 dt_u2 dt_u3 d_u1 d_u2 d_u3].
  replace (to_cartesian Spherical (V 0 (-1) r)) with (to_cartesian Spherical (V PI 1 r)).
  - rewrite retraction_ok.
    + unfold dget1, dget2, dget3; cbn. unfold dbuild, dset123, dset1, dset2, dset3, dset_pt, of_dtype; cbn.
      unfold convert, conversion_factor. repeat f_equal; field.
    + cbn. pose proof PI_RGT_0. pose proof PI2_3_2. unfold PI2 in *. repeat split; lra.
  - cbn. replace (-1) with (- (1)) by ring. rewrite sin_neg, cos_neg, cos_PI, sin_PI, cos_0, sin_0.
    f_equal; ring.
Qed.

(** ** Addition *)

Lemma dplus_cartesian_velocity : forall a b, d_kind a = DCartesian -> dproper a -> dproper b ->
  velocity (dplus_cartesian a b) = vadd (velocity a) (velocity b).
Proof.
  intros a b S Pa Pb.
  destruct (dcart_form b Pb) as (x' & y' & z' & v1 & v2 & v3 & E' & V1 & V2 & V3 & Q' & _).
  unfold dplus_cartesian. rewrite E', Q'.
  destruct a as [s [x y z] u1 u2 u3]; cbn in S; subst s. destruct Pa as (H1 & H2 & H3).
  rewrite dfrom_point_velocity by discriminate. cbn in *. unfold dget1, dget2, dget3; cbn.
  unfold velocity, vadd, convert, conversion_factor; cbn. f_equal; field; lra.
Qed.

Lemma dplus_type : forall old a b, dtype_of (dplus old a b) = dtype_of a.
Proof.
  intros old [k p u1 u2 u3] b. destruct k; [reflexivity| | |]; unfold dplus; cbn [d_kind];
    now rewrite dconstruct_type.
Qed.

Lemma dplus_velocity : forall old a b, d_kind a <> DCoslat -> dproper a -> dproper b ->
  velocity (dplus old a b) = vadd (velocity a) (velocity b).
Proof.
  intros old a b Hk Pa Pb. destruct (d_kind a) eqn:K; [| | |now destruct Hk].
  - unfold dplus. rewrite K. now apply dplus_cartesian_velocity.
  - unfold dplus. rewrite K. set (m := dfrom_point _ 0 _ (d_pt a)).
    assert (Pm : dproper m) by (destruct Pa as (H1 & H2 & H3); repeat split; assumption).
    assert (Hm : velocity m = velocity a).
    { unfold m. rewrite dfrom_point_through, dfrom_point_velocity by discriminate.
      unfold velocity. rewrite K. unfold polar; cbn. f_equal; ring. }
    assert (Ps : dproper (dplus_cartesian m (make_cartesian_diff b))).
    { destruct Pm as (H1 & H2 & H3). repeat split; assumption. }
    rewrite dconstruct_velocity;
      [|cbn; rewrite K; discriminate|exact Pa|now apply make_diff_proper].
    rewrite make_diff_velocity by (discriminate || assumption).
    rewrite dplus_cartesian_velocity; [|reflexivity|assumption|now apply make_cartesian_diff_proper].
    now rewrite make_cartesian_diff_velocity, Hm.
  - unfold dplus. rewrite K. set (m := dfrom_point _ 0 _ (d_pt a)).
    assert (Pm : dproper m) by (destruct Pa as (H1 & H2 & H3); repeat split; assumption).
    assert (Hm : velocity m = velocity a).
    { unfold m. rewrite dfrom_point_through, dfrom_point_velocity by discriminate.
      unfold velocity. rewrite K. cbn. f_equal; ring. }
    assert (Ps : dproper (dplus_cartesian m (make_cartesian_diff b))).
    { destruct Pm as (H1 & H2 & H3). repeat split; assumption. }
    rewrite dconstruct_velocity;
      [|cbn; rewrite K; discriminate|exact Pa|now apply make_diff_proper].
    rewrite make_diff_velocity by (discriminate || assumption).
    rewrite dplus_cartesian_velocity; [|reflexivity|assumption|now apply make_cartesian_diff_proper].
    now rewrite make_cartesian_diff_velocity, Hm.
Qed.

(** Adding the zero differential to a coslat one multiplies its second
    component by the cosine of the first. *)
Lemma coslat_plus_zero : forall old d u, 0 < u -> d_kind d = DCoslat -> dproper d ->
  regular Spherical (d_pt d) -> 0 < cos (c0 (d_pt d)) ->
  dplus old d (Diff DCartesian (V 0 0 0) u u u) =
  dset2 d (dget2 d * cos (c0 (d_pt d))).
Proof.
  intros old [k p u1 u2 u3] u Hu K (H1 & H2 & H3) R C. cbn [d_kind d_pt] in *; subst k. cbn in H1, H2, H3.
  unfold dplus. cbn [d_kind dsystem d_pt d_u3].
  set (m := dfrom_point _ 0 _ p).
  assert (E : dplus_cartesian m (make_cartesian_diff (Diff DCartesian (V 0 0 0) u u u))
              = Diff DCartesian (to_cartesian Spherical p) u3 u3 u3).
  { unfold dplus_cartesian, m, dfrom_point, of_dtype, dget1, dget2, dget3; cbn.
    unfold convert, conversion_factor. f_equal. f_equal; ring. }
  rewrite E. unfold dconstruct. cbn [dtype_of dt_kind make_diff d_kind d_u1 d_u2 d_u3 dt_u1 dt_u2 dt_u3].
  set (d' := Diff DCartesian (to_cartesian Spherical p) u3 u3 u3).
  assert (M : make_coslat_diff old d' = Diff DCoslat (V (c0 p) (c1 p * cos (c0 p)) (c2 p)) 1 1 u3).
  { destruct (make_coslat_of_cartesian old d' eq_refl) as [q [Eq Em]];
      [repeat split; assumption|]. rewrite Em. cbn [d' d_u1 d_u2 d_u3 d_pt] in *.
    assert (Q : q = to_cartesian Spherical p).
    { rewrite Eq. destruct (to_cartesian Spherical p) as [x y z]; cbn.
      unfold convert, conversion_factor. f_equal; field; lra. }
    rewrite Q, retraction_ok, coslat_pos by assumption. reflexivity. }
  assert (F : make_coslat_diff old (make_coslat_diff old d') = make_coslat_diff old d').
  { rewrite M. reflexivity. }
  rewrite F, M. destruct p as [a b r]. unfold dget1, dget2, dget3, dset2, dset_pt, of_dtype; cbn.
  unfold convert, conversion_factor. f_equal. f_equal; field; lra.
Qed.

(** ** Magnitude, equality *)

Lemma dmagnitude_angular : forall d, d_kind d <> DCartesian -> dmagnitude d = Rabs (dget3 d).
Proof.
  intros [k p u1 u2 u3] H. unfold dmagnitude, dget3; cbn [d_kind d_pt] in *.
  apply length_to_cartesian. destruct k; [now destruct H| | |]; discriminate.
Qed.

Lemma diff_eq_iff : forall a b, diff_eq a b = true <->
  to_cartesian (dsystem (d_kind a)) (d_pt a) = to_cartesian (dsystem (d_kind b)) (d_pt b).
Proof.
  intros a b.
  exact (rep_eq_iff (Rep (dsystem (d_kind a)) (d_pt a) 1 1 1) (Rep (dsystem (d_kind b)) (d_pt b) 1 1 1)).
Qed.
