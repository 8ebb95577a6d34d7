(** Proofs about the arithmetic on representations. *)

From Coq Require Import Reals Lra Psatz Bool.
From Verif Require Import CoordModel CoordSpec CoordProofs.
Local Open Scope R_scope.

Lemma vec_ext : forall p q, c0 p = c0 q -> c1 p = c1 q -> c2 p = c2 q -> p = q.
Proof. intros [x y z] [x' y' z']; cbn; intros; subst; reflexivity. Qed.

(** The cartesian form of a representation. *)
Lemma cart_form : forall r, proper r -> exists x y z u1 u2 u3,
  make_cartesian r = Rep Cartesian (V x y z) u1 u2 u3 /\
  0 < u1 /\ 0 < u2 /\ 0 < u3 /\
  position r = V (x * u1) (y * u2) (z * u3) /\
  match r_sys r with
  | Cartesian => u1 = r_u1 r /\ u2 = r_u2 r /\ u3 = r_u3 r
  | _ => u1 = r_u3 r /\ u2 = r_u3 r /\ u3 = r_u3 r
  end.
Proof.
  intros r P. pose proof (make_cartesian_position r) as Q.
  pose proof (make_cartesian_sys r) as S. pose proof (make_cartesian_proper r P) as (H1 & H2 & H3).
  destruct (make_cartesian r) as [s [x y z] u1 u2 u3] eqn:E. cbn in *. subst s.
  exists x, y, z, u1, u2, u3. do 4 (split; [assumption||reflexivity|]). split; [now rewrite <- Q|].
  unfold make_cartesian in E. destruct r as [s p v1 v2 v3]; cbn in *. destruct s.
  - injection E; intros; subst; repeat split.
  - injection E; intros; subst; repeat split.
  - injection E; intros; subst; repeat split.
Qed.

Lemma from_point_angular : forall t old p, t_sys t <> Cartesian ->
  position (from_point t old Cartesian p) = vscale (t_u3 t) p.
Proof. intros t old p H. rewrite from_point_position. destruct (t_sys t); [now destruct H| |]; reflexivity. Qed.

Ltac ring_units :=
  unfold convert, conversion_factor, vadd, vscale, vcross, vdot; cbn; try (f_equal; field; lra).

Lemma sum_position : forall old a b, proper a -> proper b ->
  position (sum old a b) = vadd (position a) (position b).
Proof.
  intros old a b Pa Pb.
  destruct (cart_form a Pa) as (x & y & z & u1 & u2 & u3 & E & U1 & U2 & U3 & Q & K).
  destruct (cart_form b Pb) as (x' & y' & z' & v1 & v2 & v3 & E' & V1 & V2 & V3 & Q' & _).
  unfold sum. rewrite E, E', Q, Q', from_point_position. cbn [type_of t_sys].
  unfold get1, get2, get3; cbn. destruct (r_sys a); destruct K as (K1 & K2 & K3); subst; ring_units.
Qed.

Lemma mean_position : forall old a b, proper a -> proper b ->
  position (mean old a b) = vscale (1 / 2) (vadd (position a) (position b)).
Proof.
  intros old a b Pa Pb.
  destruct (cart_form a Pa) as (x & y & z & u1 & u2 & u3 & E & U1 & U2 & U3 & Q & K).
  destruct (cart_form b Pb) as (x' & y' & z' & v1 & v2 & v3 & E' & V1 & V2 & V3 & Q' & _).
  unfold mean. rewrite E, E', Q, Q', from_point_position. cbn [type_of t_sys].
  unfold get1, get2, get3; cbn. destruct (r_sys a); destruct K as (K1 & K2 & K3); subst; ring_units.
Qed.

Lemma sum_type : forall old a b, type_of (sum old a b) = type_of a.
Proof. intros old [s p u1 u2 u3] b. reflexivity. Qed.

Lemma mean_type : forall old a b, type_of (mean old a b) = type_of a.
Proof. intros old [s p u1 u2 u3] b. reflexivity. Qed.

Lemma proper_of_type : forall a b, type_of a = type_of b -> proper a -> proper b.
Proof.
  intros [s p u1 u2 u3] [s' p' u1' u2' u3'] H. unfold type_of in H. cbn in H.
  injection H as -> -> -> ->. intros K; exact K.
Qed.

Lemma plus_cartesian_position : forall a b, r_sys a = Cartesian -> proper a -> proper b ->
  position (plus_cartesian a b) = vadd (position a) (position b).
Proof.
  intros a b S Pa Pb.
  destruct (cart_form b Pb) as (x' & y' & z' & v1 & v2 & v3 & E' & V1 & V2 & V3 & Q' & _).
  unfold plus_cartesian. rewrite E', Q', from_point_position.
  destruct a as [s [x y z] u1 u2 u3]; cbn in S; subst s. destruct Pa as (H1 & H2 & H3).
  cbn in *. unfold get1, get2, get3; cbn. ring_units.
Qed.

Lemma plus_type : forall old a b, type_of (plus old a b) = type_of a.
Proof.
  intros old [s p u1 u2 u3] b. destruct s; [reflexivity| |];
    unfold plus; cbn [r_sys]; now rewrite construct_type.
Qed.

Lemma plus_position : forall old a b, proper a -> proper b ->
  position (plus old a b) = vadd (position a) (position b).
Proof.
  intros old a b Pa Pb. unfold plus.
  destruct (r_sys a) eqn:S.
  - now apply plus_cartesian_position.
  - set (m := from_point _ 0 Spherical (r_pt a)).
    assert (Hm : position m = position a).
    { unfold m. rewrite from_point_through, from_point_position. cbn [t_sys t_u1 t_u2 t_u3].
      unfold position. rewrite S. cbn. f_equal; ring. }
    assert (Pm : proper m) by (destruct Pa as (H1 & H2 & H3); repeat split; assumption).
    assert (Sm : r_sys m = Cartesian) by reflexivity.
    assert (Ps : proper (plus_cartesian m (make_cartesian b))).
    { apply (proper_of_type m); [reflexivity|assumption]. }
    rewrite construct_position;
      [|exact Pa|now apply make_angular_proper].
    rewrite make_angular_position by (discriminate || assumption).
    rewrite plus_cartesian_position by (trivial; now apply make_cartesian_proper).
    now rewrite make_cartesian_position, Hm.
  - set (m := from_point _ 0 Equatorial (r_pt a)).
    assert (Hm : position m = position a).
    { unfold m. rewrite from_point_through, from_point_position. cbn [t_sys t_u1 t_u2 t_u3].
      unfold position. rewrite S. cbn. f_equal; ring. }
    assert (Pm : proper m) by (destruct Pa as (H1 & H2 & H3); repeat split; assumption).
    assert (Sm : r_sys m = Cartesian) by reflexivity.
    assert (Ps : proper (plus_cartesian m (make_cartesian b))).
    { apply (proper_of_type m); [reflexivity|assumption]. }
    rewrite construct_position;
      [|exact Pa|now apply make_angular_proper].
    rewrite make_angular_position by (discriminate || assumption).
    rewrite plus_cartesian_position by (trivial; now apply make_cartesian_proper).
    now rewrite make_cartesian_position, Hm.
Qed.

(** ** Cross product *)

Lemma raw_is_cartesian : forall r, to_cartesian (r_sys r) (r_pt r) = r_pt (make_cartesian r).
Proof. intros [s p u1 u2 u3]. destruct s; reflexivity. Qed.

Lemma cross_position : forall old a b, proper a -> proper b ->
  position (cross old a b) = vcross (position a) (position b).
Proof.
  intros old a b Pa Pb.
  destruct (cart_form a Pa) as (x & y & z & u1 & u2 & u3 & E & U1 & U2 & U3 & Q & K).
  destruct (cart_form b Pb) as (x' & y' & z' & v1 & v2 & v3 & E' & V1 & V2 & V3 & Q' & _).
  unfold cross. destruct (r_sys a) eqn:S; destruct K as (K1 & K2 & K3).
  - unfold cross_cartesian. rewrite !raw_is_cartesian, E, E', Q, Q', from_point_position. cbn.
    rewrite <- K1, <- K2, <- K3. ring_units.
  - unfold cross_other. rewrite E, E', Q, Q', S, from_point_angular by discriminate.
    subst. ring_units.
  - unfold cross_other. rewrite E, E', Q, Q', S, from_point_angular by discriminate.
    subst. ring_units.
Qed.

Lemma cross_proper : forall old a b, proper a -> proper b -> proper (cross old a b).
Proof.
  intros old a b Pa Pb. pose proof (make_cartesian_proper b Pb) as (N1 & N2 & N3).
  pose proof (make_cartesian_proper a Pa) as (M1 & M2 & M3).
  destruct Pa as (H1 & H2 & H3). unfold cross.
  destruct (r_sys a); unfold proper; cbn; repeat split; try assumption; now apply Rmult_lt_0_compat.
Qed.

(** ** Dot product and magnitude *)

Lemma dot_physical : forall a b, proper a -> proper b ->
  physical (dot a b) = vdot (position a) (position b).
Proof.
  intros a b Pa Pb.
  destruct (cart_form a Pa) as (x & y & z & u1 & u2 & u3 & E & U1 & U2 & U3 & Q & _).
  destruct (cart_form b Pb) as (x' & y' & z' & v1 & v2 & v3 & E' & V1 & V2 & V3 & Q' & _).
  unfold dot, physical. rewrite E, E', Q, Q'. cbn. unfold in_unit1, dot_product, get1, get2, get3; cbn.
  unfold vdot, convert, conversion_factor; cbn. field. lra.
Qed.

Lemma magnitude_cartesian : forall a, proper a -> r_sys a = Cartesian ->
  physical (magnitude a) = vnorm (position a).
Proof.
  intros [s [x y z] u1 u2 u3] (H1 & H2 & H3) S; cbn in *; subst s.
  unfold magnitude, physical, vnorm, length_of; cbn [q_value q_unit r_sys r_u1].
  set (w := in_unit1 _).
  transitivity (sqrt ((c0 w * c0 w + c1 w * c1 w + c2 w * c2 w) * (u1 * u1))).
  - rewrite sqrt_mult_alt by nra. now rewrite sqrt_square by lra.
  - f_equal. unfold w, in_unit1, get1, get2, get3, vdot, convert, conversion_factor; cbn. field. lra.
Qed.

Lemma vnorm_angular : forall a, proper a -> r_sys a <> Cartesian ->
  vnorm (position a) = Rabs (c2 (r_pt a)) * r_u3 a.
Proof.
  intros a P S. 
  pose proof (length_to_cartesian (r_sys a) (r_pt a) S) as L.
  destruct a as [s p u1 u2 u3]; cbn in *. destruct P as (H1 & H2 & H3); cbn in *.
  rewrite <- L. rewrite <- (Rabs_pos_eq u3) at 2 by lra. rewrite <- sqrt_Rsqr_abs.
  unfold length_of, vnorm. rewrite <- sqrt_mult_alt by (apply Rplus_le_le_0_compat; [apply Rplus_le_le_0_compat|]; apply Rle_0_sqr).
  f_equal. unfold vdot, position, Rsqr. cbn.
  destruct s; [now destruct S| |]; cbn; ring.
Qed.

Lemma magnitude_angular : forall a, proper a -> r_sys a <> Cartesian ->
  physical (magnitude a) = c2 (r_pt a) * r_u3 a.
Proof. intros [s p u1 u2 u3] P S; cbn in *. destruct s; [now destruct S| |]; reflexivity. Qed.

Lemma vnorm_nonneg : forall v, 0 <= vnorm v.
Proof. intros. apply sqrt_pos. Qed.

Lemma vnorm_sq : forall v, vnorm v * vnorm v = vdot v v.
Proof.
  intros v. unfold vnorm. apply sqrt_sqrt. unfold vdot. nra.
Qed.

Lemma magnitude_abs : forall a, proper a -> Rabs (physical (magnitude a)) = vnorm (position a).
Proof.
  intros a P. destruct (r_sys a) eqn:S.
  - rewrite magnitude_cartesian by assumption. apply Rabs_pos_eq, vnorm_nonneg.
  - assert (S' : r_sys a <> Cartesian) by (rewrite S; discriminate).
    rewrite magnitude_angular, vnorm_angular by assumption.
    destruct P as (H1 & H2 & H3). rewrite Rabs_mult, (Rabs_pos_eq (r_u3 a)) by lra. reflexivity.
  - assert (S' : r_sys a <> Cartesian) by (rewrite S; discriminate).
    rewrite magnitude_angular, vnorm_angular by assumption.
    destruct P as (H1 & H2 & H3). rewrite Rabs_mult, (Rabs_pos_eq (r_u3 a)) by lra. reflexivity.
Qed.

Lemma magnitude_sq : forall a, proper a ->
  physical (magnitude a) * physical (magnitude a) = physical (dot a a).
Proof.
  intros a P. rewrite dot_physical, <- vnorm_sq, <- magnitude_abs by assumption.
  rewrite <- Rabs_mult. symmetry. apply Rabs_pos_eq. apply Rle_0_sqr.
Qed.

Lemma magnitude_iff : forall a, proper a -> r_sys a <> Cartesian ->
  (physical (magnitude a) = physical (magnitude (make_cartesian a)) <-> 0 <= get3 a).
Proof.
  intros a P S.
  rewrite (magnitude_cartesian (make_cartesian a)), make_cartesian_position
    by (try apply make_cartesian_sys; now apply make_cartesian_proper).
  rewrite magnitude_angular, vnorm_angular by assumption.
  destruct P as (H1 & H2 & H3). unfold get3. split; intros H.
  - apply Rmult_eq_reg_r in H; [|lra]. rewrite H. apply Rabs_pos.
  - rewrite Rabs_pos_eq by assumption. reflexivity.
Qed.

Lemma vdot_comm : forall a b, vdot a b = vdot b a.
Proof. intros. unfold vdot. ring. Qed.

Lemma vdot_add : forall a b c, vdot (vadd a b) c = vdot a c + vdot b c.
Proof. intros. unfold vdot, vadd. cbn. ring. Qed.

Lemma vdot_scale : forall k a b, vdot (vscale k a) b = k * vdot a b.
Proof. intros. unfold vdot, vscale. cbn. ring. Qed.

Lemma vdot_self_zero : forall v, vdot v v = 0 <-> v = vzero.
Proof.
  intros [x y z]. unfold vdot, vzero; cbn. split.
  - intros. f_equal; nra.
  - intros H. injection H; intros; subst. ring.
Qed.

Lemma lagrange : forall a b,
  vdot (vcross a b) (vcross a b) + vdot a b * vdot a b = vdot a a * vdot b b.
Proof. intros. unfold vdot, vcross; cbn. ring. Qed.

Lemma cross_orth : forall a b, vdot (vcross a b) a = 0 /\ vdot (vcross a b) b = 0.
Proof. intros. unfold vdot, vcross; cbn. split; ring. Qed.

Lemma cross_anti : forall a b, vcross b a = vscale (-1) (vcross a b).
Proof. intros. unfold vcross, vscale; cbn. f_equal; ring. Qed.

Lemma cauchy : forall a b, Rabs (vdot a b) <= vnorm a * vnorm b.
Proof.
  intros a b. apply Rsqr_incr_0_var.
  - rewrite <- Rsqr_abs. unfold Rsqr.
    replace (vnorm a * vnorm b * (vnorm a * vnorm b))
      with ((vnorm a * vnorm a) * (vnorm b * vnorm b)) by ring.
    rewrite !vnorm_sq, <- lagrange. 
    assert (0 <= vdot (vcross a b) (vcross a b)) by (rewrite <- vnorm_sq; apply Rle_0_sqr). lra.
  - apply Rmult_le_pos; apply vnorm_nonneg.
Qed.

(** ** Unit vector *)

Lemma vnorm_pos : forall v, v <> vzero -> 0 < vnorm v.
Proof.
  intros v H. destruct (Rle_lt_or_eq_dec _ _ (vnorm_nonneg v)) as [|E]; [assumption|exfalso].
  apply H, vdot_self_zero. rewrite <- vnorm_sq, <- E. ring.
Qed.

Lemma unit_cartesian_numbers : forall a, proper a -> r_sys a = Cartesian ->
  position a <> vzero ->
  get1 (unit_vector a) = c0 (position a) / vnorm (position a) /\
  get2 (unit_vector a) = c1 (position a) / vnorm (position a) /\
  get3 (unit_vector a) = c2 (position a) / vnorm (position a).
Proof.
  intros a P S NZ. pose proof (magnitude_cartesian a P S) as M.
  pose proof (vnorm_pos _ NZ) as N. unfold unit_vector. rewrite S.
  destruct (magnitude a) as [m u] eqn:E. unfold physical in M. cbn [q_value q_unit] in *.
  destruct a as [s [x y z] u1 u2 u3]; cbn in S; subst s. destruct P as (H1 & H2 & H3). 
  unfold magnitude in E. cbn in E. injection E; intros -> _. cbn in H1, H2, H3. 
  assert (m <> 0). { intros ->. rewrite Rmult_0_l in M. lra. }
  rewrite <- M. unfold get1, get2, get3, from_point, position; cbn. unfold convert, conversion_factor.
  repeat split; field; repeat split; try lra.
Qed.

Lemma vnorm_scale : forall k v, vnorm (vscale k v) = Rabs k * vnorm v.
Proof.
  intros. unfold vnorm. rewrite vdot_scale, vdot_comm, vdot_scale.
  rewrite <- Rmult_assoc, sqrt_mult_alt by apply Rle_0_sqr. f_equal. 
  apply sqrt_Rsqr_abs.
Qed.

Lemma unit_cartesian_same_units : forall a, proper a -> r_sys a = Cartesian ->
  r_u2 a = r_u1 a -> r_u3 a = r_u1 a -> position a <> vzero ->
  position (unit_vector a) = vscale (r_u1 a / vnorm (position a)) (position a) /\
  magnitude (unit_vector a) = Q 1 (r_u1 a).
Proof.
  intros a P S E2 E3 NZ.
  pose proof (unit_cartesian_numbers a P S NZ) as (G1 & G2 & G3).
  pose proof (vnorm_pos _ NZ) as N.
  assert (T : type_of (unit_vector a) = type_of a).
  { unfold unit_vector. rewrite S. destruct a as [s p u1 u2 u3]; reflexivity. }
  assert (PE : position (unit_vector a) = vscale (r_u1 a / vnorm (position a)) (position a)).
  { destruct (unit_vector a) as [s [x y z] w1 w2 w3].
    destruct a as [s' [x' y' z'] u1 u2 u3]. unfold type_of in T. cbn in S, E2, E3, T.
    injection T as -> -> -> ->. subst s' u2 u3. unfold get1, get2, get3 in *. cbn in G1, G2, G3.
    unfold position at 1. cbn [r_sys r_pt r_u1 r_u2 r_u3 c0 c1 c2].
    unfold vscale. rewrite G1, G2, G3.
    set (n := vnorm _) in *. unfold position; cbn. f_equal; field; lra. }
  split; [assumption|].
  assert (PU : proper (unit_vector a)) by (apply (proper_of_type a); auto).
  assert (SU : r_sys (unit_vector a) = Cartesian) by (injection T; intros; congruence).
  pose proof (magnitude_cartesian _ PU SU) as M.
  rewrite PE, vnorm_scale in M. destruct P as (H1 & H2 & H3).
  rewrite Rabs_pos_eq in M by (left; apply Rdiv_lt_0_compat; lra).
  unfold magnitude in *. rewrite SU in *. unfold physical in M. cbn [q_value q_unit] in M.
  assert (UE : r_u1 (unit_vector a) = r_u1 a) by (injection T; intros; congruence).
  rewrite UE in *. f_equal. 
  replace (r_u1 a / vnorm (position a) * vnorm (position a)) with (1 * r_u1 a) in M by (field; lra).
  apply Rmult_eq_reg_r in M; [exact M|lra].
Qed.

Lemma unit_angular : forall a, proper a -> r_sys a <> Cartesian ->
  type_of (unit_vector a) = type_of a /\
  get1 (unit_vector a) = get1 a /\ get2 (unit_vector a) = get2 a /\ get3 (unit_vector a) = 1 /\
  magnitude (unit_vector a) = Q 1 (r_u3 a) /\
  (get3 a <> 0 -> position (unit_vector a) = vscale (1 / get3 a) (position a)).
Proof.
  intros [s [x y z] u1 u2 u3] (H1 & H2 & H3) S; cbn in *.
  assert (K1 : convert u1 1 (convert 1 u1 x) = x) by (unfold convert, conversion_factor; field; lra).
  assert (K2 : convert u2 1 (convert 1 u2 y) = y) by (unfold convert, conversion_factor; field; lra).
  destruct s; [now destruct S| |]; unfold unit_vector, type_of; cbn;
    unfold get1, get2, get3; cbn; rewrite K1, K2; repeat split;
    intros N; unfold position, vscale; cbn; f_equal; field; assumption.
Qed.

(** ** Equality *)

Lemma rep_eq_iff : forall a b, rep_eq a b = true <->
  to_cartesian (r_sys a) (r_pt a) = to_cartesian (r_sys b) (r_pt b).
Proof.
  intros a b. unfold rep_eq. split.
  - intros H. apply andb_true_iff in H as [H H3]. apply andb_true_iff in H as [H1 H2].
    apply vec_ext.
    + destruct (Req_EM_T _ _) in H1; congruence.
    + destruct (Req_EM_T _ _) in H2; congruence.
    + destruct (Req_EM_T _ _) in H3; congruence.
  - intros ->. destruct (Req_EM_T _ _); [|congruence]. destruct (Req_EM_T _ _); [|congruence].
    destruct (Req_EM_T _ _); [reflexivity|congruence].
Qed.

(** All lengths of the representation in one unit. *)
Definition length_unit (r : rep) (u : R) : Prop :=
  match r_sys r with
  | Cartesian => r_u1 r = u /\ r_u2 r = u /\ r_u3 r = u
  | _ => r_u3 r = u
  end.

Lemma position_raw : forall r u, length_unit r u ->
  position r = vscale u (to_cartesian (r_sys r) (r_pt r)).
Proof.
  intros [s [x y z] u1 u2 u3] u H. unfold length_unit, position, vscale in *; cbn in *.
  destruct s; [destruct H as (-> & -> & ->)|subst|subst]; cbn; f_equal; ring.
Qed.

Lemma vscale_inj : forall k a b, k <> 0 -> vscale k a = vscale k b -> a = b.
Proof.
  intros k [x y z] [x' y' z'] H E. unfold vscale in E; cbn in E. injection E; intros.
  f_equal; apply Rmult_eq_reg_l with k; assumption.
Qed.

Lemma rep_eq_position : forall a b u, 0 < u -> length_unit a u -> length_unit b u ->
  (rep_eq a b = true <-> position a = position b).
Proof.
  intros a b u U A B. rewrite rep_eq_iff, (position_raw a u A), (position_raw b u B).
  split; [intros ->; reflexivity|]. apply vscale_inj. lra.
Qed.
