(** * Properties of the coordinate representations and their arithmetic. *)

From Coq Require Import Reals Lra.
From Verif Require Import CoordModel CoordSpec CoordProofs CoordArith CoordRound.
Local Open Scope R_scope.

(** The representation (x, y, z) in metres, used in the examples. *)
Definition metres (x y z : R) : rep := build (RType Cartesian 1 1 1) x y z.
(** Latitude, longitude in degrees and distance in kilometres. *)
Definition degree : R := PI / 180.
Definition spherical_km (lat lon dist : R) : rep := build (RType Spherical degree degree 1000) lat lon dist.

Lemma degree_pos : 0 < degree.
Proof. unfold degree. pose proof PI_RGT_0. lra. Qed.

(** ** C39 *)

Theorem C39_cartesian_round_trip : forall t old old' r,
  t_sys t <> Cartesian -> proper_type t -> r_sys r = Cartesian -> proper r ->
  construct (type_of r) old' (construct t old r) = r.
Proof. intros t old old' r Hs T E P. exact (cart_convert_back (t_sys t) t old old' r Hs eq_refl T E P). Qed.
Print Assumptions C39_cartesian_round_trip.

Theorem C39_make_round_trip : forall s old r,
  s <> Cartesian -> r_sys r = Cartesian -> proper r -> r_u2 r = r_u1 r -> r_u3 r = r_u1 r ->
  make_cartesian (make_angular s old r) = r.
Proof. exact cart_roundtrip. Qed.
Print Assumptions C39_make_round_trip.

Example C39_case : forall old old',
  construct (RType Cartesian 1 1000 1) old' (construct (RType Spherical degree degree 5) old
     (build (RType Cartesian 1 1000 1) (-3) 0 4)) = build (RType Cartesian 1 1000 1) (-3) 0 4.
Proof.
  intros. apply (C39_cartesian_round_trip (RType Spherical degree degree 5) old old'
    (build (RType Cartesian 1 1000 1) (-3) 0 4)); cbn;
    [discriminate | repeat split; cbn; try exact degree_pos; lra | reflexivity | repeat split; cbn; lra].
Qed.
Example C39_null_vector : forall old old',
  construct (RType Cartesian 1 1 1) old' (construct (RType Equatorial 1 1 1) old (metres 0 0 0)) = metres 0 0 0.
Proof.
  intros. apply (C39_cartesian_round_trip (RType Equatorial 1 1 1) old old' (metres 0 0 0)); cbn;
    [discriminate | repeat split; cbn; lra | reflexivity | repeat split; cbn; lra].
Qed.

(** ** C40 *)

Theorem C40_angular_round_trip : forall t old old' r,
  t_sys t = Cartesian -> proper_type t -> r_sys r <> Cartesian -> proper r ->
  regular (r_sys r) (r_pt r) ->
  construct (type_of r) old' (construct t old r) = r.
Proof. exact angular_convert_back. Qed.
Print Assumptions C40_angular_round_trip.

Theorem C40_principal_representative : forall t old old' r,
  t_sys t = Cartesian -> proper_type t -> r_sys r <> Cartesian -> proper r -> get3 r <> 0 ->
  let r' := construct (type_of r) old' (construct t old r) in
  type_of r' = type_of r /\ position r' = position r /\
  principal (r_sys r) (r_pt r') /\ get3 r' = Rabs (get3 r).
Proof. exact angular_back_principal. Qed.
Print Assumptions C40_principal_representative.

Theorem C40_at_the_poles : forall t old old' r,
  t_sys t = Cartesian -> proper_type t -> r_sys r <> Cartesian -> proper r ->
  principal (r_sys r) (r_pt r) -> 0 < get3 r ->
  let r' := construct (type_of r) old' (construct t old r) in
  get2 r' = get2 r /\ get3 r' = get3 r.
Proof. exact angular_back_poles. Qed.
Print Assumptions C40_at_the_poles.

(** The first angle of a point on the polar axis is lost. *)
Theorem C40_pole_first_angle_refuted : exists t old old' r,
  t_sys t = Cartesian /\ proper_type t /\ proper r /\ principal (r_sys r) (r_pt r) /\ 0 < get3 r /\
  get1 (construct (type_of r) old' (construct t old r)) <> get1 r.
Proof.
  exists (RType Cartesian 1 1 1), 0, 0, (Rep Spherical (V 1 0 1) 1 1 1).
  split; [reflexivity|]. split; [repeat split; cbn; lra|]. split; [repeat split; cbn; lra|].
  pose proof PI2_3_2 as P32. unfold PI2 in P32.
  split; [cbn; lra|]. split; [unfold get3; cbn; lra|].
  pose proof (angular_back (RType Cartesian 1 1 1) 0 0 (Rep Spherical (V 1 0 1) 1 1 1)) as H.
  destruct H as (k & K & E); [reflexivity | repeat split; cbn; lra | discriminate | repeat split; cbn; lra |].
  cbn zeta in E. rewrite E. unfold get1. cbn -[atan2]. unfold convert, conversion_factor.
  rewrite sin_0. replace (k * 1 * 0 * sin 1) with 0 by ring. replace (k * 1 * 0 * cos 1) with 0 by ring.
  unfold atan2. destruct (Rlt_dec 0 0); lra.
Qed.
Print Assumptions C40_pole_first_angle_refuted.

Example C40_case : regular Spherical (r_pt (spherical_km 45 90 7)).
Proof. pose proof PI_RGT_0. cbn. unfold convert, conversion_factor, degree. repeat split; lra. Qed.

(** ** C41 *)

(** Increasing the first component rotates the point about the polar axis. *)
Theorem C41_first_component_is_azimuth : forall r delta, r_sys r <> Cartesian -> proper r ->
  let p := position r in
  let a := delta * r_u1 r in
  position (set1 r (get1 r + delta)) =
  V (cos a * c0 p - sin a * c1 p) (sin a * c0 p + cos a * c1 p) (c2 p).
Proof.
  intros [s [a b d] u1 u2 u3] delta Hs (U1 & U2 & U3) p w. cbn in Hs, U1, U2, U3.
  assert (E : set1 (Rep s (V a b d) u1 u2 u3) (get1 (Rep s (V a b d) u1 u2 u3) + delta)
              = Rep s (V (a + w) b d) u1 u2 u3).
  { unfold set1, set_pt, get1, w, convert, conversion_factor. cbn.
    destruct s; [now destruct Hs| |]; apply (f_equal (fun v => Rep _ v u1 u2 u3)); f_equal; field; lra. }
  rewrite E. unfold p. destruct s; [now destruct Hs| |]; unfold position; cbn;
    rewrite cos_plus, sin_plus; f_equal; ring.
Qed.
Print Assumptions C41_first_component_is_azimuth.

(** Spherical points with longitude 0 are on the polar axis whatever the latitude. *)
Theorem C41_longitude_zero_is_the_pole : forall t lat dist, t_sys t = Spherical -> proper_type t ->
  position (build t lat 0 dist) = V 0 0 (dist * t_u3 t).
Proof.
  intros [s u1 u2 u3] lat dist E (U1 & U2 & U3). cbn in E, U1, U2, U3. subst s.
  unfold position, build. cbn. unfold convert, conversion_factor. rewrite Rmult_0_l, sin_0, cos_0. f_equal; ring.
Qed.
Print Assumptions C41_longitude_zero_is_the_pole.

(** A point of latitude 90 degrees is not on the polar axis unless the longitude says so. *)
Theorem C41_latitude_90_refuted :
  position (spherical_km 90 90 1) = V 0 1000 0 /\
  position (build (RType Equatorial degree degree 1000) 90 0 1) = V 0 1000 0.
Proof.
  assert (E : convert degree 1 90 = PI / 2) by (unfold convert, conversion_factor, degree; field).
  assert (Z : convert degree 1 0 = 0) by (unfold convert, conversion_factor, degree; field).
  unfold position, spherical_km, build. cbn. rewrite E, Z, cos_PI2, sin_PI2, cos_0, sin_0.
  split; f_equal; ring.
Qed.
Print Assumptions C41_latitude_90_refuted.

(** ** C42 *)

Theorem C42_cross_is_vector_product : forall old a b, proper a -> proper b ->
  position (cross old a b) = vcross (position a) (position b).
Proof. exact cross_position. Qed.
Print Assumptions C42_cross_is_vector_product.

Theorem C42_cross_laws : forall old old' a b, proper a -> proper b ->
  let c := cross old a b in
  physical (dot c a) = 0 /\ physical (dot c b) = 0 /\
  position (cross old' b a) = vscale (-1) (position c) /\
  physical (dot c c) + physical (dot a b) * physical (dot a b) = physical (dot a a) * physical (dot b b).
Proof.
  intros old old' a b A B c. pose proof (cross_proper old a b A B) as C. unfold c.
  rewrite !dot_physical, !cross_position by assumption.
  destruct (cross_orth (position a) (position b)) as [O1 O2].
  split; [exact O1|]. split; [exact O2|]. split; [apply cross_anti|]. apply lagrange.
Qed.
Print Assumptions C42_cross_laws.

Example C42_case : proper (metres 1 2 3) /\ proper (spherical_km 10 20 3) /\
  vcross (position (metres 1 0 0)) (position (metres 0 1 0)) = V 0 0 1.
Proof.
  split; [repeat split; cbn; lra|]. split; [repeat split; cbn; try exact degree_pos; lra|].
  unfold position, vcross. cbn. f_equal; ring.
Qed.

(** ** C43 *)

Theorem C43_dot_laws : forall old a b c, proper a -> proper b -> proper c ->
  physical (dot a b) = vdot (position a) (position b) /\
  physical (dot a b) = physical (dot b a) /\
  physical (dot (sum old a b) c) = physical (dot a c) + physical (dot b c) /\
  physical (dot c (sum old a b)) = physical (dot c a) + physical (dot c b).
Proof.
  intros old a b c A B C.
  assert (S : proper (sum old a b)).
  { apply (proper_of_type a); [symmetry; apply sum_type | exact A]. }
  rewrite !dot_physical, sum_position by assumption.
  split; [reflexivity|]. split; [apply vdot_comm|]. split; [apply vdot_add|].
  rewrite (vdot_comm (position c)), vdot_add, !(vdot_comm _ (position c)). reflexivity.
Qed.
Print Assumptions C43_dot_laws.

(** Scaling the components scales the product. *)
Theorem C43_dot_scaling : forall k a b, proper a -> proper b ->
  physical (dot (match r_sys a with
                 | Cartesian => set123 a (k * get1 a) (k * get2 a) (k * get3 a)
                 | _ => set3 a (k * get3 a)
                 end) b) = k * physical (dot a b).
Proof.
  intros k a b A B.
  assert (E : position (match r_sys a with
                 | Cartesian => set123 a (k * get1 a) (k * get2 a) (k * get3 a)
                 | _ => set3 a (k * get3 a)
                 end) = vscale k (position a)).
  { destruct a as [s [x y z] u1 u2 u3]. destruct s; unfold position, vscale, get1, get2, get3; cbn; f_equal; ring. }
  rewrite !dot_physical, E; [|exact A|exact B| |exact B].
  - apply vdot_scale.
  - destruct A as (A1 & A2 & A3). destruct (r_sys a); repeat split; assumption.
Qed.
Print Assumptions C43_dot_scaling.

Theorem C43_magnitude_squared : forall a, proper a ->
  physical (magnitude a) * physical (magnitude a) = physical (dot a a).
Proof. exact magnitude_sq. Qed.
Print Assumptions C43_magnitude_squared.

Theorem C43_magnitude_cartesian : forall a, proper a -> r_sys a = Cartesian ->
  physical (magnitude a) = vnorm (position a).
Proof. exact magnitude_cartesian. Qed.
Print Assumptions C43_magnitude_cartesian.

Theorem C43_magnitude_of_cartesian_form : forall a, proper a -> r_sys a <> Cartesian ->
  (physical (magnitude a) = physical (magnitude (make_cartesian a)) <-> 0 <= get3 a).
Proof. exact magnitude_iff. Qed.
Print Assumptions C43_magnitude_of_cartesian_form.

Theorem C43_cauchy : forall a b, proper a -> proper b ->
  Rabs (physical (dot a b)) <= Rabs (physical (magnitude a)) * Rabs (physical (magnitude b)).
Proof. intros a b A B. rewrite dot_physical, !magnitude_abs by assumption. apply cauchy. Qed.
Print Assumptions C43_cauchy.
Example C43_case : proper (metres 3 0 4) /\ proper (spherical_km 10 20 3) /\ physical (dot (metres 3 0 4) (metres 1 2 5)) = 23.
Proof.
  assert (A : proper (metres 3 0 4)) by (repeat split; cbn; lra). assert (B : proper (metres 1 2 5)) by (repeat split; cbn; lra).
  split; [exact A|]. split; [repeat split; cbn; try exact degree_pos; lra|]. rewrite dot_physical by assumption. unfold vdot, position. cbn. lra.
Qed.

Theorem C43_negative_magnitude_refuted : exists a, proper a /\ physical (magnitude a) < 0 /\
  0 < physical (magnitude (make_cartesian a)).
Proof.
  exists (spherical_km 0 0 (-1)).
  assert (P : proper (spherical_km 0 0 (-1))) by (repeat split; cbn; try exact degree_pos; lra).
  split; [exact P|].
  split; [rewrite magnitude_angular by (try exact P; discriminate); cbn; lra|].
  rewrite magnitude_cartesian, make_cartesian_position.
  - rewrite vnorm_angular by (try exact P; discriminate). cbn. unfold Rabs. destruct (Rcase_abs (-1)); lra.
  - apply make_cartesian_proper, P.
  - reflexivity.
Qed.
Print Assumptions C43_negative_magnitude_refuted.

(** ** C44 *)

Theorem C44_unit_vector_cartesian : forall a, proper a -> r_sys a = Cartesian ->
  r_u2 a = r_u1 a -> r_u3 a = r_u1 a -> position a <> vzero ->
  position (unit_vector a) = vscale (r_u1 a / vnorm (position a)) (position a) /\
  magnitude (unit_vector a) = Q 1 (r_u1 a).
Proof. exact unit_cartesian_same_units. Qed.
Print Assumptions C44_unit_vector_cartesian.

Theorem C44_unit_vector_angular : forall a, proper a -> r_sys a <> Cartesian ->
  type_of (unit_vector a) = type_of a /\
  get1 (unit_vector a) = get1 a /\ get2 (unit_vector a) = get2 a /\ get3 (unit_vector a) = 1 /\
  magnitude (unit_vector a) = Q 1 (r_u3 a) /\
  (get3 a <> 0 -> position (unit_vector a) = vscale (1 / get3 a) (position a)).
Proof. exact unit_angular. Qed.
Print Assumptions C44_unit_vector_angular.

(** With components in different units the numbers are the direction cosines ... *)
Theorem C44_numbers_are_direction_cosines : forall a, proper a -> r_sys a = Cartesian ->
  position a <> vzero ->
  get1 (unit_vector a) = c0 (position a) / vnorm (position a) /\
  get2 (unit_vector a) = c1 (position a) / vnorm (position a) /\
  get3 (unit_vector a) = c2 (position a) / vnorm (position a).
Proof. exact unit_cartesian_numbers. Qed.
Print Assumptions C44_numbers_are_direction_cosines.

(** ... so that, read in their units, they do not have the direction of the vector. *)
Theorem C44_mixed_units_refuted : exists a, proper a /\ r_sys a = Cartesian /\ position a <> vzero /\
  forall k, position (unit_vector a) <> vscale k (position a).
Proof.
  set (a := build (RType Cartesian 1 1000 1) 1 1 0).
  assert (P : proper a) by (repeat split; cbn; lra).
  assert (E : position a = V 1 1000 0) by (unfold position; cbn; f_equal; ring).
  assert (N : position a <> vzero) by (rewrite E; unfold vzero; intros H; injection H; lra).
  exists a. split; [exact P|]. split; [reflexivity|]. split; [exact N|].
  intros k H. destruct (unit_cartesian_numbers a P eq_refl N) as (A & B & C).
  pose proof (vnorm_pos _ N) as V0. set (n := vnorm (position a)) in *. clearbody n.
  assert (H0 := f_equal c0 H). assert (H1 := f_equal c1 H).
  assert (X0 : c0 (position (unit_vector a)) = get1 (unit_vector a)) by (unfold position, get1; cbn; ring).
  assert (X1 : c1 (position (unit_vector a)) = 1000 * get2 (unit_vector a)) by (unfold position, get2; cbn; ring).
  rewrite X0, A, E in H0. rewrite X1, B, E in H1. cbn in H0, H1.
  assert (K : k = 1 / n) by lra. subst k.
  assert (Z : 1000 * (1000 / n) - 1 / n * 1000 = 999000 / n) by (field; lra).
  assert (0 < 999000 / n) by (apply Rdiv_lt_0_compat; lra). lra.
Qed.
Print Assumptions C44_mixed_units_refuted.

Example C44_case : position (metres 3 0 4) <> vzero /\ proper (metres 3 0 4).
Proof. split; [unfold position, vzero; cbn; intros H; injection H; lra | repeat split; cbn; lra]. Qed.

(** ** C45 *)

Theorem C45_sum : forall old old' a b c, proper a -> proper b -> proper c ->
  position (sum old a b) = vadd (position a) (position b) /\
  position (sum old a b) = position (sum old' b a) /\
  position (sum old (sum old' a b) c) = position (sum old a (sum old' b c)) /\
  type_of (sum old a b) = type_of a.
Proof.
  intros old old' a b c A B C.
  assert (S : proper (sum old' a b)) by (apply (proper_of_type a); [symmetry; apply sum_type | exact A]).
  assert (S' : proper (sum old' b c)) by (apply (proper_of_type b); [symmetry; apply sum_type | exact B]).
  rewrite !sum_position by assumption. unfold vadd. cbn.
  split; [reflexivity|]. split; [f_equal; ring|]. split; [f_equal; ring|]. apply sum_type.
Qed.
Print Assumptions C45_sum.

Theorem C45_mean : forall old old' a b, proper a -> proper b ->
  vadd (position (mean old a b)) (position (mean old a b)) = vadd (position a) (position b) /\
  position (mean old a b) = position (mean old' b a) /\
  vadd (position (mean old a b)) (vscale (-1) (position a))
    = vadd (position b) (vscale (-1) (position (mean old a b))) /\
  type_of (mean old a b) = type_of a.
Proof.
  intros old old' a b A B. rewrite !mean_position by assumption. unfold vadd, vscale. cbn.
  split; [f_equal; field|]. split; [f_equal; ring|]. split; [f_equal; field|]. apply mean_type.
Qed.
Print Assumptions C45_mean.

Theorem C45_plus_operator : forall old a b, proper a -> proper b ->
  position (plus old a b) = vadd (position a) (position b) /\ type_of (plus old a b) = type_of a.
Proof. intros old a b A B. split; [apply plus_position; assumption | apply plus_type]. Qed.
Print Assumptions C45_plus_operator.

Example C45_case : forall old, position (sum old (metres 1 2 3) (build (RType Cartesian 1000 1000 1000) 1 0 0)) = V 1001 2 3.
Proof.
  intros old. rewrite sum_position by (repeat split; cbn; lra). unfold vadd, position; cbn. f_equal; ring.
Qed.

(** ** C46 *)

Theorem C46_equality_compares_numbers : forall a b, rep_eq a b = true <->
  to_cartesian (r_sys a) (r_pt a) = to_cartesian (r_sys b) (r_pt b).
Proof. exact rep_eq_iff. Qed.
Print Assumptions C46_equality_compares_numbers.

Theorem C46_equivalence : (forall a, rep_eq a a = true) /\
  (forall a b, rep_eq a b = rep_eq b a) /\
  (forall a b c, rep_eq a b = true -> rep_eq b c = true -> rep_eq a c = true).
Proof.
  split; [intros a; apply rep_eq_iff; reflexivity|]. split.
  - intros a b. destruct (rep_eq a b) eqn:E; symmetry.
    + apply rep_eq_iff. symmetry. apply rep_eq_iff. exact E.
    + destruct (rep_eq b a) eqn:F; [|reflexivity].
      assert (rep_eq a b = true) by (apply rep_eq_iff; symmetry; apply rep_eq_iff; exact F). congruence.
  - intros a b c A B. apply rep_eq_iff in A, B. apply rep_eq_iff. congruence.
Qed.
Print Assumptions C46_equivalence.

Theorem C46_same_units : forall a b u, 0 < u -> length_unit a u -> length_unit b u ->
  (rep_eq a b = true <-> position a = position b).
Proof. exact rep_eq_position. Qed.
Print Assumptions C46_same_units.

Theorem C46_units_ignored_refuted :
  let km := build (RType Cartesian 1000 1000 1000) in
  rep_eq (metres 1 0 0) (km 1 0 0) = true /\ position (metres 1 0 0) <> position (km 1 0 0) /\
  rep_eq (metres 1000 0 0) (km 1 0 0) = false /\ position (metres 1000 0 0) = position (km 1 0 0).
Proof.
  intros km. split; [apply rep_eq_iff; reflexivity|].
  split; [unfold km, position; cbn; intros H; injection H; lra|]. split.
  - destruct (rep_eq (metres 1000 0 0) (km 1 0 0)) eqn:E; [|reflexivity].
    apply rep_eq_iff in E. cbn in E. injection E. lra.
  - unfold km, position; cbn. f_equal; ring.
Qed.
Print Assumptions C46_units_ignored_refuted.

Example C46_case : length_unit (metres 1 2 3) 1 /\ length_unit (spherical_km 1 2 3) 1000.
Proof. repeat split. Qed.

(** ** C70 *)

Theorem C70_conversion_keeps_position : forall t old r, proper_type t -> proper r ->
  position (construct t old r) = position r /\ type_of (construct t old r) = t.
Proof. intros t old r T P. split; [apply construct_position; assumption | apply construct_type]. Qed.
Print Assumptions C70_conversion_keeps_position.

Theorem C70_make_keeps_position : forall s old r, s <> Cartesian -> proper r ->
  position (make_cartesian r) = position r /\ position (make_angular s old r) = position r.
Proof. intros s old r H P. split; [apply make_cartesian_position | apply make_angular_position; assumption]. Qed.
Print Assumptions C70_make_keeps_position.

Theorem C70_change_of_units_keeps_position : forall u1 u2 u3 r, 0 < u1 -> 0 < u2 -> 0 < u3 -> proper r ->
  position (change_units u1 u2 u3 r) = position r.
Proof. exact change_units_position. Qed.
Print Assumptions C70_change_of_units_keeps_position.

(** Numbers are only relabelled by to_representation. *)
Theorem C70_to_representation : forall t old r,
  to_cartesian (t_sys t) (r_pt (to_representation t old r)) = to_cartesian (r_sys r) (r_pt r) /\
  rep_eq (to_representation t old r) r = true.
Proof.
  intros t old r.
  assert (E : to_cartesian (t_sys t) (r_pt (to_representation t old r)) = to_cartesian (r_sys r) (r_pt r))
    by (unfold to_representation, from_point, of_type; cbn; apply section_ok).
  split; [exact E|]. apply rep_eq_iff. exact E.
Qed.
Print Assumptions C70_to_representation.

Theorem C70_to_representation_refuted : exists t old r, proper_type t /\ proper r /\
  position (to_representation t old r) <> position r.
Proof.
  exists (RType Cartesian 1000 1000 1000), 0, (metres 1 0 0).
  split; [repeat split; cbn; lra|]. split; [repeat split; cbn; lra|].
  unfold position; cbn. intros H. injection H. lra.
Qed.
Print Assumptions C70_to_representation_refuted.

Example C70_case : forall old, position (construct (RType Cartesian 1 1 1) old (spherical_km 90 90 1)) = V 0 1000 0.
Proof.
  intros old. rewrite (proj1 (C70_conversion_keeps_position (RType Cartesian 1 1 1) old (spherical_km 90 90 1)
    ltac:(repeat split; cbn; lra) ltac:(repeat split; cbn; try exact degree_pos; lra))).
  apply C41_latitude_90_refuted.
Qed.
