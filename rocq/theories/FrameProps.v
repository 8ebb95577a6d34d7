(** * Properties of frames, sky points and two-angle coordinates. *)

From Coq Require Import Reals Lra List.
From Verif Require Import CoordModel CoordSpec CoordProofs CoordArith CoordProps.
From Verif Require Import DiffModel DiffSpec FrameModel FrameSpec FrameProofs.
Import ListNotations.
Local Open Scope R_scope.

(** A frame with angles in degrees, used in the examples. *)
Definition example_frame (a b d : R) : frame :=
  frame6 (RType Spherical degree degree 1000) (DType DCoslat degree degree 1) a b d 1 2 3.

Lemma example_good : forall a b d, good_frame (example_frame a b d).
Proof.
  intros. pose proof degree_pos. split; [reflexivity|]. split; [repeat split; cbn; lra|].
  split; [reflexivity|]. repeat split; cbn; lra.
Qed.

Lemma example_angles : forall a b d,
  first_radians (example_frame a b d) = a * degree /\ second_radians (example_frame a b d) = b * degree.
Proof.
  intros a b d. pose proof degree_pos. unfold first_radians, second_radians, get_first, get_second, get1, get2; cbn.
  unfold convert, conversion_factor. split; field; lra.
Qed.

(** ** C41, for frames *)

Theorem C41_separation_ignores_latitude : forall f g, good_frame f -> good_frame g -> same_type f g ->
  get_distance f <> 0 -> get_distance g <> 0 ->
  get_second f = 0 -> get_second g = 0 -> separation f g = 0.
Proof.
  intros f g F G T X Y A B. apply (separation_zero f g F G T X Y).
  unfold dir, second_radians. rewrite A, B, !Rmult_0_l. unfold direction. rewrite sin_0. f_equal; ring.
Qed.
Print Assumptions C41_separation_ignores_latitude.

Example C41_separation_case : separation (example_frame 0 0 1) (example_frame 90 0 1) = 0.
Proof.
  apply C41_separation_ignores_latitude; try apply example_good; try (split; reflexivity);
    unfold get_distance, get_second, get2, get3; cbn; try lra;
    unfold convert, conversion_factor; field; pose proof degree_pos; lra.
Qed.

(** ** C47 *)

Theorem C47_separation : forall f g, good_frame f -> good_frame g -> same_type f g ->
  get_distance f <> 0 -> get_distance g <> 0 ->
  let n := direction (first_radians f) (second_radians f) in
  let m := direction (first_radians g) (second_radians g) in
  cos (separation f g) = vdot n m /\ 0 <= separation f g <= PI /\
  separation f g = separation g f /\
  (separation f g = 0 <-> n = m) /\
  (separation f g = PI <-> n = vscale (-1) m).
Proof.
  intros f g F G T X Y n m. destruct (cos_separation f g F G T X Y) as [A B].
  split; [exact A|]. split; [exact B|]. split; [apply separation_sym; assumption|].
  split; [apply separation_zero; assumption | apply separation_pi; assumption].
Qed.
Print Assumptions C47_separation.

Theorem C47_distances_do_not_matter : forall f g d e, good_frame f -> good_frame g -> same_type f g ->
  get_distance f <> 0 -> get_distance g <> 0 -> d <> 0 -> e <> 0 ->
  separation (set_distance f d) (set_distance g e) = separation f g.
Proof. exact separation_distance. Qed.
Print Assumptions C47_distances_do_not_matter.

Theorem C47_triangle : forall f g h, good_frame f -> good_frame g -> good_frame h ->
  same_type f g -> same_type g h ->
  get_distance f <> 0 -> get_distance g <> 0 -> get_distance h <> 0 ->
  separation f h <= separation f g + separation g h.
Proof. exact separation_triangle. Qed.
Print Assumptions C47_triangle.

(** With a negative distance the separation is not the angle between the positions. *)
Theorem C47_negative_distance_refuted : exists f g, good_frame f /\ good_frame g /\ same_type f g /\
  get_distance f <> 0 /\ get_distance g <> 0 /\ separation f g = 0 /\
  position (f_data f) = vscale (-1) (position (f_data g)).
Proof.
  exists (example_frame 0 0 1), (example_frame 0 0 (-1)).
  split; [apply example_good|]. split; [apply example_good|]. split; [split; reflexivity|].
  split; [unfold get_distance, get3; cbn; lra|]. split; [unfold get_distance, get3; cbn; lra|].
  split; [apply C41_separation_ignores_latitude; try apply example_good; try (split; reflexivity);
    unfold get_distance, get_second, get2, get3; cbn; try lra;
    unfold convert, conversion_factor; field; pose proof degree_pos; lra|].
  unfold position, vscale; cbn. f_equal; ring.
Qed.
Print Assumptions C47_negative_distance_refuted.

Example C47_case : separation (example_frame 0 90 5) (example_frame 90 90 7) = PI / 2.
Proof.
  assert (N : forall a d, d <> 0 -> get_distance (example_frame a 90 d) <> 0) by (intros; exact H).
  destruct (C47_separation (example_frame 0 90 5) (example_frame 90 90 7)) as (A & B & _);
    try apply example_good; [split; reflexivity | apply N; lra | apply N; lra |].
  destruct (example_angles 0 90 5) as [A1 A2]. destruct (example_angles 90 90 7) as [B1 B2].
  rewrite A1, A2, B1, B2 in A.
  replace (90 * degree) with (PI / 2) in A by (unfold degree; field). rewrite Rmult_0_l in A.
  unfold direction, vdot in A. cbn in A. rewrite cos_0, sin_0, cos_PI2, sin_PI2 in A.
  assert (Z : cos (separation (example_frame 0 90 5) (example_frame 90 90 7)) = cos (PI / 2))
    by (rewrite A, cos_PI2; ring).
  apply cos_inj in Z; [exact Z | exact B | pose proof PI_RGT_0; lra].
Qed.

(** ** C54 *)

Theorem C54_proper_motion : forall f, good_frame f ->
  fst (get_proper_motion f) = d_u1 (f_motion f) * get_pm_first f /\
  snd (get_proper_motion f) = d_u2 (f_motion f) * get_pm_second f /\
  base_radial_velocity f = get_radial f.
Proof. exact proper_motion_scaled. Qed.
Print Assumptions C54_proper_motion.

Theorem C54_proper_motion_right_iff_radians : forall f, good_frame f ->
  (get_proper_motion f = (get_pm_first f, get_pm_second f) <->
   (d_u1 (f_motion f) = 1 \/ get_pm_first f = 0) /\ (d_u2 (f_motion f) = 1 \/ get_pm_second f = 0)).
Proof. exact proper_motion_iff. Qed.
Print Assumptions C54_proper_motion_right_iff_radians.
Example C54_case : good_frame (example_frame 10 20 3). Proof. apply example_good. Qed.

Theorem C54_proper_motion_refuted : exists f, good_frame f /\
  get_pm_first f = 1 /\ fst (get_proper_motion f) = PI / 180.
Proof.
  exists (example_frame 0 0 1). split; [apply example_good|].
  assert (E : get_pm_first (example_frame 0 0 1) = 1).
  { unfold get_pm_first, dget1; cbn. unfold convert, conversion_factor. field. pose proof degree_pos; lra. }
  split; [exact E|]. rewrite (proj1 (C54_proper_motion _ (example_good 0 0 1))), E. cbn. unfold degree. field.
Qed.
Print Assumptions C54_proper_motion_refuted.

(** ** C55 *)

(** After any sequence of setter calls every getter returns what was last written to its component. *)
Theorem C55_frame_history : forall h f k, good_frame f ->
  read k (fold_left perform h f) = last_written k (read k f) h.
Proof. exact history_reads. Qed.
Print Assumptions C55_frame_history.

Theorem C55_frame_constructor : forall t k a b c x y z, t_sys t = Spherical -> proper_type t ->
  dt_kind k = DCoslat -> dproper_type k ->
  let f := frame6 t k a b c x y z in
  good_frame f /\
  get_first f = a /\ get_second f = b /\ get_distance f = c /\
  get_pm_first f = x /\ get_pm_second f = y /\ get_radial f = z.
Proof. exact frame6_reads. Qed.
Print Assumptions C55_frame_constructor.

Theorem C55_coordinate_history : forall h k, 0 < k_u1 k -> 0 < k_u2 k ->
  kget1 (fold_left kperform h k) = klast false (kget1 k) h /\
  kget2 (fold_left kperform h k) = klast true (kget2 k) h.
Proof. exact khistory. Qed.
Print Assumptions C55_coordinate_history.

Theorem C55_coordinate_constructor : forall u1 u2 x y, 0 < u1 -> 0 < u2 ->
  kget1 (kbuild u1 u2 x y) = x /\ kget2 (kbuild u1 u2 x y) = y.
Proof. intros u1 u2 x y U W. apply (kperform_reads (Coord 0 0 u1 u2) (KBoth x y) U W). Qed.
Print Assumptions C55_coordinate_constructor.

(** The stored angles are in radians whatever the units. *)
Theorem C55_coordinate_radians : forall u1 u2 x y, 0 < u1 -> 0 < u2 ->
  k_0 (kbuild u1 u2 x y) = x * u1 /\ k_1 (kbuild u1 u2 x y) = y * u2.
Proof. intros u1 u2 x y U W. cbn. unfold convert, conversion_factor. split; field. Qed.
Print Assumptions C55_coordinate_radians.

(** Frame parameters: each setter changes its own parameter only, and never the coordinates. *)
Theorem C55_frame_parameters : forall (T : Type) (a : alt_az T) l p t o h,
  get_frame_parameters (set_frame_parameters a l p t o h) = (l, p, t, o, h) /\
  get_frame_parameters (set_location a l)
    = (l, a_pressure a, a_temperature a, a_obs_time a, a_humidity a) /\
  get_frame_parameters (set_pressure a p)
    = (a_location a, p, a_temperature a, a_obs_time a, a_humidity a) /\
  get_frame_parameters (set_temperature a t)
    = (a_location a, a_pressure a, t, a_obs_time a, a_humidity a) /\
  get_frame_parameters (set_obs_time a o)
    = (a_location a, a_pressure a, a_temperature a, o, a_humidity a) /\
  get_frame_parameters (set_humidity a h)
    = (a_location a, a_pressure a, a_temperature a, a_obs_time a, h) /\
  (forall b, In b [set_frame_parameters a l p t o h; set_location a l; set_pressure a p;
                   set_temperature a t; set_obs_time a o; set_humidity a h] -> a_frame b = a_frame a) /\
  (forall k, get_frame_parameters (on_alt_az k a) = get_frame_parameters a) /\
  copy_alt_az a = a.
Proof.
  intros T [[r d] l0 p0 t0 o0 h0] l p t o h.
  repeat (split; [reflexivity|]). split; [|split; reflexivity].
  cbn. intros b [<-|[<-|[<-|[<-|[<-|[<-|[]]]]]]]; reflexivity.
Qed.
Print Assumptions C55_frame_parameters.

Theorem C55_equinox : forall (T : Type) (e : ecliptic T) t,
  get_equinox (set_equinox e t) = t /\ e_frame (set_equinox e t) = e_frame e /\
  forall k, get_equinox (on_ecliptic k e) = get_equinox e.
Proof. intros. repeat split. Qed.
Print Assumptions C55_equinox.

Example C55_case :
  read Second (fold_left perform [CallSecond 5; CallAll 1 2 3; CallPmSecond 7; CallFirst 9]
                 (example_frame 0 0 1)) = 2 /\
  read PmSecond (fold_left perform [CallSecond 5; CallAll 1 2 3; CallPmSecond 7; CallFirst 9]
                 (example_frame 0 0 1)) = 7.
Proof. rewrite !C55_frame_history by apply example_good. split; reflexivity. Qed.

(** ** C74 *)

Theorem C74_positional_angle : forall f g, good_frame f -> good_frame g -> same_type f g ->
  let p := sky_direction (second_radians f) (first_radians f) in
  let q := sky_direction (second_radians g) (first_radians g) in
  q <> p -> q <> vscale (-1) p ->
  let rho := sqrt (1 - vdot p q * vdot p q) in
  0 < rho /\
  vdot q (north (second_radians f) (first_radians f)) = rho * cos (positional_angle f g) /\
  vdot q (east (second_radians f)) = rho * sin (positional_angle f g) /\
  - PI < positional_angle f g <= PI.
Proof. exact positional_ok. Qed.
Print Assumptions C74_positional_angle.

Theorem C74_same_meridian : forall f g, good_frame f -> good_frame g -> same_type f g ->
  second_radians f = second_radians g ->
  - (PI / 2) <= first_radians f <= PI / 2 -> - (PI / 2) <= first_radians g <= PI / 2 ->
  (first_radians f < first_radians g -> first_radians g - first_radians f < PI -> positional_angle f g = 0) /\
  (first_radians g < first_radians f -> first_radians f - first_radians g < PI -> positional_angle f g = PI).
Proof. exact positional_meridian. Qed.
Print Assumptions C74_same_meridian.
Example C74_case : let f := example_frame 0 0 1 in let g := example_frame 45 0 1 in
  good_frame f /\ good_frame g /\ same_type f g /\ second_radians f = second_radians g /\ first_radians f = 0 /\ first_radians g = PI / 4 /\
  sky_direction (second_radians g) (first_radians g) <> sky_direction (second_radians f) (first_radians f).
Proof.
  intros f g. destruct (example_angles 0 0 1) as [A1 A2]. destruct (example_angles 45 0 1) as [B1 B2].
  fold f in A1, A2. fold g in B1, B2. rewrite A1, A2, B1, B2. unfold degree.
  replace (45 * (PI / 180)) with (PI / 4) by field. rewrite !Rmult_0_l.
  split; [apply example_good|]. split; [apply example_good|]. split; [split; reflexivity|]. repeat (split; [reflexivity|]).
  unfold sky_direction. intros E. injection E as E1 E2. pose proof PI_RGT_0. assert (0 < sin (PI / 4)) by (apply sin_gt_0; lra). rewrite sin_0 in *. lra.
Qed.

(** The first angle is an elevation here, while the separation takes it for an azimuth: there are points that the
    positional angle holds for distinct (one is due north of the other) and the separation for the same. *)
Theorem C74_conventions_differ_refuted : exists f g, good_frame f /\ good_frame g /\ same_type f g /\
  positional_angle f g = 0 /\ positional_angle g f = PI /\ separation f g = 0.
Proof.
  exists (example_frame 0 0 1), (example_frame 45 0 1).
  assert (F := example_good 0 0 1). assert (G := example_good 45 0 1).
  assert (T : same_type (example_frame 0 0 1) (example_frame 45 0 1)) by (split; reflexivity).
  assert (T' : same_type (example_frame 45 0 1) (example_frame 0 0 1)) by (split; reflexivity).
  destruct (example_angles 0 0 1) as [A1 A2]. destruct (example_angles 45 0 1) as [B1 B2].
  replace (45 * degree) with (PI / 4) in B1 by (unfold degree; field). rewrite Rmult_0_l in A1, A2, B2.
  pose proof PI_RGT_0.
  split; [exact F|]. split; [exact G|]. split; [exact T|].
  split; [apply (C74_same_meridian _ _ F G T); rewrite ?A1, ?A2, ?B1, ?B2; lra|].
  split; [apply (C74_same_meridian _ _ G F T'); rewrite ?A1, ?A2, ?B1, ?B2; lra|].
  apply C41_separation_ignores_latitude; try assumption;
    unfold get_distance, get_second, get2, get3; cbn; try lra;
    unfold convert, conversion_factor; field; pose proof degree_pos; lra.
Qed.
Print Assumptions C74_conventions_differ_refuted.

(** ** C75 *)

Theorem C75_frame_from_parts : forall t k r d, t_sys t = Spherical -> proper_type t ->
  dt_kind k = DCoslat -> dproper_type k ->
  r_sys r = Spherical -> proper r -> d_kind d = DCoslat -> dproper d ->
  let f := frame_of t k r d in
  good_frame f /\ position (f_data f) = position r /\ velocity (f_motion f) = velocity d /\
  type_of (f_data f) = t /\ dtype_of (f_motion f) = k.
Proof. exact frame_of_ok. Qed.
Print Assumptions C75_frame_from_parts.

Example C75_case : let f := frame_of (RType Spherical 1 1 1) (DType DCoslat 1 1 1)
    (spherical_km 180 90 2) (Diff DCoslat (V 1 2 3) degree degree 1000) in
  get_first f = PI /\ get_distance f = 2000 /\ get_radial f = 3000.
Proof.
  cbn. unfold get_first, get_distance, get_radial, get1, get3, dget3; cbn.
  unfold convert, conversion_factor, degree. repeat split; field; pose proof PI_RGT_0; lra.
Qed.
