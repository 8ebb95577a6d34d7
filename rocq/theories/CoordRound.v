(** Angular representation to cartesian and back. *)

From Coq Require Import Reals Lra.
From Verif Require Import CoordModel CoordSpec CoordProofs CoordArith.
Local Open Scope R_scope.

Lemma to_cartesian_scale : forall s k p, s <> Cartesian ->
  to_cartesian s (V (c0 p) (c1 p) (k * c2 p)) = vscale k (to_cartesian s p).
Proof.
  intros s k p Hs. destruct s; [now destruct Hs| |]; unfold vscale; cbn; f_equal; ring.
Qed.

(** The numbers obtained: those of the point normalised. *)
Lemma angular_back : forall t old old' r,
  t_sys t = Cartesian -> proper_type t -> r_sys r <> Cartesian -> proper r ->
  exists k, 0 < k /\
  let p := V (c0 (r_pt r)) (c1 (r_pt r)) (k * c2 (r_pt r)) in
  let q := from_cartesian (r_sys r) old' (to_cartesian (r_sys r) p) in
  construct (type_of r) old' (construct t old r) =
  of_type (type_of r) (V (c0 q) (c1 q) (c2 q / k)).
Proof.
  intros [ts t1 t2 t3] old old' [s [a b d] u1 u2 u3] Ht (T1 & T2 & T3) Hs (U1 & U2 & U3).
  cbn in Ht, T1, T2, T3, Hs, U1, U2, U3. subst ts.
  exists (u3 / t1). split; [apply Rdiv_lt_0_compat; lra|].
  cbn [r_sys r_pt c0 c1 c2 type_of].
  pose proof (to_cartesian_scale s (u3 / t1) (V a b d) Hs) as E. cbn [c0 c1 c2] in E.
  assert (C : construct (RType Cartesian t1 t2 t3) old (Rep s (V a b d) u1 u2 u3)
              = Rep Cartesian (V (convert u3 t1 (c0 (to_cartesian s (V a b d))))
                                 (convert u3 t2 (c1 (to_cartesian s (V a b d))))
                                 (convert u3 t3 (c2 (to_cartesian s (V a b d))))) t1 t2 t3).
  { destruct s; [now destruct Hs| |]; reflexivity. }
  rewrite C. set (w := to_cartesian s (V a b d)) in *.
  assert (F : forall o, make_angular s o (Rep Cartesian (V (convert u3 t1 (c0 w))
                (convert u3 t2 (c1 w)) (convert u3 t3 (c2 w))) t1 t2 t3)
              = Rep s (from_cartesian s o (vscale (u3 / t1) w)) 1 1 t1).
  { intros o. assert (P : V (convert u3 t1 (c0 w)) (convert t2 t1 (convert u3 t2 (c1 w)))
                      (convert t3 t1 (convert u3 t3 (c2 w))) = vscale (u3 / t1) w).
    { unfold vscale, convert, conversion_factor. f_equal; field; lra. }
    rewrite <- P. destruct s; [now destruct Hs| |];
      unfold make_angular; cbn [r_sys make_cartesian]; unfold get1, get2, get3; cbn [r_sys r_pt c0 c1 c2 r_u1 r_u2 r_u3];
      unfold from_point, of_type; cbn [t_sys t_u1 t_u2 t_u3]; rewrite section_ok; reflexivity. }
  rewrite E. unfold construct. cbn [t_sys type_of r_sys r_u1 r_u2 r_u3].
  destruct s; [now destruct Hs| |]; rewrite F; unfold get1, get2, get3;
    cbn [r_sys r_pt r_u1 r_u2 r_u3 t_u3];
    unfold of_type; cbn [t_sys t_u1 t_u2 t_u3];
    match goal with |- context [from_cartesian ?s ?o ?v] => set (q := from_cartesian s o v); clearbody q end;
    apply (f_equal (fun v => Rep _ v u1 u2 u3)); apply vec_ext; cbn [c0 c1 c2 type_of t_u3 r_u3];
    unfold convert, conversion_factor; field; lra.
Qed.

Lemma angular_convert_back : forall t old old' r,
  t_sys t = Cartesian -> proper_type t -> r_sys r <> Cartesian -> proper r ->
  regular (r_sys r) (r_pt r) ->
  construct (type_of r) old' (construct t old r) = r.
Proof.
  intros t old old' r Ht T Hs P G.
  destruct (angular_back t old old' r Ht T Hs P) as (k & K & E). cbn zeta in E. rewrite E.
  rewrite retraction_ok.
  - cbn [c0 c1 c2]. destruct r as [s [a b d] u1 u2 u3]. unfold of_type, type_of; cbn. f_equal.
    f_equal. field. lra.
  - destruct (r_sys r); cbn in G |- *; [exact I| |]; destruct G as (G1 & G2 & G3);
      (split; [apply Rmult_lt_0_compat; lra|]; split; assumption).
Qed.

(** In all cases the result is in the principal ranges (the angle left
    indeterminate for the null vector excepted) and is the same point. *)
Lemma angular_back_principal : forall t old old' r,
  t_sys t = Cartesian -> proper_type t -> r_sys r <> Cartesian -> proper r -> get3 r <> 0 ->
  let r' := construct (type_of r) old' (construct t old r) in
  type_of r' = type_of r /\ position r' = position r /\
  principal (r_sys r) (r_pt r') /\ get3 r' = Rabs (get3 r).
Proof.
  intros t old old' r Ht T Hs P N r'.
  split; [apply construct_type|]. split.
  { unfold r'. rewrite construct_position, construct_position by
      (try exact P; try exact T; unfold proper; pose proof (construct_type t old r) as K;
       destruct (construct t old r); unfold type_of in K; cbn in *; subst t; exact T). reflexivity. }
  destruct (angular_back t old old' r Ht T Hs P) as (k & K & E). cbn zeta in E. unfold r'. rewrite E.
  set (p := V (c0 (r_pt r)) (c1 (r_pt r)) (k * c2 (r_pt r))).
  pose proof (length_to_cartesian (r_sys r) p Hs) as L. cbn [p c2] in L.
  rewrite Rabs_mult, (Rabs_pos_eq k) in L by lra.
  assert (N' : 0 < Rabs (c2 (r_pt r))) by (apply Rabs_pos_lt; exact N).
  pose proof (from_principal (r_sys r) old' (to_cartesian (r_sys r) p)) as F.
  assert (Q : principal (r_sys r) (from_cartesian (r_sys r) old' (to_cartesian (r_sys r) p))).
  { apply F. intros Z. exfalso. rewrite Z in L. assert (0 < k * Rabs (c2 (r_pt r))) by (apply Rmult_lt_0_compat; lra). lra. }
  assert (C : c2 (from_cartesian (r_sys r) old' (to_cartesian (r_sys r) p)) = k * Rabs (c2 (r_pt r))).
  { rewrite <- L. destruct (r_sys r); [now destruct Hs| reflexivity | reflexivity]. }
  set (q := from_cartesian (r_sys r) old' (to_cartesian (r_sys r) p)) in *. clearbody q.
  assert (D : c2 q / k = Rabs (c2 (r_pt r))) by (rewrite C; field; lra).
  unfold get3; cbn. split; [|exact D].
  destruct (r_sys r); cbn in Q |- *; [exact I| |]; rewrite D; destruct Q as (_ & Q2 & Q3);
    (split; [lra|]; split; assumption).
Qed.

(** At the poles the distance and the second angle still come back. *)
Lemma angular_back_poles : forall t old old' r,
  t_sys t = Cartesian -> proper_type t -> r_sys r <> Cartesian -> proper r ->
  principal (r_sys r) (r_pt r) -> 0 < get3 r ->
  let r' := construct (type_of r) old' (construct t old r) in
  get2 r' = get2 r /\ get3 r' = get3 r.
Proof.
  intros t old old' r Ht T Hs P G N r'.
  destruct (angular_back t old old' r Ht T Hs P) as (k & K & E). cbn zeta in E.
  unfold r'. rewrite E.
  set (p := V (c0 (r_pt r)) (c1 (r_pt r)) (k * c2 (r_pt r))).
  assert (G' : principal (r_sys r) p).
  { destruct (r_sys r); cbn in G |- *; [exact I| |]; destruct G as (G1 & G2 & G3);
      (split; [apply Rmult_le_pos; lra|]; split; assumption). }
  assert (N' : 0 < c2 p) by (cbn; apply Rmult_lt_0_compat; [lra | exact N]).
  destruct (retraction_radial (r_sys r) old' p G' N' Hs) as [A B].
  unfold get2, get3. cbn [of_type r_sys r_pt r_u2 type_of t_sys t_u2 c1 c2].
  destruct r as [s [a b d] u1 u2 u3]. cbn [r_sys r_pt c0 c1 c2 r_u2] in *.
  rewrite A, B. cbn [p c1 c2]. split; [destruct s; reflexivity | field; lra].
Qed.
