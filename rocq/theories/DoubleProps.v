(** * Properties of decimal hours, unit conversions and printed coordinates in double arithmetic. *)
From Coq Require Import ZArith Reals Lia Lra.
From Flocq Require Import Core IEEE754.Binary.
From Flocq Require IEEE754.Bits.
From Verif Require Import CppProofs TextModel TextSpec TextProofs TextLaws TextRead TextCard DoubleModel DoubleSpec DoubleProofs DoubleText DoubleUnits DoublePrint.
Local Open Scope R_scope.

(** 1.0, 0.99999999999, and the degree of Boost.Units (6.28318530718/360. radian). *)
Definition one : double := d_of_Z 1.
Definition nearly_one : double := Bits.b64_of_bits 4607182418799927336.
Definition degree : unit_d := mk_unit (lit "deg") (Some (d_div (Bits.b64_of_bits 4618760256179416810) (d_of_Z 360))).
Definition metre : unit_d := mk_unit (lit "m") None.

(** ** C93: the fields of decimal_hour *)

(** Constructing one from a double has a meaning exactly when the whole part fits a long int. *)
Theorem C93_defined : forall d,
  (fits_long d -> exists t, hms_of_double d = Ret t) /\ (~ fits_long d -> hms_of_double d = Undef).
Proof. intros d. split; [intros H; destruct (hms_ok d H) as (t & T & _); exists t; exact T|apply hms_undefined]. Qed.
Print Assumptions C93_defined.

(** The fields: the hours are the whole part, minutes and seconds are below 60 and never of the opposite sign,
    and together they are the number given to within 2^-53 of an hour. *)
Theorem C93_fields : forall d t, hms_of_double d = Ret t ->
  hms_dh t = d /\ hms_hours t = Ztrunc (dval d) /\ dfinite (hms_seconds t) /\
  (0 <= dval d -> (0 <= hms_hours t)%Z /\ (0 <= hms_minutes t < 60)%Z /\ 0 <= dval (hms_seconds t) < 60) /\
  (dval d <= 0 -> (hms_hours t <= 0)%Z /\ (-60 < hms_minutes t <= 0)%Z /\ -60 < dval (hms_seconds t) <= 0) /\
  Rabs (hours_of (hms_hours t) (hms_minutes t) (dval (hms_seconds t)) - dval d) <= bpow radix2 (-53).
Proof.
  intros d t T. destruct (in_long_dec d) as [I|I]; [|rewrite hms_undefined in T by exact I; discriminate].
  destruct (hms_ok d I) as (t' & T' & H). rewrite T in T'. injection T' as <-. exact H.
Qed.
Print Assumptions C93_fields.

(** From hours, minutes and seconds: the decimal hours are right to a few units in the last place of the largest term. *)
Theorem C93_from_fields : forall h m s, dfinite h -> dfinite m -> dfinite s ->
  Rabs (dval h) <= bpow radix2 1000 -> Rabs (dval m) <= bpow radix2 1000 -> Rabs (dval s) <= bpow radix2 1000 ->
  dfinite (hms_dh (hms_of_three h m s)) /\
  Rabs (dval (hms_dh (hms_of_three h m s)) - (dval h + dval m / 60 + dval s / 3600)) <=
    bpow radix2 (-51) * (Rabs (dval h) + Rabs (dval m) / 60 + Rabs (dval s) / 3600) + bpow radix2 (-1072).
Proof. exact three_ok. Qed.
Print Assumptions C93_from_fields.

(** But the fields do not come back: 1h 1m 0s becomes 1h 0m 59.99..s. *)
Theorem C93_fields_return_refuted : exists t, hms_of_double (hms_dh (hms_of_three (d_of_Z 1) (d_of_Z 1) (d_of_Z 0))) = Ret t /\
  hms_hours t = 1%Z /\ hms_minutes t = 0%Z.
Proof.
  assert (H : match hms_of_double (hms_dh (hms_of_three (d_of_Z 1) (d_of_Z 1) (d_of_Z 0))) with
    Ret t => hms_hours t = 1%Z /\ hms_minutes t = 0%Z | _ => False end) by (vm_compute; auto).
  destruct (hms_of_double _) as [t| | |]; try contradiction. exists t. auto.
Qed.
Print Assumptions C93_fields_return_refuted.

Lemma fits_small z : (Z.abs z < 2 ^ 53)%Z -> fits_long (d_of_Z z).
Proof.
  intros H. destruct (small_int_ok z H) as [F V]. split; [exact F|]. unfold dval. rewrite V, <- pow63.
  assert (A : (- 2 ^ 53 < z < 2 ^ 53)%Z) by lia. destruct A as [A B]. apply IZR_lt in A, B.
  assert (IZR (2 ^ 53) <= IZR (2 ^ 63)) by (apply IZR_le; vm_compute; discriminate). change (- 2 ^ 53)%Z with (- (2 ^ 53))%Z in A. rewrite opp_IZR in A. lra.
Qed.

Example C93_case : fits_long (d_of_Z (-17)) /\ ~ fits_long (Bits.b64_of_bits 9218868437227405312) /\
  match hms_of_double (d_div (d_of_Z (-5)) (d_of_Z 4)) with Ret t => hms_hours t = (-1)%Z /\ hms_minutes t = (-15)%Z | _ => False end /\
  dfinite (d_of_Z 12) /\ Rabs (dval (d_of_Z 12)) <= bpow radix2 1000.
Proof.
  split; [apply fits_small; lia|]. split; [intros [F _]; discriminate F|]. split; [vm_compute; auto|].
  destruct (small_int_ok 12 ltac:(lia)) as [F V]. split; [exact F|]. unfold dval. rewrite V. rewrite Rabs_pos_eq by lra.
  apply Rle_trans with (bpow radix2 4); [cbn; lra|apply bpow_le; lia].
Qed.

(** ** C94: the text of decimal_hour *)

(** The text gives the hours, the minutes and the seconds to six decimal places. *)
Theorem C94_text : forall d t, hms_of_double d = Ret t -> exists s neg m,
  print_hms t = lit "Hours: " ++ show_Z (hms_hours t) ++ lit "h " ++ show_Z (hms_minutes t) ++ lit "m " ++ s ++ lit "s " /\
  numeral s neg m (-6) /\ signed neg (IZR (Z.of_N m) / 1000000) = places6 (dval (hms_seconds t)).
Proof. intros d t T. apply print_hms_reads. apply (C93_fields d t T). Qed.
Print Assumptions C94_text.

(** Two times with the same text are within a 3.6 milliardth of an hour (a microsecond). *)
Theorem C94_same_text_close : forall d d' t t', hms_of_double d = Ret t -> hms_of_double d' = Ret t' -> print_hms t = print_hms t' ->
  Rabs (dval d - dval d') <= / 3600000000 + bpow radix2 (-52).
Proof. exact print_hms_close. Qed.
Print Assumptions C94_same_text_close.

(** The seconds of a non-negative time are printed as a number from 0 to 60; they are printed as 60 exactly if they are
    within half a millionth of it. *)
Theorem C94_sixty_seconds : forall d t, hms_of_double d = Ret t -> 0 <= dval d ->
  0 <= places6 (dval (hms_seconds t)) <= 60 /\ (places6 (dval (hms_seconds t)) = 60 <-> 60 - / 2000000 <= dval (hms_seconds t)).
Proof.
  intros d t T P. destruct (C93_fields d t T) as (_ & _ & _ & H & _). destruct (H P) as (_ & _ & S).
  destruct (places6_sixty _ S) as [A B]. split; [exact B|exact A].
Qed.
Print Assumptions C94_sixty_seconds.

(** So sixty seconds do get printed. *)
Theorem C94_below_sixty_refuted : exists d t, hms_of_double d = Ret t /\ 0 <= dval d < 1 /\ print_hms t = lit "Hours: 0h 59m 60.000000s ".
Proof.
  assert (H : match hms_of_double nearly_one with Ret t => print_hms t = lit "Hours: 0h 59m 60.000000s " | _ => False end) by (vm_compute; reflexivity).
  destruct (hms_of_double nearly_one) as [t| | |] eqn:T; try contradiction. exists nearly_one, t. split; [exact T|]. split; [|exact H].
  unfold dval. rewrite <- d_bits_val. unfold fval.
  replace (float_of binary64 (d_bits nearly_one)) with (F754_finite false 9007199254650920 (-53)) by (vm_compute; reflexivity).
  unfold FF2R, F2R. cbn [Fnum Fexp cond_Zopp]. change (bpow radix2 (-53)) with (/ 9007199254740992). lra.
Qed.
Print Assumptions C94_below_sixty_refuted.

(** A time made from hours, minutes and seconds prints as zero, whatever they are. *)
Theorem C94_from_fields_prints_zero : forall h m s, print_hms (hms_of_three h m s) = lit "Hours: 0h 0m 0.000000s ".
Proof. intros h m s. apply three_fields. Qed.
Print Assumptions C94_from_fields_prints_zero.

Example C94_case : match hms_of_double (d_div (d_of_Z (-5)) (d_of_Z 4)) with
  Ret t => print_hms t = lit "Hours: -1h -15m 0.000000s " | _ => False end.
Proof. vm_compute. reflexivity. Qed.

(** ** C95: a quantity set in one unit and read back in it *)

Theorem C95_close : forall u x, usable u -> moderate x ->
  dfinite (from_stored u (to_stored u x)) /\ Rabs (dval (from_stored u (to_stored u x)) - dval x) <= bpow radix2 (-51) * Rabs (dval x).
Proof. exact back_ok. Qed.
Print Assumptions C95_close.

(** In the unit that is stored every double comes back, NaN and infinities included. *)
Theorem C95_stored_unit : forall u x, u_factor u = None -> from_stored u (to_stored u x) = x.
Proof. exact back_same. Qed.
Print Assumptions C95_stored_unit.

(** In another unit not: 9 degrees. *)
Theorem C95_identity_refuted : usable degree /\ moderate (d_of_Z 9) /\ from_stored degree (to_stored degree (d_of_Z 9)) <> d_of_Z 9.
Proof.
  split; [|split].
  - assert (V : dval (d_div (Bits.b64_of_bits 4618760256179416810) (d_of_Z 360)) = 5030569068109444 * bpow radix2 (-58)).
    { unfold dval. rewrite <- d_bits_val. unfold fval.
      replace (float_of binary64 (d_bits (d_div (Bits.b64_of_bits 4618760256179416810) (d_of_Z 360)))) with (F754_finite false 5030569068109444 (-58)) by (vm_compute; reflexivity).
      reflexivity. }
    unfold usable, degree. cbn [u_factor]. split; [vm_compute; reflexivity|]. rewrite V, Rabs_pos_eq by (pose proof (bpow_gt_0 radix2 (-58)); lra).
    split.
    + apply Rle_trans with (1 * bpow radix2 (-58)); [rewrite Rmult_1_l; apply bpow_le; lia|]. apply Rmult_le_compat_r; [apply bpow_ge_0|lra].
    + apply Rle_trans with (bpow radix2 53 * bpow radix2 (-58)); [apply Rmult_le_compat_r; [apply bpow_ge_0|cbn; lra]|].
      rewrite <- bpow_plus. apply bpow_le. lia.
  - destruct (small_int_ok 9 ltac:(lia)) as [F V]. split; [exact F|]. unfold dval. rewrite V, Rabs_pos_eq by lra. split.
    + apply Rle_trans with (bpow radix2 0); [apply bpow_le; lia|cbn; lra].
    + apply Rle_trans with (bpow radix2 4); [cbn; lra|apply bpow_le; lia].
  - intros E. apply (f_equal d_bits) in E. vm_compute in E. discriminate E.
Qed.
Print Assumptions C95_identity_refuted.

(** What is shown does not change, if at most six significant digits were given: and the double that was given can be read
    from it. *)
Theorem C95_text_kept : forall u x, usable u -> givable x -> six_digit x ->
  show_double (from_stored u (to_stored u x)) = show_double x /\
  read_float binary64 (show_double (from_stored u (to_stored u x))) = Some (d_bits x).
Proof. intros u x U G S. rewrite given_back by assumption. split; [reflexivity|apply given_read; assumption]. Qed.
Print Assumptions C95_text_kept.

Lemma small_int_given z : (Z.abs z < 10 ^ 6)%Z -> givable (d_of_Z z) /\ six_digit (d_of_Z z).
Proof.
  intros H. assert (H2 : (Z.abs z < 2 ^ 53)%Z) by lia. destruct (small_int_ok z H2) as [F V].
  assert (N : nearest binary64 (IZR z) = IZR z) by (rewrite <- V; apply rnd_id, val_fmt).
  split.
  - destruct (Z.eq_dec z 0) as [->|Z0]; [left; split; [exact F|exact V]|right]. split; [exact F|]. unfold dval. rewrite V, <- abs_IZR. split.
    + apply Rle_trans with (bpow radix2 0); [apply bpow_le; lia|]. apply (IZR_le 1). lia.
    + apply Rle_trans with (bpow radix2 20); [apply (IZR_le _ 1048576); lia|apply bpow_le; lia].
  - exists z, 0%Z. split; [exact H|]. unfold dval. rewrite V. cbn [bpow]. rewrite Rmult_1_r. symmetry. exact N.
Qed.

Example C95_case : usable degree /\ givable (d_of_Z 9) /\ six_digit (d_of_Z 9) /\
  show_double (from_stored degree (to_stored degree (d_of_Z 9))) = lit "9" /\
  show_double (from_stored degree (to_stored degree (Bits.b64_of_bits 4631600373029666816))) = lit "45.5".
Proof.
  split; [apply C95_identity_refuted|]. destruct (small_int_given 9 ltac:(lia)) as [A B]. split; [exact A|]. split; [exact B|].
  split; vm_compute; reflexivity.
Qed.

(** ** C96: the text of coordinates *)

(** An object made from quantities of at most six significant digits prints those digits and those units. *)
Theorem C96_prints_what_was_given : forall k l, Forall (fun q => usable (fst q) /\ givable (snd q) /\ six_digit (snd q)) l ->
  print_object (make_printable k l) =
    label k ++ join (separator k) (map (fun q => show_double (snd q) ++ lit " " ++ u_symbol (fst q)) l) ++ closing k.
Proof. exact printed_text. Qed.
Print Assumptions C96_prints_what_was_given.

(** The words around the numbers. *)
Theorem C96_words : forall u x v y w z, Forall (fun q => usable (fst q) /\ givable (snd q) /\ six_digit (snd q)) [(u, x); (v, y); (w, z)] ->
  let a := show_double x ++ lit " " ++ u_symbol u in let b := show_double y ++ lit " " ++ u_symbol v in let c := show_double z ++ lit " " ++ u_symbol w in
  let three t := lit t ++ lit " ( " ++ a ++ lit " , " ++ b ++ lit " , " ++ c ++ lit " )" in
  let two t i j := lit t ++ lit " Coordinate (" ++ lit i ++ lit ": " ++ a ++ lit ", " ++ lit j ++ lit ": " ++ b ++ lit ")" in
  print_object (make_printable PCartesian [(u, x); (v, y); (w, z)]) = three "Cartesian Representation"%string /\
  print_object (make_printable PSpherical [(u, x); (v, y); (w, z)]) = three "Spherical Representation"%string /\
  print_object (make_printable PSphericalEquatorial [(u, x); (v, y); (w, z)]) = three "Spherical Equatorial Representation"%string /\
  print_object (make_printable PHorizon [(u, x); (v, y)]) = two "Horizon"%string "Altitude"%string "Azimuth"%string /\
  print_object (make_printable PGalactic [(u, x); (v, y)]) = two "Galactic"%string "Galactic Latitude"%string "Galactic Longitude"%string /\
  print_object (make_printable PEcliptic [(u, x); (v, y)]) = two "Ecliptic"%string "Ecliptic Latitude"%string "Ecliptic Longitude"%string /\
  print_object (make_printable PEquatorialRa [(u, x); (v, y)]) = two "Equatorial"%string "Right Ascension"%string "Declination"%string /\
  print_object (make_printable PEquatorialHa [(u, x); (v, y)]) = two "Equatorial"%string "Hour Angle"%string "Declination"%string.
Proof.
  intros u x v y w z H. inversion_clear H as [|? ? H1 T]. inversion_clear T as [|? ? H2 T']. inversion_clear T' as [|? ? H3 _]. cbv zeta.
  repeat split; rewrite C96_prints_what_was_given by (repeat (constructor; [assumption|]); constructor); cbn [map fst snd];
    (generalize (show_double x ++ lit " " ++ u_symbol u) (show_double y ++ lit " " ++ u_symbol v) (show_double z ++ lit " " ++ u_symbol w); intros a b c; cbn [join]; rewrite <- ?app_assoc; reflexivity).
Qed.
Print Assumptions C96_words.

(** Two objects with the same text are of the same kind and show the same numbers in the same units. *)
Theorem C96_text_determines : forall p p', well_formed p -> well_formed p' -> print_object p = print_object p' ->
  pr_kind p = pr_kind p' /\ shown p = shown p'.
Proof. exact print_inj. Qed.
Print Assumptions C96_text_determines.

(** Numbers shown alike have the same sign and the same first six digits; they differ by less than 11 parts in a million. *)
Theorem C96_same_number_close : forall x y, dfinite x -> dfinite y -> show_double x = show_double y ->
  dnegative x = dnegative y /\ decimal6 (dval x) = decimal6 (dval y) /\ Rabs (dval x - dval y) <= 11 / 1000000 * Rabs (dval x).
Proof.
  intros x y X Y E. destruct (same_show x y X Y E) as [A B]. split; [exact A|]. split; [exact B|].
  pose proof (decimal6_err (dval x)) as Ex. pose proof (decimal6_err (dval y)) as Ey. rewrite <- B in Ey.
  assert (T : Rabs (dval y) <= Rabs (dval x) + Rabs (dval x - dval y)).
  { rewrite (Rabs_minus_sym (dval x)). replace (dval y) with (dval x + (dval y - dval x)) at 1 by ring. apply Rabs_triang. }
  assert (U : Rabs (dval x - dval y) <= Rabs (decimal6 (dval x) - dval x) + Rabs (decimal6 (dval x) - dval y)).
  { replace (dval x - dval y) with (- (decimal6 (dval x) - dval x) + (decimal6 (dval x) - dval y)) by ring.
    eapply Rle_trans; [apply Rabs_triang|]. rewrite Rabs_Ropp. lra. }
  pose proof (Rabs_pos (dval x)). lra.
Qed.
Print Assumptions C96_same_number_close.

(** Coordinates given with at most six digits are determined by their text, to the last bit. *)
Theorem C96_given_determined : forall k l k' l',
  Forall (fun q => usable (fst q) /\ givable (snd q) /\ six_digit (snd q)) l -> Forall (fun q => usable (fst q) /\ givable (snd q) /\ six_digit (snd q)) l' ->
  well_formed (make_printable k l) -> well_formed (make_printable k' l') ->
  print_object (make_printable k l) = print_object (make_printable k' l') ->
  k = k' /\ map (fun q => d_bits (snd q)) l = map (fun q => d_bits (snd q)) l' /\ map (fun q => u_symbol (fst q)) l = map (fun q => u_symbol (fst q)) l'.
Proof.
  intros k l k' l' H H' W W' E. destruct (print_inj _ _ W W' E) as [K S]. cbn [make_printable pr_kind] in K. split; [exact K|].
  unfold shown, make_printable in S. cbn [pr_parts] in S. rewrite !map_map in S. cbn [fst snd] in S. clear E W W' K.
  revert l' H' S. induction H as [|[u x] l (U & G & D) H IH]; intros l' H' S; destruct l' as [|[u' x'] l']; try discriminate S; [auto|].
  inversion H' as [|? ? (U' & G' & D') H'']; subst. cbn [map fst snd] in *. injection S as S1 S2 S3.
  rewrite !given_back in S1 by assumption. destruct (IH l' H'' S3) as [A B]. rewrite A, B, S2.
  pose proof (given_read x G D) as R. rewrite S1, (given_read x' G' D') in R. injection R as ->. auto.
Qed.
Print Assumptions C96_given_determined.

(** Beyond six digits different coordinates print alike: 1000000 and 1000001 metres. *)
Theorem C96_long_numbers_refuted : print_object (make_printable PCartesian [(metre, d_of_Z 1000000); (metre, one); (metre, one)]) =
  print_object (make_printable PCartesian [(metre, d_of_Z 1000001); (metre, one); (metre, one)]) /\ d_of_Z 1000000 <> d_of_Z 1000001.
Proof. split; [vm_compute; reflexivity|]. intros E. apply (f_equal d_bits) in E. vm_compute in E. discriminate E. Qed.
Print Assumptions C96_long_numbers_refuted.

Example C96_case : well_formed (make_printable PEquatorialRa [(degree, d_of_Z 9); (degree, d_of_Z (-35))]) /\
  Forall (fun q => usable (fst q) /\ givable (snd q) /\ six_digit (snd q)) [(degree, d_of_Z 9); (degree, d_of_Z (-35))] /\
  print_object (make_printable PEquatorialRa [(degree, d_of_Z 9); (degree, d_of_Z (-35))]) =
    lit "Equatorial Coordinate (Right Ascension: 9 deg, Declination: -35 deg)".
Proof.
  split; [split; [reflexivity|]; repeat constructor; unfold plain_symbol; cbn; intuition discriminate|]. split; [|vm_compute; reflexivity].
  constructor; [|constructor; [|constructor]]; (split; [apply C95_identity_refuted|apply small_int_given; lia]).
Qed.
