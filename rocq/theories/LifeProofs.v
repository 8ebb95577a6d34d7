(** * Proofs about the whole life of a reader object. *)
From Coq Require Import Lia List Arith NArith ZifyBool ZifyNat ZifyN.
Import ListNotations.
From Verif Require Import CppModel CppProofs StreamModel StreamProofs HeaderModel HeaderProofs TableModel TableCells ReaderModel AccessModel ReaderSpec ReaderProofs ReaderMore
  ExnSpec ExnProofs LifeSpec.

(** ** One call *)

(** HDUs are only added; names may be added or replaced by those of units from here on. *)
Definition grown (f f1 : ReaderModel.fits) : Prop := exists more, f_hdus f1 = f_hdus f ++ more.
Lemma grown_refl f : grown f f.
Proof. exists []. rewrite app_nil_r. reflexivity. Qed.
Lemma grown_trans f g h : grown f g -> grown g h -> grown f h.
Proof. intros [a A] [b B]. exists (a ++ b). rewrite B, A, app_assoc. reflexivity. Qed.

Lemma grown_same f f1 : f_hdus f1 = f_hdus f -> grown f f1.
Proof. intros E. exists []. rewrite app_nil_r. exact E. Qed.

Lemma read_hdu_grown fc hf f : grown f (fst (read_hdu fc hf f)).
Proof.
  unfold read_hdu. destruct (get_current_pos (f_stream f)) as [hl s1].
  destruct (extract_header fc hf s1) as [s2 [h| | |]]; try apply grown_same, eq_refl. destruct (get_current_pos s2) as [dl s3].
  destruct (extract_data h s3) as [s4 [d| | |]]; try apply grown_same, eq_refl. destruct (get_hdu_name fc h) as [h1 [n| | |]]; try apply grown_same, eq_refl.
  destruct (construct_hdu fc h1 d) as [x| | |]; try apply grown_same, eq_refl. exists [x]. reflexivity.
Qed.
Lemma read_hdu_header_grown fc hf f : grown f (fst (read_hdu_header fc hf f)).
Proof.
  unfold read_hdu_header. destruct (get_current_pos (f_stream f)) as [hl s1].
  destruct (extract_header fc hf s1) as [s2 [h| | |]]; try apply grown_same, eq_refl. destruct (get_hdu_name fc h) as [h1 [n| | |]]; try apply grown_same, eq_refl.
  destruct (get_current_pos s2) as [dl s3]. destruct (construct_hdu fc h1 []) as [x| | |]; try apply grown_same, eq_refl.
  destruct (skip_data h1 s3) as [s4 r]. exists [x]. reflexivity.
Qed.
Lemma loop_grown turn : (forall f, grown f (fst (turn f))) -> forall fuel f, grown f (fst (read_loop turn fuel f)).
Proof.
  intros T fuel. induction fuel as [|n IH]; intros f; cbn [read_loop]; [apply grown_same, eq_refl|].
  destruct (at_end (f_stream f)) as [e s]. destruct e; [apply grown_same, eq_refl|].
  specialize (T (at_stream s f)). destruct (turn (at_stream s f)) as [f1 [u| | |]]; cbn [fst] in *; try exact T.
  eapply grown_trans; [exact T|apply IH].
Qed.
Lemma run_grown fc k f : grown f (fst (run fc k f)).
Proof.
  destruct k as [[c|]|[|] hf fuel]; try apply grown_same, eq_refl; apply loop_grown; intros g; [apply read_hdu_header_grown|apply read_hdu_grown].
Qed.
Lemma life_grown fc ks : forall f, grown f (fst (life fc ks f)).
Proof.
  induction ks as [|k ks IH]; intros f; cbn [life]; [apply grown_refl|]. pose proof (run_grown fc k f) as G.
  destruct (run fc k f) as [f1 r]. specialize (IH f1). destruct (life fc ks f1) as [f2 rs]. exact (grown_trans _ _ _ G IH).
Qed.
Lemma life_app fc ks ks' : forall f, fst (life fc (ks ++ ks') f) = fst (life fc ks' (fst (life fc ks f))).
Proof.
  induction ks as [|k ks IH]; intros f; cbn [life app]; [reflexivity|]. destruct (run fc k f) as [f1 r]. specialize (IH f1).
  destruct (life fc (ks ++ ks') f1), (life fc ks f1). exact IH.
Qed.
Lemma life_used fc ks : forall f, used fc f -> used fc (fst (life fc ks f)).
Proof.
  induction ks as [|k ks IH]; intros f U; cbn [life]; [exact U|].
  assert (U1 : used fc (fst (run fc k f))) by (destruct k; constructor; exact U).
  destruct (run fc k f) as [f1 r]. specialize (IH f1 U1). destruct (life fc ks f1). exact IH.
Qed.

Theorem life_kept fc ks ks' : let f := fst (life fc ks no_fits) in let f' := fst (life fc (ks ++ ks') no_fits) in
  (exists more, f_hdus f' = f_hdus f ++ more) /\ forall i x, hdu_at i f = Ret x -> hdu_at i f' = Ret x.
Proof.
  intros f f'. unfold f'. rewrite life_app. fold f. destruct (life_grown fc ks' f) as [more E]. split; [exists more; exact E|].
  intros i x. unfold hdu_at. rewrite E. destruct (nth_error (f_hdus f) i) eqn:N; [|discriminate]. intros H. injection H as ->.
  rewrite nth_error_app1 by (apply nth_error_Some; congruence). rewrite N. reflexivity.
Qed.

(** ** Names *)

(** Every name stands for an HDU, from number [n0] on, or is the name of a unit that came to nothing. *)
Definition listed (n0 : nat) (f : ReaderModel.fits) : Prop :=
  n0 <= length (f_hdus f) /\ forall n i, map_find n (f_info f) = Some i -> n0 <= hdu_index i <= length (f_hdus f).
(** Every name stands for the HDU made of a unit of that name, and there are no more names than HDUs. *)
Definition sound (fc : fcodec) (n0 : nat) (f : ReaderModel.fits) : Prop :=
  n0 + length (f_info f) <= length (f_hdus f) /\
  forall n i, map_find n (f_info f) = Some i -> n0 <= hdu_index i /\ exists x h d, nth_error (f_hdus f) (hdu_index i) = Some x /\ becomes fc h d n x.

Lemma map_set_length {A} k (a : A) m : length (map_set k a m) <= S (length m).
Proof. induction m as [|[k' a'] m IH]; cbn [map_set length]; [lia|]. destruct (str_eqb k k'); cbn [length]; lia. Qed.

Lemma listed_record n0 n hl dl f : listed n0 f -> listed n0 (record_info n hl dl f).
Proof.
  intros [L N]. split; [exact L|]. cbn [record_info f_info f_hdus]. intros m i. destruct (str_eqb m n) eqn:E.
  - apply str_eqb_eq in E. subst m. rewrite map_find_set_same. intros H. injection H as <-. cbn [hdu_index]. lia.
  - rewrite map_find_set_other by (intros ->; rewrite (proj2 (str_eqb_eq n n)) in E by reflexivity; discriminate). apply N.
Qed.
Lemma listed_push n0 x f : listed n0 f -> listed n0 (push_hdu x f).
Proof. intros [L N]. split; cbn [push_hdu f_hdus f_info]; rewrite app_length; cbn [length]; [lia|]. intros n i H. specialize (N n i H). lia. Qed.
Lemma listed_at n0 s f : listed n0 f -> listed n0 (at_stream s f).
Proof. intros H. exact H. Qed.

Lemma sound_made fc n0 n hl dl s f h h1 d x : sound fc n0 f -> get_hdu_name fc h = (h1, Ret n) -> construct_hdu fc h1 d = Ret x ->
  sound fc n0 (push_hdu x (record_info n hl dl (at_stream s f))).
Proof.
  intros [L N] E X. split; cbn [push_hdu record_info at_stream f_hdus f_info].
  - rewrite app_length. cbn [length]. pose proof (map_set_length n (mk_info hl dl (length (f_hdus f))) (f_info f)). lia.
  - intros m i. destruct (str_eqb m n) eqn:Em.
    + apply str_eqb_eq in Em. subst m. rewrite map_find_set_same. intros H. injection H as <-. cbn [hdu_index].
      split; [lia|]. exists x, h, d. rewrite nth_error_app2, Nat.sub_diag by lia. split; [reflexivity|]. exists h1. split; assumption.
    + rewrite map_find_set_other by (intros ->; rewrite (proj2 (str_eqb_eq n n)) in Em by reflexivity; discriminate). intros H.
      destruct (N m i H) as (A & y & h' & d' & Y & B). split; [exact A|]. exists y, h', d'. split; [|exact B].
      rewrite nth_error_app1 by (apply nth_error_Some; congruence). exact Y.
Qed.

Lemma read_hdu_listed fc hf n0 f : listed n0 f -> listed n0 (fst (read_hdu fc hf f)).
Proof.
  intros L. unfold read_hdu. destruct (get_current_pos (f_stream f)) as [hl s1].
  destruct (extract_header fc hf s1) as [s2 [h| | |]]; try exact L. destruct (get_current_pos s2) as [dl s3].
  destruct (extract_data h s3) as [s4 [d| | |]]; try exact L. destruct (get_hdu_name fc h) as [h1 [n| | |]]; try exact L.
  destruct (construct_hdu fc h1 d) as [x| | |]; cbn [fst]; try (apply listed_push); apply listed_record; exact L.
Qed.
Lemma read_hdu_header_listed fc hf n0 f : listed n0 f -> listed n0 (fst (read_hdu_header fc hf f)).
Proof.
  intros L. unfold read_hdu_header. destruct (get_current_pos (f_stream f)) as [hl s1].
  destruct (extract_header fc hf s1) as [s2 [h| | |]]; try exact L. destruct (get_hdu_name fc h) as [h1 [n| | |]]; try exact L.
  destruct (get_current_pos s2) as [dl s3]. destruct (construct_hdu fc h1 []) as [x| | |]; cbn [fst]; try (apply listed_record; exact L).
  destruct (skip_data h1 s3) as [s4 r]. cbn [fst]. apply listed_at, listed_push, listed_record. exact L.
Qed.
Lemma read_hdu_sound fc hf n0 f f1 : sound fc n0 f -> read_hdu fc hf f = (f1, Ret tt) -> sound fc n0 f1.
Proof.
  intros S. unfold read_hdu. destruct (get_current_pos (f_stream f)) as [hl s1].
  destruct (extract_header fc hf s1) as [s2 [h| | |]]; try discriminate. destruct (get_current_pos s2) as [dl s3].
  destruct (extract_data h s3) as [s4 [d| | |]]; try discriminate. destruct (get_hdu_name fc h) as [h1 [n| | |]] eqn:En; try discriminate.
  destruct (construct_hdu fc h1 d) as [x| | |] eqn:Ex; try discriminate. intros H. injection H as <-. exact (sound_made _ _ _ _ _ _ _ _ _ _ _ S En Ex).
Qed.
Lemma read_hdu_header_sound fc hf n0 f f1 : sound fc n0 f -> read_hdu_header fc hf f = (f1, Ret tt) -> sound fc n0 f1.
Proof.
  intros S. unfold read_hdu_header. destruct (get_current_pos (f_stream f)) as [hl s1].
  destruct (extract_header fc hf s1) as [s2 [h| | |]]; try discriminate. destruct (get_hdu_name fc h) as [h1 [n| | |]] eqn:En; try discriminate.
  destruct (get_current_pos s2) as [dl s3]. destruct (construct_hdu fc h1 []) as [x| | |] eqn:Ex; try discriminate.
  destruct (skip_data h1 s3) as [s4 r]. intros H. injection H as <- _. exact (sound_made _ _ _ _ _ s3 _ _ _ _ _ S En Ex).
Qed.
Lemma loop_listed turn n0 : (forall f, listed n0 f -> listed n0 (fst (turn f))) -> forall fuel f, listed n0 f -> listed n0 (fst (read_loop turn fuel f)).
Proof.
  intros T fuel. induction fuel as [|n IH]; intros f L; cbn [read_loop]; [exact L|].
  destruct (at_end (f_stream f)) as [e s]. destruct e; [exact L|].
  specialize (T (at_stream s f) L). destruct (turn (at_stream s f)) as [f1 [u| | |]]; cbn [fst] in *; auto.
Qed.
Lemma loop_sound fc turn n0 : (forall f f1, sound fc n0 f -> turn f = (f1, Ret tt) -> sound fc n0 f1) ->
  forall fuel f f1, sound fc n0 f -> read_loop turn fuel f = (f1, Ret tt) -> sound fc n0 f1.
Proof.
  intros T fuel. induction fuel as [|n IH]; intros f f1 S; cbn [read_loop]; [discriminate|].
  destruct (at_end (f_stream f)) as [e s]. destruct e; [intros H; injection H as <-; exact S|].
  specialize (T (at_stream s f)). destruct (turn (at_stream s f)) as [f2 [[]| | |]]; try discriminate. apply IH. exact (T f2 S eq_refl).
Qed.

Lemma run_listed fc k n0 f : opens_nothing k -> listed n0 f -> listed n0 (fst (run fc k f)).
Proof.
  destruct k as [[c|]|[|] hf fuel]; intros O L; [contradiction|exact L| |]; cbn [run reading];
    apply loop_listed; auto using read_hdu_listed, read_hdu_header_listed.
Qed.
Lemma run_sound fc k n0 f f1 r : opens_nothing k -> sound fc n0 f -> run fc k f = (f1, r) -> read_well k r -> sound fc n0 f1.
Proof.
  destruct k as [[c|]|o hf fuel]; intros O S; cbn [run read_well]; [contradiction|intros H _; injection H as <- _; exact S|].
  intros H ->. destruct o; cbn [reading] in H; (eapply loop_sound; [|exact S|exact H]); intros; eauto using read_hdu_sound, read_hdu_header_sound.
Qed.
Lemma life_listed fc n0 ks : Forall opens_nothing ks -> forall f, listed n0 f -> listed n0 (fst (life fc ks f)).
Proof.
  induction 1 as [|k ks O _ IH]; intros f L; cbn [life]; [exact L|]. pose proof (run_listed fc k n0 f O L) as L1.
  destruct (run fc k f) as [f1 r]. specialize (IH f1 L1). destruct (life fc ks f1). exact IH.
Qed.
Lemma life_sound fc n0 ks : Forall opens_nothing ks -> forall f f1 rs, sound fc n0 f -> life fc ks f = (f1, rs) -> Forall2 read_well ks rs -> sound fc n0 f1.
Proof.
  induction 1 as [|k ks O _ IH]; intros f f1 rs S; cbn [life]; [intros H _; injection H as <- _; exact S|].
  destruct (run fc k f) as [f2 r] eqn:E. destruct (life fc ks f2) as [f3 rs2] eqn:E2. intros H F. injection H as <- <-. inversion F as [|? ? ? ? F1 F2]. subst.
  exact (IH _ _ _ (run_sound _ _ _ _ _ _ O S E F1) E2 F2).
Qed.

Theorem life_names fc ks c ks2 f1 f rs : f1 = fst (life fc ks no_fits) -> Forall opens_nothing ks2 -> life fc (Open (Some c) :: ks2) f1 = (f, rs) ->
  (forall n, hdu_named n f = Throw OutOfRange \/ hdu_named n f = Undef \/
     exists i x, length (f_hdus f1) <= i /\ hdu_at i f = Ret x /\ hdu_named n f = Ret x) /\
  (Forall2 read_well (Open (Some c) :: ks2) rs ->
     length (f_hdus f1) + total_hdus f <= length (f_hdus f) /\
     forall n, hdu_named n f = Throw OutOfRange \/
       exists i x h d, length (f_hdus f1) <= i /\ hdu_at i f = Ret x /\ hdu_named n f = Ret x /\ becomes fc h d n x).
Proof.
  intros _ O E. cbn [life run initialize_path set_file] in E. set (g := mk_fits (open_stream c) (f_hdus f1) []) in E.
  destruct (life fc ks2 g) as [f2 rs2] eqn:E2. injection E as <- <-. split.
  - assert (L : listed (length (f_hdus f1)) f2).
    { replace f2 with (fst (life fc ks2 g)) by (rewrite E2; reflexivity). apply life_listed; [exact O|]. split; [apply Nat.le_refl|]. intros n i H. discriminate H. }
    intros n. unfold hdu_named. destruct (map_find n (f_info f2)) as [i|] eqn:F; [|left; reflexivity]. right.
    destruct (nth_error (f_hdus f2) (hdu_index i)) as [x|] eqn:X; [|left; reflexivity]. right. exists (hdu_index i), x.
    unfold hdu_at. rewrite X. split; [exact (proj1 (proj2 L n i F))|]. split; reflexivity.
  - intros W. inversion W as [|? ? ? ? _ W2]. subst.
    assert (S : sound fc (length (f_hdus f1)) f2).
    { apply (life_sound fc _ ks2 O g f2 rs2); [|exact E2|exact W2]. split; [cbn [g f_info f_hdus length]; lia|]. intros n i H. discriminate H. }
    split; [exact (proj1 S)|]. intros n. unfold hdu_named. destruct (map_find n (f_info f2)) as [i|] eqn:F; [|left; reflexivity]. right.
    destruct (proj2 S n i F) as (A & x & h & d & X & B). exists (hdu_index i), x, h, d. unfold hdu_at. rewrite X. auto.
Qed.

(** ** Writing *)

Lemma padding_appends s : appending s -> appending (write_padding s) /\ exists p, content (write_padding s) = content s ++ p.
Proof.
  intros A. pose proof A as [G _]. unfold write_padding, find_unit_end, get_current_pos. rewrite G. cbv beta iota. rewrite G. cbv beta iota.
  destruct (write_append s (spaces (N.to_nat (sub64 (unit_end (pos s)) (pos s)))) A) as [A1 C1]. split; [exact A1|]. eexists. exact C1.
Qed.
Lemma header_appends h s : appending s -> appending (write_header h s) /\ exists p, content (write_header h s) = content s ++ concat (map raw (h_cards h)) ++ p.
Proof.
  intros A. unfold write_header. destruct (write_append s (concat (map raw (h_cards h))) A) as [A1 C1].
  destruct (padding_appends _ A1) as [A2 [p C2]]. split; [exact A2|]. exists p. rewrite C2, C1, app_assoc. reflexivity.
Qed.

(** Whatever its size, an HDU is written with all its bytes. *)
Lemma hdu_at_least x rs d s : written_as x rs d -> appending s -> length (content s) + length (concat rs) + length d <= length (content (fst (write_hdu x s))).
Proof.
  intros W A. destruct x as [|p|t|t]; cbn [written_as] in W; [contradiction| | |]; cbn [write_hdu fst].
  - destruct W as [-> ->]. unfold primary_write, write_unit. destruct (header_appends (p_header p) s A) as [A1 [q C1]].
    destruct (write_append _ (write_image (p_kind p) (p_image p)) A1) as [A2 C2]. destruct (padding_appends _ A2) as [_ [q2 C3]].
    rewrite C3, C2, C1, !app_length. lia.
  - destruct W as [-> ->]. unfold bin_write. destruct (header_appends (t_header t) s A) as [A1 [q C1]].
    destruct (write_rows_append (t_data t) _ A1) as [A2 C2]. destruct (padding_appends _ A2) as [_ [q2 C3]]. rewrite C3, C2, C1, !app_length. lia.
  - destruct W as (-> & ts & F & ->). unfold ascii_write. destruct (header_appends (t_header t) s A) as [A1 [q C1]].
    destruct (ascii_write_rows_text _ _ _ F _ A1) as (s3 & -> & A3 & C3). destruct (padding_appends _ A3) as [_ [q2 C4]]. cbn [fst].
    rewrite C4, C3, C1, !app_length. lia.
Qed.

Lemma writable_text x : writable x -> x = HBlank \/ exists rs d, written_as x rs d.
Proof.
  destruct x as [|p|t|t]; intros W; [left; reflexivity|right; cbn [written_as]; eauto..].
  cbn [writable] in W. assert (E : exists ts, Forall2 (fun row x => ascii_row_text (t_columns t) row = Ret x) (t_data t) ts).
  { induction W as [|row rows R _ [ts IH]]; [exists []; constructor|]. destruct (row_text_ok _ _ R) as [y Y]. exists (y :: ts). constructor; assumption. }
  destruct E as [ts E]. eauto 6.
Qed.

Lemma alone_content x : alone x = content (fst (write_hdu x create_stream)).
Proof. unfold alone, write_to. cbn [f_hdus write_hdus]. destruct (write_hdu x create_stream) as [s [[]| | |]]; reflexivity. Qed.

Lemma alone_text x rs d : written_as x rs d -> (N.of_nat (length (alone x)) < 2 ^ 61)%N -> alone x = unit_text rs d.
Proof.
  intros W L. rewrite alone_content in *. pose proof (hdu_at_least x rs d create_stream W create_appending) as K.
  destruct (unit_text_length rs d) as [U _]. unfold next_block in U.
  destruct (write_hdu_text x rs d create_stream W create_appending eq_refl) as (s' & E & _ & C).
  - rewrite U. cbn [create_stream content length] in K |- *. clear W.
    pose proof (pad_len_bounds (length (concat rs))). pose proof (pad_len_bounds (length (concat rs) + pad_len (length (concat rs)) + length d)).
    change (2 ^ 62)%N with 4611686018427387904%N. change (2 ^ 61)%N with 2305843009213693952%N in L. lia.
  - rewrite E. exact C.
Qed.

Lemma hdus_alone l : Forall writable l -> (N.of_nat (length (concat (map alone l))) < 2 ^ 61)%N -> forall s, appending s -> length (content s) mod 2880 = 0 ->
  (N.of_nat (length (content s)) + N.of_nat (length (concat (map alone l))) < 2 ^ 61)%N ->
  exists s', write_hdus l s = (s', Ret tt) /\ content s' = content s ++ concat (map alone l) /\ length (content s') mod 2880 = 0.
Proof.
  induction 1 as [|x l W F IH]; intros L s A M K; cbn [map concat write_hdus] in *.
  - exists s. rewrite app_nil_r. auto.
  - rewrite app_length in L, K. destruct (writable_text x W) as [->|(rs & d & T)].
    + cbn [write_hdu]. change (alone HBlank) with (@nil Ascii.ascii) in *. cbn [length Nat.add app] in *. apply IH; assumption.
    + pose proof (alone_text x rs d T) as E. rewrite E in * by lia.
      destruct (write_hdu_text x rs d s T A M) as (s1 & E1 & A1 & C1); [change (2 ^ 62)%N with (2 * 2 ^ 61)%N; lia|]. rewrite E1.
      destruct (IH ltac:(lia) s1 A1) as (s2 & E2 & C2 & M2).
      * rewrite C1, app_length, Nat.add_mod by lia. destruct (unit_text_length rs d) as [_ ->]. rewrite M. reflexivity.
      * rewrite C1, app_length. lia.
      * exists s2. split; [exact E2|]. split; [rewrite C2, C1, <- app_assoc; reflexivity|exact M2].
Qed.

Theorem life_written fc ks : let f := fst (life fc ks no_fits) in (N.of_nat (length (concat (map alone (f_hdus f)))) < 2 ^ 61)%N ->
  write_to f = (concat (map alone (f_hdus f)), Ret tt) /\ length (fst (write_to f)) mod 2880 = 0.
Proof.
  intros f L. assert (W : Forall writable (f_hdus f)) by (apply (used_writable fc); apply life_used; constructor).
  destruct (hdus_alone _ W L create_stream create_appending eq_refl) as (s & E & C & M); [cbn [create_stream content length]; lia|].
  unfold write_to. rewrite E. cbn [fst]. rewrite C in *. split; [reflexivity|exact M].
Qed.

Theorem life_written_later fc ks ks' : let f := fst (life fc ks no_fits) in let f' := fst (life fc (ks ++ ks') no_fits) in
  (N.of_nat (length (concat (map alone (f_hdus f')))) < 2 ^ 61)%N -> exists rest, fst (write_to f') = fst (write_to f) ++ rest.
Proof.
  intros f f' L. destruct (life_kept fc ks ks') as [[more E] _]. fold f f' in E.
  destruct (life_written fc (ks ++ ks') L) as [W' _]. fold f' in W'. rewrite E, map_app, concat_app, app_length in L.
  destruct (life_written fc ks) as [W _]; [fold f; lia|]. fold f in W. rewrite W, W'. cbn [fst]. exists (concat (map alone more)).
  rewrite E, map_app, concat_app. reflexivity.
Qed.
