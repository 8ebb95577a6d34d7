(** * Writing on a device that fails. *)
From Verif Require Export FaultModel CutProofs.
From Coq Require Import Lia ZifyBool ZifyNat ZifyN.
Open Scope list_scope.

(** A stream that is only appended to. *)
Definition appending (s : stream) : Prop := good s = true /\ pos s = N.of_nat (length (content s)).

Lemma append_write d s : appending s -> appending (stream_write d s) /\ content (stream_write d s) = content s ++ d.
Proof.
  intros [G P]. unfold stream_write. rewrite G. unfold appending. cbn [content pos].
  assert (C : overwrite (content s) (N.to_nat (pos s)) d = content s ++ d).
  { rewrite P, Nat2N.id. unfold overwrite. destruct d as [|c d]; [rewrite app_nil_r; reflexivity|].
    rewrite firstn_all, Nat.sub_diag. cbn [repeat app]. rewrite skipn_all2 by lia. rewrite app_nil_r. reflexivity. }
  rewrite C. repeat split. rewrite P, app_length. lia.
Qed.

(** [fop] does on a failing device what [op] does on a sound one. *)
Record follows (op : stream -> stream) (fop : fstream -> fstream) : Prop := mk_follows {
  fo_sound : forall s, appending s -> appending (op s) /\ (exists x, content (op s) = content s ++ x) /\
    exists n, forall rest, fop (s, repeat None n ++ rest) = (op s, rest);
  fo_cut : forall s k, appending s -> length (content s) <= k -> k < length (content (op s)) ->
    exists p, forall rest, exists s' rest', fop (s, p ++ rest) = (s', rest') /\ good s' = false /\
      content s' = firstn k (content (op s));
  fo_dead : forall s p, good s = false -> good (fst (fop (s, p))) = false /\ content (fst (fop (s, p))) = content s;
  fo_any : forall s p, appending s -> fst (fop (s, p)) = op s \/
    (good (fst (fop (s, p))) = false /\ exists k, content (fst (fop (s, p))) = firstn k (content (op s)));
  fo_fine : forall s (p : plan), appending s -> Forall (eq None) p -> fst (fop (s, p)) = op s /\ Forall (eq None) (snd (fop (s, p)))
}.

Lemma f_write_dead d s p : good s = false -> f_write d (s, p) = (false, (s, p)).
Proof. intros G. unfold f_write. rewrite G. reflexivity. Qed.

Lemma follows_write d : follows (stream_write d) (fun fs => snd (f_write d fs)).
Proof.
  split.
  - intros s A. destruct (append_write d s A) as [A' C]. split; [exact A'|]. split; [exists d; exact C|].
    exists 1. intros rest. unfold f_write. rewrite (proj1 A). reflexivity.
  - intros s k A L U. destruct (append_write d s A) as [A' C]. rewrite C in U. rewrite app_length in U.
    exists [Some (k - length (content s))]. intros rest. unfold f_write. rewrite (proj1 A). cbn [app snd].
    eexists. exists rest. split; [reflexivity|]. cbn [content]. split; [unfold good; cbn [failb]; apply andb_false_r|].
    destruct (append_write (firstn (k - length (content s)) d) s A) as [_ C']. rewrite C', C.
    rewrite firstn_app. rewrite (firstn_all2 (content s)) by lia. reflexivity.
  - intros s p G. rewrite (f_write_dead d s p G). cbn. split; [exact G|reflexivity].
  - intros s p A. destruct (append_write d s A) as [A' C]. unfold f_write. rewrite (proj1 A).
    destruct p as [|[m|] p]; cbn [snd fst]; [left; reflexivity| |left; reflexivity].
    right. split; [unfold good; cbn [failb]; apply andb_false_r|]. cbn [content].
    destruct (append_write (firstn m d) s A) as [_ C']. exists (length (content s) + m). rewrite C', C.
    rewrite firstn_app_2. reflexivity.
  - intros s p A F. unfold f_write. rewrite (proj1 A). destruct F as [|o p <- F]; cbn [fst snd]; split; try reflexivity; [constructor|exact F].
Qed.

Lemma follows_compose op1 fop1 op2 fop2 : follows op1 fop1 -> follows op2 fop2 ->
  follows (fun s => op2 (op1 s)) (fun fs => fop2 (fop1 fs)).
Proof.
  intros [S1 C1 D1 A1 N1] [S2 C2 D2 A2 N2]. split.
  - intros s A. destruct (S1 s A) as (A' & (x & X) & n & N). destruct (S2 _ A') as (A'' & (y & Y) & m & M).
    split; [exact A''|]. split; [exists (x ++ y); rewrite Y, X, app_assoc; reflexivity|].
    exists (n + m). intros rest. rewrite repeat_app, <- app_assoc, N. apply M.
  - intros s k A L U. destruct (S1 s A) as (A' & (x & X) & n & N). destruct (S2 _ A') as (A'' & (y & Y) & _).
    destruct (Nat.lt_ge_cases k (length (content (op1 s)))) as [B|B].
    + destruct (C1 s k A L B) as (p & P). exists p. intros rest. destruct (P rest) as (s' & rest' & E & G & F).
      rewrite E. destruct (D2 s' rest' G) as [G' F']. destruct (fop2 (s', rest')) as [s2 r2] eqn:E2. cbn [fst] in G', F'.
      exists s2, r2. split; [reflexivity|]. split; [exact G'|]. rewrite F', F, Y.
      rewrite firstn_app. replace (k - length (content (op1 s))) with 0 by lia. cbn [firstn]. rewrite app_nil_r. reflexivity.
    + destruct (C2 _ k A' B U) as (p & P). exists (repeat None n ++ p). intros rest. rewrite <- app_assoc, N. apply P.
  - intros s p G. destruct (D1 s p G) as [G' C']. destruct (fop1 (s, p)) as [s1 p1]. cbn [fst] in G', C'.
    destruct (D2 s1 p1 G') as [G'' C'']. split; [exact G''|]. rewrite C''. exact C'.
  - intros s p A. destruct (S1 s A) as (A' & _). destruct (S2 _ A') as (_ & (y & Y) & _).
    specialize (A1 s p A). destruct (fop1 (s, p)) as [s1 p1]. cbn [fst] in A1. destruct A1 as [->|(G & k & K)].
    + apply A2, A'.
    + right. destruct (D2 s1 p1 G) as [G' C']. split; [exact G'|]. rewrite C', K.
      exists (Nat.min k (length (content (op1 s)))). rewrite Y, firstn_app.
      replace (Nat.min k (length (content (op1 s))) - length (content (op1 s))) with 0 by lia.
      cbn [firstn]. rewrite app_nil_r. rewrite <- (firstn_firstn (content (op1 s)) k). rewrite (firstn_all (content (op1 s))). reflexivity.
  - intros s p A F. destruct (S1 s A) as (A' & _). destruct (N1 s p A F) as [E F']. destruct (fop1 (s, p)) as [s1 p1].
    cbn [fst snd] in E, F'. subst s1. apply N2; assumption.
Qed.

Lemma follows_id : follows (fun s => s) (fun fs => fs).
Proof.
  split.
  - intros s A. split; [exact A|]. split; [exists []; rewrite app_nil_r; reflexivity|]. exists 0. reflexivity.
  - intros; lia.
  - intros s p G. split; [exact G|reflexivity].
  - intros; left; reflexivity.
  - intros s p A F. split; [reflexivity|exact F].
Qed.

(** The padding depends on where the stream stands, which only matters while it is sound. *)
Lemma padding_good s p : good s = true ->
  f_write_padding (s, p) = snd (f_write (spaces (N.to_nat (sub64 (unit_end (pos s)) (pos s)))) (s, p)) /\
  write_padding s = stream_write (spaces (N.to_nat (sub64 (unit_end (pos s)) (pos s)))) s.
Proof.
  intros G. unfold f_write_padding, write_padding, f_tell, f_unit_end, find_unit_end, get_current_pos. cbn [fst snd].
  rewrite G. cbn [fst snd]. rewrite G. cbn [fst snd]. split; reflexivity.
Qed.

Lemma follows_padding : follows write_padding f_write_padding.
Proof.
  split.
  - intros s A. rewrite (proj2 (padding_good s [] (proj1 A))).
    destruct (fo_sound _ _ (follows_write (spaces (N.to_nat (sub64 (unit_end (pos s)) (pos s))))) s A) as (A' & X & n & N).
    split; [exact A'|]. split; [exact X|]. exists n. intros rest. rewrite (proj1 (padding_good s _ (proj1 A))). apply N.
  - intros s k A L U. rewrite (proj2 (padding_good s [] (proj1 A))) in *.
    destruct (fo_cut _ _ (follows_write (spaces (N.to_nat (sub64 (unit_end (pos s)) (pos s))))) s k A L U) as (p & P).
    exists p. intros rest. rewrite (proj1 (padding_good s _ (proj1 A))). apply P.
  - intros s p G. unfold f_write_padding, f_tell, f_unit_end, find_unit_end, get_current_pos. cbn [fst snd].
    rewrite G. cbn [fst snd].
    assert (B : good (mk_stream (content s) (pos s) (eofb s) true) = false) by (unfold good; cbn; apply andb_false_r).
    rewrite B. rewrite f_write_dead by exact B. cbn [fst snd content]. split; [exact B|reflexivity].
  - intros s p A. rewrite (proj1 (padding_good s p (proj1 A))), (proj2 (padding_good s [] (proj1 A))).
    apply (fo_any _ _ (follows_write _) s p A).
  - intros s p A F. rewrite (proj1 (padding_good s p (proj1 A))), (proj2 (padding_good s [] (proj1 A))).
    apply (fo_fine _ _ (follows_write _) s p A F).
Qed.

Lemma follows_header h : follows (write_header h) (f_write_header h).
Proof.
  unfold write_header, f_write_header.
  apply (follows_compose _ _ _ _ (follows_write (concat (map raw (h_cards h)))) follows_padding).
Qed.

Lemma follows_unit h d : follows (write_unit h d) (f_write_unit h d).
Proof.
  unfold write_unit, f_write_unit.
  apply (follows_compose _ _ _ _ (follows_compose _ _ _ _ (follows_header h) (follows_write d)) follows_padding).
Qed.

Lemma follows_fold (rows : list (list str)) : follows
  (fun s => fold_left (fun s row => stream_write (bin_row_text row) s) rows s)
  (fun fs => fold_left (fun fs row => snd (f_write (bin_row_text row) fs)) rows fs).
Proof.
  induction rows as [|row rows IH]; cbn [fold_left]; [exact follows_id|].
  apply (follows_compose _ _ _ _ (follows_write (bin_row_text row)) IH).
Qed.

Lemma follows_binary t : follows (bin_write t) (f_bin_write t).
Proof.
  unfold bin_write, f_bin_write.
  apply (follows_compose _ _ _ _ (follows_compose _ _ _ _ (follows_header (t_header t)) (follows_fold (t_data t))) follows_padding).
Qed.

(** ** Writers that may throw *)

(** How they end does not depend on the stream. *)
Definition agree (op : stream -> stream * outcome unit) (fop : fstream -> fstream * outcome unit) : Prop :=
  follows (fun s => fst (op s)) (fun fs => fst (fop fs)) /\ exists r, (forall s, snd (op s) = r) /\ forall fs, snd (fop fs) = r.

Lemma agree_id r : agree (fun s => (s, r)) (fun fs => (fs, r)).
Proof. split; [exact follows_id|]. exists r. split; reflexivity. Qed.

Lemma follows_ext op fop op' fop' : (forall s, op' s = op s) -> (forall fs, fop' fs = fop fs) -> follows op fop -> follows op' fop'.
Proof.
  intros E E' [K1 K2 K3 K4 K5]. split.
  - intros s A. rewrite (E s). destruct (K1 s A) as (A' & X & n & N). split; [exact A'|]. split; [exact X|].
    exists n. intros rest. rewrite E'. apply N.
  - intros s k A. rewrite (E s). intros L U. destruct (K2 s k A L U) as (p & P). exists p. intros rest. rewrite E'. apply P.
  - intros s p. rewrite E'. apply K3.
  - intros s p. rewrite E', (E s). apply K4.
  - intros s p. rewrite E', (E s). apply K5.
Qed.

Lemma agree_then op fop op' fop' : agree op fop -> agree op' fop' ->
  agree (fun s => match op s with (s1, Ret _) => op' s1 | (s1, e) => (s1, e) end)
        (fun fs => match fop fs with (s1, Ret _) => fop' s1 | (s1, e) => (s1, e) end).
Proof.
  intros [F (r & R & R')] [F' (q & Q & Q')].
  assert (E : forall s, op s = (fst (op s), r)) by (intros s; rewrite <- (R s); apply surjective_pairing).
  assert (E' : forall s, fop s = (fst (fop s), r)) by (intros s; rewrite <- (R' s); apply surjective_pairing).
  destruct r as [u|e| |]; split;
    try (refine (follows_ext _ _ _ _ _ _ F); intros s; [rewrite (E s)|rewrite (E' s)]; reflexivity).
  - refine (follows_ext _ _ _ _ _ _ (follows_compose _ _ _ _ F F')); intros s; [rewrite (E s)|rewrite (E' s)]; reflexivity.
  - exists q. split; [intros s; rewrite (E s); apply Q|intros s; rewrite (E' s); apply Q'].
  - exists (Throw e). split; [intros s; rewrite (E s); reflexivity|intros s; rewrite (E' s); reflexivity].
  - exists Undef. split; [intros s; rewrite (E s); reflexivity|intros s; rewrite (E' s); reflexivity].
  - exists NoFuel. split; [intros s; rewrite (E s); reflexivity|intros s; rewrite (E' s); reflexivity].
Qed.

Lemma agree_of op fop : follows op fop -> agree (fun s => (op s, Ret tt)) (fun fs => (fop fs, Ret tt)).
Proof. intros F. split; [exact F|]. exists (Ret tt). split; reflexivity. Qed.

Lemma agree_after op fop op' fop' : follows op fop -> agree op' fop' -> agree (fun s => op' (op s)) (fun fs => fop' (fop fs)).
Proof.
  intros F [F' (r & R & R')]. split; [apply (follows_compose _ _ _ _ F F')|]. exists r. split; intros; [apply R|apply R'].
Qed.

Lemma agree_rows cols rows : agree (ascii_write_rows cols rows) (f_ascii_rows cols rows).
Proof.
  induction rows as [|row rows IH]; cbn [ascii_write_rows f_ascii_rows]; [apply agree_id|].
  destruct (ascii_row_text cols row) as [x|e| |]; try apply agree_id.
  apply (agree_after _ _ _ _ (follows_write x) IH).
Qed.

Lemma agree_ascii t : agree (ascii_write t) (f_ascii_write t).
Proof.
  unfold ascii_write, f_ascii_write.
  apply (agree_then _ _ _ _ (agree_after _ _ _ _ (follows_header (t_header t)) (agree_rows (t_columns t) (t_data t)))
    (agree_of _ _ follows_padding)).
Qed.

Lemma agree_hdu x : agree (write_hdu x) (f_write_hdu x).
Proof.
  destruct x as [|p|t|t]; cbn [write_hdu f_write_hdu].
  - apply agree_id.
  - apply (agree_of _ _ (follows_unit _ _)).
  - apply (agree_of _ _ (follows_binary t)).
  - apply agree_ascii.
Qed.

Lemma agree_hdus l : agree (write_hdus l) (f_write_hdus l).
Proof.
  induction l as [|x l IH]; cbn [write_hdus f_write_hdus]; [apply agree_id|].
  apply (agree_then _ _ _ _ (agree_hdu x) IH).
Qed.

(** ** write_to *)

Lemma created : appending create_stream.
Proof. split; reflexivity. Qed.

Lemma failing_form fl f : write_to_failing fl f =
  (match flushed fl with None => content (fst (fst (f_write_hdus (f_hdus f) (create_stream, verdicts fl))))
   | Some k => firstn k (content (fst (fst (f_write_hdus (f_hdus f) (create_stream, verdicts fl))))) end,
   snd (f_write_hdus (f_hdus f) (create_stream, verdicts fl))).
Proof.
  unfold write_to_failing. destruct (f_write_hdus (f_hdus f) (create_stream, verdicts fl)) as [[s p] r]. reflexivity.
Qed.

Lemma write_form f : write_to f = (content (fst (write_hdus (f_hdus f) create_stream)), snd (write_hdus (f_hdus f) create_stream)).
Proof. unfold write_to. destruct (write_hdus (f_hdus f) create_stream). reflexivity. Qed.

Lemma failing_prefix fl f : exists k, k <= length (fst (write_to f)) /\ fst (write_to_failing fl f) = firstn k (fst (write_to f)).
Proof.
  rewrite failing_form, write_form. cbn [fst]. destruct (agree_hdus (f_hdus f)) as [F _].
  assert (P : exists k, content (fst (fst (f_write_hdus (f_hdus f) (create_stream, verdicts fl)))) =
    firstn k (content (fst (write_hdus (f_hdus f) create_stream)))).
  { destruct (fo_any _ _ F create_stream (verdicts fl) created) as [E|[_ E]]; [|exact E].
    rewrite E. eexists. symmetry. apply firstn_all. }
  destruct P as [k ->]. set (c := content (fst (write_hdus (f_hdus f) create_stream))). clearbody c.
  assert (Q : exists j, match flushed fl with None => firstn k c | Some i => firstn i (firstn k c) end = firstn j c).
  { destruct (flushed fl) as [i|]; [exists (Nat.min i k); apply firstn_firstn|exists k; reflexivity]. }
  destruct Q as [j ->]. exists (Nat.min j (length c)). split; [lia|].
  rewrite <- firstn_firstn, firstn_all. reflexivity.
Qed.

Lemma failing_silent fl f : snd (write_to_failing fl f) = snd (write_to f).
Proof.
  rewrite failing_form, write_form. cbn [snd]. destruct (agree_hdus (f_hdus f)) as [_ (r & R & R')].
  rewrite R, R'. reflexivity.
Qed.

Lemma failing_not f (p : plan) : Forall (eq None) p -> write_to_failing (mk_fault p None) f = write_to f.
Proof.
  intros N. destruct (agree_hdus (f_hdus f)) as [F (r & R & R')]. rewrite failing_form, write_form. cbn [flushed verdicts].
  rewrite R, R'. destruct (fo_fine _ _ F create_stream p created N) as [E _]. f_equal. exact (f_equal content E).
Qed.

(** Every length of the file can be what a single failing write leaves. *)
Lemma failing_every f k : k < length (fst (write_to f)) ->
  exists p, fst (write_to_failing (mk_fault p None) f) = firstn k (fst (write_to f)).
Proof.
  intros K. destruct (agree_hdus (f_hdus f)) as [F _]. rewrite write_form in *. cbn [fst] in *.
  destruct (fo_cut _ _ F create_stream k created (Nat.le_0_l _) K) as (p & P). destruct (P []) as (s' & rest' & E & _ & C).
  exists p. rewrite failing_form. cbn [flushed verdicts fst]. rewrite app_nil_r in E.
  exact (eq_trans (f_equal (fun x => content (fst x)) E) C).
Qed.

Lemma prefix_length {A} k (c : list A) : k < length c -> firstn k c <> c.
Proof. intros K E. apply (f_equal (@length A)) in E. rewrite firstn_length in E. lia. Qed.

(** The file that was there before is gone before anything of the new one is stored. *)
Lemma failing_neither f old : fst (write_to f) <> [] -> old <> [] ->
  exists p, fst (write_to_failing (mk_fault p None) f) <> old /\ fst (write_to_failing (mk_fault p None) f) <> fst (write_to f).
Proof.
  intros N O. destruct (failing_every f 0) as [p P]; [destruct (fst (write_to f)); [contradiction|cbn [length]; lia]|].
  exists p. rewrite P. cbn [firstn]. split; congruence.
Qed.
