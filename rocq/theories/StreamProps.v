(** * Property theorems about streams (C77, C78). *)
From Verif Require Import StreamProofs.

(** ** C77 *)

(** get() inside the file, at its end, and on a stream that failed without having noticed the end. *)
Theorem C77_get : forall s,
  (good s = true -> forall x, byte_at (content s) (N.to_nat (pos s)) = Some x ->
     stream_get s = (x, mk_stream (content s) (pos s + 1) false false)) /\
  (good s = true -> (N.of_nat (length (content s)) <= pos s)%N -> stream_get s = (zero, mk_stream (content s) (pos s) true true)) /\
  (eofb s = false -> failb s = true -> fst (stream_get s) = ascii_of_N 255).
Proof.
  intros s. split; [intros G x H; exact (stream_get_inside s x G H)|]. split; [exact (stream_get_end s)|].
  intros E F. unfold stream_get, good. rewrite E, F. reflexivity.
Qed.
Print Assumptions C77_get.

(** Character by character or all at once. *)
Theorem C77_gets_are_read : forall n s, good s = true -> (pos s + N.of_nat n <= N.of_nat (length (content s)))%N -> (N.of_nat n <= max_size)%N ->
  stream_read (N.of_nat n) s = (Ret (fst (gets n s)), snd (gets n s)).
Proof. exact gets_are_read. Qed.
Print Assumptions C77_gets_are_read.

Theorem C77_reads_compose : forall n m s, good s = true -> (pos s + n + m <= N.of_nat (length (content s)))%N -> (n + m <= max_size)%N ->
  exists a b s1 s2, stream_read n s = (Ret a, s1) /\ stream_read m s1 = (Ret b, s2) /\ stream_read (n + m) s = (Ret (a ++ b), s2) /\
    good s2 = true.
Proof. exact reads_compose. Qed.
Print Assumptions C77_reads_compose.

Theorem C77_at_end : forall s, good s = true ->
  fst (at_end s) = (N.of_nat (length (content s)) <=? pos s)%N /\ content (snd (at_end s)) = content s /\ pos (snd (at_end s)) = pos s /\
  failb (snd (at_end s)) = false.
Proof. exact at_end_spec. Qed.
Print Assumptions C77_at_end.

Theorem C77_seek_after_end : forall s p, good s = true -> (p <= max_size)%N ->
  set_reading_pos p (snd (at_end s)) = mk_stream (content s) p false false.
Proof. exact seek_after_end. Qed.
Print Assumptions C77_seek_after_end.

(** After a failed read no operation makes the stream usable again; only set_file() does. *)
Theorem C77_failed_forever : forall ops s, failb s = true ->
  let s' := fold_left (fun s o => stream_step o s) ops s in
  failb s' = true /\ content s' = content s /\ pos s' = pos s.
Proof. exact failed_forever. Qed.
Print Assumptions C77_failed_forever.

(** The result of get() does not tell the end of the file from a zero byte. *)
Theorem C77_end_or_zero_refuted : exists s t, good s = true /\ good t = true /\ fst (at_end s) = true /\ fst (at_end t) = false /\
  fst (stream_get s) = fst (stream_get t).
Proof. exists (open_stream []), (open_stream [zero]). repeat split. Qed.
Print Assumptions C77_end_or_zero_refuted.

Example C77_case : gets 3 (mk_stream (lit "abcdef") 2 false false) = (lit "cde", mk_stream (lit "abcdef") 5 false false) /\
  failb (snd (stream_read 9 (open_stream (lit "abc")))) = true.
Proof. split; reflexivity. Qed.

(** ** C78 *)

(** write(data, position): which bytes the file has afterwards. *)
Theorem C78_bytes : forall d p s, good s = true -> (p <= max_size)%N -> d <> [] ->
  exists s', stream_write_at d p s = (true, s') /\ good s' = true /\ pos s' = (p + N.of_nat (length d))%N /\
  length (content s') = Nat.max (length (content s)) (N.to_nat p + length d) /\
  forall i, byte_at (content s') i =
    if (N.to_nat p <=? i) && (i <? N.to_nat p + length d) then byte_at d (i - N.to_nat p)
    else if i <? length (content s) then byte_at (content s) i
    else if i <? N.to_nat p then Some zero else None.
Proof.
  intros d p s G B D. eexists. split; [apply write_at_ok; assumption|]. split; [reflexivity|]. split; [reflexivity|]. cbn [content].
  split; [apply overwrite_length; exact D|]. intros i. apply overwrite_bytes. exact D.
Qed.
Print Assumptions C78_bytes.

Theorem C78_nothing_written : forall p s, good s = true -> (p <= max_size)%N ->
  stream_write_at [] p s = (true, mk_stream (content s) p false false).
Proof. intros p s G B. rewrite write_at_ok by assumption. cbn [length overwrite]. rewrite N.add_0_r. reflexivity. Qed.
Print Assumptions C78_nothing_written.

Theorem C78_read_back : forall d p s, good s = true -> (p <= max_size)%N -> (N.of_nat (length d) <= max_size)%N ->
  fst (stream_read (N.of_nat (length d)) (set_reading_pos p (snd (stream_write_at d p s)))) = Ret d.
Proof. exact read_back. Qed.
Print Assumptions C78_read_back.

Theorem C78_failure : forall d p s, good s = false \/ (max_size < p)%N ->
  fst (stream_write_at d p s) = false /\ content (snd (stream_write_at d p s)) = content s /\ good (snd (stream_write_at d p s)) = false.
Proof. exact write_at_bad. Qed.
Print Assumptions C78_failure.

Theorem C78_writes_compose : forall a b s, good s = true -> stream_write b (stream_write a s) = stream_write (a ++ b) s.
Proof. exact writes_compose. Qed.
Print Assumptions C78_writes_compose.

(** After at_end() has noticed the end of the file nothing can be written, even at an earlier position. *)
Theorem C78_write_after_end_refuted : exists s d, good s = true /\ fst (at_end s) = true /\
  fst (stream_write_at d 0 (snd (at_end s))) = false /\ fst (stream_write_at d 0 s) = true.
Proof. exists (mk_stream (lit "abc") 3 false false), (lit "x"). repeat split. Qed.
Print Assumptions C78_write_after_end_refuted.

Example C78_case : content (snd (stream_write_at (lit "XY") 1 (open_stream (lit "abcd")))) = lit "aXYd" /\
  content (snd (stream_write_at (lit "X") 3 (open_stream (lit "a")))) = lit "a" ++ [zero; zero] ++ lit "X".
Proof. split; reflexivity. Qed.
