(** * Property theorems about writing on a device that fails (C112). *)
From Verif Require Import FaultProofs ReaderProps CutProps.
From Coq Require Import Lia.

(** Whatever the device does, the file that is left is the beginning of the file that should have been written. *)
Theorem C112_prefix : forall fl f, exists k, k <= length (fst (write_to f)) /\ fst (write_to_failing fl f) = firstn k (fst (write_to f)).
Proof. exact failing_prefix. Qed.
Print Assumptions C112_prefix.

(** The call ends as if nothing had happened. *)
Theorem C112_silent : forall fl f, snd (write_to_failing fl f) = snd (write_to f).
Proof. exact failing_silent. Qed.
Print Assumptions C112_silent.

(** On a device that takes everything it is write_to(). *)
Theorem C112_sound_device : forall f (p : plan), Forall (eq None) p -> write_to_failing (mk_fault p None) f = write_to f.
Proof. exact failing_not. Qed.
Print Assumptions C112_sound_device.

(** Every shorter length can be left by one failing write. *)
Theorem C112_every_length : forall f k, k < length (fst (write_to f)) ->
  exists p, fst (write_to_failing (mk_fault p None) f) = firstn k (fst (write_to f)).
Proof. exact failing_every. Qed.
Print Assumptions C112_every_length.

(** What can still be read of what is left are the first HDUs of what should have been written. *)
Theorem C112_read_back : forall fc fl f hf fuel g hf' fuel' g', small (fst (write_to f)) ->
  read_entire_hdus fc hf fuel (open_fits (fst (write_to f))) = (g, Ret tt) ->
  read_entire_hdus fc hf' fuel' (open_fits (fst (write_to_failing fl f))) = (g', Ret tt) ->
  exists j, f_hdus g' = firstn j (f_hdus g).
Proof.
  intros fc fl f hf fuel g hf' fuel' g' S R R'. destruct (failing_prefix fl f) as (k & _ & E). rewrite E in R'.
  exact (cut_prefix fc _ k hf fuel g hf' fuel' g' S R R').
Qed.
Print Assumptions C112_read_back.

(** Replacing a file is not all or nothing: there is a failure after which the file is neither what it was nor what it
    should be, although the call ends as usual. *)
Theorem C112_atomic_refuted : forall f old, fst (write_to f) <> [] -> old <> [] -> exists fl,
  fst (write_to_failing fl f) <> old /\ fst (write_to_failing fl f) <> fst (write_to f) /\ snd (write_to_failing fl f) = snd (write_to f).
Proof.
  intros f old N O. destruct (failing_neither f old N O) as (p & A & B). exists (mk_fault p None).
  split; [exact A|]. split; [exact B|apply failing_silent].
Qed.
Print Assumptions C112_atomic_refuted.

(** Three HDUs on a disk that has room for 8652 bytes, the end of the data of the second: the ninth write fails; two HDUs are
    read back, and the call returned normally. *)
Definition three_hdus : fits := mk_fits create_stream (objects_of three) [].
Example C112_case :
  N.of_nat (length (fst (write_to three_hdus))) = 17280%N /\ snd (write_to three_hdus) = Ret tt /\
  (let w := write_to_failing (mk_fault (repeat None 8 ++ [Some 0]) None) three_hdus in
   N.of_nat (length (fst w)) = 8652%N /\ snd w = Ret tt /\
   exists s m, read_entire_hdus fc0 20 4 (open_fits (fst w)) = (mk_fits s (firstn 2 (objects_of three)) m, Ret tt)).
Proof.
  split; [vm_compute; reflexivity|]. split; [vm_compute; reflexivity|].
  split; [vm_compute; reflexivity|]. split; [vm_compute; reflexivity|].
  destruct C84_case as (_ & (s & m & R) & _). exists s, m.
  assert (E : fst (write_to_failing (mk_fault (repeat None 8 ++ [Some 0]) None) three_hdus) = firstn (3 * 2880 + 12) three_file)
    by (vm_compute; reflexivity).
  cbv zeta. rewrite E. exact R.
Qed.
