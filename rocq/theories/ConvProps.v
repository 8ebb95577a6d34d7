(** * Property theorems about the binary converter (C23 - C25, C83). *)
From Verif Require Import ConvProofs.

(** ** C23 *)

Theorem C23_single_roundtrip : forall t x, t <> EI8 -> has_type t x ->
  bin_deserialize t (bin_serialize t x) = Ret x /\ length (bin_serialize t x) = elem_size t.
Proof. intros t x H1 H2. split; [exact (single_roundtrip t x H1 H2)|exact (bin_serialize_length t x H2)]. Qed.
Print Assumptions C23_single_roundtrip.

Theorem C23_big_endian_bytes : forall t w i, i < word_size t ->
  nth_error (bin_serialize t (XNum w)) i = Some (ascii_of_N (be_byte (word_size t) i w)).
Proof. intros t w i H. exact (be_bytes_nth (word_size t) i w H). Qed.
Print Assumptions C23_big_endian_bytes.

(** Every field of the right size is some number, and it is written back unchanged. *)
Theorem C23_bytes_roundtrip : forall t s, In t [EI16; EI32; EF32; EF64] -> length s = word_size t ->
  bin_deserialize t s = Ret (XNum (big_endian s)) /\ bin_serialize t (XNum (big_endian s)) = s.
Proof. intros t s. rewrite <- be_val_big_endian. exact (numeric_decode t s). Qed.
Print Assumptions C23_bytes_roundtrip.

Theorem C23_signed_integers : forall t z, In t [EI16; EI32] -> signed_range (word_size t) z ->
  exists w, bin_deserialize t (bin_serialize t (XNum (pattern_of (word_size t) z))) = Ret (XNum w) /\
            signed_of (word_size t) w = z.
Proof.
  intros t z Ht Hz. exists (pattern_of (word_size t) z). split.
  - apply single_roundtrip; [intros ->; cbn in Ht; intuition discriminate|].
    cbn in Ht. destruct Ht as [<-|[<-|[]]]; apply pattern_lt.
  - apply signed_pattern; [|exact Hz]. cbn in Ht. destruct Ht as [<-|[<-|[]]]; cbn; lia.
Qed.
Print Assumptions C23_signed_integers.

Example C23_case :
  has_type EF64 (XNum 9221120237041090561) /\ (* a NaN with payload *)
  bin_serialize EI16 (XNum (pattern_of 2 (-2))) = [ascii_of_N 255; ascii_of_N 254] /\
  signed_range 2 (-32768).
Proof. vm_compute. intuition discriminate. Qed.

(** ** C24 *)

Theorem C24_numeric_vectors : forall t l, In t [EI16; EI32; EF32; EF64] -> Forall (has_type t) l ->
  bin_deserialize_vec t (bin_serialize_vec t l) (length l) = Ret l.
Proof. exact numeric_vec_roundtrip. Qed.
Print Assumptions C24_numeric_vectors.

Theorem C24_byte_vectors : forall l, Forall (has_type EByte) l ->
  bin_deserialize_vec EByte (bin_serialize_vec EByte l) (length l) = Ret l.
Proof. exact byte_vec_roundtrip. Qed.
Print Assumptions C24_byte_vectors.

Theorem C24_bool_vectors : forall l n, Forall (has_type EBool) l ->
  bin_deserialize_vec EBool (bin_serialize_vec EBool l) n = Ret l.
Proof. exact bool_vec_roundtrip. Qed.
Print Assumptions C24_bool_vectors.

Theorem C24_size : forall t l, Forall (has_type t) l ->
  length (bin_serialize_vec t l) = length l * elem_size t.
Proof. exact bin_serialize_vec_length. Qed.
Print Assumptions C24_size.

Example C24_case : Forall (has_type EI32) [XNum 1; XNum 4294967295; XNum 32].
Proof. repeat constructor. Qed.

(** ** C25 *)

Theorem C25_complex_vectors : forall t l, In t [EC32; EC64] -> Forall (has_type t) l ->
  bin_deserialize_vec t (bin_serialize_vec t l) (length l) = Ret l.
Proof. exact complex_vec_roundtrip. Qed.
Print Assumptions C25_complex_vectors.

Theorem C25_single_complex_and_pair : forall t x, In t [EC32; EC64; EPair] -> has_type t x ->
  bin_deserialize t (bin_serialize t x) = Ret x.
Proof.
  intros t x Ht. apply single_roundtrip. intros ->. cbn in Ht. intuition discriminate.
Qed.
Print Assumptions C25_single_complex_and_pair.

(** A vector of descriptors comes back only if all its words but the first are the same. *)
Theorem C25_pair_vectors_exact : forall l, Forall (has_type EPair) l ->
  (bin_deserialize_vec EPair (bin_serialize_vec EPair l) (length l) = Ret l <->
   length l <= 1 \/ forall w, In w (tl (parts l)) -> nth_error (parts l) 1 = Some w).
Proof. exact pair_vec_exact. Qed.
Print Assumptions C25_pair_vectors_exact.

Theorem C25_pair_vector_roundtrip_refuted :
  exists l, Forall (has_type EPair) l /\
    bin_deserialize_vec EPair (bin_serialize_vec EPair l) (length l) = Ret [XTwo 3 0; XTwo 0 5].
Proof. exists [XTwo 3 0; XTwo 5 12]. split; [repeat constructor|vm_compute; reflexivity]. Qed.
Print Assumptions C25_pair_vector_roundtrip_refuted.

Example C25_case : Forall (has_type EPair) [XTwo 3 7; XTwo 7 7] /\ Forall (has_type EC64) [XTwo 1 2; XTwo 3 4].
Proof. repeat constructor. Qed.

(** ** C83 *)

Theorem C83_single : forall t s, t <> EI8 -> elem_size t <= length s -> (t = EByte -> length s = 1) ->
  bin_deserialize t s = Ret (element_of t s 0).
Proof. exact single_any. Qed.
Print Assumptions C83_single.

Theorem C83_vector : forall t s n, ~ In t [EI8; EBool; EPair] -> n * elem_size t <= length s ->
  bin_deserialize_vec t s n = Ret (map (element_of t s) (seq 0 n)).
Proof. exact vector_any. Qed.
Print Assumptions C83_vector.

(** The count is ignored for bool. *)
Theorem C83_bool_vector : forall s n, bin_deserialize_vec EBool s n = Ret (map (element_of EBool s) (seq 0 (length s))).
Proof. exact bool_vector_any. Qed.
Print Assumptions C83_bool_vector.

(** Descriptors overlap: each begins four bytes, not eight, after the one before. *)
Theorem C83_pair_vector : forall s n, n * 4 + 4 <= length s ->
  bin_deserialize_vec EPair s n = Ret (map (fun i => XTwo (number_at s (i * 4) 4) (number_at s (i * 4 + 4) 4)) (seq 0 n)).
Proof. exact pair_vector_any. Qed.
Print Assumptions C83_pair_vector.

Theorem C83_too_short : forall t s n, ~ In t [EI8; EBool; EPair; EByte] -> 0 < n -> length s + 1 < n * elem_size t ->
  bin_deserialize_vec t s n = Undef.
Proof. exact vector_short. Qed.
Print Assumptions C83_too_short.

(** A field that is one byte short is completed by a zero byte. *)
Theorem C83_short_by_one : forall t s n, In t [EI16; EI32; EF32; EF64; EC32; EC64] -> length s + 1 = n * elem_size t ->
  bin_deserialize_vec t s n = Ret (map (element_of t (s ++ [zero])) (seq 0 n)).
Proof. exact vector_short_by_one. Qed.
Print Assumptions C83_short_by_one.

Theorem C83_short_refuted : bin_deserialize_vec EI16 (lit "abc") 2 = Ret [XNum 24930; XNum 25344] /\
  bin_deserialize_vec EI16 (lit "ab") 2 = Undef /\ bin_deserialize_vec EBool (lit "TxF") 1 = Ret [XBool true; XBool false; XBool false].
Proof. vm_compute. auto. Qed.
Print Assumptions C83_short_refuted.

Example C83_case : element_of EI16 (lit "abcd") 1 = XNum 25444 /\ element_of EC32 (lit "abcdefgh") 0 = XTwo 1633837924 1701209960 /\
  1 * elem_size EC32 <= length (lit "abcdefghi").
Proof. vm_compute. repeat split. repeat constructor. Qed.
