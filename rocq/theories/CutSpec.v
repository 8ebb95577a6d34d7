(** * Which files can be read, and what is left of a file that was cut short. *)
From Coq Require Import String Ascii List Arith NArith.
Import ListNotations.
From Verif Require Import CppModel CardModel StreamModel HeaderModel HeaderSpec TableSpec ReaderModel ReaderSpec.
Open Scope list_scope.

(** A header at an offset and, from the next block on, as many bytes as the reader takes for its data: the
    product of the axes and the element size, modulo 2^64. *)
Inductive unit_read (fc : fcodec) (c : str) : file_unit -> nat -> Prop :=
| read_no_data p h :
    p < length c -> readable fc c p h -> data_size h = 0%N ->
    unit_read fc c (mk_unit p (next_block (p + header_bytes h)) h []) (next_block (p + header_bytes h))
| read_with_data p h b n :
    p < length c -> readable fc c p h -> h_bitpix h = Some b -> data_size h <> 0%N ->
    N.of_nat n = ((data_size h * element_size b) mod 2 ^ 64)%N ->
    (n = 0 \/ next_block (p + header_bytes h) + n <= length c) ->
    unit_read fc c (mk_unit p (next_block (p + header_bytes h)) h (slice c (next_block (p + header_bytes h)) n))
      (next_block (next_block (p + header_bytes h) + n)).

(** Consecutive units. *)
Inductive units_read (fc : fcodec) (c : str) : nat -> list file_unit -> nat -> Prop :=
| none_read p : units_read fc c p [] p
| one_read u us e e' : unit_read fc c u e -> units_read fc c e us e' -> units_read fc c (u_at u) (u :: us) e'.

(** The file from offset 0 to its end is such units, and each becomes an HDU of the given name. *)
Definition reads_as (fc : fcodec) (c : str) (us : list file_unit) (names : list str) (xs : list hdu) : Prop :=
  (exists e, units_read fc c 0 us e /\ length c <= e) /\ length names = length xs /\
  Forall2 (fun u nx => becomes fc (u_header u) (u_data u) (fst nx) (snd nx)) us (combine names xs).

(** Where the last byte of a unit that matters to the reader ends: its data, or its header if there is none. *)
Definition unit_last (u : file_unit) : nat :=
  match u_data u with
  | [] => u_at u + header_bytes (u_header u)
  | d => u_data_at u + length d
  end.

(** [k] bytes are left of a file: the first [j] units are there in full, and nothing of those after them. *)
Definition cut_between (us : list file_unit) (k j : nat) : Prop :=
  j <= length us /\ Forall (fun u => unit_last u <= k) (firstn j us) /\ Forall (fun u => k <= u_at u) (skipn j us).

(** For reading the headers only: a header at an offset, and the block in which the next one is looked for. The
    data is not looked at; its place is computed modulo 2^64. *)
Inductive head_read (fc : fcodec) (c : str) : file_unit -> nat -> Prop :=
| head_no_data p h :
    p < length c -> readable fc c p h -> data_size h = 0%N ->
    head_read fc c (mk_unit p (next_block (p + header_bytes h)) h []) (next_block (p + header_bytes h))
| head_with_data p h b r :
    p < length c -> readable fc c p h -> h_bitpix h = Some b -> data_size h <> 0%N ->
    N.of_nat r = ((N.of_nat (next_block (p + header_bytes h)) + data_size h * element_size b) mod 2 ^ 64)%N ->
    (N.of_nat (next_block r) < 2 ^ 63)%N ->
    head_read fc c (mk_unit p (next_block (p + header_bytes h)) h []) (next_block r).

Inductive heads_read (fc : fcodec) (c : str) : nat -> list file_unit -> nat -> Prop :=
| no_head p : heads_read fc c p [] p
| one_head u us e e' : head_read fc c u e -> heads_read fc c e us e' -> heads_read fc c (u_at u) (u :: us) e'.
