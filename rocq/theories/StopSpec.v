(** * How the reading of a file stops at a header that is refused. *)
From Coq Require Import String Ascii List Arith NArith.
Import ListNotations.
From Verif Require Import CppModel CardModel CardSpec StreamModel HeaderModel HeaderSpec TableSpec ReaderModel ReaderSpec CutSpec.
Open Scope list_scope.

(** The header at offset [q] is refused with [e] and record [n] of it, which is in the file, is the last that is read: END or one that is no card. *)
Definition refused (fc : fcodec) (c : str) (q n : nat) (e : exn) : Prop :=
  (forall k, k < n -> acceptable (record_at c q k) /\ ~ is_end_record (record_at c q k)) /\
  (is_end_record (record_at c q n) \/ ~ acceptable (record_at c q n)) /\
  q + 80 * S n <= length c /\
  exists fuel s h, n < fuel /\ read_header fc fuel (positioned c q) fresh_header = (s, h, Throw e).

(** The file is a sequence of headers, the data of which is skipped; each becomes an HDU of the given name. *)
Definition headers_as (fc : fcodec) (c : str) (us : list file_unit) (names : list str) (xs : list hdu) : Prop :=
  (exists e, heads_read fc c 0 us e /\ length c <= e) /\ length names = length xs /\
  Forall2 (fun u nx => becomes fc (u_header u) [] (fst nx) (snd nx)) us (combine names xs).
