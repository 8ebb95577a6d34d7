(** * Model of include/boost/astronomy/io/fits_stream.hpp.

    The std::fstream is its file content, its (joint) file position and the two state
    bits eofbit and failbit; badbit (hardware errors) is not modelled. The behaviour of
    read, peek, tellg, seekg and write is that of the C++11 standard. *)
From Verif Require Export CppModel.

Record stream : Type := mk_stream {
  content : str;
  pos : N;
  eofb : bool;
  failb : bool
}.

Definition good (s : stream) : bool := negb (eofb s) && negb (failb s).

(** fits_stream.hpp:32-39, a file that exists and has the given content. *)
Definition open_stream (c : str) : stream := mk_stream c 0 false false.

(** fits_stream.hpp:45-50, create_file: truncated, position 0. *)
Definition create_stream : stream := mk_stream [] 0 false false.

Definition remaining (s : stream) : str := skipn (N.to_nat (pos s)) (content s).

(** fits_stream.hpp:111-115. A short read keeps the blanks the buffer was filled with and
    sets eofbit and failbit; on a stream that is not good nothing is read and failbit is
    set. The construction of the buffer throws for impossible sizes. *)
Definition stream_read (n : N) (s : stream) : outcome str * stream :=
  if (max_size <? n)%N then (Throw LengthError, s)
  else if good s then
    let r := remaining s in
    if (n <=? N.of_nat (length r))%N then
      (Ret (firstn (N.to_nat n) r), mk_stream (content s) (pos s + n) false false)
    else
      (Ret (r ++ spaces (N.to_nat n - length r)),
       mk_stream (content s) (N.max (pos s) (N.of_nat (length (content s)))) true true)
  else (Ret (spaces (N.to_nat n)), mk_stream (content s) (pos s) (eofb s) true).

(** fits_stream.hpp:71-76. *)
Definition stream_get (s : stream) : ascii * stream :=
  if good s then
    match remaining s with
    | c :: _ => (c, mk_stream (content s) (pos s + 1) false false)
    | [] => (zero, mk_stream (content s) (pos s) true true)
    end
  else ((if eofb s then zero else ascii_of_N 255), mk_stream (content s) (pos s) (eofb s) true).

(** fits_stream.hpp:120-123: peek, then eof(). On a stream that is not good peek only sets
    failbit. *)
Definition at_end (s : stream) : bool * stream :=
  if good s then
    match remaining s with
    | _ :: _ => (false, s)
    | [] => (true, mk_stream (content s) (pos s) true false)
    end
  else (eofb s, mk_stream (content s) (pos s) (eofb s) true).

(** fits_stream.hpp:81-83: tellg is -1 on a stream that is not good. *)
Definition get_current_pos (s : stream) : N * stream :=
  if good s then (pos s, s)
  else (npos, mk_stream (content s) (pos s) (eofb s) true).

(** fits_stream.hpp:64-66: seekg clears eofbit and moves unless failbit is set; a position
    of 2^63 or more is negative as a stream offset and fails. *)
Definition set_reading_pos (p : N) (s : stream) : stream :=
  if failb s then mk_stream (content s) (pos s) false true
  else if (max_size <? p)%N then mk_stream (content s) (pos s) false true
  else mk_stream (content s) p false false.

(** fits_stream.hpp:147-154. *)
Definition unit_end (cur : N) : N := ((cur + (2880 - cur mod 2880)) mod two64)%N.

Definition find_unit_end (s : stream) : N * stream :=
  let (p, s') := get_current_pos s in (unit_end p, s').

(** fits_stream.hpp:140-142. *)
Definition set_unit_end (s : stream) : stream :=
  let (e, s') := find_unit_end s in set_reading_pos e s'.

(** Overwriting the bytes at a position; a gap beyond the end of the file reads as zero
    bytes. Writing nothing does not change the file, wherever the position is. *)
Definition overwrite (c : str) (p : nat) (d : str) : str :=
  match d with
  | [] => c
  | _ => firstn p c ++ repeat zero (p - length c) ++ d ++ skipn (p + length d) c
  end.

(** fits_stream.hpp:89-92. *)
Definition stream_write (d : str) (s : stream) : stream :=
  if good s then
    mk_stream (overwrite (content s) (N.to_nat (pos s)) d)
              (pos s + N.of_nat (length d)) false false
  else s.

(** fits_stream.hpp:99-105, write(data, position): seekp fails for an offset of 2^63 or more, moves the joint position
    unless failbit is set, and does not clear eofbit; the result is good(). The file is open for writing
    (create_file()). *)
Definition set_writing_pos (p : N) (s : stream) : stream :=
  if failb s then s
  else if (max_size <? p)%N then mk_stream (content s) (pos s) (eofb s) true
  else mk_stream (content s) p (eofb s) false.
Definition stream_write_at (d : str) (p : N) (s : stream) : bool * stream :=
  let s1 := stream_write d (set_writing_pos p s) in (good s1, s1).

(** The padding that every writer of the library appends (header.hpp:142-145,
    primary_hdu.hpp:95-97, ascii_table.hpp, binary_table.hpp): blanks from the current
    position to the end of the unit. *)
Definition write_padding (s : stream) : stream :=
  let (p, s1) := get_current_pos s in
  let (e, s2) := find_unit_end s1 in
  stream_write (spaces (N.to_nat (sub64 e p))) s2.
