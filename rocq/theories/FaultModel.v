(** * Model of writing a file on a device that may fail: the write path of header.hpp, primary_hdu.hpp,
      image_extension.hpp, binary_table.hpp, ascii_table.hpp and fits_reader.hpp once more, over a stream whose
      writes may be cut short (full disk, quota, input/output error) and whose buffer may not reach the disk. *)
From Verif Require Export AccessModel.

(** What the device does with the successive calls of std::fstream::write: [None], everything is taken; [Some m],
    only the first [m] bytes are, and badbit is set. Calls beyond the list succeed. *)
Definition plan : Type := list (option nat).

Definition fstream : Type := (stream * plan)%type.

(** fits_stream.hpp:89-92. badbit is represented by [failb]: nothing the writers call tells the two apart (tellg and
    write look at fail(), which is true for both). What write() returns is used by no caller. *)
Definition f_write (d : str) (fs : fstream) : bool * fstream :=
  let (s, p) := fs in
  if good s then
    match p with
    | Some m :: p' =>
        let s1 := stream_write (firstn m d) s in
        (false, (mk_stream (content s1) (pos s1) (eofb s1) true, p'))
    | None :: p' => (true, (stream_write d s, p'))
    | [] => (true, (stream_write d s, []))
    end
  else (false, fs).

(** fits_stream.hpp:81-83, 147-154. *)
Definition f_tell (fs : fstream) : N * fstream :=
  let (p, s') := get_current_pos (fst fs) in (p, (s', snd fs)).
Definition f_unit_end (fs : fstream) : N * fstream :=
  let (e, s') := find_unit_end (fst fs) in (e, (s', snd fs)).

(** header.hpp:142-145 and the like. *)
Definition f_write_padding (fs : fstream) : fstream :=
  let (p, s1) := f_tell fs in
  let (e, s2) := f_unit_end s1 in
  snd (f_write (spaces (N.to_nat (sub64 e p))) s2).

(** header.hpp:134-146. *)
Definition f_write_header (h : header) (fs : fstream) : fstream :=
  f_write_padding (snd (f_write (concat (map raw (h_cards h))) fs)).

(** primary_hdu.hpp:89-98, image_extension.hpp:80-89. *)
Definition f_write_unit (h : header) (data : str) (fs : fstream) : fstream :=
  f_write_padding (snd (f_write data (f_write_header h fs))).

(** binary_table.hpp:120-138. *)
Definition f_bin_write (t : table) (fs : fstream) : fstream :=
  f_write_padding (fold_left (fun fs row => snd (f_write (bin_row_text row) fs)) (t_data t) (f_write_header (t_header t) fs)).

(** ascii_table.hpp:144-163. *)
Fixpoint f_ascii_rows (cols : list column) (rows : list (list str)) (fs : fstream) : fstream * outcome unit :=
  match rows with
  | [] => (fs, Ret tt)
  | row :: rest =>
      match ascii_row_text cols row with
      | Ret x => f_ascii_rows cols rest (snd (f_write x fs))
      | Throw e => (fs, Throw e)
      | Undef => (fs, Undef)
      | NoFuel => (fs, NoFuel)
      end
  end.
Definition f_ascii_write (t : table) (fs : fstream) : fstream * outcome unit :=
  match f_ascii_rows (t_columns t) (t_data t) (f_write_header (t_header t) fs) with
  | (s1, Ret _) => (f_write_padding s1, Ret tt)
  | (s1, r) => (s1, r)
  end.

(** fits_reader.hpp:134-142 and the visitor it applies to each HDU (see [write_hdu]). *)
Definition f_write_hdu (x : hdu) (fs : fstream) : fstream * outcome unit :=
  match x with
  | HBlank => (fs, Ret tt)
  | HPrimary p => (f_write_unit (p_header p) (write_image (p_kind p) (p_image p)) fs, Ret tt)
  | HBinary t => (f_bin_write t fs, Ret tt)
  | HAscii t => f_ascii_write t fs
  end.
Fixpoint f_write_hdus (l : list hdu) (fs : fstream) : fstream * outcome unit :=
  match l with
  | [] => (fs, Ret tt)
  | x :: r =>
      match f_write_hdu x fs with
      | (s1, Ret _) => f_write_hdus r s1
      | (s1, e) => (s1, e)
      end
  end.

(** A failure: what the device does with each write, and how many bytes of the result reach the disk ([None], all;
    [Some k], the first [k]: the process or the machine stops before the buffer is flushed, or the flush in the
    destructor of the stream fails, which is not reported either). *)
Record fault : Type := mk_fault { verdicts : plan; flushed : option nat }.

(** fits_reader.hpp:134-142 on such a device: what the file then holds, and how the call ends. create_file() has
    truncated the file before the first write (fits_stream.hpp:45-50), so nothing depends on what it held. *)
Definition write_to_failing (fl : fault) (f : fits) : str * outcome unit :=
  let '(s, _, r) := f_write_hdus (f_hdus f) (create_stream, verdicts fl) in
  (match flushed fl with None => content s | Some k => firstn k (content s) end, r).
