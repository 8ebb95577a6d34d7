(** * Model of opening and creating files by path, and of access to the HDUs of a reader.

    include/boost/astronomy/io/fits_stream.hpp
    include/boost/astronomy/io/fits_reader.hpp
    include/boost/astronomy/io/fits.hpp

    A path is what is behind it: a file that can be opened has its content, [None] is a path that cannot be
    opened; for writing only whether the file can be created matters. *)
From Verif Require Export ReaderModel.

(** std::fstream::open() that fails: failbit is set, nothing is read or written (fits_stream.hpp:33-35, 46-48). *)
Definition failed_stream : stream := mk_stream [] 0 false true.

(** fits_stream.hpp:32-39. *)
Definition set_file (file : option str) : stream * outcome unit :=
  match file with
  | Some c => (open_stream c, Ret tt)
  | None => (failed_stream, Throw FileReading)
  end.

(** fits_stream.hpp:45-50. *)
Definition create_file (creatable : bool) : bool * stream :=
  let s := if creatable then create_stream else failed_stream in (good s, s).

(** fits_reader.hpp:81-85: the control block is cleared only after the file was opened. *)
Definition initialize_path (file : option str) (f : fits) : fits * outcome unit :=
  match set_file file with
  | (s, Ret _) => (mk_fits s (f_hdus f) [], Ret tt)
  | (s, r) => (at_stream s f, r)
  end.

(** fits_reader.hpp:134-142: what create_file() returned is not looked at. *)
Definition write_to_path (creatable : bool) (f : fits) : str * outcome unit :=
  let (ok, s) := create_file creatable in
  let (s', r) := write_hdus (f_hdus f) s in (content s', r).

(** fits_reader.hpp:69, 75-77: a reader without a file; its stream has no content and is not failed. *)
Definition no_fits : fits := mk_fits (mk_stream [] 0 false false) [] [].

(** fits.hpp:40-43. *)
Inductive reading_option := ReadOnlyHeaders | ReadEntireHdus.

(** fits.hpp:64-74. *)
Definition fits_open (fc : fcodec) (hf fuel : nat) (file : option str) (o : reading_option) : outcome fits :=
  match initialize_path file no_fits with
  | (f, Ret _) =>
      match (match o with ReadOnlyHeaders => read_only_headers fc hf fuel f | ReadEntireHdus => read_entire_hdus fc hf fuel f end) with
      | (f1, Ret _) => Ret f1
      | (_, Throw e) => Throw e
      | (_, Undef) => Undef
      | (_, NoFuel) => NoFuel
      end
  | (_, Throw e) => Throw e
  | (_, Undef) => Undef
  | (_, NoFuel) => NoFuel
  end.

(** fits_reader.hpp:150-152: the int is converted to size_t for deque::at. *)
Definition hdu_at_int (i : Z) (f : fits) : outcome hdu :=
  let n := Z.to_N (i mod 2 ^ 64) in
  if (n <? N.of_nat (length (f_hdus f)))%N then hdu_at (N.to_nat n) f else Throw OutOfRange.

(** fits.hpp:81-83: boost::get on the variant of default_hdus.hpp:60-66. *)
Definition as_primary (x : hdu) : outcome primary := match x with HPrimary p => Ret p | _ => Throw BadGet end.
Definition as_binary (x : hdu) : outcome table := match x with HBinary t => Ret t | _ => Throw BadGet end.
Definition as_ascii (x : hdu) : outcome table := match x with HAscii t => Ret t | _ => Throw BadGet end.
