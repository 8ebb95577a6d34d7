(** * Model of the HDU objects and of the reader and writer of whole files.

    include/boost/astronomy/io/primary_hdu.hpp
    include/boost/astronomy/io/image_extension.hpp
    include/boost/astronomy/io/extension_hdu.hpp
    include/boost/astronomy/io/default_hdus.hpp
    include/boost/astronomy/io/fits_reader.hpp
    include/boost/astronomy/io/fits.hpp *)
From Verif Require Export TableModel ImageModel.

(** ** Primary HDU and image extension *)

(** primary_hdu.hpp:32-46. The variant holds the image of type [p_kind]. *)
Record primary : Type := mk_primary {
  p_header : header;
  p_kind : bitpix;
  p_image : image;
  p_simple : bool;
  p_extend : bool
}.

Definition of_bool (v : cval) : outcome bool := match v with VBool b => Ret b | _ => Undef end.
Definition value_bool (fc : fcodec) (key : str) : hdo bool := do v <- value_of fc TBool key in hlift (of_bool v).

(** header.bitpix(): the member is uninitialised before a successful read_header. *)
Definition get_bitpix (h : header) : outcome bitpix :=
  match h_bitpix h with Some b => Ret b | None => Undef end.

(** primary_hdu.hpp:59-65, 125-156. *)
Definition make_primary (fc : fcodec) (h : header) (buf : str) : outcome primary :=
  let! b := get_bitpix h in
  let! im := read_image b buf empty_image in
  match (do s <- value_bool fc (lit "SIMPLE") in do e <- value_bool fc (lit "EXTEND") in hret (s, e)) h with
  | (h1, Ret (s, e)) => Ret (mk_primary h1 b im s e)
  | (_, Throw e) => Throw e
  | (_, Undef) => Undef
  | (_, NoFuel) => NoFuel
  end.

(** primary_hdu.hpp:81: get_data<DT>() dereferences a null pointer if the image is of another type. *)
Definition primary_data (b : bitpix) (p : primary) : outcome image :=
  match b, p_kind p with
  | B8, B8 | B16, B16 | B32, B32 | F32, F32 | F64, F64 => Ret (p_image p)
  | _, _ => Undef
  end.

(** What every write_to() does: header, data, padding (primary_hdu.hpp:89-98,
    image_extension.hpp:80-89). *)
Definition write_unit (h : header) (data : str) (s : stream) : stream :=
  write_padding (stream_write data (write_header h s)).

Definition primary_write (p : primary) (s : stream) : stream :=
  write_unit (p_header p) (write_image (p_kind p) (p_image p)) s.

(** image_extension.hpp:28-45. *)
Record image_ext : Type := mk_image_ext { x_header : header; x_kind : bitpix; x_image : image }.

(** image_extension.hpp:51-54, 96-126 and extension_hdu.hpp:48-62; the pixel type is that of the
    argument, whose BITPIX is that of the copy. *)
Definition make_image_ext (fc : fcodec) (h : header) (buf : str) : outcome image_ext :=
  match (do g <- value_of fc TInt (lit "GCOUNT") in
         do p <- value_of fc TInt (lit "PCOUNT") in
         do e <- value_of fc TStr (lit "EXTNAME") in hret tt) h with
  | (h1, Ret _) =>
      let! b := get_bitpix h in
      let! im := read_image b buf empty_image in
      Ret (mk_image_ext h1 b im)
  | (_, Throw e) => Throw e
  | (_, Undef) => Undef
  | (_, NoFuel) => NoFuel
  end.

Definition image_ext_write (x : image_ext) (s : stream) : stream :=
  write_unit (x_header x) (write_image (x_kind x) (x_image x)) s.

(** ** default_hdus.hpp *)

(** default_hdus.hpp:60-66: boost::blank, primary, binary table, ASCII table. *)
Inductive hdu : Type :=
| HBlank
| HPrimary (p : primary)
| HBinary (t : table)
| HAscii (t : table).

(** default_hdus.hpp:93-98. *)
Definition make_extension (fc : fcodec) (h : header) (buf : str) : outcome hdu :=
  match value_str fc (lit "XTENSION") h with
  | (h1, Ret x) =>
      if str_eqb x (lit "TABLE") then let! t := ascii_table fc h1 buf in Ret (HAscii t)
      else if str_eqb x (lit "BINTABLE") then let! t := binary_table fc h1 buf in Ret (HBinary t)
      else Ret HBlank
  | (_, Throw e) => Throw e
  | (_, Undef) => Undef
  | (_, NoFuel) => NoFuel
  end.

(** default_hdus.hpp:77-86, 105-109. *)
Definition construct_hdu (fc : fcodec) (h : header) (buf : str) : outcome hdu :=
  if contains_keyword (lit "SIMPLE") h then let! p := make_primary fc h buf in Ret (HPrimary p)
  else make_extension fc h buf.

(** default_hdus.hpp:28-51. *)
Definition write_hdu (x : hdu) (s : stream) : stream * outcome unit :=
  match x with
  | HBlank => (s, Ret tt)
  | HPrimary p => (primary_write p s, Ret tt)
  | HBinary t => (bin_write t s, Ret tt)
  | HAscii t => ascii_write t s
  end.

(** ** fits_reader.hpp *)

(** fits_reader.hpp:25-34; read_status is always false. *)
Record hdu_info : Type := mk_info { header_location : N; data_location : N; hdu_index : nat }.

(** fits_reader.hpp:60-66. *)
Record fits : Type := mk_fits {
  f_stream : stream;
  f_hdus : list hdu;
  f_info : list (str * hdu_info)
}.

(** fits_reader.hpp:75-85, opening an existing file with the given content. *)
Definition open_fits (c : str) : fits := mk_fits (open_stream c) [] [].

(** fits_reader.hpp:81-85 for an object that was used before: the HDU list stays. *)
Definition initialize (c : str) (f : fits) : fits := mk_fits (open_stream c) (f_hdus f) [].

(** fits_reader.hpp:180-185. *)
Definition extract_header (fc : fcodec) (hfuel : nat) (s : stream) : stream * outcome header :=
  match read_header fc hfuel s fresh_header with
  | (s1, h, Ret _) => (set_unit_end s1, Ret h)
  | (s1, _, Throw e) => (s1, Throw e)
  | (s1, _, Undef) => (s1, Undef)
  | (s1, _, NoFuel) => (s1, NoFuel)
  end.

(** data_size() * element_size: the product of two size_t. *)
Definition data_bytes (h : header) : outcome N :=
  let! b := get_bitpix h in Ret (mul64 (data_size h) (element_size b)).

(** fits_reader.hpp:191-202. *)
Definition extract_data (h : header) (s : stream) : stream * outcome str :=
  if (data_size h =? 0)%N then (s, Ret [])
  else match data_bytes h with
       | Ret n => match stream_read n s with
                  | (Ret d, s1) => (set_unit_end s1, Ret d)
                  | (r, s1) => (s1, r)
                  end
       | Throw e => (s, Throw e)
       | Undef => (s, Undef)
       | NoFuel => (s, NoFuel)
       end.

(** hdus_info[name] = info(..). *)
Definition record_info (name : str) (hl dl : N) (f : fits) : fits :=
  mk_fits (f_stream f) (f_hdus f) (map_set name (mk_info hl dl (length (f_hdus f))) (f_info f)).
Definition at_stream (s : stream) (f : fits) : fits := mk_fits s (f_hdus f) (f_info f).
Definition push_hdu (x : hdu) (f : fits) : fits := mk_fits (f_stream f) (f_hdus f ++ [x]) (f_info f).

(** fits_reader.hpp:118-126, one turn of the loop. *)
Definition read_hdu (fc : fcodec) (hfuel : nat) (f : fits) : fits * outcome unit :=
  let (hl, s1) := get_current_pos (f_stream f) in
  match extract_header fc hfuel s1 with
  | (s2, Ret h) =>
      let (dl, s3) := get_current_pos s2 in
      match extract_data h s3 with
      | (s4, Ret d) =>
          match get_hdu_name fc h with
          | (h1, Ret name) =>
              let f1 := record_info name hl dl (at_stream s4 f) in
              match construct_hdu fc h1 d with
              | Ret x => (push_hdu x f1, Ret tt)
              | Throw e => (f1, Throw e)
              | Undef => (f1, Undef)
              | NoFuel => (f1, NoFuel)
              end
          | (_, Throw e) => (at_stream s4 f, Throw e)
          | (_, Undef) => (at_stream s4 f, Undef)
          | (_, NoFuel) => (at_stream s4 f, NoFuel)
          end
      | (s4, Throw e) => (at_stream s4 f, Throw e)
      | (s4, Undef) => (at_stream s4 f, Undef)
      | (s4, NoFuel) => (at_stream s4 f, NoFuel)
      end
  | (s2, Throw e) => (at_stream s2 f, Throw e)
  | (s2, Undef) => (at_stream s2 f, Undef)
  | (s2, NoFuel) => (at_stream s2 f, NoFuel)
  end.

(** fits_reader.hpp:101-108: skipping the data. *)
Definition skip_data (h : header) (s : stream) : stream * outcome unit :=
  if (data_size h =? 0)%N then (s, Ret tt)
  else match data_bytes h with
       | Ret n => let (p, s1) := get_current_pos s in
                  (set_unit_end (set_reading_pos ((p + n) mod two64)%N s1), Ret tt)
       | Throw e => (s, Throw e)
       | Undef => (s, Undef)
       | NoFuel => (s, NoFuel)
       end.

(** fits_reader.hpp:91-109, one turn of the loop. *)
Definition read_hdu_header (fc : fcodec) (hfuel : nat) (f : fits) : fits * outcome unit :=
  let (hl, s1) := get_current_pos (f_stream f) in
  match extract_header fc hfuel s1 with
  | (s2, Ret h) =>
      match get_hdu_name fc h with
      | (h1, Ret name) =>
          let (dl, s3) := get_current_pos s2 in
          let f1 := record_info name hl dl (at_stream s3 f) in
          match construct_hdu fc h1 [] with
          | Ret x =>
              let (s4, r) := skip_data h1 s3 in (at_stream s4 (push_hdu x f1), r)
          | Throw e => (f1, Throw e)
          | Undef => (f1, Undef)
          | NoFuel => (f1, NoFuel)
          end
      | (_, Throw e) => (at_stream s2 f, Throw e)
      | (_, Undef) => (at_stream s2 f, Undef)
      | (_, NoFuel) => (at_stream s2 f, NoFuel)
      end
  | (s2, Throw e) => (at_stream s2 f, Throw e)
  | (s2, Undef) => (at_stream s2 f, Undef)
  | (s2, NoFuel) => (at_stream s2 f, NoFuel)
  end.

(** while (!file_reader.at_end()) { turn }, at most [fuel] turns; [hfuel] bounds the cards of each
    header. *)
Fixpoint read_loop (turn : fits -> fits * outcome unit) (fuel : nat) (f : fits) : fits * outcome unit :=
  match fuel with
  | O => (f, NoFuel)
  | S n =>
      let (e, s) := at_end (f_stream f) in
      if e then (at_stream s f, Ret tt)
      else match turn (at_stream s f) with
           | (f1, Ret _) => read_loop turn n f1
           | (f1, r) => (f1, r)
           end
  end.

(** fits_reader.hpp:117-127 and 90-110. *)
Definition read_entire_hdus (fc : fcodec) (hfuel fuel : nat) : fits -> fits * outcome unit :=
  read_loop (read_hdu fc hfuel) fuel.
Definition read_only_headers (fc : fcodec) (hfuel fuel : nat) : fits -> fits * outcome unit :=
  read_loop (read_hdu_header fc hfuel) fuel.

(** fits_reader.hpp:134-142: the file written so far, and whether an exception ended it. *)
Fixpoint write_hdus (l : list hdu) (s : stream) : stream * outcome unit :=
  match l with
  | [] => (s, Ret tt)
  | x :: r =>
      match write_hdu x s with
      | (s1, Ret _) => write_hdus r s1
      | (s1, e) => (s1, e)
      end
  end.
Definition write_to (f : fits) : str * outcome unit :=
  let (s, r) := write_hdus (f_hdus f) create_stream in (content s, r).

(** fits_reader.hpp:150-152: deque::at. *)
Definition hdu_at (i : nat) (f : fits) : outcome hdu :=
  match nth_error (f_hdus f) i with Some x => Ret x | None => Throw OutOfRange end.

(** fits_reader.hpp:157-159: map::at, then deque::operator[]. *)
Definition hdu_named (name : str) (f : fits) : outcome hdu :=
  match map_find name (f_info f) with
  | None => Throw OutOfRange
  | Some i => match nth_error (f_hdus f) (hdu_index i) with Some x => Ret x | None => Undef end
  end.

(** fits_reader.hpp:39-41. *)
Definition total_hdus (f : fits) : nat := length (f_info f).
