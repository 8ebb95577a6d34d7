(** * Files whose parts need not be of a kind that the library reads. *)
From Coq Require Import String Ascii List Arith NArith.
Import ListNotations.
From Verif Require Import CppModel CardModel HeaderModel HeaderSpec ImageModel ReaderModel WholeSpec CopySpec.
Open Scope list_scope.

(** A part of a file: an image or table as before; an image of bytes (BITPIX 8), with data; an extension of another kind, such as IMAGE. *)
Inductive part : Type :=
| Known (u : stored)
| Bytes (axes : list N) (rs : list str) (d : str) (fill : ascii)
| Other (kind : str) (b : bitpix) (axes : list N) (rs : list str) (d : str) (fill : ascii).

Definition part_records (p : part) : list str := match p with Known u => s_records u | Bytes _ rs _ _ | Other _ _ _ rs _ _ => rs end.
Definition part_data (p : part) : str := match p with Known u => s_data u | Bytes _ _ d _ | Other _ _ _ _ d _ => d end.
Definition part_fill (p : part) : ascii := match p with Known u => s_fill u | Bytes _ _ _ fill | Other _ _ _ _ _ fill => fill end.
Definition part_bytes (p : part) : str := blocked sp (concat (part_records p)) ++ blocked (part_fill p) (part_data p).
Definition part_name (p : part) : str :=
  match p with Known u => content_name (s_content u) | Bytes _ _ _ _ => lit "primary_hdu" | Other kind _ _ _ _ _ => kind end.

(** Neither the header nor the data (if there is any) ends with a block. *)
Definition part_header_inside (p : part) : Prop := length (concat (part_records p)) mod 2880 <> 0.
Definition part_tidy (p : part) : Prop := part_header_inside p /\ (part_data p = [] \/ length (part_data p) mod 2880 <> 0).

(** The records: of an extension of another kind XTENSION, BITPIX, the axes, and any others; as much data as they say. *)
Definition bytes_ok (axes : list N) (rs : list str) (d : str) : Prop :=
  header_records rs /\ missing rs (lit "XTENSION") /\ says_logical rs (lit "SIMPLE") true /\ (exists e, says_logical rs (lit "EXTEND") e) /\
  shape B8 axes rs /\ Forall (fun v => (v < 2 ^ 64)%N) axes /\ (N.of_nat (length axes) < 2 ^ 60)%N /\
  N.of_nat (length d) = (match axes with [] => 0 | _ => product axes end)%N.
Definition other_ok (kind : str) (b : bitpix) (axes : list N) (rs : list str) (d : str) : Prop :=
  header_records rs /\ missing rs (lit "SIMPLE") /\ says_text rs (lit "XTENSION") kind /\ kind <> lit "TABLE" /\ kind <> lit "BINTABLE" /\
  shape b axes rs /\ Forall (fun v => (v < 2 ^ 64)%N) axes /\ (N.of_nat (length axes) < 2 ^ 60)%N /\
  N.of_nat (length d) = ((match axes with [] => 0 | _ => product axes end) * element_size b)%N.
Definition part_ok (fc : fcodec) (p : part) : Prop :=
  match p with
  | Known u => encodes fc (s_content u) (s_records u) (s_data u)
  | Bytes axes rs d _ => bytes_ok axes rs d
  | Other kind b axes rs d _ => other_ok kind b axes rs d
  end.

(** The object made of it: an image of bytes gets as many zeros; nothing is kept of an extension of another kind. *)
Definition part_is (p : part) (o : hdu) : Prop :=
  match p with
  | Known u => contains (s_content u) o
  | Bytes axes _ d _ => contains (Image B8 axes (repeat 0%N (length d))) o
  | Other _ _ _ _ _ _ => o = HBlank
  end.

(** What is written again. *)
Definition part_copied (p : part) : str :=
  match p with Known u => copied u | Bytes _ rs d _ => written_unit rs (repeat zero (length d)) | Other _ _ _ _ _ _ => [] end.

(** ** Headers only *)

(** The same columns or axes, but no data. *)
Definition emptied (x : contents) : contents :=
  match x with
  | Image b axes _ => Image b axes []
  | Cells cols _ => Cells cols []
  | Lines cols line _ => Lines cols line []
  end.
Definition head_is (p : part) (o : hdu) : Prop :=
  match p with
  | Known u => contains (emptied (s_content u)) o
  | Bytes axes _ _ _ => contains (Image B8 axes []) o
  | Other _ _ _ _ _ _ => o = HBlank
  end.

(** What is written of a unit without its data: the header, and a block of blanks in the place of the data. *)
Definition bare (p : part) : str := match p with Other _ _ _ _ _ _ => [] | _ => written_unit (part_records p) [] end.
