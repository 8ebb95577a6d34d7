(** * What a user of cards relies on: an independent description.

    Nothing in this file refers to the code model except the type of values. *)
From Coq Require Import String Ascii List Arith NArith ZArith.
Import ListNotations.
From Verif Require Import CppModel CardModel.
Open Scope list_scope.

(** The FITS fixed record for a keyword, a value text and an optional comment:
    columns 1-8 keyword, 9-10 "= ", then the value text, then " /" and the comment if
    there is one, blanks up to column 80. *)
Definition record_body (key value comment : str) : str :=
  key ++ spaces (8 - length key) ++ lit "= " ++ value ++
  match comment with [] => [] | _ => lit " /" ++ comment end.

Definition record (key value comment : str) : str :=
  let b := record_body key value comment in b ++ spaces (80 - length b).

(** The record has room for the three texts. *)
Definition fits (key value comment : str) : Prop :=
  length key <= 8 /\ length (record_body key value comment) <= 80.

(** Representable values of each C++ type. *)
Definition int_range (bits z : Z) : Prop := (- 2 ^ (bits - 1) <= z < 2 ^ (bits - 1))%Z.

Definition representable (v : cval) : Prop :=
  match v with
  | VInt z => int_range 32 z
  | VLongLong z => int_range 64 z
  | VUInt n => (n < 2 ^ 32)%N
  | VSize n => (n < 2 ^ 64)%N
  | VFloat w => (w < 2 ^ 32)%N
  | VDouble w => (w < 2 ^ 64)%N
  | VCInt a b => int_range 32 a /\ int_range 32 b
  | VCFloat a b => (a < 2 ^ 32)%N /\ (b < 2 ^ 32)%N
  | VCDouble a b => (a < 2 ^ 64)%N /\ (b < 2 ^ 64)%N
  | VCSize a b => (a < 2 ^ 64)%N /\ (b < 2 ^ 64)%N
  | VBool _ | VStr _ => True
  end.

(** The value's type is one of the integer types. *)
Definition is_integer_value (v : cval) : Prop :=
  match v with VInt _ | VLongLong _ | VUInt _ | VSize _ => True | _ => False end.

(** No floating point part: its text does not depend on a codec. *)
Definition no_float (v : cval) : Prop :=
  match v with VFloat _ | VDouble _ | VCFloat _ _ | VCDouble _ _ => False | _ => True end.

(** The text does not contain the comment separator. *)
Definition slash_free (s : str) : Prop := ~ In "/"%char s.

(** No white space at either end: trimming changes nothing. *)
Definition no_outer_blanks (s : str) : Prop :=
  forall c, (exists r, s = c :: r) \/ (exists r, s = r ++ [c]) -> is_space c = false.

(** The strings that form an acceptable record. *)
Definition acceptable (s : str) : Prop :=
  8 <= length s <= 80 /\
  ((exists k r, length k = 8 /\ s = k ++ lit "= " ++ r)
   \/ In (trim (firstn 7 s)) [lit "COMMENT"; lit "HISTORY"; lit "END"]
   \/ (exists r, s = spaces 8 ++ r)).

(** A history of method calls on one card object. *)
Inductive card_op : Type :=
| OpValue (t : cty)
| OpSetValue (v : cval)
| OpCreate (key : str) (v : cval) (comment : str)
| OpCommentary (key value : str).

Definition is_set_value (o : card_op) : bool :=
  match o with OpSetValue _ => true | _ => false end.

Definition card_step (fc : fcodec) (c : card) (o : card_op) : card :=
  match o with
  | OpValue t => fst (value fc t c)
  | OpSetValue v => fst (set_value fc v c)
  | OpCreate k v cm => fst (create_card fc c k v cm)
  | OpCommentary k v => fst (create_commentary_card c k v)
  end.

Definition run_card (fc : fcodec) (c : card) (ops : list card_op) : card :=
  fold_left (card_step fc) ops c.
