(** * Numbers too long for the value field of a card. *)
From Coq Require Import String Ascii List NArith ZArith.
Import ListNotations.
From Verif Require Import CppModel CardModel.
Open Scope list_scope.

(** The texts of the numbers a value consists of. *)
Definition number_texts (fc : fcodec) (v : cval) : list str :=
  match v with
  | VBool _ | VStr _ => []
  | VInt z | VLongLong z => [show_Z z]
  | VUInt n | VSize n => [show_N n]
  | VFloat w => [f32_show fc w]
  | VDouble w => [f64_show fc w]
  | VCInt a b => [show_Z a; show_Z b]
  | VCSize a b => [show_N a; show_N b]
  | VCFloat a b => [f32_show fc a; f32_show fc b]
  | VCDouble a b => [f64_show fc a; f64_show fc b]
  end.

(** One of them is longer than the twenty columns of the field. *)
Definition too_wide (fc : fcodec) (v : cval) : Prop := exists t, In t (number_texts fc v) /\ 20 < length t.

(** The texts are of a size a string can have in practice. *)
Definition holdable (fc : fcodec) (v : cval) : Prop := forall t, In t (number_texts fc v) -> (N.of_nat (length t) < 2 ^ 62)%N.
