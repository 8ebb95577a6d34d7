(** * What a user of set_data() relies on. *)
From Verif Require Import CppModel.

(** How a call ended, without what it returned. *)
Definition ending {A : Type} (o : outcome A) : outcome unit :=
  match o with Ret _ => Ret tt | Throw e => Throw e | Undef => Undef | NoFuel => NoFuel end.
