(** * What a user of fits_stream relies on. *)
From Coq Require Import String Ascii List Arith NArith.
Import ListNotations.
From Verif Require Import CppModel StreamModel.
Open Scope list_scope.

(** [n] calls of get(). *)
Fixpoint gets (n : nat) (s : stream) : str * stream :=
  match n with
  | O => ([], s)
  | S m => let (c, s1) := stream_get s in let (r, s2) := gets m s1 in (c :: r, s2)
  end.

(** A file, as a function from offsets to bytes: none at or beyond its length. *)
Definition byte_at (c : str) (i : nat) : option ascii := nth_error c i.

(** What a user does with a stream. *)
Inductive stream_op : Type :=
| ORead (n : N)
| OGet
| OAtEnd
| OPos
| OSeek (p : N)
| OUnitEnd.
Definition stream_step (o : stream_op) (s : stream) : stream :=
  match o with
  | ORead n => snd (stream_read n s)
  | OGet => snd (stream_get s)
  | OAtEnd => snd (at_end s)
  | OPos => snd (get_current_pos s)
  | OSeek p => set_reading_pos p s
  | OUnitEnd => set_unit_end s
  end.
