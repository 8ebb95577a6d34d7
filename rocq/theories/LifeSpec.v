(** * What a program may do with one reader object, from beginning to end. *)
From Coq Require Import List Arith NArith.
Import ListNotations.
From Verif Require Import CppModel ReaderModel AccessModel ReaderSpec ExnSpec.

(** A call: opening a path ([None] if it cannot be opened), or reading in one of the two ways. *)
Inductive call : Type := Open (file : option str) | Read (o : reading_option) (hf fuel : nat).

Definition run (fc : fcodec) (k : call) (f : fits) : fits * outcome unit :=
  match k with Open file => initialize_path file f | Read o hf fuel => reading o fc hf fuel f end.

(** The calls one after the other, each made however those before ended; the object at the end, and how each call ended. *)
Fixpoint life (fc : fcodec) (ks : list call) (f : fits) : fits * list (outcome unit) :=
  match ks with
  | [] => (f, [])
  | k :: ks' => let (f1, r) := run fc k f in let (f2, rs) := life fc ks' f1 in (f2, r :: rs)
  end.

(** No file was opened by the call. *)
Definition opens_nothing (k : call) : Prop := match k with Open (Some _) => False | _ => True end.

(** A reading call returned normally. *)
Definition read_well (k : call) (r : outcome unit) : Prop := match k with Read _ _ _ => r = Ret tt | Open _ => True end.

(** What write_to() writes of an object that holds nothing but the given HDU. *)
Definition alone (x : hdu) : str := fst (write_to (mk_fits (f_stream no_fits) [x] [])).
