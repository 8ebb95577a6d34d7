(** * Specification of the exceptions that calls may let escape (C118). *)
From Verif Require Export ExnModel.

(** A call that throws nothing but what is on the list. *)
Definition throws_only {A : Type} (l : list exn) (o : outcome A) : Prop := forall e, o = Throw e -> In e l.

(** What can come out of read_header(). *)
Definition header_exceptions : list exn := [InvalidCard; InvalidCast; FitsException; LengthError; BadGet].

(** What can come out of reading a file that was opened. *)
Definition file_exceptions : list exn := header_exceptions ++ [OutOfRange; InvalidColumnFormat; BadLexicalCast].

(** The reading of a file, in either of the two ways. *)
Definition reading (o : reading_option) (fc : fcodec) (hf fuel : nat) (f : fits) : fits * outcome unit :=
  match o with ReadOnlyHeaders => read_only_headers fc hf fuel f | ReadEntireHdus => read_entire_hdus fc hf fuel f end.

(** What a program may have done with a reader object: opening files and reading them, any number of times and with any result. *)
Inductive used (fc : fcodec) : fits -> Prop :=
| used_new : used fc no_fits
| used_open file f : used fc f -> used fc (fst (initialize_path file f))
| used_read o hf fuel f : used fc f -> used fc (fst (reading o fc hf fuel f)).
