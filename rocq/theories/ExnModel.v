(** * Model of include/boost/astronomy/exception/fits_exception.hpp: what a handler for the library's exceptions catches. *)
From Verif Require Export AccessModel ViewModel.

(** fits_exception.hpp:20-27, 38-45, 47-56, 94-101, 102-110, 111-121: the classes that derive from fits_exception. std::out_of_range,
    std::length_error, boost::bad_get and boost::bad_lexical_cast do not. *)
Definition is_fits_exception (e : exn) : bool :=
  match e with
  | InvalidCard | InvalidCast | FitsException | FileReading | ColumnNotFound | InvalidColumnFormat => true
  | OutOfRange | LengthError | BadGet | BadLexicalCast => false
  end.

(** try { .. } catch (fits_exception const&) { recover }. *)
Definition catching_fits {A : Type} (o : outcome A) (recover : A) : outcome A :=
  match o with
  | Throw e => if is_fits_exception e then Ret recover else Throw e
  | _ => o
  end.
