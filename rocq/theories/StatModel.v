(** * Mean and standard deviation of image.hpp, over the real numbers.

    The code accumulates in double; here the sums are exact. *)
From Coq Require Import Reals List.
Import ListNotations.
Local Open Scope R_scope.

Definition rsum (l : list R) : R := fold_left Rplus l 0.

(** image.hpp:93-102. *)
Definition image_mean (l : list R) : R :=
  match l with [] => 0 | _ => rsum l / INR (length l) end.

(** image.hpp:123-140. [None] is NaN: a single pixel divides 0 by 0. *)
Definition image_std_dev (l : list R) : option R :=
  match l with
  | [] => Some 0
  | [_] => None
  | _ => let avg := image_mean l in
         let diff := map (fun v => (v - avg) * (v - avg)) l in
         Some (sqrt (rsum diff / INR (length l - 1)))
  end.
