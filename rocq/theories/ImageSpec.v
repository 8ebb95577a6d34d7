(** * Specifications for images. *)
From Coq Require Import ZArith List.
Import ListNotations.

(** How many values are at most / at least [v]. *)
Definition count_le (v : Z) (l : list Z) : nat := length (filter (fun x => (x <=? v)%Z) l).
Definition count_ge (v : Z) (l : list Z) : nat := length (filter (fun x => (v <=? x)%Z) l).
