(** * Model of include/boost/astronomy/io/image.hpp.

    A pixel is the bit pattern of its type. *)
From Verif Require Export ConvModel HeaderModel.

(** io/bitpix.hpp:62-85: the pixel type. B8 is int8_t. *)
Definition pixel_type (b : bitpix) : ety :=
  match b with B8 => EI8 | B16 => EI16 | B32 => EI32 | F32 => EF32 | F64 => EF64 end.

(** image.hpp:33-35 and 186: pixels and the width; [None] is the uninitialised member. Nothing reads
    height_. *)
Record image : Type := mk_image { pixels : list N; width : option N }.

(** image.hpp:52, a default-constructed image. *)
Definition empty_image : image := mk_image [] None.

(** image.hpp:60-63: image_buffer(w, h), all pixels zero. *)
Definition sized_image (w h : N) : image := mk_image (repeat 0%N (N.to_nat (mul64 w h))) (Some w).

(** image.hpp:206-211: [n] pixels from the front of the buffer. std::string(iter, iter + size). *)
Fixpoint read_pixels (b : bitpix) (n : nat) (buf : str) : outcome (list N) :=
  match n with
  | O => Ret []
  | S m =>
      let k := N.to_nat (element_size b) in
      if k <=? length buf then
        let! x := bin_deserialize (pixel_type b) (firstn k buf) in
        match x with
        | XNum w => let! r := read_pixels b m (skipn k buf) in Ret (w :: r)
        | _ => Undef
        end
      else Undef
  end.

(** image.hpp:198-213: an empty buffer leaves the image as it is. *)
Definition read_image (b : bitpix) (buf : str) (im : image) : outcome image :=
  match buf with
  | [] => Ret im
  | _ => let! p := read_pixels b (length buf / N.to_nat (element_size b)) buf in
         Ret (mk_image p (width im))
  end.

(** image.hpp:218-232. *)
Definition write_image (b : bitpix) (im : image) : str :=
  concat (map (fun w => bin_serialize (pixel_type b) (XNum w)) (pixels im)).

(** image.hpp:153. *)
Definition image_size (im : image) : nat := length (pixels im).

(** image.hpp:147-150; the index is computed in size_t. *)
Definition pixel_at (im : image) (x y : N) : outcome N :=
  match width im with
  | None => Undef
  | Some w => match nth_error (pixels im) (N.to_nat ((x * w + y) mod two64)%N) with
              | Some v => Ret v
              | None => Undef
              end
  end.

(** ** Statistics over the pixel values

    The pixel values are integers here (any type without NaN is order-isomorphic to a set of
    integers as far as max, min and median are concerned). *)

(** image.hpp:73-76, 82-85: valarray::max/min are undefined on an empty array. *)
Definition image_max (l : list Z) : outcome Z :=
  match l with [] => Undef | x :: r => Ret (fold_left (fun m v => if (m <? v)%Z then v else m) r x) end.
Definition image_min (l : list Z) : outcome Z :=
  match l with [] => Undef | x :: r => Ret (fold_left (fun m v => if (v <? m)%Z then v else m) r x) end.

(** The order in which nth_element leaves its range: position n holds what sorting would put there. *)
Fixpoint insert (x : Z) (l : list Z) : list Z :=
  match l with [] => [x] | y :: r => if (x <=? y)%Z then x :: l else y :: insert x r end.
Definition sort (l : list Z) : list Z := fold_right insert [] l.

(** image.hpp:109-116; on an empty image begin() + 0 is dereferenced. *)
Definition image_median (l : list Z) : outcome Z :=
  match nth_error (sort l) (length l / 2) with Some v => Ret v | None => Undef end.
