(** * Model of include/boost/astronomy/io/header.hpp. *)
From Verif Require Export StreamModel CardModel.

(** io/bitpix.hpp:16-24. *)
Inductive bitpix : Type := B8 | B16 | B32 | F32 | F64.

(** io/bitpix.hpp:34-55, get_element_size_from_bitpix. *)
Definition element_size (b : bitpix) : N :=
  match b with B8 => 1 | B16 => 2 | B32 => 4 | F32 => 4 | F64 => 8 end.

(** header.hpp:44-52. [h_bitpix = None] stands for the uninitialised member. *)
Record header : Type := mk_header {
  h_bitpix : option bitpix;
  h_naxis : list N;
  h_name : str;
  h_cards : list card;
  h_index : list (str * nat)
}.

(** A default-constructed header. *)
Definition fresh_header : header := mk_header None [] [] [] [].

(** header.hpp:82-85: emplace_back and key_index[keyword] = size - 1. *)
Definition push_card (h : header) (c : card) : header :=
  mk_header (h_bitpix h) (h_naxis h) (h_name h) (h_cards h ++ [c])
            (map_set (keyword c) (length (h_cards h)) (h_index h)).

(** header.hpp:78-92: the card loop. *)
Fixpoint read_cards (fuel : nat) (s : stream) (h : header) : stream * header * outcome unit :=
  match fuel with
  | O => (s, h, NoFuel)
  | S f =>
      match stream_read 80 s with
      | (Ret buf, s') =>
          match card_of_string buf with
          | Ret c =>
              let h' := push_card h c in
              if str_eqb (keyword_whole c) (lit "END     ") then (s', h', Ret tt)
              else read_cards f s' h'
          | Throw e => (s', h, Throw e)
          | Undef => (s', h, Undef)
          | NoFuel => (s', h, NoFuel)
          end
      | (Throw e, s') => (s', h, Throw e)
      | (Undef, s') => (s', h, Undef)
      | (NoFuel, s') => (s', h, NoFuel)
      end
  end.

Definition set_cards (h : header) (cs : list card) : header :=
  mk_header (h_bitpix h) (h_naxis h) (h_name h) cs (h_index h).

Fixpoint replace_nth {A : Type} (n : nat) (a : A) (l : list A) : list A :=
  match l, n with
  | [], _ => []
  | _ :: r, O => a :: r
  | x :: r, S m => x :: replace_nth m a r
  end.

(** cards[i].value<T>(): undefined behaviour if i is out of range; fills the card's cache. *)
Definition value_at (fc : fcodec) (t : cty) (i : nat) (h : header) : header * outcome cval :=
  match nth_error (h_cards h) i with
  | None => (h, Undef)
  | Some c => let (c', r) := value fc t c in (set_cards h (replace_nth i c' (h_cards h)), r)
  end.

(** key_index[key] (header.hpp:95, 118, 123): inserts 0 when the key is absent. *)
Definition index_or_insert (key : str) (h : header) : nat * header :=
  match map_find key (h_index h) with
  | Some i => (i, h)
  | None => (0, mk_header (h_bitpix h) (h_naxis h) (h_name h) (h_cards h)
                          (map_set key 0 (h_index h)))
  end.

(** cards[key_index[key]].value<T>(). *)
Definition lookup_value (fc : fcodec) (t : cty) (key : str) (h : header) : header * outcome cval :=
  let (i, h1) := index_or_insert key h in value_at fc t i h1.

(** header.hpp:95-115: the accepted BITPIX values. *)
Definition bitpix_of_int (z : Z) : option bitpix :=
  if (z =? 8)%Z then Some B8 else if (z =? 16)%Z then Some B16
  else if (z =? 32)%Z then Some B32 else if (z =? -32)%Z then Some F32
  else if (z =? -64)%Z then Some F64 else None.

Definition set_bitpix (h : header) (b : bitpix) : header :=
  mk_header (Some b) (h_naxis h) (h_name h) (h_cards h) (h_index h).

Definition read_bitpix (fc : fcodec) (h : header) : header * outcome unit :=
  match lookup_value fc TInt (lit "BITPIX") h with
  | (h1, Ret (VInt z)) =>
      match bitpix_of_int z with
      | Some b => (set_bitpix h1 b, Ret tt)
      | None => (h1, Throw FitsException)
      end
  | (h1, Ret _) => (h1, Undef)
  | (h1, Throw e) => (h1, Throw e)
  | (h1, Undef) => (h1, Undef)
  | (h1, NoFuel) => (h1, NoFuel)
  end.

Definition push_naxis (h : header) (n : N) : header :=
  mk_header (h_bitpix h) (h_naxis h ++ [n]) (h_name h) (h_cards h) (h_index h).

(** header.hpp:123-124: "NAXIS" + lexical_cast<string>(i). *)
Definition naxis_key (i : nat) : str := lit "NAXIS" ++ show_N (N.of_nat i).

(** header.hpp:121-125: [count] remaining axes starting with axis [i]. *)
Fixpoint read_axes (fc : fcodec) (count i : nat) (h : header) : header * outcome unit :=
  match count with
  | O => (h, Ret tt)
  | S k =>
      match lookup_value fc TSize (naxis_key i) h with
      | (h1, Ret (VSize n)) => read_axes fc k (S i) (push_naxis h1 n)
      | (h1, Ret _) => (h1, Undef)
      | (h1, Throw e) => (h1, Throw e)
      | (h1, Undef) => (h1, Undef)
      | (h1, NoFuel) => (h1, NoFuel)
      end
  end.

(** header.hpp:118-125. reserve throws length_error above vector::max_size (2^60 - 1
    elements of 8 bytes). *)
Definition read_naxis (fc : fcodec) (h : header) : header * outcome unit :=
  match lookup_value fc TSize (lit "NAXIS") h with
  | (h1, Ret (VSize n)) =>
      if (2 ^ 60 <=? n)%N then (h1, Throw LengthError)
      else read_axes fc (N.to_nat n) 1 h1
  | (h1, Ret _) => (h1, Undef)
  | (h1, Throw e) => (h1, Throw e)
  | (h1, Undef) => (h1, Undef)
  | (h1, NoFuel) => (h1, NoFuel)
  end.

(** header.hpp:93-126: what is done after the card loop. *)
Definition interpret_cards (fc : fcodec) (h : header) : header * outcome unit :=
  match read_bitpix fc h with
  | (h1, Ret _) => read_naxis fc h1
  | (h1, r) => (h1, r)
  end.

(** header.hpp:71-127. *)
Definition read_header (fc : fcodec) (fuel : nat) (s : stream) (h : header)
  : stream * header * outcome unit :=
  match read_cards fuel s h with
  | (s', h', Ret _) => let (h2, r) := interpret_cards fc h' in (s', h2, r)
  | (s', h', r) => (s', h', r)
  end.

(** header.hpp:134-146. *)
Definition write_header (h : header) (s : stream) : stream :=
  write_padding (stream_write (concat (map raw (h_cards h))) s).

(** header.hpp:224-228. *)
Definition value_of (fc : fcodec) (t : cty) (key : str) (h : header) : header * outcome cval :=
  match map_find key (h_index h) with
  | None => (h, Throw OutOfRange)
  | Some i => value_at fc t i h
  end.

Definition set_name (h : header) (n : str) : header :=
  mk_header (h_bitpix h) (h_naxis h) n (h_cards h) (h_index h).

(** header.hpp:151-163. Undefined behaviour in the first lookup is not an exception and
    is not caught. *)
Definition get_hdu_name (fc : fcodec) (h : header) : header * outcome str :=
  match value_of fc TStr (lit "XTENSION") h with
  | (h1, Ret (VStr n)) => (set_name h1 n, Ret n)
  | (h1, Ret _) => (h1, Undef)
  | (h1, Undef) => (h1, Undef)
  | (h1, NoFuel) => (h1, NoFuel)
  | (h1, Throw _) =>
      match value_of fc TBool (lit "SIMPLE") h1 with
      | (h2, Ret _) => (h2, Ret (lit "primary_hdu"))
      | (h2, Throw e) => (h2, Throw e)
      | (h2, Undef) => (h2, Undef)
      | (h2, NoFuel) => (h2, NoFuel)
      end
  end.

(** header.hpp:169-174. *)
Definition contains_keyword (key : str) (h : header) : bool :=
  existsb (fun c => str_eqb (keyword c) key) (h_cards h).

(** header.hpp:189-191. *)
Definition all_naxis (h : header) : list N := h_naxis h.

(** header.hpp:198-201: naxis_[n - 1]; n = 0 wraps around and is out of range. *)
Definition naxis (n : nat) (h : header) : outcome N :=
  match n with
  | O => Undef
  | S m => match nth_error (h_naxis h) m with Some v => Ret v | None => Undef end
  end.

(** header.hpp:206. *)
Definition total_dimensions (h : header) : nat := length (h_naxis h).

(** header.hpp:212-215. *)
Definition data_size (h : header) : N :=
  match h_naxis h with
  | [] => 0%N
  | l => fold_left mul64 l 1%N
  end.

(** header.hpp:234-237. *)
Definition card_count (h : header) : N := sub64 (N.of_nat (length (h_cards h))) 1.

(** header.hpp:59-65; key_index is compared as a map. *)
Definition index_eq (a b : list (str * nat)) : Prop := forall k, map_find k a = map_find k b.

Definition header_eq (a b : header) : Prop :=
  h_bitpix a = h_bitpix b /\ h_naxis a = h_naxis b /\ h_name a = h_name b /\
  map raw (h_cards a) = map raw (h_cards b) /\ index_eq (h_index a) (h_index b).
