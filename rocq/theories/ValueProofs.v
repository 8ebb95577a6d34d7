(** * Proofs about the values of columns. *)
From Coq Require Import String Ascii List Arith NArith ZArith Bool Lia.
From Coq Require Import ZifyBool ZifyNat ZifyN.
From Verif Require Export ValueSpec WholeProofs ViewModel ViewProofs ConvSpec ConvProofs.
Import ListNotations.
Open Scope list_scope.

Section Fresh.
Context {V T : Type} (teqb : T -> T -> bool) (decode : T -> str -> N -> outcome V).

Lemma fresh_read k ty name i (st : store V T) t col s : untouched st k t name -> get_column_metadata name t = Ret col ->
  cell (t_data t) i (c_index col - 1) = Ret s ->
  snd (column_read teqb decode k ty name i st) = decode ty s (c_elements col).
Proof.
  intros (o & O & <- & M) G C. unfold column_read, get_column. rewrite O, M, G. cbn [v_table].
  rewrite (obj_put_same _ _ _ _ o _ O). cbn [o_table]. unfold view_read. cbn [v_cache cache_find v_pos v_col c_index].
  unfold v_pos. cbn [v_col]. rewrite C. cbn [bind]. destruct (decode ty s (c_elements col)); reflexivity.
Qed.
End Fresh.

Lemma column_found {C} (name_of : C -> str) (is : nat -> C -> column -> Prop) cols made name j b :
  (forall i b' c, is i b' c -> c_name c = name_of b') -> columns_are is cols made -> first_named name_of cols name j b ->
  exists c, nth_error made j = Some c /\ find (fun c => str_eqb name (c_name c)) made = Some c /\ is j b c.
Proof.
  intros Hn [L A] (F1 & F2 & F3).
  destruct (nth_error made j) as [c|] eqn:E.
  2: { apply nth_error_None in E. assert (K : j < length cols) by (apply nth_error_Some; congruence). lia. }
  exists c. split; [reflexivity|]. split; [|exact (A j b c F1 E)].
  assert (Nc : c_name c = name) by (rewrite (Hn _ _ _ (A j b c F1 E)); exact F2).
  assert (Nb : forall i c', i < j -> nth_error made i = Some c' -> c_name c' <> name).
  { intros i c' Hi Hc. destruct (nth_error cols i) as [b'|] eqn:Eb.
    - rewrite (Hn _ _ _ (A i b' c' Eb Hc)). exact (F3 i b' Hi Eb).
    - apply nth_error_None in Eb. assert (K : i < length made) by (apply nth_error_Some; congruence). lia. }
  clear -E Nc Nb. revert made E Nb. induction j as [|j IH]; intros [|x made] E Nb; try discriminate E; cbn [nth_error find] in *.
  - injection E as ->. rewrite Nc. replace (str_eqb name name) with true; [reflexivity|]. symmetry. apply str_eqb_eq. reflexivity.
  - replace (str_eqb name (c_name x)) with false.
    + apply IH; [exact E|]. intros i c' Hi Hc. exact (Nb (S i) c' ltac:(lia) Hc).
    + symmetry. destruct (str_eqb name (c_name x)) eqn:K; [|reflexivity]. apply str_eqb_eq in K. exfalso. apply (Nb 0 x); [lia|reflexivity|congruence].
Qed.

(** The cell is decoded from the field without its surrounding white space. *)
Theorem binary_read k ty name i (st : store (list elem) bin_coltype) t b s : untouched st k t name -> binary_field t name i b s ->
  snd (column_read bin_coltype_eqb bin_decode k ty name i st) = bin_decode ty (trim s) (bc_count b).
Proof.
  intros U (cols & rows & j & row & (t' & Et & A & D) & F & R & S & L). injection Et as <-.
  destruct (column_found (fun c => a_name (bc_about c)) _ _ _ _ _ _ (fun i b' c H => proj1 (proj2 (proj1 H))) A F) as (c & E1 & E2 & I).
  destruct I as ((I1 & _) & _ & I2 & _).
  rewrite (fresh_read bin_coltype_eqb bin_decode k ty name i st t c (trim s) U).
  - rewrite I2. reflexivity.
  - unfold get_column_metadata. rewrite E2. reflexivity.
  - rewrite D, I1. cbn [Nat.sub]. rewrite Nat.sub_0_r. unfold cell. rewrite nth_error_map, R. cbn [option_map].
    rewrite nth_error_map, S. reflexivity.
Qed.

Theorem text_read fc k ty name i (st : store ascii_value ascii_coltype) teqb t s : untouched st k t name -> text_field t name i s ->
  exists n, snd (column_read teqb (ascii_decode fc) k ty name i st) = ascii_decode fc ty (trim s) n.
Proof.
  intros U (cols & line & rows & j & b & r & (t' & Et & A & D) & F & R & ->). injection Et as <-.
  destruct (column_found (fun c => a_name (tc_about c)) _ _ _ _ _ _ (fun i b' c H => proj1 (proj2 (proj1 H))) A F) as (c & E1 & E2 & I).
  destruct I as ((I1 & _) & _). destruct F as (F1 & _).
  exists (c_elements c). apply (fresh_read teqb (ascii_decode fc) k ty name i st t c _ U).
  - unfold get_column_metadata. rewrite E2. reflexivity.
  - rewrite D, I1. cbn [Nat.sub]. rewrite Nat.sub_0_r. unfold cell. rewrite nth_error_map.
    assert (R' : nth_error rows i = Some r) by exact R. rewrite R'. cbn [option_map]. rewrite nth_error_map, F1. reflexivity.
Qed.

Section Binary.
Context (k : nat) (name : str) (i : nat) (st : store (list elem) bin_coltype) (t : table) (b : bin_col) (s : str).
Context (U : untouched st k t name).
Context (F : binary_field t name i b s).

Lemma field_length : length s = bc_width b.
Proof. destruct F as (cols & rows & j & row & _ & _ & _ & _ & L). exact L. Qed.

Theorem binary_vector e : ~ In e [EI8; EBool; EPair] -> bc_width b = N.to_nat (bc_count b) * elem_size e -> (bc_count b < 2 ^ 31)%N ->
  no_outer_blanks s -> snd (column_read bin_coltype_eqb bin_decode k (e, true) name i st) =
    Ret (map (element_of e s) (seq 0 (N.to_nat (bc_count b)))).
Proof.
  intros He W C B. rewrite (binary_read _ _ _ _ _ _ _ _ U F). rewrite no_outer_blanks_trimmed, <- trim_fix_trimmed in B. rewrite B.
  unfold bin_decode. cbn [fst snd]. apply N.ltb_lt in C. rewrite C. apply vector_any; [exact He|]. rewrite field_length. lia.
Qed.

Theorem binary_logicals : bc_width b = N.to_nat (bc_count b) -> (bc_count b < 2 ^ 31)%N ->
  no_outer_blanks s -> snd (column_read bin_coltype_eqb bin_decode k (EBool, true) name i st) =
    Ret (map (element_of EBool s) (seq 0 (N.to_nat (bc_count b)))).
Proof.
  intros W C B. rewrite (binary_read _ _ _ _ _ _ _ _ U F). rewrite no_outer_blanks_trimmed, <- trim_fix_trimmed in B. rewrite B.
  unfold bin_decode. cbn [fst snd]. apply N.ltb_lt in C. rewrite C. rewrite bool_vector_any, field_length, W. reflexivity.
Qed.

Theorem binary_single e : e <> EI8 -> bc_width b = elem_size e -> no_outer_blanks s ->
  snd (column_read bin_coltype_eqb bin_decode k (e, false) name i st) = Ret [element_of e s 0].
Proof.
  intros He W B. rewrite (binary_read _ _ _ _ _ _ _ _ U F). rewrite no_outer_blanks_trimmed, <- trim_fix_trimmed in B. rewrite B.
  unfold bin_decode. cbn [fst snd]. rewrite single_any; [reflexivity|exact He| |]; rewrite field_length, W; [lia|]. intros ->. reflexivity.
Qed.

Theorem binary_blank_byte e : In e [EI16; EI32; EF32; EF64; EC32; EC64] -> bc_width b = N.to_nat (bc_count b) * elem_size e -> (bc_count b < 2 ^ 31)%N ->
  length (trim s) + 1 = length s -> snd (column_read bin_coltype_eqb bin_decode k (e, true) name i st) =
    Ret (map (element_of e (trim s ++ [zero])) (seq 0 (N.to_nat (bc_count b)))).
Proof.
  intros He W C B. rewrite (binary_read _ _ _ _ _ _ _ _ U F). unfold bin_decode. cbn [fst snd]. apply N.ltb_lt in C. rewrite C.
  apply vector_short_by_one; [exact He|]. rewrite B, field_length, W. reflexivity.
Qed.

Theorem binary_blank_bytes e : In e [EI16; EI32; EF32; EF64; EC32; EC64] -> bc_width b = N.to_nat (bc_count b) * elem_size e -> (0 < bc_count b < 2 ^ 31)%N ->
  length (trim s) + 1 < length s -> snd (column_read bin_coltype_eqb bin_decode k (e, true) name i st) = Undef.
Proof.
  intros He W [C0 C] B. rewrite (binary_read _ _ _ _ _ _ _ _ U F). unfold bin_decode. cbn [fst snd]. apply N.ltb_lt in C. rewrite C.
  apply vector_short; [|lia|rewrite <- W, <- field_length; exact B].
  cbn in He. intros K. cbn in K. intuition congruence.
Qed.

Theorem binary_text_blank : bc_width b = N.to_nat (bc_count b) -> (bc_count b < 2 ^ 31)%N -> length (trim s) < length s ->
  snd (column_read bin_coltype_eqb bin_decode k (EByte, true) name i st) = Undef.
Proof.
  intros W C B. rewrite (binary_read _ _ _ _ _ _ _ _ U F). unfold bin_decode. cbn [fst snd]. apply N.ltb_lt in C. rewrite C.
  cbn [bin_deserialize_vec]. unfold byte_collection. rewrite <- W, <- field_length.
  destruct (Nat.leb_spec (length s) (length (trim s))); [lia|reflexivity].
Qed.
End Binary.

Section Ascii.
Context (fc : fcodec) (teqb : ascii_coltype -> ascii_coltype -> bool) (k : nat) (name : str) (i : nat)
  (st : store ascii_value ascii_coltype) (t : table) (s : str).
Context (U : untouched st k t name).
Context (F : text_field t name i s).

Theorem text_long z text x y : s = spaces x ++ text ++ spaces y -> integer_text z text -> int_range 64 z ->
  snd (column_read teqb (ascii_decode fc) k ALong name i st) = Ret (AVLong z).
Proof.
  intros E I Hz. destruct (text_read fc k ALong name i st teqb t s U F) as (n & ->). rewrite E, spaced_trim.
  unfold int_range in Hz. cbn in Hz. cbn [ascii_decode].
  assert (C : cast_signed 64 (trim text) = Some z); [|rewrite C; reflexivity].
  destruct I as [((T1 & T2 & T3) & Hp)|(u & -> & (T1 & T2 & T3) & Hm)].
  - rewrite (digits_trim _ T2). unfold cast_signed. rewrite sign_digits, digits_parse by assumption. rewrite T3, Z2N.id by lia.
    destruct (Z.ltb_spec z (2 ^ (64 - 1))) as [|K]; [reflexivity|cbn in K; lia].
  - destruct (minus_trim _ T2 T1) as [S1 S2]. rewrite S2.
    unfold cast_signed. cbn [split_sign Ascii.eqb Bool.eqb]. rewrite digits_parse by assumption. rewrite T3, Z2N.id by lia.
    destruct (Z.leb_spec (- z) (2 ^ (64 - 1))) as [|K]; [|cbn in K; lia]. rewrite Z.opp_involutive. reflexivity.
Qed.

Theorem text_double w text x y : s = spaces x ++ text ++ spaces y -> no_outer_blanks text -> f64_read fc text = Some w ->
  snd (column_read teqb (ascii_decode fc) k ADouble name i st) = Ret (AVDouble w).
Proof.
  intros E B R. destruct (text_read fc k ADouble name i st teqb t s U F) as (n & ->). rewrite E, spaced_trim.
  rewrite no_outer_blanks_trimmed, <- trim_fix_trimmed in B. rewrite B. cbn [ascii_decode]. rewrite R. reflexivity.
Qed.
Theorem text_float w text x y : s = spaces x ++ text ++ spaces y -> no_outer_blanks text -> f32_read fc text = Some w ->
  snd (column_read teqb (ascii_decode fc) k AFloat name i st) = Ret (AVFloat w).
Proof.
  intros E B R. destruct (text_read fc k AFloat name i st teqb t s U F) as (n & ->). rewrite E, spaced_trim.
  rewrite no_outer_blanks_trimmed, <- trim_fix_trimmed in B. rewrite B. cbn [ascii_decode]. rewrite R. reflexivity.
Qed.
End Ascii.
