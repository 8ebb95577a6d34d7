(** * Proofs about numbers too long for their field. *)
From Coq Require Import String Ascii List Arith NArith ZArith Lia ZifyN ZifyNat ZifyBool.
Import ListNotations.
From Verif Require Import CppModel CardModel CardProofs RefuseSpec.

Lemma two64_value : two64 = 18446744073709551616%N.
Proof. reflexivity. Qed.
Lemma max_size_value : max_size = 9223372036854775807%N.
Proof. reflexivity. Qed.

Lemma pad20_narrow s : length s <= 20 -> exists t, pad20 s = Ret t.
Proof.
  intros L. unfold pad20, prepend_spaces.
  assert (E : sub64 20 (N.of_nat (length s)) = (20 - N.of_nat (length s))%N).
  { unfold sub64. replace (20 + two64 - N.of_nat (length s))%N with (20 - N.of_nat (length s) + 1 * two64)%N by lia.
    rewrite N.mod_add by (rewrite two64_value; lia). apply N.mod_small. rewrite two64_value. lia. }
  rewrite E. destruct (max_size <? _)%N eqn:M; [|eauto]. apply N.ltb_lt in M. rewrite max_size_value in M. lia.
Qed.
Lemma pad20_wide s : 20 < length s -> (N.of_nat (length s) < 2 ^ 62)%N -> pad20 s = Throw LengthError.
Proof.
  intros L B. change (2 ^ 62)%N with 4611686018427387904%N in B. unfold pad20, prepend_spaces.
  assert (E : sub64 20 (N.of_nat (length s)) = (20 + two64 - N.of_nat (length s))%N)
    by (unfold sub64; apply N.mod_small; rewrite two64_value; lia).
  rewrite E. destruct (max_size <? _)%N eqn:M; [reflexivity|]. apply N.ltb_ge in M. rewrite max_size_value, two64_value in M. lia.
Qed.

Theorem serialize_narrow fc v : (forall t, In t (number_texts fc v) -> length t <= 20) -> exists s, serialize fc v = Ret s.
Proof.
  intros H. destruct v; cbn [number_texts serialize] in *; eauto;
    try (apply pad20_narrow, H; left; reflexivity).
  all: match goal with |- exists s, bind (pad20 ?a) _ = _ => destruct (pad20_narrow a) as [x ->]; [apply H; left; reflexivity|] end; cbn [bind].
  all: match goal with |- exists s, bind (pad20 ?a) _ = _ => destruct (pad20_narrow a) as [y ->]; [apply H; right; left; reflexivity|] end; cbn [bind]; eauto.
Qed.

Theorem serialize_wide fc v : holdable fc v -> too_wide fc v -> serialize fc v = Throw LengthError.
Proof.
  intros B (t & I & L). assert (W : pad20 t = Throw LengthError) by (apply pad20_wide; [exact L|apply B, I]).
  assert (P : forall s, (exists t, pad20 s = Ret t) \/ pad20 s = Throw LengthError) by (intros s; apply prepend_cases).
  destruct v; cbn [number_texts serialize In] in *; try contradiction;
    try (destruct I as [<-|[]]; exact W).
  all: destruct I as [<-|[<-|[]]]; [rewrite W; reflexivity|].
  all: match goal with |- bind (pad20 ?a) _ = _ => destruct (P a) as [[x ->]| ->] end; cbn [bind]; [rewrite W|]; reflexivity.
Qed.

Theorem set_value_refused fc v c : holdable fc v ->
  (too_wide fc v -> set_value fc v c = (c, Throw LengthError)) /\
  (~ too_wide fc v -> snd (set_value fc v c) = Ret tt).
Proof.
  intros B. unfold set_value. split; intros W.
  - now rewrite (serialize_wide fc v B W).
  - destruct (serialize_narrow fc v) as [s ->].
    + intros t I. destruct (le_lt_dec (length t) 20) as [L|L]; [exact L|]. destruct W. exists t. auto.
    + destruct (is_card_valid3 _ _ _); reflexivity.
Qed.

Theorem create_refused fc v c key comment : holdable fc v -> too_wide fc v -> create_card fc c key v comment = (c, Throw LengthError).
Proof. intros B W. unfold create_card. now rewrite (serialize_wide fc v B W). Qed.
