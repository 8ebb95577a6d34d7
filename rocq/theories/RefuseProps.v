(** * Property theorems about numbers too long for their field (C08, C01). *)
From Coq Require Import String Ascii List Arith NArith ZArith Lia.
Import ListNotations.
From Verif Require Import CppModel CardModel CardSpec CardProofs TextModel TextSpec TextLaws RefuseSpec RefuseProofs.

(** set_value of a number whose text is longer than twenty characters throws std::length_error and leaves the card as it was;
    it never throws otherwise. *)
Theorem C08_set_value_refused : forall fc v c, holdable fc v ->
  (too_wide fc v -> set_value fc v c = (c, Throw LengthError)) /\
  (~ too_wide fc v -> snd (set_value fc v c) = Ret tt).
Proof. exact set_value_refused. Qed.
Print Assumptions C08_set_value_refused.

(** The same for create_card. *)
Theorem C01_create_card_refused : forall fc v c key comment, holdable fc v -> too_wide fc v ->
  create_card fc c key v comment = (c, Throw LengthError).
Proof. exact create_refused. Qed.
Print Assumptions C01_create_card_refused.

(** With the texts the library writes, six digits from a fresh stream, no value its type can hold is too wide: there
    set_value never throws. *)
Theorem C08_never_refused : forall v c, representable v -> snd (set_value std_codec v c) = Ret tt.
Proof.
  intros v c R.
  assert (W : forall t, In t (number_texts std_codec v) -> length t <= 20).
  { assert (F : forall w, length (show_float binary32 w) <= 20) by (intros w; pose proof (show_width binary32 w (or_introl eq_refl)); lia).
    assert (D : forall w, length (show_float binary64 w) <= 20) by (intros w; pose proof (show_width binary64 w (or_intror eq_refl)); lia).
    destruct v; cbn [number_texts representable In std_codec f32_show f64_show] in *; intros t I;
      repeat match goal with H : _ \/ _ |- _ => destruct H as [<-|H] | H : False |- _ => contradiction end;
      first [apply F|apply D|apply show_Z_len64; tauto|apply show_N_len64; tauto
            |eapply Nat.le_trans; [apply show_Z_len32; tauto|lia]|eapply Nat.le_trans; [apply show_N_len32; tauto|lia]]. }
  apply set_value_refused.
  - intros t I. specialize (W t I). change (2 ^ 62)%N with 4611686018427387904%N. lia.
  - intros (t & I & L). specialize (W t I). lia.
Qed.
Print Assumptions C08_never_refused.

(** A codec unlike the library's, with more digits, to show what the first two theorems speak of. *)
Definition long_codec : fcodec :=
  {| f32_show := show_N; f32_read := cast_unsigned 32; f64_show := fun _ => lit "1.00000000000000006e+100"; f64_read := cast_unsigned 64 |}.
Definition width_card : card := fst (create_card long_codec empty_card (lit "NAXIS1") (VInt 100) (lit "width")).

Example C08_refused_case : holdable long_codec (VDouble 7) /\ too_wide long_codec (VDouble 7) /\
  holdable long_codec (VInt 5) /\ ~ too_wide long_codec (VInt 5) /\
  set_value long_codec (VDouble 7) width_card = (width_card, Throw LengthError) /\ length (raw width_card) = 80.
Proof.
  split; [intros t [<-|[]]; reflexivity|]. split; [eexists; split; [left; reflexivity|cbn; lia]|].
  split; [intros t [<-|[]]; reflexivity|]. split; [intros (t & [<-|[]] & L); cbn in L; lia|].
  split; reflexivity.
Qed.

Example C08_never_refused_case : representable (VLongLong (- 2 ^ 63)) /\ representable (VDouble 4607182418800017408).
Proof. repeat split; cbn; lia. Qed.
