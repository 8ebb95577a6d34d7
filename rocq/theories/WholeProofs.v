(** * From the bytes of a file to the objects made of it. *)
From Verif Require Export WholeSpec ReaderMore.

(** ** The values of records *)

Lemma digits_free text : all_digits text -> slash_free text /\ forall c, In c text -> is_space c = false.
Proof.
  intros H. split.
  - intros K. apply H in K. cbn in K. lia.
  - intros c K. apply H in K. destruct (is_space c) eqn:E; [|reflexivity]. exfalso.
    unfold is_space in E. lia.
Qed.

Lemma spaced_slash a text b : slash_free text -> slash_free (spaces a ++ text ++ spaces b).
Proof. intros H. rewrite !slash_free_app. repeat split; try apply slash_free_spaces. exact H. Qed.

Lemma spaced_trim a text b : trim (spaces a ++ text ++ spaces b) = trim text.
Proof. rewrite trim_spaces_l, trim_spaces_r. reflexivity. Qed.

Lemma entry_text key text r : entry key text r -> slash_free key -> slash_free text ->
  length r = 80 /\ exists e, extract_value r = Ret e /\ trim e = trim text.
Proof.
  intros (a & b & comment & -> & F) Hk Ht. split; [exact (record_length _ _ _ F)|].
  destruct (record_value_text _ _ _ F Hk (spaced_slash a text b Ht)) as (e & E1 & E2).
  exists e. rewrite spaced_trim in E2. auto.
Qed.

Lemma entry_value fc t key text r : t <> TStr -> entry key text r -> slash_free key -> slash_free text -> trim text = text ->
  text_value fc t r = parse_to fc t text.
Proof.
  intros Ht He Hk Hs Htr. destruct (entry_text _ _ _ He Hk Hs) as (_ & e & E1 & E2).
  unfold text_value. rewrite value_uncached by reflexivity. rewrite value_imp_nonstr by exact Ht. cbn [raw].
  rewrite E1. cbn [bind]. rewrite E2, Htr. reflexivity.
Qed.


Lemma digits_trim text : all_digits text -> trim text = text.
Proof.
  intros H. apply trim_fix_trimmed, no_outer_blanks_trimmed. intros c [(r & ->)|(r & ->)]; apply digits_free with (1 := H).
  - left. reflexivity.
  - apply in_or_app. right. left. reflexivity.
Qed.

Lemma digits_parse text : all_digits text -> text <> [] -> parse_digits text = Some (decimal text).
Proof.
  intros H Hn. unfold parse_digits. destruct text as [|c t]; [contradiction|]. rewrite parse_decimal_from by exact H. reflexivity.
Qed.

(** The last record with the keyword has the value. *)
Definition has_value (fc : fcodec) (t : cty) (rs : list str) (key : str) (v : cval) : Prop :=
  exists r, last_record key rs = Some r /\ text_value fc t r = Ret v.

Lemma number_value fc rs key n : says_number rs key n -> slash_free key -> (n < 2 ^ 64)%N -> has_value fc TSize rs key (VSize n).
Proof.
  intros (t & (T1 & T2 & T3) & r & R1 & R2) Hk Hn. exists r. split; [exact R1|].
  rewrite (entry_value fc TSize _ _ _ ltac:(discriminate) R2 Hk (proj1 (digits_free _ T2)) (digits_trim _ T2)).
  cbn [parse_to]. unfold cast_unsigned. rewrite sign_digits, digits_parse by assumption. rewrite T3.
  destruct (N.ltb_spec n (2 ^ 64)); [reflexivity|lia].
Qed.

Lemma minus_trim text : all_digits text -> text <> [] -> slash_free ("-"%char :: text) /\ trim ("-"%char :: text) = "-"%char :: text.
Proof.
  intros H Hn. split.
  - intros [K|K]; [discriminate|]. exact (proj1 (digits_free _ H) K).
  - apply trim_fix_trimmed, no_outer_blanks_trimmed. intros c [(r & E)|(r & E)].
    + injection E as <- _. reflexivity.
    + apply digits_free with (1 := H). destruct r as [|x r]; cbn in E; injection E as _ E; [contradiction|].
      rewrite E. apply in_or_app. right. left. reflexivity.
Qed.

Lemma integer_value fc rs key z : says_integer rs key z -> slash_free key -> int_range 32 z -> has_value fc TInt rs key (VInt z).
Proof.
  intros (t & T & r & R1 & R2) Hk Hz. exists r. split; [exact R1|]. unfold int_range in Hz. cbn in Hz.
  destruct T as [((T1 & T2 & T3) & Hp)|(u & -> & (T1 & T2 & T3) & Hm)].
  - rewrite (entry_value fc TInt _ _ _ ltac:(discriminate) R2 Hk (proj1 (digits_free _ T2)) (digits_trim _ T2)).
    cbn [parse_to]. unfold cast_signed. rewrite sign_digits, digits_parse by assumption. rewrite T3, Z2N.id by lia.
    destruct (Z.ltb_spec z (2 ^ (32 - 1))) as [|K]; [reflexivity|cbn in K; lia].
  - destruct (minus_trim _ T2 T1) as [S1 S2].
    rewrite (entry_value fc TInt _ _ _ ltac:(discriminate) R2 Hk S1 S2).
    cbn [parse_to]. unfold cast_signed. cbn [split_sign Ascii.eqb Bool.eqb]. rewrite digits_parse by assumption. rewrite T3, Z2N.id by lia.
    destruct (Z.leb_spec (- z) (2 ^ (32 - 1))) as [|K]; [|cbn in K; lia]. cbn [cast_or_throw bind]. rewrite Z.opp_involutive. reflexivity.
Qed.

Lemma logical_value fc rs key b : says_logical rs key b -> slash_free key -> has_value fc TBool rs key (VBool b).
Proof.
  intros (r & R1 & R2) Hk. exists r. split; [exact R1|].
  rewrite (entry_value fc TBool _ _ _ ltac:(discriminate) R2 Hk); [destruct b; reflexivity| |destruct b; reflexivity].
  destruct b; intros [K|[]]; discriminate.
Qed.

Lemma real_value fc rs key w : says_real fc rs key w -> slash_free key -> has_value fc TDouble rs key (VDouble w).
Proof.
  intros (t & T1 & T2 & T3 & r & R1 & R2) Hk. exists r. split; [exact R1|].
  rewrite (entry_value fc TDouble _ _ _ ltac:(discriminate) R2 Hk T1 (proj2 (trim_fix_trimmed _) (proj1 (no_outer_blanks_trimmed _) T2))).
  cbn [parse_to]. rewrite T3. reflexivity.
Qed.

Lemma string_value fc rs key s : says_text rs key s -> slash_free key -> has_value fc TStr rs key (VStr s).
Proof.
  intros (S1 & S2 & n & r & R1 & R2) Hk. exists r. split; [exact R1|].
  assert (Sf : slash_free ("'"%char :: (s ++ spaces n) ++ ["'"%char])).
  { change ("'"%char :: (s ++ spaces n) ++ ["'"%char]) with (["'"%char] ++ (s ++ spaces n) ++ ["'"%char]).
    rewrite !slash_free_app. repeat split; [intros [K|[]]; discriminate|exact S1|apply slash_free_spaces|intros [K|[]]; discriminate]. }
  destruct (entry_text _ _ _ R2 Hk Sf) as (_ & e & E1 & E2).
  unfold text_value. rewrite value_uncached by reflexivity. cbn [value_imp].
  rewrite (quoted_value _ _ E2 (mk_card r None) E1). rewrite trim_spaces_r.
  rewrite (proj2 (trim_fix_trimmed _) (proj1 (no_outer_blanks_trimmed _) S2)). reflexivity.
Qed.

(** ** The type every keyword is asked for *)

Definition starts (p : string) (key : str) : bool := str_eqb (firstn (String.length p) key) (lit p).
Definition tau (key : str) : cty :=
  if str_eqb key (lit "SIMPLE") || str_eqb key (lit "EXTEND") then TBool
  else if str_eqb key (lit "BITPIX") || str_eqb key (lit "GCOUNT") || str_eqb key (lit "PCOUNT") then TInt
  else if str_eqb key (lit "TFIELDS") || starts "NAXIS" key || starts "TBCOL" key then TSize
  else if starts "TSCAL" key || starts "TZERO" key then TDouble
  else TStr.

(** A header with these records, every cache of the type its keyword is asked for. *)
Record typed (fc : fcodec) (rs : list str) (b : bitpix) (axes : list N) (h : header) : Prop := mk_typed {
  ty_raw : map raw (h_cards h) = rs;
  ty_rec : forall key, record_of h key = last_record key rs;
  ty_good : good_header fc h;
  ty_cache : forall i v r, cached_at h i v -> nth_error rs i = Some r -> ty_of v = tau (record_key r);
  ty_bitpix : h_bitpix h = Some b;
  ty_naxis : h_naxis h = axes
}.

Lemma value_cached fc t key h i v : cached_at (fst (value_of fc t key h)) i v -> cached_at h i v \/
  ty_of v = t /\ map_find key (h_index h) = Some i.
Proof.
  unfold value_of. destruct (map_find key (h_index h)) as [j|]; [|left; assumption]. unfold value_at.
  destruct (nth_error (h_cards h) j) as [c|] eqn:E; [|left; assumption].
  pose proof (value_fst fc t c) as V. destruct (value fc t c) as [c' r]. cbn [fst] in V |- *.
  intros (x & X1 & X2). cbn [set_cards h_cards] in X1. destruct (Nat.eq_dec j i) as [->|Hn].
  - rewrite (nth_replace_same _ _ _ _ E) in X1. injection X1 as <-.
    destruct V as [->|(w & W1 & W2 & ->)]; [left; exists c; auto|].
    right. cbn [cache] in X2. injection X2 as <-. split; [|reflexivity]. exact (value_imp_type _ _ _ _ W2).
  - rewrite nth_replace_other in X1 by exact Hn. left. exists x. auto.
Qed.

Lemma typed_after fc rs b axes t key h : typed fc rs b axes h -> t = tau key -> typed fc rs b axes (fst (value_of fc t key h)).
Proof.
  intros [T1 T2 T3 T4 T5 T6] ->. pose proof (value_of_steady fc (tau key) key h) as St. split.
  - rewrite (st_raw _ _ _ St). exact T1.
  - intros k. rewrite (steady_record _ _ _ k St). apply T2.
  - exact (steady_good _ _ _ St T3).
  - intros i v r C R. destruct (value_cached _ _ _ _ _ _ C) as [C'|[V F]]; [exact (T4 _ _ _ C' R)|].
    specialize (T2 key). unfold record_of in T2. rewrite F, T1, R in T2. symmetry in T2.
    apply last_record_in in T2. destruct T2 as [_ ->]. exact V.
  - rewrite value_of_bitpix. exact T5.
  - rewrite (st_naxis _ _ _ St). exact T6.
Qed.

Lemma typed_value fc rs b axes t key v h : typed fc rs b axes h -> t = tau key -> has_value fc t rs key v ->
  exists h', value_of fc t key h = (h', Ret v) /\ typed fc rs b axes h'.
Proof.
  intros T Ht (r & R1 & R2). pose proof (typed_after _ _ _ _ _ _ _ T Ht) as T'.
  destruct T as [T1 T2 [T3 T3'] T4 T5 T6].
  assert (V : snd (value_of fc t key h) = Ret v).
  { destruct (value_of_present fc t key h r v T3 ltac:(rewrite T2; exact R1) R2) as [V|V]; [exact V|].
    exfalso. pose proof (T2 key) as Rk. unfold record_of in Rk. unfold value_of in V.
    destruct (map_find key (h_index h)) as [i|]; [|discriminate]. rewrite T1, R1 in Rk.
    unfold value_at in V. destruct (nth_error (h_cards h) i) as [c|] eqn:E; [|discriminate].
    destruct (cache c) as [u|] eqn:Ec.
    - assert (ty_of u = t).
      { rewrite (T4 i u r (ex_intro _ c (conj E Ec)) Rk). apply last_record_in in R1. destruct R1 as [_ ->]. symmetry. exact Ht. }
      unfold value in V. rewrite Ec in V. cbn [snd] in V. rewrite <- H, get_as_same in V. discriminate.
    - assert (raw c = r) by (rewrite <- T1, nth_error_map, E in Rk; cbn in Rk; congruence). subst r.
      unfold text_value in R2. rewrite value_uncached in R2 by reflexivity.
      pose proof (value_uncached fc t c Ec) as Vu. destruct (value fc t c) as [c' o]. cbn [snd] in *.
      rewrite (value_imp_raw fc t (mk_card (raw c) None) c) in R2 by reflexivity. congruence. }
  destruct (value_of fc t key h) as [h' o]. cbn [fst snd] in *. subst o. eauto.
Qed.

Lemma typed_missing fc rs b axes t key h : typed fc rs b axes h -> missing rs key -> value_of fc t key h = (h, Throw OutOfRange).
Proof.
  intros [T1 T2 [T3 T3'] T4 T5 T6] M. unfold value_of. rewrite (T3' key); [reflexivity|]. rewrite T2. exact M.
Qed.

(** ** Computations that succeed *)

Definition yields {A} (fc : fcodec) (rs : list str) (b : bitpix) (axes : list N) (m : hdo A) (P : A -> Prop) : Prop :=
  forall h, typed fc rs b axes h -> exists h' a, m h = (h', Ret a) /\ P a /\ typed fc rs b axes h'.

Ltac free := let K := fresh in intros K; cbn in K; repeat (destruct K as [K|K]; [discriminate|]); exact K.

Section Yields.
Context (fc : fcodec) (rs : list str) (b : bitpix) (axes : list N).
Notation Y m P := (yields fc rs b axes m P).

Lemma y_ret {A} (a : A) (P : A -> Prop) : P a -> Y (hret a) P.
Proof. intros H h T. exists h, a. auto. Qed.
Lemma y_lift {A} (o : outcome A) a (P : A -> Prop) : o = Ret a -> P a -> Y (hlift o) P.
Proof. intros -> H h T. exists h, a. auto. Qed.
Lemma y_bind {A B} (m : hdo A) (k : A -> hdo B) Q P : Y m Q -> (forall a, Q a -> Y (k a) P) -> Y (hbind m k) P.
Proof.
  intros M K h T. destruct (M h T) as (h1 & a & E & Ha & T1). destruct (K a Ha h1 T1) as (h2 & c & E2 & Hc & T2).
  exists h2, c. split; [|auto]. unfold hbind. rewrite E. exact E2.
Qed.
Lemma y_weak {A} (m : hdo A) (P Q : A -> Prop) : Y m P -> (forall a, P a -> Q a) -> Y m Q.
Proof. intros M H h T. destruct (M h T) as (h1 & a & E & Ha & T1). exists h1, a. auto. Qed.

Lemma y_value t key v : t = tau key -> has_value fc t rs key v -> Y (value_of fc t key) (eq v).
Proof. intros Ht V h T. destruct (typed_value _ _ _ _ _ _ _ _ T Ht V) as (h' & E & T'). exists h', v. auto. Qed.
Lemma y_str key s : tau key = TStr -> slash_free key -> says_text rs key s -> Y (value_str fc key) (eq s).
Proof.
  intros Ht Hk S. unfold value_str. eapply y_bind; [apply y_value; [symmetry; exact Ht|apply string_value; eassumption]|].
  intros a <-. eapply y_lift; reflexivity.
Qed.
Lemma y_size key n : tau key = TSize -> slash_free key -> (n < 2 ^ 64)%N -> says_number rs key n -> Y (value_size fc key) (eq n).
Proof.
  intros Ht Hk Hn S. unfold value_size. eapply y_bind; [apply y_value; [symmetry; exact Ht|apply number_value; eassumption]|].
  intros a <-. eapply y_lift; reflexivity.
Qed.
Lemma y_double key w : tau key = TDouble -> slash_free key -> says_real fc rs key w -> Y (value_double fc key) (eq w).
Proof.
  intros Ht Hk S. unfold value_double. eapply y_bind; [apply y_value; [symmetry; exact Ht|apply real_value; eassumption]|].
  intros a <-. eapply y_lift; reflexivity.
Qed.
Lemma y_bool key c : tau key = TBool -> slash_free key -> says_logical rs key c -> Y (value_bool fc key) (eq c).
Proof.
  intros Ht Hk S. unfold value_bool. eapply y_bind; [apply y_value; [symmetry; exact Ht|apply logical_value; eassumption]|].
  intros a <-. eapply y_lift; reflexivity.
Qed.

Lemma y_try {A} (m : hdo A) (P : A -> Prop) : Y m P -> Y (try_out_of_range m) (fun o => exists a, o = Some a /\ P a).
Proof.
  intros M h T. destruct (M h T) as (h1 & a & E & Ha & T1). exists h1, (Some a). unfold try_out_of_range. rewrite E. eauto.
Qed.
Lemma y_try_missing t A (k : cval -> hdo A) key : missing rs key -> Y (try_out_of_range (hbind (value_of fc t key) k)) (eq None).
Proof.
  intros M h T. exists h, None. unfold try_out_of_range, hbind. rewrite (typed_missing _ _ _ _ _ _ _ T M). auto.
Qed.
Lemma y_text_if_any key o : tau key = TStr -> slash_free key -> text_if_any rs key o -> Y (try_out_of_range (value_str fc key)) (eq o).
Proof.
  intros Ht Hk S. destruct o as [s|]; cbn [text_if_any] in S.
  - eapply y_weak; [apply y_try, y_str; eassumption|]. intros ? (? & -> & <-). reflexivity.
  - apply y_try_missing; exact S.
Qed.
Lemma y_real_if_any key o : tau key = TDouble -> slash_free key -> real_if_any fc rs key o -> Y (try_out_of_range (value_double fc key)) (eq o).
Proof.
  intros Ht Hk S. destruct o as [s|]; cbn [real_if_any] in S.
  - eapply y_weak; [apply y_try, y_double; eassumption|]. intros ? (? & -> & <-). reflexivity.
  - apply y_try_missing; exact S.
Qed.

Lemma numbered_slash base i : slash_free (lit base) -> slash_free (numbered base i).
Proof. intros H. unfold numbered. rewrite slash_free_app. split; [exact H|apply show_N_slash]. Qed.

Lemma own_key key : tau key <> TStr -> of_the_library key.
Proof.
  unfold tau. intros H.
  assert (P : forall p, starts p key = true -> In (lit p) [lit "NAXIS"; lit "TBCOL"; lit "TSCAL"; lit "TZERO"] -> of_the_library key).
  { intros p E I. right. exists (lit p), (skipn (String.length p) key). split; [exact I|]. unfold starts in E. apply str_eqb_eq in E.
    rewrite <- E, firstn_skipn. reflexivity. }
  assert (Q : forall k, str_eqb key k = true -> In k [lit "SIMPLE"; lit "EXTEND"; lit "BITPIX"; lit "GCOUNT"; lit "PCOUNT"; lit "TFIELDS"] -> of_the_library key).
  { intros k E I. apply str_eqb_eq in E. subst k. left. exact I. }
  repeat match type of H with context [str_eqb key ?k] => destruct (str_eqb key k) eqn:?; [eapply Q; [eassumption|cbn; tauto]|] end.
  cbn [orb] in H.
  repeat match type of H with context [starts ?p key] => destruct (starts p key) eqn:?; [eapply P; [eassumption|cbn; tauto]|] end.
  contradiction.
Qed.
Lemma text_key key : ~ of_the_library key -> tau key = TStr.
Proof. intros H. destruct (tau key) eqn:E; try reflexivity; exfalso; apply H, own_key; rewrite E; discriminate. Qed.

Lemma anything_value key : says_anything rs key -> slash_free key -> exists s, has_value fc TStr rs key (VStr s).
Proof.
  intros [(s & S)|(t & T1 & T2 & T3 & r & R1 & R2)] Hk; [exists s; apply string_value; assumption|].
  destruct (entry_text _ _ _ R2 Hk T1) as (_ & e & E1 & E2).
  exists t, r. split; [exact R1|]. unfold text_value. rewrite value_uncached by reflexivity. cbn [value_imp].
  unfold value_imp_str. cbn [raw]. rewrite E1. cbn [bind]. rewrite E2, (proj2 (trim_fix_trimmed _) (proj1 (no_outer_blanks_trimmed _) T2)).
  destruct t as [|x t]; [reflexivity|]. destruct (Ascii.eqb x "'"%char) eqn:Eq; [|reflexivity].
  apply Ascii.eqb_eq in Eq. subst x. exfalso. exact (T3 t eq_refl).
Qed.

Lemma y_name i name : column_name rs i name -> Y (name_and_comment fc i) (fun p => fst p = name).
Proof.
  intros [[S M]|[M ->]]; unfold name_and_comment.
  - eapply y_bind; [apply y_try, y_str; [reflexivity|apply numbered_slash; free|exact S]|]. intros o (a & -> & <-).
    destruct M as [M|(A & Hs & Hn)].
    + eapply y_bind; [apply y_try_missing; exact M|]. intros o <-. apply y_ret. reflexivity.
    + destruct (anything_value _ A Hs) as (s & V).
      eapply y_bind with (Q := fun _ => True); [|intros o _; apply y_ret; reflexivity].
      eapply y_weak; [apply y_try|intros; exact I]. unfold value_str.
      eapply y_bind; [apply y_value; [symmetry; exact (text_key _ Hn)|exact V]|]. intros v <-. eapply y_lift with (P := fun _ => True); [reflexivity|exact I].
  - eapply y_bind; [apply y_try_missing; exact M|]. intros o <-. apply y_ret. reflexivity.
Qed.

Ltac key_ok := first [reflexivity | free | apply numbered_slash; free].
Ltac y_step := first [apply y_text_if_any | apply y_real_if_any | apply y_str | apply y_size]; [key_ok|key_ok|].

Definition bin_made (i : nat) (start : N) (c : bin_col) (col : column) : Prop :=
  (is_about (i - 1) (bc_about c) col /\ c_start col = start /\ c_elements col = bc_count c /\
   c_display col = or_empty (bc_display c) /\ c_dimension col = or_empty (bc_dimension c)) /\
  bin_column_size (c_format col) = Ret (N.of_nat (bc_width c)).
Fixpoint bins_made (i : nat) (start : N) (cols : list bin_col) (made : list column) : Prop :=
  match cols, made with
  | [], [] => True
  | c :: cols, col :: made => bin_made i start c col /\ bins_made (S i) (start + N.of_nat (bc_width c)) cols made
  | _, _ => False
  end.

Lemma y_bin_column i start c : 1 <= i -> bin_col_ok fc rs i c -> (N.of_nat (bc_width c) < 2 ^ 63)%N -> Y (bin_column fc i start) (bin_made i start c).
Proof.
  intros Hi ((C1 & C3 & C4 & C5 & C6) & C7 & C8 & letter & k & F & L & W & Hw) Hm.
  destruct (bin_type_bytes _ _ L) as [Hb _].
  assert (Hk : 1 <= k) by (cbn in L; repeat (destruct L as [L|L]; [injection L as _ <-; lia|]); contradiction).
  assert (Sz : bin_column_size (a_form (bc_about c)) = Ret (N.of_nat (bc_width c))).
  { rewrite W. eapply bin_form_width; [exact F|exact L|]. unfold two64. lia. }
  assert (Sc : bin_element_count (a_form (bc_about c)) = Ret (bc_count c)).
  { eapply bin_form_count; [exact F|exact Hb|]. unfold two64. nia. }
  unfold bin_column. eapply y_bind; [y_step; exact C3|]. intros form <-.
  eapply y_bind; [eapply y_lift with (P := fun _ => True); [exact Sz|exact I]|]. intros w _.
  eapply y_bind; [apply y_name; exact C1|]. intros nc Hn.
  eapply y_bind; [y_step; exact C4|]. intros u <-.
  eapply y_bind; [y_step; exact C5|]. intros sc <-.
  eapply y_bind; [y_step; exact C6|]. intros z <-.
  eapply y_bind; [y_step; exact C7|]. intros ds <-.
  eapply y_bind; [y_step; exact C8|]. intros dm <-.
  eapply y_bind; [eapply y_lift with (P := eq (bc_count c)); [exact Sc|reflexivity]|]. intros m <-.
  apply y_ret. split; [|exact Sz]. split; [|repeat split].
  split; [cbn [c_index]; lia|]. split; [exact Hn|]. repeat split.
Qed.

Lemma y_bin_columns cols : forall i start, 1 <= i -> (forall j c, nth_error cols j = Some c -> bin_col_ok fc rs (i + j) c) ->
  (start + N.of_nat (total (map bc_width cols)) < 2 ^ 63)%N ->
  Y (bin_columns fc (length cols) i start) (bins_made i start cols).
Proof.
  induction cols as [|c cols IH]; intros i start Hi H Hm; cbn [length bin_columns].
  { apply y_ret. exact I. }
  cbn [map total] in Hm.
  eapply y_bind; [apply y_bin_column with (c := c); [exact Hi|specialize (H 0 c eq_refl); rewrite Nat.add_0_r in H; exact H|lia]|].
  intros col Hc. eapply y_bind; [eapply y_lift with (P := eq (N.of_nat (bc_width c))); [apply Hc|reflexivity]|]. intros w <-.
  replace ((start + N.of_nat (bc_width c)) mod two64)%N with (start + N.of_nat (bc_width c))%N by (symmetry; apply N.mod_small; unfold two64; lia).
  eapply y_bind; [apply IH; [lia| |lia]|].
  - intros j x Hx. replace (S i + j) with (i + S j) by lia. exact (H (S j) x Hx).
  - intros r Hr. apply y_ret. split; assumption.
Qed.

Definition text_made (i : nat) (c : text_col) (col : column) : Prop :=
  is_text_col (i - 1) c col /\ ascii_column_size (c_format col) = Ret (N.of_nat (tc_width c)).
Fixpoint texts_made (i : nat) (cols : list text_col) (made : list column) : Prop :=
  match cols, made with
  | [], [] => True
  | c :: cols, col :: made => text_made i c col /\ texts_made (S i) cols made
  | _, _ => False
  end.

Lemma says_text_short key s : says_text rs key s -> length s <= 80.
Proof.
  intros (_ & _ & n & r & _ & a & d & comment & _ & _ & F). unfold record_body in F.
  rewrite !app_length in F. cbn [length] in F. rewrite !app_length in F. lia.
Qed.

Lemma y_text_column line i c : 1 <= i -> text_col_ok fc rs line i c -> (N.of_nat line < 2 ^ 63)%N -> Y (ascii_column fc i) (text_made i c).
Proof.
  intros Hi ((C1 & C3 & C4 & C5 & C6) & C7 & (letter & L & F) & B1 & B2 & B3) Hm.
  assert (Hl : is_form_blank letter = false /\ letter <> "."%char).
  { cbn in L. repeat (destruct L as [<-|L]; [split; [reflexivity|discriminate]|]). contradiction. }
  assert (Sz : ascii_column_size (a_form (tc_about c)) = Ret (N.of_nat (tc_width c))).
  { eapply ascii_form_width; [exact F|apply Hl|apply Hl|unfold two64; lia|]. pose proof (says_text_short _ _ C3). unfold two64. lia. }
  unfold ascii_column. eapply y_bind; [y_step; exact C3|]. intros form <-.
  eapply y_bind; [apply y_size; [key_ok|key_ok| |exact C7]; lia|]. intros st <-.
  eapply y_bind; [apply y_name; exact C1|]. intros nc Hn.
  eapply y_bind; [y_step; exact C4|]. intros u <-.
  eapply y_bind; [y_step; exact C5|]. intros sc <-.
  eapply y_bind; [y_step; exact C6|]. intros z <-.
  apply y_ret. split; [|exact Sz]. split; [|reflexivity].
  split; [cbn [c_index]; lia|]. split; [exact Hn|]. repeat split.
Qed.

Lemma y_text_columns line cols : (N.of_nat line < 2 ^ 63)%N -> forall i, 1 <= i -> (forall j c, nth_error cols j = Some c -> text_col_ok fc rs line (i + j) c) ->
  Y (ascii_columns fc (length cols) i) (texts_made i cols).
Proof.
  intros Hm. induction cols as [|c cols IH]; intros i Hi H; cbn [length ascii_columns].
  { apply y_ret. exact I. }
  eapply y_bind; [apply y_text_column with (c := c) (line := line); [exact Hi|specialize (H 0 c eq_refl); rewrite Nat.add_0_r in H; exact H|exact Hm]|].
  intros col Hc. eapply y_bind; [apply IH; [lia|]|].
  - intros j x Hx. replace (S i + j) with (i + S j) by lia. exact (H (S j) x Hx).
  - intros r Hr. apply y_ret. split; assumption.
Qed.

Lemma y_info kind width rows fields : table_records kind width rows fields rs -> Y (table_info fc) (eq (N.of_nat fields)).
Proof.
  intros (_ & _ & _ & _ & (g & G1 & G2) & (p & P1 & P2) & (s & S) & F & Hf & _). unfold table_info.
  eapply y_bind; [apply y_value; [reflexivity|apply integer_value; [exact G2|free|exact G1]]|]. intros a _.
  eapply y_bind; [apply y_value; [reflexivity|apply integer_value; [exact P2|free|exact P1]]|]. intros a' _.
  eapply y_bind; [apply y_value; [reflexivity|apply string_value; [exact S|free]]|]. intros e _.
  eapply y_bind; [apply y_size; [key_ok|key_ok| |exact F]; lia|]. intros n <-.
  replace (max_columns <? N.of_nat fields)%N with false; [apply y_ret; reflexivity|].
  symmetry. apply N.ltb_ge. unfold max_columns, max_size. apply N.div_le_lower_bound; lia.
Qed.
End Yields.

(** ** Headers *)

Lemma end_card_ok : length end_card = 80 /\ acceptable end_card /\ is_end_record end_card.
Proof.
  split; [reflexivity|]. split; [|reflexivity]. split; [change (length end_card) with 80; lia|]. right; left. right; right; left. reflexivity.
Qed.

Lemma header_records_lengths rs : header_records rs -> Forall (fun r => length r = 80) rs /\ rs <> [].
Proof.
  intros (body & -> & F). split; [|destruct body; discriminate]. apply Forall_app. split.
  - eapply Forall_impl; [|exact F]. intros r (H & _). exact H.
  - constructor; [apply end_card_ok|constructor].
Qed.

Lemma header_records_at pre rs post : header_records rs -> exists n, length rs = S n /\
  header_at (pre ++ concat rs ++ post) (length pre) n /\ records (pre ++ concat rs ++ post) (length pre) n = rs.
Proof.
  intros H. destruct (header_records_lengths _ H) as [L80 _]. destruct H as (body & E & F). exists (length body).
  assert (L : length rs = S (length body)) by (rewrite E, app_length; cbn [length]; lia).
  split; [exact L|]. split; [|apply records_concat; assumption].
  assert (At : forall k r, nth_error rs k = Some r -> record_at (pre ++ concat rs ++ post) (length pre) k = r)
    by (intros k r Hr; apply record_at_concat; assumption).
  assert (Body : forall k, k < length body -> exists r, nth_error body k = Some r /\ record_at (pre ++ concat rs ++ post) (length pre) k = r).
  { intros k Hk. destruct (nth_error body k) as [r|] eqn:Er; [|apply nth_error_None in Er; lia].
    exists r. split; [reflexivity|]. apply At. rewrite E, nth_error_app1 by exact Hk. exact Er. }
  assert (End : record_at (pre ++ concat rs ++ post) (length pre) (length body) = end_card).
  { apply At. rewrite E, nth_error_app2, Nat.sub_diag by lia. reflexivity. }
  rewrite Forall_forall in F. split; [|split].
  - intros k Hk. destruct (Nat.eq_dec k (length body)) as [->|Hn]; [rewrite End; apply end_card_ok|].
    destruct (Body k ltac:(lia)) as (r & R1 & ->). apply F. exact (nth_error_In _ _ R1).
  - intros k Hk. destruct (Body k Hk) as (r & R1 & ->). apply F. exact (nth_error_In _ _ R1).
  - rewrite End. apply end_card_ok.
Qed.

Lemma bitpix_range b : int_range 32 (bitpix_code b).
Proof. unfold int_range. destruct b; cbn; lia. Qed.

Lemma axis_key_slash i : slash_free (axis_key i).
Proof. unfold axis_key. rewrite slash_free_app. split; [free|apply show_N_slash]. Qed.

Definition mandatory_keys (d : nat) : list str := lit "BITPIX" :: lit "NAXIS" :: map axis_key (seq 1 d).
Lemma mandatory_in d key : mandatory_key d key -> In key (mandatory_keys d).
Proof.
  intros [->|[->|(i & Hi & ->)]]; [left; reflexivity|right; left; reflexivity|].
  right; right. apply in_map, in_seq. lia.
Qed.
Lemma in_mandatory d key : In key (mandatory_keys d) -> mandatory_key d key.
Proof.
  intros [<-|[<-|H]]; [left; reflexivity|right; left; reflexivity|]. apply in_map_iff in H.
  destruct H as (i & <- & Hi). apply in_seq in Hi. right; right. exists i. split; [lia|reflexivity].
Qed.

Theorem header_typed fc pre rs post b axes : header_records rs -> shape b axes rs ->
  Forall (fun v => (v < 2 ^ 64)%N) axes -> (N.of_nat (length axes) < 2 ^ 60)%N ->
  exists h, readable fc (pre ++ concat rs ++ post) (length pre) h /\ typed fc rs b axes h.
Proof.
  intros H (S1 & S2 & S3) Fa La. destruct (header_records_at pre rs post H) as (n & Ln & Ha & Er).
  destruct (header_records_lengths _ H) as [L80 Hne].
  set (c := pre ++ concat rs ++ post) in *.
  destruct (integer_value fc _ _ _ S1 ltac:(free) (bitpix_range b)) as (rb & B1 & B2).
  destruct (number_value fc _ _ _ S2 ltac:(free) ltac:(lia)) as (rn & N1 & N2).
  assert (S3' : forall i v, nth_error axes i = Some v -> has_value fc TSize rs (axis_key (S i)) (VSize v)).
  { intros i v Hi. apply number_value; [exact (S3 i v Hi)|apply axis_key_slash|].
    rewrite Forall_forall in Fa. apply Fa. exact (nth_error_In _ _ Hi). }
  assert (Pn : N.to_nat (pos (positioned c (length pre))) = length pre) by (cbn [positioned pos]; lia).
  destruct (read_header_complete fc (S n) (positioned c (length pre)) n b axes rb rn (good_positioned _ _)) as (s' & h & R & Raw & Hb & Hx);
    rewrite ?Pn; change (content (positioned c (length pre))) with c; rewrite ?Er; try assumption; try lia.
  rewrite Pn in Raw. change (content (positioned c (length pre))) with c in Raw. rewrite Er in Raw.
  exists h. split.
  { split; [exists (S n), s'; exact R|]. unfold header_bytes. replace (length (h_cards h)) with (length rs) by (rewrite <- Raw; apply map_length).
    unfold c. rewrite !app_length, concat_length80 by exact L80. lia. }
  destruct (read_header_inv _ _ _ _ _ (good_positioned _ _) R) as (m & _ & Hm & I & _).
  rewrite Pn in Hm, I. change (content (positioned c (length pre))) with c in Hm, I.
  assert (m = n).
  { destruct Hm as (_ & M2 & M3). destruct Ha as (_ & A2 & A3). destruct (Nat.lt_trichotomy m n) as [K|[K|K]]; [|exact K|].
    - destruct (A2 m K M3).
    - destruct (M2 n K A3). }
  subst m. rewrite Er in I. clear Hm.
  destruct (interpret_got _ _ _ I) as (b' & l & G1 & G2 & _ & E & GB & GN & GA).
  destruct (push_all_rest rs fresh_header) as (_ & P2 & _). rewrite P2 in G2. cbn [fresh_header h_naxis app] in G2.
  assert (El : l = axes) by congruence. clear G2. subst l.
  assert (Present : forall key, mandatory_key (length axes) key -> last_record key rs <> None).
  { intros key [->|[->|(i & Hi & ->)]]; [congruence|congruence|]. destruct i as [|i]; [lia|].
    destruct (nth_error axes i) as [v|] eqn:Ev; [|apply nth_error_None in Ev; lia].
    destruct (S3' i v Ev) as (r & R1 & _). congruence. }
  assert (Rec : forall key, map_find key (h_index h) = map_find key (h_index (push_all rs fresh_header))).
  { intros key. destruct (map_find key (h_index (push_all rs fresh_header))) as [i|] eqn:Ei; [exact (ext_some _ _ _ _ E key i Ei)|].
    apply (ext_none _ _ _ _ E key); [|exact Ei]. intros K. apply (Present key K). apply push_all_find. exact Ei. }
  assert (RecOf : forall key, record_of h key = last_record key rs).
  { intros key. unfold record_of. rewrite Rec, Raw.
    destruct (map_find key (h_index (push_all rs fresh_header))) as [i|] eqn:Ei.
    - pose proof (push_all_idx key rs Hne) as P. unfold idx in P. rewrite Ei in P. rewrite P.
      unfold mandatory_record. destruct (last_record key rs) eqn:El; [reflexivity|].
      apply push_all_find in El. congruence.
    - apply push_all_find in Ei. symmetry. exact Ei. }
  split; [exact Raw|exact RecOf| |  |exact Hb|exact Hx].
  - split; [exact (ext_sound _ _ _ _ E (push_all_sound fc rs))|]. intros key Hk. rewrite Rec. apply push_all_find. rewrite <- RecOf. exact Hk.
  - intros i v r C Hr.
    destruct (existsb (fun k => idx k (push_all rs fresh_header) =? i) (mandatory_keys (length axes))) eqn:X.
    + apply existsb_exists in X. destruct X as (key & X1 & X2). apply Nat.eqb_eq in X2. apply in_mandatory in X1.
      pose proof (push_all_idx key rs Hne) as P. rewrite X2, Hr in P. unfold mandatory_record in P.
      destruct (last_record key rs) as [r'|] eqn:El; [|destruct (Present _ X1 El)]. injection P as <-.
      apply last_record_in in El. destruct El as [_ ->].
      assert (Got : exists w, got fc (push_all rs fresh_header) h key w /\ ty_of w = tau key).
      { destruct X1 as [->|[->|(j & Hj & ->)]]; [eexists; split; [exact GB|reflexivity]|eexists; split; [exact GN|reflexivity]|].
        destruct j as [|j]; [lia|]. destruct (nth_error axes j) as [v0|] eqn:Ev; [|apply nth_error_None in Ev; lia].
        exists (VSize v0). split; [exact (GA j v0 Ev)|reflexivity]. }
      destruct Got as (w & [(cd & W1 & W2) _] & W3). rewrite X2 in W1. destruct C as (cd' & C1 & C2).
      rewrite W1 in C1. injection C1 as <-. rewrite W2 in C2. injection C2 as <-. exact W3.
    + exfalso. destruct C as (cd & C1 & C2). rewrite (ext_untouched _ _ _ _ E i) in C1.
      * rewrite push_all_cards in C1. cbn [fresh_header h_cards app] in C1. rewrite nth_error_map, Hr in C1. injection C1 as <-. discriminate.
      * intros key K Ki. rewrite <- not_true_iff_false in X. apply X, existsb_exists. exists key.
        split; [exact (mandatory_in _ _ K)|]. apply Nat.eqb_eq. exact Ki.
Qed.

(** ** Data *)

Lemma concat_length_k {A} (k : nat) (l : list (list A)) : Forall (fun x => length x = k) l -> length (concat l) = length l * k.
Proof. induction 1 as [|x l H F IH]; [reflexivity|]. cbn [concat length]. rewrite app_length, H, IH. reflexivity. Qed.

Lemma skip_concat {A} (k : nat) (l : list (list A)) : Forall (fun x => length x = k) l -> forall i x, nth_error l i = Some x ->
  exists rest, skipn (i * k) (concat l) = x ++ rest.
Proof.
  induction 1 as [|y l H F IH]; intros [|i] x Hx; try discriminate; cbn [nth_error] in Hx.
  - injection Hx as ->. exists (concat l). reflexivity.
  - destruct (IH i x Hx) as (rest & E). exists rest. cbn [concat mult]. rewrite skipn_app, skipn_all2 by lia.
    replace (k + i * k - length y) with (i * k) by lia. exact E.
Qed.

Lemma image_bytes b values bytes : b <> B8 -> values <> [] ->
  Forall2 (fun v s => length s = N.to_nat (element_size b) /\ big_endian s = v) values bytes ->
  read_image b (concat bytes) empty_image = Ret (mk_image values None).
Proof.
  intros Hb Hv F. set (k := N.to_nat (element_size b)) in *.
  assert (Hk : 1 <= k) by (unfold k; rewrite pixel_size; apply word_size_pos).
  assert (Fk : Forall (fun x : str => length x = k) bytes) by (clear -F; induction F as [|v s vs ss [H _] F IH]; constructor; assumption).
  assert (Lb : length bytes = length values) by (clear -F; induction F; cbn; congruence).
  pose proof (concat_length_k k bytes Fk) as Lc.
  assert (Hne : concat bytes <> []).
  { intros E. rewrite E in Lc. cbn [length] in Lc. destruct values; [contradiction|]. cbn [length] in Lb. nia. }
  destruct (read_image_spec b (concat bytes) empty_image Hb Hne) as (p & P1 & P2 & P3 & _). fold k in P2, P3.
  rewrite P1. replace p with values; [reflexivity|]. symmetry. apply list_ext.
  - rewrite P2, Lc, Nat.div_mul by lia. exact Lb.
  - intros i x y Hx Hy. rewrite (P3 i x Hx).
    destruct (nth_error bytes i) as [s|] eqn:Es; [|apply nth_error_None in Es; assert (i < length values) by (apply nth_error_Some; congruence); lia].
    destruct (skip_concat k bytes Fk i s Es) as (rest & ->).
    assert (Hs : length s = k /\ big_endian s = y).
    { clear -F Hy Es. revert i Hy Es. induction F as [|v z vs zs H F IH]; intros [|i] Hy Es; try discriminate; cbn in *; [|eauto].
      injection Hy as <-. injection Es as <-. exact H. }
    destruct Hs as [S1 S2]. rewrite firstn_exact by exact S1. rewrite be_val_big_endian. exact S2.
Qed.

Lemma cut_concat ws cells rest : Forall2 (fun w (cell : str) => length cell = w) ws cells -> cut ws (concat cells ++ rest) = cells.
Proof.
  induction 1 as [|w cell ws cells H F IH]; [reflexivity|]. cbn [cut concat]. rewrite <- app_assoc.
  rewrite firstn_exact by exact H. rewrite skipn_app, skipn_all2, H, Nat.sub_diag by lia. cbn [app skipn]. rewrite IH. reflexivity.
Qed.

Lemma concat_total ws cells : Forall2 (fun w (cell : str) => length cell = w) ws cells -> length (concat cells) = total ws.
Proof. induction 1 as [|w cell ws cells H F IH]; [reflexivity|]. cbn [concat total]. rewrite app_length. lia. Qed.

Definition filled_rows (ws : list nat) (rows : list (list str)) : Prop := Forall (Forall2 (fun w (cell : str) => length cell = w) ws) rows.

Lemma rows_concat ws rows : filled_rows ws rows -> Forall (fun x : str => length x = total ws) (map (@concat ascii) rows).
Proof. induction 1; constructor; [apply concat_total; assumption|assumption]. Qed.

Lemma binary_rows cols ws rows : widths_are bin_column_size cols ws -> filled_rows ws rows ->
  bin_read_rows (length rows) cols (concat (map (@concat ascii) rows)) = Ret (map (map trim) rows).
Proof.
  intros W F. pose proof (rows_concat _ _ F) as Fk. pose proof (concat_length_k _ _ Fk) as L. rewrite map_length in L.
  rewrite (bin_read_rows_spec _ _ W). rewrite L, Nat.leb_refl. f_equal.
  apply list_ext; [rewrite !map_length, seq_length; reflexivity|]. intros i x y Hx Hy.
  assert (Hi : i < length rows) by (assert (i < length (map (map trim) rows)) by (apply nth_error_Some; congruence); rewrite map_length in *; assumption).
  rewrite nth_map_seq in Hx by exact Hi. injection Hx as <-. rewrite nth_error_map in Hy.
  destruct (nth_error rows i) as [row|] eqn:Er; [|discriminate]. injection Hy as <-. unfold row_cells.
  assert (Em : nth_error (map (@concat ascii) rows) i = Some (concat row)) by exact (map_nth_error (@concat ascii) i rows Er).
  destruct (skip_concat _ _ Fk i (concat row) Em) as (rest & ->).
  rewrite cut_concat; [reflexivity|]. apply (proj1 (Forall_forall _ _) F). exact (nth_error_In _ _ Er).
Qed.

Lemma bin_data_ok cols ws rows : widths_are bin_column_size cols ws -> filled_rows ws rows -> cols <> [] -> (N.of_nat (length rows) < 2 ^ 31)%N ->
  bin_table_data (N.of_nat (length rows)) cols (concat (map (@concat ascii) rows)) = Ret (map (map trim) rows).
Proof.
  intros W F Hc Hr. pose proof two31_rows. unfold bin_table_data.
  destruct (N.ltb_spec max_rows (N.of_nat (length rows))); [lia|]. destruct (N.eqb_spec (N.of_nat (length rows)) 0) as [E|E].
  { destruct rows; [reflexivity|cbn in E; lia]. }
  destruct cols as [|c cols]; [contradiction|]. rewrite Nat2N.id, (binary_rows _ _ _ W F). cbn [bind].
  destruct (N.leb_spec (2 ^ 31) (N.of_nat (length rows))); [lia|]. reflexivity.
Qed.

Definition lies (c : text_col) (col : column) : Prop :=
  c_start col = N.of_nat (tc_start c) /\ ascii_column_size (c_format col) = Ret (N.of_nat (tc_width c)).

Lemma ascii_lines line cols tcs rows : Forall2 lies tcs cols -> Forall (fun c => 1 <= tc_start c /\ 0 < tc_width c /\ tc_start c - 1 + tc_width c <= line) tcs ->
  tcs <> [] -> Forall (fun r : str => length r = line) rows -> 0 < length rows -> (N.of_nat (length rows) < 2 ^ 31)%N -> (N.of_nat (length (concat rows)) < 2 ^ 62)%N ->
  ascii_table_data (N.of_nat (length rows)) (N.of_nat line) cols (concat rows) =
  Ret (map (fun r => map (fun c => trim (slice r (tc_start c - 1) (tc_width c))) tcs) rows).
Proof.
  intros M P Hne F H0 Hr Hl. assert (L : length (concat rows) = length rows * line) by exact (concat_length_k _ _ F).
  assert (Fi : fits_in (N.of_nat line) cols (map tc_width tcs)).
  { clear -M P. induction M as [|c col tcs cols (M3 & M4) M IH]; inversion P as [|? ? (Q1 & Q2 & Q3) P']; subst; constructor; [|apply IH; assumption].
    split; [exact M4|]. rewrite M3. lia. }
  assert (Hc : cols <> []) by (destruct M; [contradiction|discriminate]).
  assert (Lw : (N.of_nat (length rows) * N.of_nat line = N.of_nat (length (concat rows)))%N) by (rewrite L; lia).
  assert (Lw' : (N.of_nat (length (concat rows)) < two64)%N) by (eapply N.lt_trans; [exact Hl|reflexivity]).
  rewrite (ascii_data_ok (N.of_nat (length rows)) (N.of_nat line) cols (map tc_width tcs) (concat rows) Fi Hc ltac:(lia)) by (rewrite Lw; first [exact Lw'|apply N.le_refl]). f_equal. rewrite Nat2N.id.
  apply list_ext; [rewrite !map_length, seq_length; reflexivity|]. intros i x y Hx Hy.
  assert (Hi : i < length rows) by (match goal with H : nth_error (map ?f rows) i = Some _ |- _ => assert (K : i < length (map f rows)) by (apply nth_error_Some; congruence); rewrite map_length in K; exact K end).
  rewrite nth_map_seq in Hx by exact Hi. injection Hx as <-. rewrite nth_error_map in Hy.
  destruct (nth_error rows i) as [row|] eqn:Er; [|discriminate]. injection Hy as <-.
  destruct (skip_concat _ _ F i row Er) as (rest & Sk).
  assert (Lr : length row = line) by (rewrite Forall_forall in F; apply F; exact (nth_error_In _ _ Er)).
  unfold ascii_cells_of. clear Fi Hc Hne. induction M as [|c col tcs cols (M3 & M4) M IH]; [reflexivity|].
  inversion P as [|? ? (Q1 & Q2 & Q3) P']; subst. cbn [map combine fst snd]. f_equal; [|apply IH; assumption].
  f_equal. rewrite M3. replace (N.to_nat _) with (i * length row + (tc_start c - 1)) by lia.
  unfold slice. rewrite <- skipn_add, Sk, skipn_app, firstn_app, skipn_length.
  replace (tc_width c - (length row - (tc_start c - 1))) with 0 by lia. cbn [firstn]. apply app_nil_r.
Qed.

(** ** Objects *)

Definition content_bitpix (x : contents) : bitpix := match x with Image b _ _ => b | _ => B8 end.
Definition content_axes (x : contents) : list N :=
  match x with
  | Image _ axes _ => axes
  | Cells cols rows => [N.of_nat (total (map bc_width cols)); N.of_nat (length rows)]
  | Lines _ line rows => [N.of_nat line; N.of_nat (length rows)]
  end.

Lemma cells_filled cols rows : Forall (Forall2 (fun c (cell : str) => length cell = bc_width c) cols) rows -> filled_rows (map bc_width cols) rows.
Proof.
  intros F. eapply Forall_impl; [|exact F]. intros row R. clear F. induction R; cbn [map]; constructor; assumption.
Qed.

Lemma two_axes a b : Forall (fun v => (v < 2 ^ 64)%N) [N.of_nat a; N.of_nat b] <-> (N.of_nat a < 2 ^ 64 /\ N.of_nat b < 2 ^ 64)%N.
Proof. split; [intros F; inversion F as [|? ? F1 F2]; inversion F2; auto|intros [A B]; repeat constructor; assumption]. Qed.

Lemma encodes_header fc x rs d : encodes fc x rs d ->
  header_records rs /\ shape (content_bitpix x) (content_axes x) rs /\
  Forall (fun v => (v < 2 ^ 64)%N) (content_axes x) /\ (N.of_nat (length (content_axes x)) < 2 ^ 60)%N /\
  N.of_nat (length d) = ((match content_axes x with [] => 0 | l => product l end) * element_size (content_bitpix x))%N.
Proof.
  destruct x as [b axes values|cols rows|cols line rows]; cbn [content_bitpix content_axes].
  - intros (H1 & _ & _ & _ & H2 & H3 & H4 & _ & H5 & bytes & -> & F). repeat (split; [assumption|]).
    assert (Fk : Forall (fun x : str => length x = N.to_nat (element_size b)) bytes) by (clear -F; induction F as [|v s vs ss [H _] F IH]; constructor; assumption).
    assert (L : length bytes = length values) by (clear -F; induction F; cbn; congruence).
    assert (Lc : length (concat bytes) = length bytes * N.to_nat (element_size b)) by exact (concat_length_k _ _ Fk). rewrite Lc, L, Nat2N.inj_mul, N2Nat.id, H5. destruct axes; reflexivity.
  - intros ((H1 & _ & _ & H2 & _ & _ & _ & _ & _ & Hw & Hr) & _ & F & ->). split; [exact H1|]. split; [exact H2|].
    split; [apply two_axes; lia|]. split; [cbn; lia|].
    assert (Lc : length (concat (map (@concat ascii) rows)) = length rows * total (map bc_width cols))
      by (etransitivity; [exact (concat_length_k _ _ (rows_concat _ _ (cells_filled _ _ F)))|rewrite map_length; reflexivity]).
    rewrite Lc. cbn [product element_size]. lia.
  - intros ((H1 & _ & _ & H2 & _ & _ & _ & _ & _ & Hw & Hr) & _ & _ & F & ->). split; [exact H1|]. split; [exact H2|].
    split; [apply two_axes; lia|]. split; [cbn; lia|].
    assert (Lc : length (concat rows) = length rows * line) by exact (concat_length_k _ _ F).
    rewrite Lc. cbn [product element_size]. lia.
Qed.

Lemma typed_set_name fc rs b axes h n : typed fc rs b axes h -> typed fc rs b axes (set_name h n).
Proof. intros [T1 T2 T3 T4 T5 T6]. split; assumption. Qed.

Lemma primary_name fc rs b axes h : typed fc rs b axes h -> missing rs (lit "XTENSION") -> says_logical rs (lit "SIMPLE") true ->
  exists h1, get_hdu_name fc h = (h1, Ret (lit "primary_hdu")) /\ typed fc rs b axes h1.
Proof.
  intros T M S. unfold get_hdu_name. rewrite (typed_missing _ _ _ _ _ _ _ T M).
  destruct (typed_value fc rs b axes TBool (lit "SIMPLE") (VBool true) h T eq_refl) as (h1 & E & T1); [apply logical_value; [exact S|free]|].
  exists h1. rewrite E. auto.
Qed.

Lemma table_name fc rs b axes h kind : typed fc rs b axes h -> says_text rs (lit "XTENSION") kind ->
  exists h1, get_hdu_name fc h = (h1, Ret kind) /\ typed fc rs b axes h1.
Proof.
  intros T S. unfold get_hdu_name.
  destruct (typed_value fc rs b axes TStr (lit "XTENSION") (VStr kind) h T eq_refl) as (h1 & E & T1); [apply string_value; [exact S|free]|].
  exists (set_name h1 kind). rewrite E. split; [reflexivity|]. apply typed_set_name, T1.
Qed.

Lemma typed_contains fc rs b axes h key : typed fc rs b axes h -> (contains_keyword key h = false <-> missing rs key).
Proof.
  intros T. pose proof (contains_spec key h) as C. rewrite (ty_raw _ _ _ _ _ T) in C. unfold missing.
  destruct (contains_keyword key h), (last_record key rs); intuition congruence.
Qed.

Theorem image_made fc b axes values rs d h : encodes fc (Image b axes values) rs d -> typed fc rs b axes h ->
  exists o, becomes fc h d (lit "primary_hdu") o /\ contains (Image b axes values) o.
Proof.
  intros (_ & M & S & (e & Se) & _ & _ & _ & Hb & _ & bytes & -> & F) T.
  destruct (primary_name _ _ _ _ _ T M S) as (h1 & En & T1).
  assert (Im : exists im, read_image b (concat bytes) empty_image = Ret im /\ pixels im = values).
  { destruct values as [|v values].
    - inversion F; subst. exists empty_image. split; reflexivity.
    - destruct Hb as [Hb|Hb]; [|discriminate]. exists (mk_image (v :: values) None). split; [|reflexivity].
      apply image_bytes; [exact Hb|discriminate|exact F]. }
  destruct Im as (im & I1 & I2).
  assert (Y : yields fc rs b axes (do s <- value_bool fc (lit "SIMPLE") in do e <- value_bool fc (lit "EXTEND") in hret (s, e)) (fun _ => True)).
  { eapply y_bind; [apply y_bool; [reflexivity|free|exact S]|]. intros s _.
    eapply y_bind; [apply y_bool; [reflexivity|free|exact Se]|]. intros s' _. apply y_ret. exact I. }
  destruct (Y h1 T1) as (h2 & [s1 e1] & E & _ & T2).
  exists (HPrimary (mk_primary h2 b im s1 e1)). split.
  - exists h1. split; [exact En|]. unfold construct_hdu.
    assert (C : contains_keyword (lit "SIMPLE") h1 = true).
    { destruct (contains_keyword (lit "SIMPLE") h1) eqn:C; [reflexivity|]. apply (typed_contains _ _ _ _ _ _ T1) in C.
      destruct S as (r & S & _). unfold missing in C. congruence. }
    rewrite C. unfold make_primary, get_bitpix. rewrite (ty_bitpix _ _ _ _ _ T1). cbn [bind]. rewrite I1. cbn [bind]. rewrite E. reflexivity.
  - eexists. split; [reflexivity|]. cbn [p_kind p_header p_image]. split; [reflexivity|]. split; [exact (ty_naxis _ _ _ _ _ T2)|exact I2].
Qed.

Lemma y_meta {A} fc rs b axes kind width rows (tcs : list A) columns P : table_records kind width rows (length tcs) rs ->
  yields fc rs b axes (columns (length tcs)) P ->
  yields fc rs b axes (table_meta columns fc) (fun p => fst p = N.of_nat (length tcs) /\ P (snd p)).
Proof.
  intros R C. unfold table_meta. eapply y_bind; [eapply y_info; exact R|]. intros n <-. rewrite Nat2N.id.
  eapply y_bind; [exact C|]. intros cols Hc. apply y_ret. auto.
Qed.

Lemma extension_table fc rs b axes h kind d : typed fc rs b axes h -> missing rs (lit "SIMPLE") -> says_text rs (lit "XTENSION") kind ->
  exists h1, typed fc rs b axes h1 /\
    construct_hdu fc h d =
    if str_eqb kind (lit "TABLE") then let! t := ascii_table fc h1 d in Ret (HAscii t)
    else if str_eqb kind (lit "BINTABLE") then let! t := binary_table fc h1 d in Ret (HBinary t)
    else Ret HBlank.
Proof.
  intros T M S. unfold construct_hdu. rewrite (proj2 (typed_contains _ _ _ _ _ _ T) M). unfold make_extension.
  destruct (y_str fc rs b axes (lit "XTENSION") kind eq_refl ltac:(free) S h T) as (h1 & x & E & <- & T1).
  exists h1. split; [exact T1|]. rewrite E. reflexivity.
Qed.

Lemma total_app a b : total (a ++ b) = total a + total b.
Proof. induction a as [|x a IH]; cbn [app total]; [reflexivity|]. rewrite IH. lia. Qed.

Lemma made_widths all : forall cols bcs pre, all = pre ++ bcs ->
  bins_made (S (length pre)) (N.of_nat (total (map bc_width pre))) bcs cols ->
  widths_are bin_column_size cols (map bc_width bcs) /\ length cols = length bcs /\
  forall j b c, nth_error bcs j = Some b -> nth_error cols j = Some c -> is_bin_col all (length pre + j) b c.
Proof.
  induction cols as [|c cols IH]; intros [|b bcs] pre E M; try contradiction M.
  - split; [constructor|]. split; [reflexivity|]. intros [|j] ? ? K; discriminate K.
  - destruct M as [[M1 M2] M3]. destruct (IH bcs (pre ++ [b])) as (I1 & I2 & I3).
    + rewrite <- app_assoc. exact E.
    + rewrite app_length, map_app, total_app. cbn [map total length]. rewrite Nat.add_0_r, Nat.add_1_r, Nat2N.inj_add. exact M3.
    + split; [constructor; assumption|]. split; [cbn; congruence|]. intros [|j] b' c' Hb Hc; cbn [nth_error] in Hb, Hc.
      * injection Hb as <-. injection Hc as <-. rewrite Nat.add_0_r. cbn [Nat.sub] in M1. rewrite Nat.sub_0_r in M1.
        unfold is_bin_col. rewrite E, firstn_app, firstn_all, Nat.sub_diag. cbn [firstn]. rewrite app_nil_r. exact M1.
      * specialize (I3 j b' c' Hb Hc). rewrite app_length in I3. cbn [length] in I3. replace (length pre + S j) with (length pre + 1 + j) by lia. exact I3.
Qed.

Theorem cells_made fc cols rows rs d h : encodes fc (Cells cols rows) rs d -> typed fc rs B8 (content_axes (Cells cols rows)) h ->
  exists o, becomes fc h d (lit "BINTABLE") o /\ contains (Cells cols rows) o.
Proof.
  intros (R & C & F & ->) T. pose proof (cells_filled _ _ F) as Ff.
  pose proof R as (_ & M & X & _ & _ & _ & _ & _ & Hf & Hw & Hr).
  destruct (table_name _ _ _ _ _ _ T X) as (h1 & En & T1).
  destruct (extension_table _ _ _ _ _ _ (concat (map (@concat ascii) rows)) T1 M X) as (h2 & T2 & Ec).
  change (str_eqb (lit "BINTABLE") (lit "TABLE")) with false in Ec. change (str_eqb (lit "BINTABLE") (lit "BINTABLE")) with true in Ec. cbv iota in Ec.
  destruct (y_meta fc rs B8 _ _ _ _ cols (fun k => bin_columns fc k 1 0) _ R
    (y_bin_columns fc rs B8 _ cols 1 0%N (le_n 1) C Hw) h2 T2) as (h3 & [n cs] & E & [E1 E2] & T3). cbn [fst snd] in E1, E2.
  destruct (made_widths cols cs cols [] eq_refl E2) as (W & Wn & Wf).
  assert (Tb : binary_table fc h2 (concat (map (@concat ascii) rows)) = Ret (mk_table h3 n cs (map (map trim) rows))).
  { rewrite binary_table_meta, E.
    assert (Hc : cs <> []) by (intros ->; cbn [length] in Wn; lia).
    pose proof (bin_data_ok cs _ rows W Ff Hc Hr) as D.
    destruct (concat (map (@concat ascii) rows)) as [|ch buf] eqn:Eb.
    - destruct rows as [|row rows]; [reflexivity|]. exfalso. cbn [map concat] in Eb. apply app_eq_nil in Eb. destruct Eb as [Eb _].
      inversion Ff as [|? ? Fr _]; subst. apply concat_total in Fr. rewrite Eb in Fr. cbn [length] in Fr.
      destruct cols as [|c cols]; [cbn in Hf; lia|]. destruct (C 0 c eq_refl) as (_ & _ & _ & ? & ? & _ & _ & _ & Hpos). cbn [map total] in Fr. lia.
    - cbn [naxis]. rewrite (ty_naxis _ _ _ _ _ T3). cbn [content_axes nth_error bind]. rewrite D. reflexivity. }
  exists (HBinary (mk_table h3 n cs (map (map trim) rows))). split.
  - exists h1. split; [exact En|]. rewrite Ec, Tb. reflexivity.
  - eexists. split; [reflexivity|]. cbn [t_columns t_data]. split; [split; assumption|reflexivity].
Qed.

Lemma made_places : forall cols tcs i, texts_made (S i) tcs cols -> Forall2 lies tcs cols /\ length cols = length tcs /\
  forall j b c, nth_error tcs j = Some b -> nth_error cols j = Some c -> is_text_col (i + j) b c.
Proof.
  induction cols as [|c cols IH]; intros [|b tcs] i M; try contradiction M.
  - split; [constructor|]. split; [reflexivity|]. intros [|j] ? ? K; discriminate K.
  - destruct M as [[M1 M2] M3]. destruct (IH tcs (S i) M3) as (I1 & I2 & I3). cbn [Nat.sub] in M1. rewrite Nat.sub_0_r in M1.
    split; [constructor; [split; [apply M1|exact M2]|exact I1]|]. split; [cbn; congruence|].
    intros [|j] b' c' Hb Hc; cbn [nth_error] in Hb, Hc.
    + injection Hb as <-. injection Hc as <-. rewrite Nat.add_0_r. exact M1.
    + replace (i + S j) with (S i + j) by lia. exact (I3 j b' c' Hb Hc).
Qed.

Theorem lines_made fc cols line rows rs d h : encodes fc (Lines cols line rows) rs d -> typed fc rs B8 (content_axes (Lines cols line rows)) h ->
  (N.of_nat (length d) < 2 ^ 62)%N -> exists o, becomes fc h d (lit "TABLE") o /\ contains (Lines cols line rows) o.
Proof.
  intros (R & C & Hl & F & ->) T Sm.
  pose proof R as (_ & M & X & _ & _ & _ & _ & _ & Hf & Hw & Hr).
  destruct (table_name _ _ _ _ _ _ T X) as (h1 & En & T1).
  destruct (extension_table _ _ _ _ _ _ (concat rows) T1 M X) as (h2 & T2 & Ec).
  change (str_eqb (lit "TABLE") (lit "TABLE")) with true in Ec. cbv iota in Ec.
  destruct (y_meta fc rs B8 _ _ _ _ cols (fun k => ascii_columns fc k 1) _ R
    (y_text_columns fc rs B8 _ line cols Hw 1 (le_n 1) C) h2 T2) as (h3 & [n cs] & E & [E1 E2] & T3). cbn [fst snd] in E1, E2.
  destruct (made_places cs cols 0 E2) as (E3 & Wn & Wf).
  assert (Hc : cols <> []) by (destruct cols; [cbn in Hf; lia|discriminate]).
  assert (P : Forall (fun c => 1 <= tc_start c /\ 0 < tc_width c /\ tc_start c - 1 + tc_width c <= line) cols).
  { apply Forall_forall. intros c Hi. apply In_nth_error in Hi. destruct Hi as (j & Hj). destruct (C j c Hj) as (_ & _ & _ & Q). exact Q. }
  assert (Ta : ascii_table fc h2 (concat rows) = Ret (mk_table h3 n cs (map (fun r => map (fun c => trim (slice r (tc_start c - 1) (tc_width c))) cols) rows))).
  { rewrite ascii_table_meta, E. destruct rows as [|row rows]; [reflexivity|].
    pose proof (ascii_lines line cs cols (row :: rows) E3 P Hc F ltac:(cbn; lia) Hr Sm) as D.
    destruct (concat (row :: rows)) as [|ch buf] eqn:Eb.
    - exfalso. cbn [concat] in Eb. apply app_eq_nil in Eb. destruct Eb as [-> _]. inversion F; subst. cbn in *. lia.
    - cbn [naxis]. rewrite (ty_naxis _ _ _ _ _ T3). cbn [content_axes nth_error bind]. rewrite D. reflexivity. }
  eexists. split.
  - exists h1. split; [exact En|]. rewrite Ec, Ta. reflexivity.
  - eexists. split; [reflexivity|]. cbn [t_columns t_data]. split; [split; assumption|reflexivity].
Qed.

Theorem content_made fc x rs d h : encodes fc x rs d -> typed fc rs (content_bitpix x) (content_axes x) h -> (N.of_nat (length d) < 2 ^ 62)%N ->
  exists o, becomes fc h d (content_name x) o /\ contains x o.
Proof.
  destruct x as [b axes values|cols rows|cols line rows]; intros E T Sm.
  - eapply image_made; eassumption.
  - eapply cells_made; eassumption.
  - eapply lines_made; eassumption.
Qed.

(** ** Files *)

Lemma blocked_length fill s : length (blocked fill s) mod 2880 = 0 /\
  (length s mod 2880 <> 0 -> length (blocked fill s) = next_block (length s)).
Proof.
  unfold blocked, next_block, pad_len. rewrite app_length, repeat_length.
  pose proof (Nat.div_mod (length s) 2880 ltac:(lia)) as D. pose proof (Nat.mod_upper_bound (length s) 2880 ltac:(lia)) as B. split.
  - destruct (Nat.eq_dec (length s mod 2880) 0) as [E|E].
    + rewrite E. change ((2880 - 0) mod 2880) with 0. rewrite Nat.add_0_r. exact E.
    + rewrite (Nat.mod_small (2880 - length s mod 2880)) by lia.
      apply Nat.mod_divides; [lia|]. exists (S (length s / 2880)). lia.
  - intros E. rewrite (Nat.mod_small (2880 - length s mod 2880)) by lia. reflexivity.
Qed.

Lemma blocked_starts fill s : exists t, blocked fill s = s ++ t.
Proof. eexists. reflexivity. Qed.

(** The header of the unit is that of the stored HDU and so is the data. *)
Definition unit_of (fc : fcodec) (x : stored) (u : file_unit) : Prop :=
  typed fc (s_records x) (content_bitpix (s_content x)) (content_axes (s_content x)) (u_header u) /\ u_data u = s_data x.

Lemma blocked_next fill s : length (blocked fill s) <= next_block (length s).
Proof.
  destruct (blocked_length fill s) as [_ N]. destruct (Nat.eq_dec (length s mod 2880) 0) as [E|E]; [|rewrite (N E); lia].
  unfold blocked. rewrite E. change ((2880 - 0) mod 2880) with 0. rewrite app_length. cbn [repeat length].
  pose proof (next_block_spec (length s)). lia.
Qed.

Definition laid (x : contents) (rs : list str) (d : str) : Prop :=
  header_records rs /\ shape (content_bitpix x) (content_axes x) rs /\
  Forall (fun v => (v < 2 ^ 64)%N) (content_axes x) /\ (N.of_nat (length (content_axes x)) < 2 ^ 60)%N /\
  N.of_nat (length d) = ((match content_axes x with [] => 0 | l => product l end) * element_size (content_bitpix x))%N.

Lemma laid_unit fc x pre rest : laid (s_content x) (s_records x) (s_data x) -> header_inside x \/ s_data x = [] ->
  length pre mod 2880 = 0 -> small (pre ++ stored_bytes x ++ rest) ->
  exists u e, unit_in fc (pre ++ stored_bytes x ++ rest) u e /\ u_at u = length pre /\ unit_of fc x u /\
    length (pre ++ stored_bytes x) <= e /\ (tidy x -> e = length (pre ++ stored_bytes x)).
Proof.
  intros (R & Sh & Fa & La & Ld) Hh Hp Sm.
  set (rs := s_records x) in *. set (d := s_data x) in *. set (c := pre ++ stored_bytes x ++ rest) in *.
  destruct (header_records_lengths _ R) as [L80 Hne].
  unfold stored_bytes in *. fold rs d in c |- *.
  destruct (blocked_starts sp (concat rs)) as (th & Eh). destruct (blocked_starts (s_fill x) d) as (td & Ed).
  destruct (blocked_length sp (concat rs)) as [Mh Nh].
  destruct (blocked_length (s_fill x) d) as [Md Nd].
  assert (Ec : c = pre ++ concat rs ++ th ++ d ++ td ++ rest) by (unfold c; rewrite Eh, Ed, <- !app_assoc; reflexivity).
  destruct (header_typed fc pre rs (th ++ d ++ td ++ rest) _ _ R Sh Fa La) as (h & Rd & T). rewrite <- Ec in Rd.
  assert (Hb : header_bytes h = length (concat rs)).
  { unfold header_bytes. rewrite concat_length80 by exact L80. rewrite <- (ty_raw _ _ _ _ _ T), map_length. reflexivity. }
  assert (Hq : header_inside x -> next_block (length pre + header_bytes h) = length (pre ++ blocked sp (concat rs))).
  { intros I. specialize (Nh I). rewrite next_block_shift by exact Hp. rewrite Hb, app_length, Nh. reflexivity. }
  assert (Hpos : length pre < length c).
  { rewrite Ec, !app_length, concat_length80 by exact L80. destruct rs; [contradiction|cbn [length]; lia]. }
  assert (Ds : data_size h = match content_axes (s_content x) with [] => 0%N | l => (product l mod two64)%N end).
  { rewrite data_size_product, (ty_naxis _ _ _ _ _ T). reflexivity. }
  assert (He : (1 <= element_size (content_bitpix (s_content x)))%N) by (destruct (content_bitpix (s_content x)); cbn; lia).
  assert (Ls : (N.of_nat (length d) < 2 ^ 62)%N) by (unfold small in Sm; rewrite Ec, !app_length in Sm; lia).
  assert (Dp : data_size h = (match content_axes (s_content x) with [] => 0 | l => product l end)%N).
  { rewrite Ds. destruct (content_axes (s_content x)) as [|a l]; [reflexivity|]. apply N.mod_small. unfold two64. nia. }
  assert (Dc : d = [] \/ length d <> 0) by (destruct d; [left; reflexivity|right; discriminate]). destruct Dc as [Dc|Hd].
  - rewrite Dc in *. assert (Z : data_size h = 0%N) by (rewrite Dp; cbn [length] in Ld; nia).
    exists (mk_unit (length pre) (next_block (length pre + header_bytes h)) h []), (next_block (length pre + header_bytes h)).
    split; [apply unit_no_data; assumption|]. split; [reflexivity|]. split; [split; [exact T|symmetry; exact Dc]|].
    change (blocked (s_fill x) []) with (@nil ascii). rewrite app_nil_r. split; [|intros [I _]; exact (Hq I)].
    rewrite next_block_shift by exact Hp. rewrite Hb, app_length. apply Nat.add_le_mono_l, blocked_next.
  - assert (I : header_inside x) by (destruct Hh as [I|K]; [exact I|]; fold d in K; rewrite K in Hd; contradiction). specialize (Hq I).
    assert (Z : data_size h <> 0%N) by (intros K; rewrite <- Dp, K in Ld; lia).
    pose (q := next_block (length pre + header_bytes h)).
    assert (Sl : slice c q (length d) = d).
    { unfold q. rewrite Hq, Ec, Eh. replace (pre ++ concat rs ++ th ++ d ++ td ++ rest) with ((pre ++ concat rs ++ th) ++ d ++ td ++ rest) by (rewrite <- !app_assoc; reflexivity).
      apply slice_middle. }
    assert (Lc : q + length d <= length c) by (unfold q; rewrite Hq, Ec, Eh, !app_length; lia).
    exists (mk_unit (length pre) q h (slice c q (length d))), (next_block (q + length d)).
    split; [apply unit_with_data with (b := content_bitpix (s_content x)); try assumption; [exact (ty_bitpix _ _ _ _ _ T)|rewrite Dp; exact Ld]|].
    split; [reflexivity|]. split; [split; [exact T|exact Sl]|].
    assert (Mq : q mod 2880 = 0) by (apply next_block_spec).
    rewrite next_block_shift by exact Mq. rewrite app_assoc, app_length. fold q in Hq. rewrite <- Hq. split.
    + pose proof (blocked_next (s_fill x) d). lia.
    + intros [_ [K|K]]; [fold d in K; rewrite K in Hd; contradiction|]. fold d in K. rewrite (Nd K). reflexivity.
Qed.

Lemma stored_unit fc x pre rest : encodes fc (s_content x) (s_records x) (s_data x) -> header_inside x \/ s_data x = [] ->
  length pre mod 2880 = 0 -> small (pre ++ stored_bytes x ++ rest) ->
  exists u e, unit_in fc (pre ++ stored_bytes x ++ rest) u e /\ u_at u = length pre /\ unit_of fc x u /\
    length (pre ++ stored_bytes x) <= e /\ (tidy x -> e = length (pre ++ stored_bytes x)).
Proof. intros En. exact (laid_unit fc x pre rest (encodes_header _ _ _ _ En)). Qed.

Lemma stored_length x : length (stored_bytes x) mod 2880 = 0.
Proof.
  unfold stored_bytes. rewrite app_length. destruct (blocked_length sp (concat (s_records x))) as [A _]. destruct (blocked_length (s_fill x) (s_data x)) as [B _].
  rewrite Nat.add_mod, A, B by lia. reflexivity.
Qed.

Lemma stored_units_to fc l : Forall (fun x => encodes fc (s_content x) (s_records x) (s_data x)) l -> Forall tidy l ->
  forall pre rest, length pre mod 2880 = 0 -> small (pre ++ concat (map stored_bytes l) ++ rest) ->
  exists us, units_to fc (pre ++ concat (map stored_bytes l) ++ rest) (length pre) us (length (pre ++ concat (map stored_bytes l))) /\
    Forall2 (unit_of fc) l us /\ length (pre ++ concat (map stored_bytes l)) mod 2880 = 0.
Proof.
  induction l as [|x l IH]; intros Fe Ft pre rest Hp Sm.
  - exists []. cbn [map concat]. rewrite app_nil_r. split; [constructor|]. split; [constructor|exact Hp].
  - inversion Fe as [|? ? E Fe']; subst. inversion Ft as [|? ? H Ft']; subst. cbn [map concat] in *.
    rewrite <- app_assoc in Sm |- *.
    destruct (stored_unit fc x pre (concat (map stored_bytes l) ++ rest) E (or_introl (proj1 H)) Hp Sm) as (u & e & U1 & U2 & U3 & _ & U5).
    specialize (U5 H). destruct (IH Fe' Ft' (pre ++ stored_bytes x) rest) as (us & Us & F2 & M).
    + rewrite app_length, Nat.add_mod, Hp, stored_length by lia. reflexivity.
    + rewrite <- app_assoc. exact Sm.
    + rewrite <- !app_assoc in Us, M. exists (u :: us). split; [|split; [constructor; assumption|exact M]].
      rewrite <- U2. eapply next_unit_at; [exact U1|]. rewrite U5, (app_assoc pre (stored_bytes x) (concat _)). exact Us.
Qed.

Lemma units_to_snoc fc c p us q u e : units_to fc c p us q -> unit_in fc c u e -> u_at u = q -> units_to fc c p (us ++ [u]) e.
Proof.
  intros U Ui <-. remember (u_at u) as q eqn:Eq. induction U as [p|v us e1 e2 V U IH]; cbn [app].
  - rewrite Eq. eapply next_unit_at; [exact Ui|constructor].
  - eapply next_unit_at; [exact V|apply IH; exact Eq].
Qed.

Theorem stored_units fc l x : Forall (fun x => encodes fc (s_content x) (s_records x) (s_data x)) (l ++ [x]) -> Forall tidy l ->
  header_inside x \/ s_data x = [] -> small (concat (map stored_bytes (l ++ [x]))) ->
  exists us, units fc (concat (map stored_bytes (l ++ [x]))) 0 us /\ Forall2 (unit_of fc) (l ++ [x]) us.
Proof.
  intros Fe Ft Hx Sm. apply Forall_app in Fe as [Fe Ex]. inversion Ex as [|? ? E _]; subst. rewrite map_app, concat_app in *. cbn [map concat] in *. rewrite app_nil_r in *.
  destruct (stored_units_to fc l Fe Ft [] (stored_bytes x) eq_refl Sm) as (us & U & F2 & M). cbn [app length] in U, M.
  destruct (stored_unit fc x (concat (map stored_bytes l)) [] E Hx M) as (u & e & U1 & U2 & U3 & U4 & _); [rewrite app_nil_r; exact Sm|].
  rewrite app_nil_r in *. exists (us ++ [u]). split.
  - exists e. split; [|exact U4]. exact (units_to_snoc _ _ _ _ _ _ _ U U1 U2).
  - apply Forall2_app; [exact F2|constructor; [exact U3|constructor]].
Qed.

(** Whatever the bytes of the data, an HDU with other values has the same header and that data. *)
Lemma pieces (k : nat) (n : nat) (d : str) : length d = n * k -> exists l, d = concat l /\ Forall (fun x : str => length x = k) l /\ length l = n.
Proof.
  revert d. induction n as [|n IH]; intros d H.
  - exists []. destruct d; [|discriminate]. repeat split; constructor.
  - destruct (IH (skipn k d)) as (l & E & F & L); [rewrite skipn_length; lia|]. exists (firstn k d :: l). split; [|split].
    + cbn [concat]. rewrite <- E, firstn_skipn. reflexivity.
    + constructor; [rewrite firstn_length; lia|exact F].
    + cbn. congruence.
Qed.

Lemma fields_of (cols : list bin_col) (r : str) : length r = total (map bc_width cols) ->
  exists cells, r = concat cells /\ Forall2 (fun c (cell : str) => length cell = bc_width c) cols cells.
Proof.
  revert r. induction cols as [|c cols IH]; intros r H.
  - exists []. destruct r; [|discriminate]. split; [reflexivity|constructor].
  - cbn [map total] in H. destruct (IH (skipn (bc_width c) r)) as (cells & E & F); [rewrite skipn_length; lia|].
    exists (firstn (bc_width c) r :: cells). split; [cbn [concat]; rewrite <- E, firstn_skipn; reflexivity|].
    constructor; [rewrite firstn_length; lia|exact F].
Qed.

Lemma encodes_other fc x rs d d' : encodes fc x rs d -> length d' = length d ->
  exists x', encodes fc x' rs d' /\ content_bitpix x' = content_bitpix x /\ content_axes x' = content_axes x /\ content_name x' = content_name x.
Proof.
  destruct x as [b axes values|cols rows|cols line rows]; cbn [encodes]; intros H L.
  - destruct H as (H1 & H2 & H3 & H4 & H5 & H6 & H7 & H8 & H9 & bytes & E & F).
    assert (Lb : length bytes = length values) by (clear -F; induction F; cbn; congruence).
    assert (Fb : Forall (fun x : str => length x = N.to_nat (element_size b)) bytes) by (clear -F; induction F as [|v s l l' [K _] F IH]; constructor; assumption).
    destruct (pieces (N.to_nat (element_size b)) (length values) d') as (l & El & Fl & Ll).
    { rewrite L, E, (concat_length_k _ _ Fb), Lb. reflexivity. }
    exists (Image b axes (map big_endian l)). cbn [encodes content_bitpix content_axes content_name]. split; [|auto]. repeat (split; [assumption|]).
    split; [|split].
    + destruct H8 as [H8|H8]; [left; exact H8|right]. subst values. destruct l; [reflexivity|discriminate].
    + replace (length (map big_endian l)) with (length values) by (rewrite map_length; symmetry; exact Ll). exact H9.
    + exists l. split; [exact El|]. clear -Fl. induction Fl; constructor; auto.
  - destruct H as (H1 & H2 & H3 & E).
    assert (Fr : Forall (fun x : str => length x = total (map bc_width cols)) (map (@concat ascii) rows)).
    { clear -H3. induction H3 as [|r rows H F IH]; constructor; [|exact IH]. clear -H. induction H; cbn [concat map total]; [reflexivity|rewrite app_length; f_equal; assumption]. }
    destruct (pieces (total (map bc_width cols)) (length rows) d') as (l & El & Fl & Ll).
    { rewrite L, E, (concat_length_k _ _ Fr), map_length. reflexivity. }
    assert (X : exists rows' : list (list str), l = map (@concat ascii) rows' /\ Forall (Forall2 (fun c (cell : str) => length cell = bc_width c) cols) rows').
    { clear -Fl. induction Fl as [|r l H F (rows' & E & G)]; [exists []; split; [reflexivity|constructor]|].
      destruct (fields_of cols r H) as (cells & E1 & G1). exists (cells :: rows'). split; [cbn [map]; rewrite E1, E; reflexivity|constructor; assumption]. }
    destruct X as (rows' & E' & G). assert (Lr : length rows' = length rows) by (rewrite <- Ll, E', map_length; reflexivity).
    exists (Cells cols rows'). cbn [encodes content_bitpix content_axes content_name]. rewrite Lr. rewrite <- E'. auto 10.
  - destruct H as (H1 & H2 & H3 & H4 & E).
    destruct (pieces line (length rows) d') as (l & El & Fl & Ll).
    { rewrite L, E. exact (concat_length_k _ _ H4). }
    assert (Ll' : @length str l = length rows) by exact Ll.
    exists (Lines cols line l). cbn [encodes content_bitpix content_axes content_name]. rewrite Ll'. auto 10.
Qed.

(** The units of the file before the last one, as HDU objects. *)
Lemma made_units fc l us : Forall (fun x => encodes fc (s_content x) (s_records x) (s_data x)) l -> Forall2 (unit_of fc) l us ->
  Forall (fun x => (N.of_nat (length (s_data x)) < 2 ^ 62)%N) l ->
  exists xs, length xs = length l /\ Forall2 (fun x o => contains (s_content x) o) l xs /\
    Forall2 (fun u nx => becomes fc (u_header u) (u_data u) (fst nx) (snd nx)) us (combine (map (fun y => content_name (s_content y)) l) xs).
Proof.
  intros Fe F2 Sd. induction F2 as [|x u l us [U1 U2] F2 IH]; [exists []; repeat split; constructor|].
  inversion Fe as [|? ? E Fe']; subst. inversion Sd as [|? ? S Sd']; subst. destruct (IH Fe' Sd') as (xs & X1 & X2 & X3).
  destruct (content_made _ _ _ _ _ E U1 S) as (o & O1 & O2). exists (o :: xs). cbn [map combine length].
  split; [lia|]. split; constructor; try assumption. cbn [fst snd]. rewrite U2. exact O1.
Qed.

Lemma small_data l : small (concat (map stored_bytes l)) -> Forall (fun x => (N.of_nat (length (s_data x)) < 2 ^ 62)%N) l.
Proof.
  unfold small. intros Sm. induction l as [|x l IH]; constructor.
  - cbn [map concat] in Sm. unfold stored_bytes, blocked in Sm. rewrite !app_length in Sm. lia.
  - apply IH. cbn [map concat] in Sm. rewrite app_length in Sm. lia.
Qed.

Lemma fuel_units fc hf l us : Forall (fun x => length (s_records x) <= hf) l -> Forall2 (unit_of fc) l us ->
  Forall (fun u => length (h_cards (u_header u)) <= hf) us.
Proof.
  intros Ff F2. induction F2 as [|x u l us [U1 U2] F2 IH]; inversion Ff; subst; constructor; [|auto].
  rewrite <- (map_length raw), (ty_raw _ _ _ _ _ U1). assumption.
Qed.

Theorem standard_file fc l0 x0 l : l = l0 ++ [x0] -> Forall (fun x => encodes fc (s_content x) (s_records x) (s_data x)) l -> Forall tidy l0 ->
  header_inside x0 \/ s_data x0 = [] -> forall c, c = concat (map stored_bytes l) -> small c ->
  forall hf fuel, Forall (fun x => length (s_records x) <= hf) l -> length l < fuel ->
  exists f, read_entire_hdus fc hf fuel (open_fits c) = (f, Ret tt) /\
    Forall2 (fun x o => contains (s_content x) o) l (f_hdus f) /\
    (forall j x, last_position (content_name (s_content x)) (map (fun y => content_name (s_content y)) l) j -> nth_error l j = Some x ->
       exists o, hdu_named (content_name (s_content x)) f = Ret o /\ contains (s_content x) o) /\
    (forall n, ~ In n (map (fun y => content_name (s_content y)) l) -> hdu_named n f = Throw OutOfRange).
Proof.
  intros El Fe Ft Hx c -> Sm hf fuel Ff Hf.
  assert (SU : exists us, units fc (concat (map stored_bytes l)) 0 us /\ Forall2 (unit_of fc) l us) by (rewrite El in *; exact (stored_units fc l0 x0 Fe Ft Hx Sm)).
  destruct SU as (us & U & F2). clear El Hx Ft.
  destruct (made_units fc l us Fe F2 (small_data _ Sm)) as (xs & X1 & X2 & X3).
  assert (Lu : length us = length l) by (clear -F2; induction F2; cbn; congruence).
  destruct (read_file fc _ us U Sm hf fuel (map (fun y => content_name (s_content y)) l) xs) as (s & E).
  - exact (fuel_units _ _ _ _ Ff F2).
  - lia.
  - exact X3.
  - rewrite map_length. lia.
  - exists (mk_fits s xs (catalogue 0 us (map (fun y => content_name (s_content y)) l) [])). split; [exact E|]. split; [exact X2|].
    destruct (control_block s us (map (fun y => content_name (s_content y)) l) [] xs) as (_ & B2 & B3); [rewrite map_length; lia|rewrite map_length; lia|].
    cbn [app length] in B2, B3. split; [|exact B3]. intros j x P Hx.
    assert (O : exists o, nth_error xs j = Some o /\ contains (s_content x) o).
    { clear -X2 Hx. revert j Hx. induction X2 as [|y o l xs H F IH]; intros [|j] Hx; try discriminate; cbn in *; [injection Hx as ->; eauto|eauto]. }
    destruct O as (o & O1 & O2). exists o. split; [exact (B2 _ _ _ P O1)|exact O2].
Qed.

(** A last unit whose header fills its blocks and that has data: reading never ends. *)
Theorem full_header_forever fc l x : Forall (fun x => encodes fc (s_content x) (s_records x) (s_data x)) (l ++ [x]) -> Forall tidy l ->
  ~ header_inside x -> s_data x <> [] -> forall c, c = concat (map stored_bytes (l ++ [x])) -> small c ->
  forall hf fuel, Forall (fun x => length (s_records x) <= hf) (l ++ [x]) -> snd (read_entire_hdus fc hf fuel (open_fits c)) = NoFuel.
Proof.
  intros Fe Ft Hx Hd c Ec Sm hf fuel Ff. apply Forall_app in Fe as [Fe Ex]. inversion Ex as [|? ? En _]; subst x0 l0.
  apply Forall_app in Ff as [Ff Fx]. inversion Fx as [|? ? Lx _]; subst x0 l0.
  rewrite map_app, concat_app in Ec. cbn [map concat] in Ec. rewrite app_nil_r in Ec.
  assert (Sl : small (concat (map stored_bytes l))) by (rewrite Ec in Sm; unfold small in *; rewrite app_length in Sm; lia).
  assert (Sm' : small ([] ++ concat (map stored_bytes l) ++ stored_bytes x)) by (rewrite <- Ec; exact Sm).
  destruct (stored_units_to fc l Fe Ft [] (stored_bytes x) eq_refl Sm') as (us & U & F2 & M). cbn [app length] in U, M. rewrite <- Ec in U.
  destruct (made_units fc l us Fe F2 (small_data _ Sl)) as (xs & X1 & _ & X3).
  set (pre := concat (map stored_bytes l)) in *. set (rs := s_records x) in *. set (d := s_data x) in *.
  destruct (encodes_header _ _ _ _ En) as (R & Sh & Fa & La & Ld). destruct (header_records_lengths _ R) as [L80 Hne].
  unfold header_inside in Hx. fold rs in Hx. assert (A : length (concat rs) mod 2880 = 0) by lia. clear Hx.
  unfold stored_bytes in Ec. fold rs d in Ec.
  assert (Bh : blocked sp (concat rs) = concat rs) by (unfold blocked; rewrite A; apply app_nil_r). rewrite Bh in Ec.
  destruct (header_typed fc pre rs (blocked (s_fill x) d) _ _ R Sh Fa La) as (h & Rd & T). rewrite <- Ec in Rd.
  assert (Hb : header_bytes h = length (concat rs)).
  { unfold header_bytes. rewrite concat_length80 by exact L80. rewrite <- (ty_raw _ _ _ _ _ T), map_length. reflexivity. }
  assert (Hq : next_block (length pre + header_bytes h) = length pre + length (concat rs) + 2880).
  { rewrite next_block_shift by exact M. rewrite Hb. unfold next_block, pad_len. rewrite A. lia. }
  assert (Lc : length c = length pre + length (concat rs) + length (blocked (s_fill x) d)) by (rewrite Ec, !app_length; lia).
  assert (Hd' : length d <> 0) by (destruct d; [contradiction|discriminate]).
  assert (Bd : length (blocked (s_fill x) d) < length d + 2880).
  { unfold blocked. rewrite app_length, repeat_length. pose proof (Nat.mod_upper_bound (2880 - length d mod 2880) 2880 ltac:(lia)). lia. }
  assert (Ls : (N.of_nat (length d) < 2 ^ 62)%N).
  { unfold small in Sm. rewrite Lc in Sm. unfold blocked in Sm. rewrite app_length in Sm. lia. }
  assert (Ds : data_size h = match content_axes (s_content x) with [] => 0%N | l => (product l mod two64)%N end).
  { rewrite data_size_product, (ty_naxis _ _ _ _ _ T). reflexivity. }
  assert (He : (1 <= element_size (content_bitpix (s_content x)))%N) by (destruct (content_bitpix (s_content x)); cbn; lia).
  assert (Dp : data_size h = (match content_axes (s_content x) with [] => 0 | l => product l end)%N).
  { rewrite Ds. destruct (content_axes (s_content x)) as [|a l']; [reflexivity|]. apply N.mod_small. unfold two64. nia. }
  pose (q := next_block (length pre + header_bytes h)).
  assert (Lf : length (filled c q (length d)) = length d).
  { unfold filled, spaces. rewrite app_length, skipn_length, repeat_length. unfold q. rewrite Hq, Lc. lia. }
  destruct (encodes_other fc _ _ _ _ En Lf) as (x' & En' & B1 & B2 & _).
  rewrite <- B1, <- B2 in T.
  destruct (content_made fc x' rs (filled c q (length d)) h En' T) as (o & O & _); [rewrite Lf; exact Ls|].
  eapply (truncated_file_forever fc c us (length pre) h (content_bitpix (s_content x)) (length d) _ _ U Sm).
  - rewrite Lc, concat_length80 by exact L80. destruct rs; [contradiction|cbn [length]; lia].
  - exact Rd.
  - rewrite <- B1. exact (ty_bitpix _ _ _ _ _ T).
  - intros K. rewrite <- Dp, K in Ld. lia.
  - rewrite Dp. exact Ld.
  - lia.
  - rewrite Hq, Lc. lia.
  - exact O.
  - exact (fuel_units _ _ _ _ Ff F2).
  - rewrite <- (map_length raw), (ty_raw _ _ _ _ _ T). exact Lx.
  - exact X3.
  - rewrite map_length. lia.
Qed.
