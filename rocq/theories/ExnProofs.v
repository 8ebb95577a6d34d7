(** * Proofs about escaping exceptions. *)
From Verif Require Import ExnSpec CardProofs HeaderProofs TableProofs ReaderProofs.

Lemma only_ret {A} l (a : A) : throws_only l (Ret a). Proof. intros e H. discriminate H. Qed.
Lemma only_undef {A} l : throws_only l (@Undef A). Proof. intros e H. discriminate H. Qed.
Lemma only_nofuel {A} l : throws_only l (@NoFuel A). Proof. intros e H. discriminate H. Qed.
Lemma only_throw {A} l e : In e l -> throws_only l (@Throw A e). Proof. intros Hi e' H. injection H as <-. exact Hi. Qed.
Lemma only_bind {A B} l (m : outcome A) (k : A -> outcome B) :
  throws_only l m -> (forall a, m = Ret a -> throws_only l (k a)) -> throws_only l (bind m k).
Proof.
  intros Hm Hk. destruct m as [a|e| |]; cbn [bind]; [apply Hk; reflexivity| |apply only_undef|apply only_nofuel].
  apply only_throw, Hm. reflexivity.
Qed.
Lemma only_incl {A} l l' (o : outcome A) : incl l l' -> throws_only l o -> throws_only l' o.
Proof. intros Hi H e E. apply Hi, H, E. Qed.
Lemma only_nil {A} l (o : outcome A) : throws_only [] o -> throws_only l o.
Proof. apply only_incl. intros x []. Qed.

#[global] Hint Resolve only_ret only_undef only_nofuel : only.

(** ** Computations on a header *)
Definition honly {A} (l : list exn) (m : hdo A) : Prop := forall h, throws_only l (snd (m h)).
Lemma honly_ret {A} l (a : A) : honly l (hret a). Proof. intros h. apply only_ret. Qed.
Lemma honly_lift {A} l (o : outcome A) : throws_only l o -> honly l (hlift o). Proof. intros H h. exact H. Qed.
Lemma honly_bind {A B} l (m : hdo A) (k : A -> hdo B) : honly l m -> (forall a, honly l (k a)) -> honly l (hbind m k).
Proof.
  intros Hm Hk h. unfold hbind. specialize (Hm h). destruct (m h) as [h1 [a|e| |]]; cbn [snd] in *; (cbn [fst snd]; auto with only).
  - apply Hk.
  - apply only_throw, Hm. reflexivity.
Qed.
Lemma honly_try {A} l (m : hdo A) : honly (OutOfRange :: l) m -> honly l (try_out_of_range m).
Proof.
  intros Hm h. unfold try_out_of_range. specialize (Hm h). destruct (m h) as [h1 [a|e| |]]; cbn [snd] in *; (cbn [fst snd]; auto with only).
  specialize (Hm e eq_refl). destruct Hm as [<-|Hm]; [apply only_ret|].
  destruct e; cbn [snd]; try (apply only_throw; exact Hm). apply only_ret.
Qed.
Lemma honly_incl {A} l l' (m : hdo A) : incl l l' -> honly l m -> honly l' m.
Proof. intros Hi H h. eapply only_incl; [exact Hi|apply H]. Qed.

(** ** Cards *)
Lemma only_cast {A} (o : option A) : throws_only [InvalidCast] (cast_or_throw o).
Proof. destruct o; [apply only_ret|apply only_throw; left; reflexivity]. Qed.
Lemma only_split s : throws_only [InvalidCast] (split_complex s).
Proof. unfold split_complex. destruct (find_idx sp s); [apply only_ret|apply only_throw; left; reflexivity]. Qed.
Lemma only_parse fc t s : throws_only [InvalidCast] (parse_to fc t s).
Proof.
  assert (X : forall A, throws_only [InvalidCast] (@Throw A InvalidCast)) by (intros; apply only_throw; left; reflexivity).
  destruct t; cbn [parse_to]; (cbn [fst snd]; auto with only);
    try (repeat match goal with |- context [if ?b then _ else _] => destruct b end; (cbn [fst snd]; auto with only); fail);
    repeat (apply only_bind; [first [apply only_cast|apply only_split]|intros ? _]); (cbn [fst snd]; auto with only).
Qed.
Lemma get_as_iff t v e : get_as t v = Throw e <-> e = BadGet /\ ty_of v <> t.
Proof.
  unfold get_as. destruct (cty_eqb (ty_of v) t) eqn:E.
  - split; [discriminate|]. intros [_ H]. destruct v, t; try discriminate E; exfalso; apply H; reflexivity.
  - split; [intros H; injection H as <-; split; [reflexivity|] | intros [-> _]; reflexivity].
    intros H. rewrite <- H in E. destruct v; discriminate E.
Qed.
Lemma parse_type fc t s v : parse_to fc t s = Ret v -> ty_of v = t.
Proof.
  destruct t; cbn [parse_to]; unfold bind, cast_or_throw, split_complex; intros H;
    repeat match type of H with
    | context [match ?x with _ => _ end] => destruct x; try discriminate H
    end; injection H as <-; reflexivity.
Qed.
Lemma imp_type fc t c v : value_imp fc t c = Ret v -> ty_of v = t.
Proof.
  unfold value_imp. destruct t; try (unfold bind; destruct (extract_value (raw c)); try discriminate; apply parse_type).
  unfold value_imp_str, bind. destruct (extract_value (raw c)); try discriminate.
  destruct (trim a) as [|x r]; [intros H; injection H as <-; reflexivity|].
  destruct (Ascii.eqb x "'"); [|intros H; injection H as <-; reflexivity].
  destruct r; [discriminate|]. intros H; injection H as <-; reflexivity.
Qed.
Lemma card_value_exn fc t c e : snd (value fc t c) = Throw e ->
  (e = BadGet /\ exists v, cache c = Some v /\ ty_of v <> t) \/
  (e = OutOfRange /\ cache c = None /\ length (raw_card c) < 9) \/
  (e = InvalidCast /\ cache c = None /\ t <> TStr /\ 9 <= length (raw_card c)).
Proof.
  unfold value, raw_card. destruct (cache c) as [v|] eqn:Ec.
  - cbn [snd]. intros H. apply get_as_iff in H. left. destruct H as [-> H]. split; [reflexivity|]. exists v. auto.
  - intros H. right. destruct (value_imp fc t c) as [v|e'| |] eqn:Ev; cbn [snd] in H; try discriminate H.
    + apply get_as_iff in H. destruct H as [_ H]. exfalso. apply H. exact (imp_type _ _ _ _ Ev).
    + injection H as ->. unfold value_imp in Ev.
      assert (X : extract_value (raw c) = if length (raw c) <? 9 then Throw OutOfRange else extract_value (raw c)).
      { unfold extract_value, substr. destruct (length (raw c) <? 9); reflexivity. }
      destruct (Nat.ltb_spec (length (raw c)) 9) as [L|L].
      * left. destruct t; try (rewrite X in Ev; cbn [bind] in Ev; injection Ev as <-; auto).
        unfold value_imp_str in Ev. rewrite X in Ev. cbn [bind] in Ev. injection Ev as <-. auto.
      * right. assert (X2 : exists x, extract_value (raw c) = Ret x).
        { unfold extract_value, substr. destruct (Nat.ltb_spec (length (raw c)) 9); [lia|]. eauto. }
        destruct X2 as [x X2].
        destruct t; try (rewrite X2 in Ev; cbn [bind] in Ev; apply only_parse in Ev; destruct Ev as [<-|[]];
          (split; [reflexivity|split; [reflexivity|split; [discriminate|exact L]]])).
        unfold value_imp_str in Ev. rewrite X2 in Ev. cbn [bind] in Ev.
        destruct (trim x) as [|y r]; [discriminate|]. destruct (Ascii.eqb y "'"); [|discriminate]. destruct r; discriminate.
Qed.
Lemma only_value fc t c : throws_only [OutOfRange; InvalidCast; BadGet] (snd (value fc t c)).
Proof.
  intros e H. apply card_value_exn in H. destruct H as [[-> _]|[[-> _]|[-> _]]]; cbn; auto.
Qed.
Lemma only_value80 fc t c : 9 <= length (raw c) -> throws_only [InvalidCast; BadGet] (snd (value fc t c)).
Proof.
  intros L e H. apply card_value_exn in H. unfold raw_card in H. destruct H as [[-> _]|[(-> & _ & H)|[-> _]]]; cbn; auto. lia.
Qed.
Lemma only_card_of_string s : throws_only [InvalidCard; OutOfRange] (card_of_string s).
Proof.
  assert (S : forall p n, throws_only [InvalidCard; OutOfRange] (substr s p n)).
  { intros p n. unfold substr. destruct (length s <? p); [apply only_throw; cbn; auto|apply only_ret]. }
  unfold card_of_string. apply only_bind.
  - unfold is_card_valid1. destruct (length s <=? 80); [|apply only_ret].
    apply only_bind; [unfold in_proper_format; apply only_bind; [apply S|intros; apply only_ret]|intros p _].
    destruct p; [apply only_ret|]. apply only_bind; [apply S|intros k _].
    destruct (is_reserved_keyword (trim k)); [apply only_ret|].
    unfold is_blank. apply only_bind; [apply S|intros; apply only_ret].
  - intros ok _. destruct ok; [apply only_ret|apply only_throw; cbn; auto].
Qed.
Lemma only_card_of_string80 s : 8 <= length s -> throws_only [InvalidCard] (card_of_string s).
Proof.
  intros L.
  assert (S : forall p n, p <= 8 -> throws_only [InvalidCard] (substr s p n)).
  { intros p n Hp. unfold substr. destruct (Nat.ltb_spec (length s) p); [lia|apply only_ret]. }
  unfold card_of_string. apply only_bind.
  - unfold is_card_valid1. destruct (length s <=? 80); [|apply only_ret].
    apply only_bind; [unfold in_proper_format; apply only_bind; [apply S; lia|intros; apply only_ret]|intros p _].
    destruct p; [apply only_ret|]. apply only_bind; [apply S; lia|intros k _].
    destruct (is_reserved_keyword (trim k)); [apply only_ret|].
    unfold is_blank. apply only_bind; [apply S; lia|intros; apply only_ret].
  - intros ok _. destruct ok; [apply only_ret|apply only_throw; cbn; auto].
Qed.

(** ** Headers *)
Definition full (h : header) : Prop := Forall (fun c => length (raw c) = 80) (h_cards h).
Lemma stream_read_length n s d s' : stream_read n s = (Ret d, s') -> length d = N.to_nat n.
Proof.
  unfold stream_read. destruct (max_size <? n)%N; [discriminate|]. destruct (good s).
  - destruct (N.leb_spec n (N.of_nat (length (remaining s)))); intros E; injection E as <- _.
    + rewrite firstn_length. lia.
    + rewrite app_length. unfold spaces. rewrite repeat_length. lia.
  - intros H; injection H as <- _. unfold spaces. apply repeat_length.
Qed.
Lemma card_of_string_raw s c : card_of_string s = Ret c -> raw c = s.
Proof.
  unfold card_of_string, bind. destruct (is_card_valid1 s) as [[|]| | |]; try discriminate. intros H; injection H as <-. reflexivity.
Qed.
Lemma read_cards_exn fuel : forall s h, full h ->
  full (snd (fst (read_cards fuel s h))) /\ throws_only [InvalidCard; LengthError] (snd (read_cards fuel s h)).
Proof.
  induction fuel as [|f IH]; intros s h Hf; cbn [read_cards]; [split; [exact Hf|apply only_nofuel]|].
  destruct (stream_read 80 s) as [[buf|e| |] s'] eqn:Er.
  - apply stream_read_length in Er. change (N.to_nat 80) with 80 in Er.
    destruct (card_of_string buf) as [c|e| |] eqn:Ec; cbn [fst snd].
    + assert (Hf' : full (push_card h c)).
      { unfold full, push_card. cbn [h_cards]. apply Forall_app. split; [exact Hf|]. constructor; [|constructor].
        rewrite (card_of_string_raw _ _ Ec). exact Er. }
      destruct (str_eqb (keyword_whole c) (lit "END     ")); [split; [exact Hf'|apply only_ret]|]. apply IH, Hf'.
    + split; [exact Hf|]. apply only_throw. apply only_card_of_string80 in Ec; [|lia]. cbn in *. tauto.
    + split; [exact Hf|apply only_undef].
    + split; [exact Hf|apply only_nofuel].
  - split; [exact Hf|]. cbn [snd]. unfold stream_read in Er. destruct (max_size <? 80)%N; [|destruct (good s); [destruct (_ <=? _)%N|]; discriminate].
    injection Er as <- _. apply only_throw. cbn; auto.
  - split; [exact Hf|apply only_undef].
  - split; [exact Hf|apply only_nofuel].
Qed.
Lemma value_at_exn fc t i h : full h ->
  full (fst (value_at fc t i h)) /\ throws_only [InvalidCast; BadGet] (snd (value_at fc t i h)).
Proof.
  intros Hf. unfold value_at. destruct (nth_error (h_cards h) i) as [c|] eqn:En; [|split; [exact Hf|apply only_undef]].
  assert (L : length (raw c) = 80) by (apply nth_error_In in En; exact (proj1 (Forall_forall _ _) Hf c En)).
  pose proof (only_value80 fc t c ltac:(lia)) as Ho.
  assert (R : raw (fst (value fc t c)) = raw c).
  { unfold value. destruct (cache c); [reflexivity|]. destruct (value_imp fc t c); reflexivity. }
  destruct (value fc t c) as [c' r] eqn:Ev. cbn [fst snd] in *. split; [|exact Ho].
  unfold full, set_cards. cbn [h_cards]. revert i En. induction Hf as [|x l Hx Hl IH]; intros [|i] En; try discriminate; cbn [replace_nth].
  - constructor; [congruence|exact Hl].
  - constructor; [exact Hx|]. apply IH, En.
Qed.
Lemma lookup_exn fc t key h : full h ->
  full (fst (lookup_value fc t key h)) /\ throws_only [InvalidCast; BadGet] (snd (lookup_value fc t key h)).
Proof.
  intros Hf. unfold lookup_value, index_or_insert. destruct (map_find key (h_index h)); apply value_at_exn; exact Hf.
Qed.
Lemma read_axes_exn fc k : forall i h, full h -> throws_only [InvalidCast; BadGet] (snd (read_axes fc k i h)).
Proof.
  induction k as [|k IH]; intros i h Hf; cbn [read_axes]; [apply only_ret|].
  destruct (lookup_exn fc TSize (naxis_key i) h Hf) as [Hf' Ho].
  destruct (lookup_value fc TSize (naxis_key i) h) as [h1 [v|e| |]]; cbn [fst snd] in *; (cbn [fst snd]; auto with only).
  - destruct v; (cbn [fst snd]; auto with only).
  - apply only_throw, Ho. reflexivity.
Qed.
Lemma interpret_exn fc h : full h -> throws_only header_exceptions (snd (interpret_cards fc h)).
Proof.
  intros Hf. unfold interpret_cards.
  assert (B : full (fst (read_bitpix fc h)) /\ throws_only header_exceptions (snd (read_bitpix fc h))).
  { unfold read_bitpix. destruct (lookup_exn fc TInt (lit "BITPIX") h Hf) as [Hf' Ho].
    destruct (lookup_value fc TInt (lit "BITPIX") h) as [h1 [v|e| |]]; cbn [fst snd] in *; try (split; [exact Hf'|(cbn [fst snd]; auto with only)]; fail).
    - destruct v; try (split; [exact Hf'|apply only_undef]; fail).
      destruct (bitpix_of_int z); cbn [fst snd]; (split; [exact Hf'|]); [apply only_ret|apply only_throw; cbn; auto].
    - split; [exact Hf'|]. apply only_throw. specialize (Ho e eq_refl). cbn in *; tauto. }
  destruct (read_bitpix fc h) as [h1 r]. cbn [fst snd] in B. destruct B as [Hf1 Hr].
  destruct r as [u|e| |]; (cbn [fst snd]; auto with only). unfold read_naxis.
  destruct (lookup_exn fc TSize (lit "NAXIS") h1 Hf1) as [Hf' Ho].
  destruct (lookup_value fc TSize (lit "NAXIS") h1) as [h2 [v|e| |]]; cbn [fst snd] in *; (cbn [fst snd]; auto with only).
  - destruct v; (cbn [fst snd]; auto with only). destruct (2 ^ 60 <=? n)%N; [apply only_throw; cbn; auto|].
    eapply only_incl; [|apply read_axes_exn, Hf']. intros x; cbn; tauto.
  - apply only_throw. specialize (Ho e eq_refl). cbn in *; tauto.
Qed.
Lemma read_header_exn fc fuel s h : full h -> throws_only header_exceptions (snd (read_header fc fuel s h)).
Proof.
  intros Hf. unfold read_header. destruct (read_cards_exn fuel s h Hf) as [Hf' Ho].
  destruct (read_cards fuel s h) as [[s' h'] [u|e| |]]; cbn [fst snd] in *; (cbn [fst snd]; auto with only).
  - pose proof (interpret_exn fc h' Hf') as Hi. destruct (interpret_cards fc h') as [h2 r]. exact Hi.
  - eapply only_incl; [|exact Ho]. intros x; cbn; tauto.
Qed.
Lemma full_fresh : full fresh_header. Proof. constructor. Qed.

(** ** Lookups in a finished header *)
Lemma honly_value_of fc t key : honly [OutOfRange; InvalidCast; BadGet] (value_of fc t key).
Proof.
  intros h. unfold value_of. destruct (map_find key (h_index h)) as [i|]; [|apply only_throw; cbn; auto].
  unfold value_at. destruct (nth_error (h_cards h) i) as [c|]; [|apply only_undef].
  pose proof (only_value fc t c) as Ho. destruct (value fc t c) as [c' r]. exact Ho.
Qed.
Ltac lifted := apply honly_bind; [apply honly_value_of|intros v; apply honly_lift; destruct v; cbn [of_str of_size of_double of_bool]; auto with only].
Lemma honly_str fc key : honly [OutOfRange; InvalidCast; BadGet] (value_str fc key). Proof. lifted. Qed.
Lemma honly_size fc key : honly [OutOfRange; InvalidCast; BadGet] (value_size fc key). Proof. lifted. Qed.
Lemma honly_double fc key : honly [OutOfRange; InvalidCast; BadGet] (value_double fc key). Proof. lifted. Qed.
Lemma honly_bool fc key : honly [OutOfRange; InvalidCast; BadGet] (value_bool fc key). Proof. lifted. Qed.

Lemma incl3 : incl [OutOfRange; InvalidCast; BadGet] file_exceptions. Proof. intros x; cbn; tauto. Qed.
Lemma incl3' : incl [OutOfRange; InvalidCast; BadGet] (OutOfRange :: file_exceptions). Proof. intros x; cbn; tauto. Qed.
Ltac via L := eapply honly_incl; [first [exact incl3|exact incl3']|apply L].
Ltac lookups := repeat first [apply honly_ret | apply honly_bind; [first [via honly_value_of|via honly_str|via honly_size|via honly_double|via honly_bool|
   apply honly_try; first [via honly_str|via honly_double]]|intros ?]].

Lemma only_lexical s : throws_only file_exceptions (lexical_size s).
Proof. unfold lexical_size. destruct (cast_unsigned 64 s); [apply only_ret|apply only_throw; cbn; auto 10]. Qed.
Lemma only_count f : throws_only file_exceptions (bin_element_count f).
Proof. unfold bin_element_count. destruct (1 <? _); [apply only_lexical|apply only_ret]. Qed.
Lemma only_bin_size f : throws_only file_exceptions (bin_column_size f).
Proof.
  unfold bin_column_size. apply only_bind; [apply only_count|intros n _]. apply only_bind.
  - unfold bin_type. destruct (rev _); (cbn [fst snd]; auto with only).
  - intros c _. apply only_bind; [|intros; apply only_ret]. unfold bin_type_size.
    repeat match goal with |- context [if ?b then _ else _] => destruct b; [apply only_ret|] end. apply only_throw. cbn; auto 10.
Qed.
Lemma only_ascii_size f : throws_only file_exceptions (ascii_column_size f).
Proof.
  unfold ascii_column_size. apply only_bind; [|intros; apply only_lexical].
  unfold substr. destruct (_ <? _); [apply only_throw; cbn; auto 10|apply only_ret].
Qed.

Lemma honly_name fc i : honly file_exceptions (name_and_comment fc i).
Proof. unfold name_and_comment. apply honly_bind; [apply honly_try; via honly_str|]. intros [n|]; lookups. Qed.
Lemma honly_bin_columns fc k : forall i start, honly file_exceptions (bin_columns fc k i start).
Proof.
  induction k as [|k IH]; intros i start; cbn [bin_columns]; [apply honly_ret|].
  apply honly_bind.
  - unfold bin_column. apply honly_bind; [via honly_str|intros form].
    apply honly_bind; [apply honly_lift, only_bin_size|intros w]. apply honly_bind; [apply honly_name|intros nc]. lookups.
    apply honly_bind; [apply honly_lift, only_count|intros n]. apply honly_ret.
  - intros c. apply honly_bind; [apply honly_lift, only_bin_size|intros w]. apply honly_bind; [apply IH|intros r; apply honly_ret].
Qed.
Lemma honly_ascii_columns fc k : forall i, honly file_exceptions (ascii_columns fc k i).
Proof.
  induction k as [|k IH]; intros i; cbn [ascii_columns]; [apply honly_ret|].
  apply honly_bind.
  - unfold ascii_column. apply honly_bind; [via honly_str|intros form]. apply honly_bind; [via honly_size|intros start].
    apply honly_bind; [apply honly_name|intros nc]. lookups.
  - intros c. apply honly_bind; [apply IH|intros r; apply honly_ret].
Qed.
Lemma honly_info fc : honly file_exceptions (table_info fc).
Proof.
  unfold table_info. lookups. destruct (max_columns <? a2)%N; [apply honly_lift, only_throw; cbn; auto 10|apply honly_ret].
Qed.

Lemma only_bin_row cols : forall buf, throws_only file_exceptions (bin_read_row cols buf).
Proof.
  induction cols as [|c r IH]; intros buf; cbn [bin_read_row]; [apply only_ret|].
  apply only_bind; [apply only_bin_size|intros w _]. destruct (_ <=? _)%N; [|apply only_undef].
  apply only_bind; [apply IH|intros; apply only_ret].
Qed.
Lemma only_bin_rows n cols : forall buf, throws_only file_exceptions (bin_read_rows n cols buf).
Proof.
  induction n as [|n IH]; intros buf; cbn [bin_read_rows]; [apply only_ret|].
  apply only_bind; [apply only_bin_row|intros p _]. apply only_bind; [apply IH|intros; apply only_ret].
Qed.
Lemma only_bin_data rows cols buf : throws_only file_exceptions (bin_table_data rows cols buf).
Proof.
  unfold bin_table_data. destruct (max_rows <? rows)%N; [apply only_throw; cbn; auto 10|].
  destruct (rows =? 0)%N; [apply only_ret|]. destruct cols; [apply only_undef|].
  apply only_bind; [apply only_bin_rows|intros d _]. destruct (_ <=? _)%N; (cbn [fst snd]; auto with only).
Qed.
Lemma only_field row w c buf : throws_only file_exceptions (ascii_field row w c buf).
Proof.
  unfold ascii_field. destruct (_ <? _)%N; [apply only_undef|]. destruct (_ =? _)%N; [apply only_undef|].
  apply only_bind; [apply only_ascii_size|intros x _]. destruct (_ <=? _)%N; (cbn [fst snd]; auto with only).
Qed.
Lemma only_ascii_row row w cols buf : throws_only file_exceptions (ascii_read_row row w cols buf).
Proof.
  induction cols as [|c r IH]; cbn [ascii_read_row]; [apply only_ret|].
  apply only_bind; [apply only_field|intros x _]. apply only_bind; [apply IH|intros; apply only_ret].
Qed.
Lemma only_ascii_rows n w cols buf : forall row, throws_only file_exceptions (ascii_read_rows n row w cols buf).
Proof.
  induction n as [|n IH]; intros row; cbn [ascii_read_rows]; [apply only_ret|].
  apply only_bind; [apply only_ascii_row|intros p _]. apply only_bind; [apply IH|intros; apply only_ret].
Qed.
Lemma only_ascii_data rows w cols buf : throws_only file_exceptions (ascii_table_data rows w cols buf).
Proof.
  unfold ascii_table_data. destruct (max_rows <? rows)%N; [apply only_throw; cbn; auto 10|].
  destruct (rows =? 0)%N; [apply only_ret|]. destruct cols; [apply only_undef|].
  apply only_bind; [apply only_ascii_rows|intros d _]. destruct (_ <=? _)%N; (cbn [fst snd]; auto with only).
Qed.
Lemma only_naxis l n h : throws_only l (naxis n h).
Proof. unfold naxis. repeat match goal with |- context [match ?x with _ => _ end] => destruct x end; (cbn [fst snd]; auto with only). Qed.
Lemma honly_bin_fill fc n old buf : honly file_exceptions (bin_fill fc n old buf).
Proof.
  unfold bin_fill. apply honly_bind; [apply honly_bin_columns|intros cols]. destruct buf; [apply honly_ret|].
  intros h. cbn [snd]. apply only_bind; [apply only_naxis|intros rows _]. apply only_bind; [apply only_naxis|intros w _].
  apply only_bind; [apply only_bin_data|intros; apply only_ret].
Qed.
Lemma honly_ascii_fill fc n old buf : honly file_exceptions (ascii_fill fc n old buf).
Proof.
  unfold ascii_fill. apply honly_bind; [apply honly_ascii_columns|intros cols]. destruct buf; [apply honly_ret|].
  intros h. cbn [snd]. apply only_bind; [apply only_naxis|intros rows _]. apply only_bind; [apply only_naxis|intros w _].
  apply only_bind; [apply only_ascii_data|intros; apply only_ret].
Qed.
Lemma only_make_table fill fc h buf : (forall n old b, honly file_exceptions (fill n old b)) ->
  throws_only file_exceptions (make_table fill fc h buf).
Proof.
  intros Hfill. unfold make_table.
  assert (H : honly file_exceptions (do n <- table_info fc in do r <- fill n [] buf in hret (n, r))).
  { apply honly_bind; [apply honly_info|intros n]. apply honly_bind; [apply Hfill|intros r; apply honly_ret]. }
  specialize (H h). destruct (hbind _ _ h) as [h1 [[n [cols d]]|e| |]]; cbn [snd] in H; (cbn [fst snd]; auto with only). apply only_throw, H. reflexivity.
Qed.
Lemma only_set_data fill buf t : (forall n old b, honly file_exceptions (fill n old b)) ->
  throws_only file_exceptions (set_data fill buf t).
Proof.
  intros Hfill. unfold set_data. specialize (Hfill (t_fields t) (t_data t) buf (t_header t)).
  destruct (fill _ _ _ _) as [h1 [[cols d]|e| |]]; cbn [snd] in Hfill; (cbn [fst snd]; auto with only). apply only_throw, Hfill. reflexivity.
Qed.

(** ** Files *)
Lemma only_pixels b n : forall buf, throws_only file_exceptions (read_pixels b n buf).
Proof.
  induction n as [|n IH]; intros buf; cbn [read_pixels]; [apply only_ret|].
  destruct (_ <=? _); [|apply only_undef]. apply only_bind.
  - unfold bin_deserialize. destruct (pixel_type b); (cbn [fst snd]; auto with only);
    unfold element_to_two, element_to_numeric, element_to_byte, word_at;
    repeat (apply only_bind; [|intros ? _]); (cbn [fst snd]; auto with only);
    repeat match goal with |- context [match ?x with _ => _ end] => destruct x end; (cbn [fst snd]; auto with only); apply only_throw; cbn; auto 10.
  - intros x _. destruct x; (cbn [fst snd]; auto with only). apply only_bind; [apply IH|intros; apply only_ret].
Qed.
Lemma only_construct fc h buf : throws_only file_exceptions (construct_hdu fc h buf).
Proof.
  unfold construct_hdu. destruct (contains_keyword _ h).
  - apply only_bind; [|intros; apply only_ret]. unfold make_primary. apply only_bind.
    { unfold get_bitpix. destruct (h_bitpix h); (cbn [fst snd]; auto with only). }
    intros b _. apply only_bind.
    { unfold read_image. destruct buf; [apply only_ret|]. apply only_bind; [apply only_pixels|intros; apply only_ret]. }
    intros im _.
    assert (H : honly file_exceptions (do s <- value_bool fc (lit "SIMPLE") in do e <- value_bool fc (lit "EXTEND") in hret (s, e))) by lookups.
    specialize (H h). destruct (hbind _ _ h) as [h1 [[s e]|e| |]]; cbn [snd] in H; (cbn [fst snd]; auto with only). apply only_throw, H. reflexivity.
  - unfold make_extension. pose proof (honly_incl _ _ _ incl3 (honly_str fc (lit "XTENSION")) h) as H.
    destruct (value_str fc (lit "XTENSION") h) as [h1 [x|e| |]]; cbn [snd] in H; (cbn [fst snd]; auto with only).
    + destruct (str_eqb x (lit "TABLE")); [apply only_bind; [apply only_make_table, honly_ascii_fill|intros; apply only_ret]|].
      destruct (str_eqb x (lit "BINTABLE")); [apply only_bind; [apply only_make_table, honly_bin_fill|intros; apply only_ret]|apply only_ret].
    + apply only_throw, H. reflexivity.
Qed.
Lemma honly_name_of fc : honly file_exceptions (get_hdu_name fc).
Proof.
  intros h. unfold get_hdu_name. destruct (value_of fc TStr (lit "XTENSION") h) as [h1 [v|e| |]]; (cbn [fst snd]; auto with only).
  - destruct v; (cbn [fst snd]; auto with only).
  - pose proof (honly_incl _ _ _ incl3 (honly_value_of fc TBool (lit "SIMPLE")) h1) as H.
    destruct (value_of fc TBool (lit "SIMPLE") h1) as [h2 [v|e2| |]]; cbn [snd] in *; (cbn [fst snd]; auto with only). apply only_throw, H. reflexivity.
Qed.
Lemma only_extract_header fc hf s : throws_only file_exceptions (snd (extract_header fc hf s)).
Proof.
  unfold extract_header. pose proof (read_header_exn fc hf s fresh_header full_fresh) as H.
  destruct (read_header fc hf s fresh_header) as [[s1 h] [u|e| |]]; cbn [snd] in *; (cbn [fst snd]; auto with only).
  apply only_throw. apply in_or_app. left. apply H. reflexivity.
Qed.
Lemma only_data_bytes l h : throws_only l (data_bytes h).
Proof. unfold data_bytes, get_bitpix. destruct (h_bitpix h); cbn [bind]; (cbn [fst snd]; auto with only). Qed.
Lemma only_extract_data h s : throws_only file_exceptions (snd (extract_data h s)).
Proof.
  unfold extract_data. destruct (data_size h =? 0)%N; [apply only_ret|].
  pose proof (only_data_bytes file_exceptions h) as H. destruct (data_bytes h) as [n|e| |]; cbn [snd]; (cbn [fst snd]; auto with only).
  - unfold stream_read. destruct (max_size <? n)%N; [cbn [snd]; apply only_throw; cbn; auto 10|].
    destruct (good s); [destruct (_ <=? _)%N|]; apply only_ret.
  - apply only_throw, H. reflexivity.
Qed.
Lemma only_read_hdu fc hf f : throws_only file_exceptions (snd (read_hdu fc hf f)).
Proof.
  unfold read_hdu. destruct (get_current_pos (f_stream f)) as [hl s1].
  pose proof (only_extract_header fc hf s1) as H1. destruct (extract_header fc hf s1) as [s2 [h|e| |]]; cbn [snd] in *; (cbn [fst snd]; auto with only).
  - destruct (get_current_pos s2) as [dl s3].
    pose proof (only_extract_data h s3) as H2. destruct (extract_data h s3) as [s4 [d|e| |]]; cbn [snd] in *; (cbn [fst snd]; auto with only).
    + pose proof (honly_name_of fc h) as H3. destruct (get_hdu_name fc h) as [h1 [n|e| |]]; cbn [snd] in *; (cbn [fst snd]; auto with only).
      * pose proof (only_construct fc h1 d) as H4. destruct (construct_hdu fc h1 d); cbn [snd]; (cbn [fst snd]; auto with only). apply only_throw, H4. reflexivity.
      * apply only_throw, H3. reflexivity.
    + apply only_throw, H2. reflexivity.
  - apply only_throw, H1. reflexivity.
Qed.
Lemma only_read_hdu_header fc hf f : throws_only file_exceptions (snd (read_hdu_header fc hf f)).
Proof.
  unfold read_hdu_header. destruct (get_current_pos (f_stream f)) as [hl s1].
  pose proof (only_extract_header fc hf s1) as H1. destruct (extract_header fc hf s1) as [s2 [h|e| |]]; cbn [snd] in *; (cbn [fst snd]; auto with only).
  - pose proof (honly_name_of fc h) as H3. destruct (get_hdu_name fc h) as [h1 [n|e| |]]; cbn [snd] in *; (cbn [fst snd]; auto with only).
    + destruct (get_current_pos s2) as [dl s3].
      pose proof (only_construct fc h1 []) as H4. destruct (construct_hdu fc h1 []); cbn [snd]; (cbn [fst snd]; auto with only).
      * unfold skip_data. destruct (data_size h1 =? 0)%N; [apply only_ret|].
        pose proof (only_data_bytes file_exceptions h1) as H. destruct (data_bytes h1) as [m|e| |]; cbn [snd]; (cbn [fst snd]; auto with only).
        -- destruct (get_current_pos s3). apply only_ret.
        -- apply only_throw, H. reflexivity.
      * apply only_throw, H4. reflexivity.
    + apply only_throw, H3. reflexivity.
  - apply only_throw, H1. reflexivity.
Qed.
Lemma only_loop l turn : (forall f, throws_only l (snd (turn f))) -> forall fuel f, throws_only l (snd (read_loop turn fuel f)).
Proof.
  intros Ht fuel. induction fuel as [|n IH]; intros f; cbn [read_loop]; [apply only_nofuel|].
  destruct (at_end (f_stream f)) as [e s]. destruct e; [apply only_ret|].
  specialize (Ht (at_stream s f)). destruct (turn (at_stream s f)) as [f1 [u|e| |]]; cbn [snd] in *; auto.
Qed.
Lemma only_reading o fc hf fuel f : throws_only file_exceptions (snd (reading o fc hf fuel f)).
Proof. destruct o; apply only_loop; intros g; [apply only_read_hdu_header|apply only_read_hdu]. Qed.
Lemma open_exn fc hf fuel file o e : fits_open fc hf fuel file o = Throw e ->
  (e = FileReading /\ file = None) \/ (In e file_exceptions /\ file <> None).
Proof.
  unfold fits_open, initialize_path, set_file. destruct file as [c|]; [|intros H; injection H as <-; auto].
  intros H. right. split; [|discriminate].
  pose proof (only_reading o fc hf fuel (mk_fits (open_stream c) (f_hdus no_fits) [])) as Ho.
  unfold reading in Ho. destruct (match o with ReadOnlyHeaders => _ | ReadEntireHdus => _ end) as [f1 [u|e'| |]]; try discriminate H.
  injection H as ->. apply Ho. reflexivity.
Qed.

(** ** Columns *)
Section Columns.
Context {V T : Type} (teqb : T -> T -> bool) (decode : T -> str -> N -> outcome V) (encode : T -> V -> str).
Lemma get_column_exn k ty name st e : snd (get_column (V := V) teqb k ty name st) = Throw e ->
  exists o, obj_at st k = Ret o /\
  ((e = BadGet /\ exists ty' v, map_find name (o_views o) = Some (ty', v) /\ teqb ty ty' = false) \/
   (e = ColumnNotFound /\ map_find name (o_views o) = None /\ forall c, In c (t_columns (o_table o)) -> c_name c <> name)).
Proof.
  unfold get_column. destruct (obj_at st k) as [o| | |] eqn:Eo; cbn [snd]; try discriminate. intros H. exists o. split; [reflexivity|].
  destruct (map_find name (o_views o)) as [[ty' v]|] eqn:Em; cbn [snd] in H.
  - destruct (teqb ty ty') eqn:Et; [discriminate|]. injection H as <-. left. split; [reflexivity|]. eauto.
  - unfold get_column_metadata in H. destruct (find _ _) as [c|] eqn:Ef; [discriminate|]. injection H as <-. right.
    split; [reflexivity|]. split; [reflexivity|]. intros c Hc Hn.
    pose proof (find_none _ _ Ef c Hc) as X. cbn beta in X. rewrite Hn in X. rewrite (proj2 (str_eqb_eq name name) eq_refl) in X. discriminate X.
Qed.
Lemma view_read_exn ty i d v e : snd (view_read decode ty i d v) = Throw e ->
  exists s, cell d i (v_pos v) = Ret s /\ decode ty s (c_elements (v_col v)) = Throw e.
Proof.
  unfold view_read. destruct (cache_find i (v_cache v)); [discriminate|].
  destruct (cell d i (v_pos v)) as [s|x| |] eqn:Ec; cbn [bind].
  - destruct (decode ty s (c_elements (v_col v))) as [x|x| |] eqn:Ed; cbn [snd]; try discriminate. intros H. injection H as ->. eauto.
  - exfalso. unfold cell in Ec. destruct (nth_error d i) as [r|]; [destruct (nth_error r _)|]; discriminate.
  - discriminate.
  - discriminate.
Qed.
Lemma column_read_exn k ty name i st e : snd (column_read teqb decode k ty name i st) = Throw e ->
  snd (get_column (V := V) teqb k ty name st) = Throw e \/ exists s n, decode ty s n = Throw e.
Proof.
  unfold column_read. destruct (get_column teqb k ty name st) as [st1 [v|x| |]]; cbn [snd]; try discriminate; [|intros H; left; injection H as ->; reflexivity].
  destruct (obj_at st1 (v_table v)) as [o| | |]; cbn [snd]; try discriminate.
  pose proof (view_read_exn ty i (t_data (o_table o)) v e) as Hr. destruct (view_read decode ty i (t_data (o_table o)) v) as [v' r]. cbn [snd] in *.
  intros H. right. destruct (Hr H) as (s & _ & D). eauto.
Qed.
Lemma column_assign_exn k ty name i x st e : snd (column_assign teqb decode encode k ty name i x st) = Throw e ->
  snd (get_column (V := V) teqb k ty name st) = Throw e \/ exists s n, decode ty s n = Throw e.
Proof.
  unfold column_assign. destruct (get_column teqb k ty name st) as [st1 [v|y| |]]; cbn [snd]; try discriminate; [|intros H; left; injection H as ->; reflexivity].
  destruct (obj_at st1 (v_table v)) as [o| | |]; cbn [snd]; try discriminate.
  unfold view_assign. pose proof (view_read_exn ty i (t_data (o_table o)) v e) as Hr.
  destruct (view_read decode ty i (t_data (o_table o)) v) as [v' [r|y| |]]; cbn [snd] in *; try discriminate.
  - unfold view_update. destruct (set_cell (t_data (o_table o)) i (v_pos v') (encode ty x)) as [d'|y| |] eqn:Es; cbn [snd]; try discriminate.
    exfalso. unfold set_cell in Es. destruct (nth_error _ i) as [r'|]; [destruct (_ <? _)|]; discriminate.
  - intros H. injection H as ->. right. destruct (Hr eq_refl) as (s & _ & D). eauto.
Qed.
End Columns.

Lemma seq_only {A} l (xs : list (outcome A)) : Forall (throws_only l) xs -> throws_only l (seq_outcomes xs).
Proof.
  induction 1 as [|m r Hm Hr IH]; cbn [seq_outcomes]; [apply only_ret|].
  apply only_bind; [exact Hm|intros]. apply only_bind; [exact IH|intros; apply only_ret].
Qed.
Lemma word_only l k i s : throws_only l (word_at k i s).
Proof. unfold word_at. destruct (_ <=? _); auto with only. Qed.
Lemma bin_decode_exn ty s n e : bin_decode ty s n = Throw e -> e = BadLexicalCast /\ ty = (EByte, false) /\ length s <> 1.
Proof.
  destruct ty as [t many]. unfold bin_decode. cbn [fst snd]. destruct many.
  - destruct (n <? 2 ^ 31)%N; [|discriminate]. intros H. exfalso.
    assert (O : throws_only [] (bin_deserialize_vec t s (N.to_nat n))).
    { destruct t; cbn [bin_deserialize_vec]; auto with only; try (apply only_bind; [|intros; apply only_ret]);
        try (apply seq_only; apply Forall_forall; intros m Hm; apply in_map_iff in Hm; destruct Hm as (j & <- & _);
             repeat (apply only_bind; [|intros ? _]); try apply word_only; auto with only).
      unfold byte_collection. destruct (_ <=? _); auto with only. }
    apply O in H. exact H.
  - intros H. destruct t; cbn [bin_deserialize] in H; try discriminate H;
      try (exfalso; revert H; match goal with |- ?x = _ -> False => assert (O : throws_only [] x); [|intros H; apply O in H; exact H] end;
           unfold element_to_numeric, element_to_two; repeat (apply only_bind; [|intros ? _]); try apply word_only; auto with only; fail).
    unfold element_to_byte in H. destruct s as [|c [|c2 s]]; cbn [bind] in H; [|discriminate|]; injection H as <-; cbn [length]; auto.
Qed.
Lemma ascii_decode_exn fc ty s n e : ascii_decode fc ty s n = Throw e -> e = InvalidCast.
Proof.
  unfold ascii_decode. destruct ty.
  - destruct (cast_signed 64 s); intros H; [discriminate|injection H as <-; reflexivity].
  - destruct (f32_read fc s); intros H; [discriminate|injection H as <-; reflexivity].
  - destruct (f64_read fc s); intros H; [discriminate|injection H as <-; reflexivity].
Qed.

(** ** Writing what was read *)
Definition fits_in (c : column) (x : str) : Prop :=
  exists w, ascii_column_size (c_format c) = Ret w /\ (N.of_nat (length x) <= w)%N /\ (w <= max_size)%N.
Definition writable (x : hdu) : Prop :=
  match x with HAscii t => Forall (fun row => Forall2 fits_in (t_columns t) row) (t_data t) | _ => True end.
Lemma trim_shorter s : length (trim s) <= length s.
Proof.
  assert (L : forall s, length (trim_left s) <= length s).
  { induction s0 as [|c r IH]; cbn [trim_left]; [lia|]. destruct (is_space c); cbn [length]; lia. }
  unfold trim, trim_right. pose proof (L s) as A. rewrite rev_length. pose proof (L (rev (trim_left s))) as B. rewrite rev_length in B. lia.
Qed.
Lemma ascii_row_fits row w buf : (N.of_nat (length buf) <= max_size)%N -> forall cols x,
  ascii_read_row row w cols buf = Ret x -> Forall2 fits_in cols x.
Proof.
  intros Hb. induction cols as [|c r IH]; intros x H; cbn [ascii_read_row] in H; [injection H as <-; constructor|].
  destruct (ascii_field row w c buf) as [y| | |] eqn:Ef; try discriminate. cbn [bind] in H.
  destruct (ascii_read_row row w r buf) as [z| | |]; try discriminate. cbn [bind] in H. injection H as <-.
  constructor; [|apply IH; reflexivity].
  unfold ascii_field in Ef. destruct (_ <? _)%N; [discriminate|]. destruct (_ =? _)%N; [discriminate|].
  destruct (ascii_column_size (c_format c)) as [k| | |] eqn:Ek; try discriminate. cbn [bind] in Ef.
  match type of Ef with context [if ?b then _ else _] => destruct b eqn:El; [|discriminate] end.
  injection Ef as <-. exists k. split; [exact Ek|]. split; [|lia].
  match goal with |- context [trim ?q] => pose proof (trim_shorter q) as X end. rewrite firstn_length in X. lia.
Qed.
Lemma ascii_rows_fit w cols buf : (N.of_nat (length buf) <= max_size)%N -> forall n row x,
  ascii_read_rows n row w cols buf = Ret x -> Forall (fun r => Forall2 fits_in cols r) x.
Proof.
  intros Hb. induction n as [|n IH]; intros row x H; cbn [ascii_read_rows] in H; [injection H as <-; constructor|].
  destruct (ascii_read_row row w cols buf) as [y| | |] eqn:Er; try discriminate. cbn [bind] in H.
  destruct (ascii_read_rows n (S row) w cols buf) as [z| | |] eqn:Ez; try discriminate. cbn [bind] in H. injection H as <-.
  constructor; [exact (ascii_row_fits _ _ _ Hb _ _ Er)|exact (IH _ _ Ez)].
Qed.
Lemma ascii_table_writable fc h buf t : (N.of_nat (length buf) <= max_size)%N -> ascii_table fc h buf = Ret t -> writable (HAscii t).
Proof.
  intros Hb. unfold ascii_table, make_table, hbind. destruct (table_info fc h) as [h1 [n| | |]]; try discriminate.
  unfold ascii_fill, hbind. destruct (ascii_columns fc (N.to_nat n) 1 h1) as [h2 [cols| | |]]; try discriminate.
  destruct buf as [|b buf']; cbn [hret].
  - intros H. injection H as <-. cbn [writable t_data]. constructor.
  - set (buf := b :: buf') in *. clearbody buf.
    destruct (naxis 2 h2) as [rows| | |]; cbn [bind]; try discriminate.
    destruct (naxis 1 h2) as [w| | |]; cbn [bind]; try discriminate.
    destruct (ascii_table_data rows w cols buf) as [d| | |] eqn:Ed; cbn [bind]; try discriminate.
    intros H. injection H as <-. cbn [writable t_data t_columns].
    unfold ascii_table_data in Ed. destruct (max_rows <? rows)%N; [discriminate|]. destruct (rows =? 0)%N; [injection Ed as <-; constructor|].
    destruct cols as [|c cols]; [discriminate|]. set (cs := c :: cols) in *. clearbody cs.
    destruct (ascii_read_rows (N.to_nat rows) 0 w cs buf) as [d'| | |] eqn:Er; cbn [bind] in Ed; try discriminate.
    destruct (_ <=? _)%N in Ed; [discriminate|]. injection Ed as <-. exact (ascii_rows_fit _ _ _ Hb _ _ _ Er).
Qed.
Lemma construct_writable fc h buf x : (N.of_nat (length buf) <= max_size)%N -> construct_hdu fc h buf = Ret x -> writable x.
Proof.
  intros Hb. unfold construct_hdu. destruct (contains_keyword _ h).
  - destruct (make_primary fc h buf); cbn [bind]; try discriminate. intros H. injection H as <-. exact I.
  - unfold make_extension. destruct (value_str fc (lit "XTENSION") h) as [h1 [k| | |]]; try discriminate.
    destruct (str_eqb k (lit "TABLE")).
    + destruct (ascii_table fc h1 buf) as [t| | |] eqn:Et; cbn [bind]; try discriminate. intros H. injection H as <-.
      exact (ascii_table_writable _ _ _ _ Hb Et).
    + destruct (str_eqb k (lit "BINTABLE")); [destruct (binary_table fc h1 buf); cbn [bind]; try discriminate|];
        intros H; injection H as <-; exact I.
Qed.
Lemma extract_data_small h s s' d : extract_data h s = (s', Ret d) -> (N.of_nat (length d) <= max_size)%N.
Proof.
  unfold extract_data. destruct (data_size h =? 0)%N; [intros H; injection H as _ <-; cbn [length]; lia|].
  destruct (data_bytes h) as [n| | |]; try discriminate. destruct (stream_read n s) as [[d'| | |] s1] eqn:Er; try discriminate.
  intros H. injection H as _ <-. pose proof (stream_read_length _ _ _ _ Er) as L.
  unfold stream_read in Er. destruct (N.ltb_spec max_size n); [discriminate|]. lia.
Qed.
Definition all_writable (f : ReaderModel.fits) : Prop := Forall writable (f_hdus f).
Lemma read_hdu_writable fc hf f : all_writable f -> all_writable (fst (read_hdu fc hf f)).
Proof.
  intros Hf. unfold read_hdu. destruct (get_current_pos (f_stream f)) as [hl s1].
  destruct (extract_header fc hf s1) as [s2 [h| | |]]; try exact Hf. destruct (get_current_pos s2) as [dl s3].
  destruct (extract_data h s3) as [s4 [d| | |]] eqn:Ed; try exact Hf.
  destruct (get_hdu_name fc h) as [h1 [n| | |]]; try exact Hf.
  destruct (construct_hdu fc h1 d) as [x| | |] eqn:Ex; try exact Hf.
  unfold all_writable. cbn [fst push_hdu record_info at_stream f_hdus]. apply Forall_app. split; [exact Hf|]. constructor; [|constructor].
  exact (construct_writable _ _ _ _ (extract_data_small _ _ _ _ Ed) Ex).
Qed.
Lemma read_hdu_header_writable fc hf f : all_writable f -> all_writable (fst (read_hdu_header fc hf f)).
Proof.
  intros Hf. unfold read_hdu_header. destruct (get_current_pos (f_stream f)) as [hl s1].
  destruct (extract_header fc hf s1) as [s2 [h| | |]]; try exact Hf.
  destruct (get_hdu_name fc h) as [h1 [n| | |]]; try exact Hf. destruct (get_current_pos s2) as [dl s3].
  destruct (construct_hdu fc h1 []) as [x| | |] eqn:Ex; try exact Hf. destruct (skip_data h1 s3) as [s4 r].
  unfold all_writable. cbn [fst push_hdu record_info at_stream f_hdus]. apply Forall_app. split; [exact Hf|]. constructor; [|constructor].
  apply (construct_writable _ _ [] _) in Ex; [exact Ex|cbn [length]; lia].
Qed.
Lemma loop_writable turn : (forall f, all_writable f -> all_writable (fst (turn f))) -> forall fuel f, all_writable f -> all_writable (fst (read_loop turn fuel f)).
Proof.
  intros Ht fuel. induction fuel as [|n IH]; intros f Hf; cbn [read_loop]; [exact Hf|].
  destruct (at_end (f_stream f)) as [e s]. destruct e; [exact Hf|].
  specialize (Ht (at_stream s f) Hf). destruct (turn (at_stream s f)) as [f1 [u|e| |]]; cbn [fst] in *; auto.
Qed.
Lemma used_writable fc f : used fc f -> all_writable f.
Proof.
  induction 1 as [|file f _ IH|o hf fuel f _ IH].
  - constructor.
  - unfold initialize_path, set_file. destruct file; exact IH.
  - destruct o; apply loop_writable; auto using read_hdu_writable, read_hdu_header_writable.
Qed.
Lemma row_text_ok cols row : Forall2 fits_in cols row -> exists x, ascii_row_text cols row = Ret x.
Proof.
  induction 1 as [|c x cols row (w & Ew & L & M) _ (y & IH)]; [exists []; reflexivity|].
  cbn [ascii_row_text]. rewrite Ew. cbn [bind].
  assert (S : (sub64 w (N.of_nat (length x)) <= max_size)%N).
  { unfold sub64. replace (w + two64 - N.of_nat (length x))%N with ((w - N.of_nat (length x)) + 1 * two64)%N by lia.
    rewrite N.mod_add by (unfold two64; lia). etransitivity; [apply N.mod_le; unfold two64; lia|lia]. }
  destruct (N.ltb_spec max_size (sub64 w (N.of_nat (length x)))); [lia|]. rewrite IH. cbn [bind]. eauto.
Qed.
Lemma write_rows_ok cols rows : Forall (fun r => Forall2 fits_in cols r) rows -> forall s, snd (ascii_write_rows cols rows s) = Ret tt.
Proof.
  induction 1 as [|r rows Hr _ IH]; intros s; cbn [ascii_write_rows]; [reflexivity|].
  destruct (row_text_ok _ _ Hr) as [x ->]. apply IH.
Qed.
Lemma write_hdus_ok l : Forall writable l -> forall s, snd (write_hdus l s) = Ret tt.
Proof.
  induction 1 as [|x l Hx _ IH]; intros s; cbn [write_hdus]; [reflexivity|].
  assert (E : snd (write_hdu x s) = Ret tt).
  { destruct x as [| | |t]; try reflexivity. cbn [write_hdu]. unfold ascii_write.
    pose proof (write_rows_ok _ _ Hx (write_header (t_header t) s)) as W.
    destruct (ascii_write_rows _ _ _) as [s1 r]. cbn [snd] in W. subst r. reflexivity. }
  destruct (write_hdu x s) as [s1 r]. cbn [snd] in E. subst r. apply IH.
Qed.
Lemma used_write fc f b : used fc f -> snd (write_to_path b f) = Ret tt.
Proof.
  intros H. apply used_writable in H. unfold write_to_path. destruct (create_file b) as [ok s].
  pose proof (write_hdus_ok _ H s) as W. destruct (write_hdus (f_hdus f) s) as [s' r]. exact W.
Qed.
