(** * What a string value with a '/' reads as. *)
From Verif Require Import CardProofs.

Lemma slash_text key a b comment : slash_free key -> slash_free a ->
  fits key ("'"%char :: (a ++ "/"%char :: b) ++ ["'"%char]) comment ->
  extract_value (record key ("'"%char :: (a ++ "/"%char :: b) ++ ["'"%char]) comment) =
  Ret (firstn (length ("'"%char :: a)) (sp :: "'"%char :: a)).
Proof.
  intros Hk Ha Hf. pose proof Hf as [Hk8 Hl]. rewrite record_body_length in Hl by exact Hk8.
  cbn [length] in Hl. rewrite !app_length in Hl. cbn [length] in Hl.
  unfold record, record_body. set (n := 80 - _). set (tail := match comment with [] => _ | _ => _ end).
  replace ((key ++ spaces (8 - length key) ++ lit "= " ++
     ("'"%char :: (a ++ "/"%char :: b) ++ ["'"%char]) ++ tail) ++ spaces n)
    with ((key ++ spaces (8 - length key)) ++ lit "= " ++ ("'"%char :: a) ++ "/"%char ::
          (b ++ ["'"%char] ++ tail ++ spaces n))
    by (repeat (rewrite <- app_assoc || cbn [app]); reflexivity).
  apply value_text_slash.
  - rewrite app_length, length_spaces. lia.
  - rewrite slash_free_app. split; [exact Hk|apply slash_free_spaces].
  - cbn. intros [J|J]; [discriminate|]. exact (Ha J).
  - cbn [length]. lia.
Qed.

Lemma slash_reads fc c key a b comment c' : cache c = None -> slash_free key -> slash_free a ->
  create_card fc c key (VStr (a ++ "/"%char :: b)) comment = (c', Ret tt) ->
  (a = [] -> snd (value fc TStr c') = Ret (VStr [])) /\
  (forall w x, a = w ++ [x] -> (forall y, In y w -> is_space y = true) -> snd (value fc TStr c') = Undef) /\
  (forall p y w x, a = p ++ y :: w ++ [x] -> is_space y = false -> (forall z, In z w -> is_space z = true) ->
    snd (value fc TStr c') = Ret (VStr (trim p))).
Proof.
  intros Hc Hk Ha H. apply create_card_ret in H. destruct H as (t & Hs & Hf & ->). cbn [serialize] in Hs. apply ret_inj in Hs. subst t.
  rewrite value_uncached by exact Hc. cbn [value_imp]. unfold value_imp_str. cbn [raw]. rewrite (slash_text key a b comment Hk Ha Hf). cbn [bind].
  assert (E : forall s x, a = s ++ [x] -> trim (firstn (length ("'"%char :: a)) (sp :: "'"%char :: a)) = trim ("'"%char :: s)).
  { intros s x ->. change (sp :: "'"%char :: s ++ [x]) with ((sp :: "'"%char :: s) ++ [x]). rewrite firstn_app.
    rewrite firstn_all2 by (cbn [length]; rewrite app_length; cbn [length]; lia).
    replace (length ("'"%char :: s ++ [x]) - length (sp :: "'"%char :: s)) with 0 by (cbn [length]; rewrite app_length; cbn [length]; lia).
    rewrite firstn_O, app_nil_r. apply trim_cons_sp. }
  split; [|split].
  - intros ->. reflexivity.
  - intros w x Ea Hw. rewrite (E w x Ea). change ("'"%char :: w) with (["'"%char] ++ w). rewrite trim_app_space_r by exact Hw. reflexivity.
  - intros p y w x Ea Hy Hw. rewrite (E (p ++ y :: w) x) by (rewrite Ea, <- app_assoc; reflexivity).
    replace ("'"%char :: p ++ y :: w) with (("'"%char :: p ++ [y]) ++ w) by (cbn [app]; rewrite <- app_assoc; reflexivity).
    rewrite trim_app_space_r by exact Hw.
    rewrite trim_id by (split; [reflexivity|]; cbn [rev]; rewrite rev_app_distr; cbn; exact Hy).
    rewrite Ascii.eqb_refl. destruct (p ++ [y]) eqn:Ep; [destruct p; discriminate|]. rewrite <- Ep, removelast_last. reflexivity.
Qed.
