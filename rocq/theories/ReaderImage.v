(** * Primary HDU and image extension objects by themselves. *)
From Verif Require Export ReaderMore.
From Coq Require Import Lia ZifyBool ZifyNat ZifyN.
Open Scope list_scope.

(** A value looked up in a header at most read since is that of the last record. *)
Lemma reached_lookup fc t h h1 c key v : reached fc h -> value_of fc t (c :: key) h = (h1, Ret v) ->
  c <> "B"%char -> c <> "N"%char -> header_value fc t h (c :: key) v /\ reached fc h1 /\ map raw (h_cards h1) = map raw (h_cards h).
Proof.
  intros R V N1 N2. destruct (reached_facts fc h R) as [Cs F]. destruct (value_of_text _ _ _ _ _ _ Cs V) as (r & A & B).
  pose proof (value_of_steady fc t (c :: key) h) as St.
  assert (R1 : reached fc (fst (value_of fc t (c :: key) h))) by (constructor; exact R). rewrite V in St, R1. cbn [fst] in St, R1.
  split; [|split; [exact R1|apply St]]. exists r. rewrite <- F by (apply not_mandatory; assumption). auto.
Qed.

Lemma header_value_raws fc t h h' key v : map raw (h_cards h') = map raw (h_cards h) ->
  header_value fc t h' key v -> header_value fc t h key v.
Proof. intros E (r & A & B). exists r. rewrite <- E. auto. Qed.

Theorem primary_flags fc h d p : reached fc h -> make_primary fc h d = Ret p ->
  header_value fc TBool h (lit "SIMPLE") (VBool (p_simple p)) /\
  header_value fc TBool h (lit "EXTEND") (VBool (p_extend p)) /\
  map raw (h_cards (p_header p)) = map raw (h_cards h).
Proof.
  intros R M. destruct (make_primary_inv _ _ _ _ M) as (b & h1 & _ & _ & E & -> & _ & St).
  unfold primary_meta in E. apply hbind_ret in E. destruct E as (h2 & s & E1 & E). apply hbind_ret in E. destruct E as (h3 & e & E2 & E).
  apply hret_ret in E. destruct E as [-> E]. injection E as -> ->.
  apply hbind_ret in E1. destruct E1 as (h2' & v & V1 & L1). apply hlift_ret in L1. destruct L1 as [-> L1].
  apply hbind_ret in E2. destruct E2 as (h3' & w & V2 & L2). apply hlift_ret in L2. destruct L2 as [-> L2].
  destruct v; try discriminate. destruct w; try discriminate. apply ret_inj in L1, L2. subst.
  destruct (reached_lookup fc TBool h h2' _ _ _ R V1) as (A & R2 & C); try discriminate.
  destruct (reached_lookup fc TBool h2' _ _ _ _ R2 V2) as (B & _ & _); try discriminate.
  split; [exact A|]. split; [exact (header_value_raws _ _ _ _ _ _ C B)|apply St].
Qed.

Theorem primary_pixels fc h d p : make_primary fc h d = Ret p ->
  exists b, h_bitpix h = Some b /\ read_image b d empty_image = Ret (p_image p) /\
    primary_data b p = Ret (p_image p) /\ forall b', b' <> b -> primary_data b' p = Undef.
Proof.
  intros M. destruct (make_primary_inv _ _ _ _ M) as (b & h1 & E1 & E2 & _ & _ & E3 & _).
  exists b. split; [exact E1|]. split; [exact E2|]. unfold primary_data. rewrite E3.
  split; [destruct b; reflexivity|]. intros b' N. destruct b, b'; try reflexivity; congruence.
Qed.

Theorem image_ext_object fc h d x : reached fc h -> make_image_ext fc h d = Ret x ->
  (exists g, header_value fc TInt h (lit "GCOUNT") g) /\ (exists g, header_value fc TInt h (lit "PCOUNT") g) /\
  (exists n, header_value fc TStr h (lit "EXTNAME") n) /\
  map raw (h_cards (x_header x)) = map raw (h_cards h) /\
  h_bitpix h = Some (x_kind x) /\ read_image (x_kind x) d empty_image = Ret (x_image x).
Proof.
  intros R H. unfold make_image_ext in H.
  destruct ((do g <- value_of fc TInt (lit "GCOUNT") in do p <- value_of fc TInt (lit "PCOUNT") in
             do e <- value_of fc TStr (lit "EXTNAME") in hret tt) h) as [h1 [u| | |]] eqn:E; try discriminate.
  apply hbind_ret in E. destruct E as (h2 & g & V1 & E). apply hbind_ret in E. destruct E as (h3 & p & V2 & E).
  apply hbind_ret in E. destruct E as (h4 & e & V3 & E). apply hret_ret in E. destruct E as [-> _].
  destruct (reached_lookup fc TInt h h2 _ _ _ R V1) as (A1 & R2 & C1); try discriminate.
  destruct (reached_lookup fc TInt h2 h3 _ _ _ R2 V2) as (A2 & R3 & C2); try discriminate.
  destruct (reached_lookup fc TStr h3 h4 _ _ _ R3 V3) as (A3 & R4 & C3); try discriminate.
  unfold get_bitpix in H. destruct (h_bitpix h) as [b|]; [|discriminate]. cbn [bind] in H.
  destruct (read_image b d empty_image) as [im| | |] eqn:I; try discriminate. cbn [bind] in H. apply ret_inj in H. subst x.
  cbn [x_header x_kind x_image].
  split; [exists g; exact A1|]. split; [exists p; exact (header_value_raws _ _ _ _ _ _ C1 A2)|].
  split; [exists e; apply (header_value_raws _ _ _ _ _ _ C1), (header_value_raws _ _ _ _ _ _ C2), A3|].
  split; [congruence|]. auto.
Qed.

Theorem image_ext_roundtrip fc h d x s : reached fc h -> make_image_ext fc h d = Ret x ->
  x_kind x <> B8 -> d <> [] -> length d mod N.to_nat (element_size (x_kind x)) = 0 ->
  appending s -> length (content s) mod 2880 = 0 ->
  (N.of_nat (length (content s) + length (unit_text (map raw (h_cards h)) d)) < 2 ^ 62)%N ->
  content (image_ext_write x s) = content s ++ unit_text (map raw (h_cards h)) d.
Proof.
  intros R H Hb Hd Hm A M Hl. destruct (image_ext_object _ _ _ _ R H) as (_ & _ & _ & C & _ & I).
  destruct (image_roundtrip _ _ empty_image Hb Hd Hm) as (im & I' & W). rewrite I in I'. apply ret_inj in I'. subst im.
  unfold image_ext_write. rewrite W. apply (write_unit_text _ (x_header x)); auto.
Qed.
