(** Property theorems C169: the address space bounds the size of a model and of its saved text. *)
From Verif Require Import Prelude Bytes Float32 Bleaching Utils BinInput Ram Json Fs RamData Disc Wisard Cluster ClusWisard Sizes.
From Verif Require Import SpecDisc SpecWisard SpecSizes SpecSaved UtilsProofs TextProofs CtorFacts RamProofs DiscProofs DiscCtorProofs DiscFacts WisardProofs JsonNF JsonProofs JsonFacts SizesProofs WisardSaved BleachProofs Recall.
From Verif Require Import SpecUtf8 PropsDisc PropsWisard PropsJson PropsSizes.

(** The most patterns the RAMs of d can hold together: every RAM as many as its positions can show. *)
Definition address_space (d : disc) : Z := zsum ((fun r => r_base r ^ len (r_addresses r)) <$> d_rams d).

(** Patterns as numbers. *)
Definition number (b : Z) (p : list (res Z)) : Z := foldr (fun r acc => (match r with Ok v => v | _ => 0 end) + b * acc) 0 p.
Definition digits_of (b : Z) (p : list (res Z)) : Prop := Forall (fun r => exists v, r = Ok v /\ 0 <= v < b) p.
Lemma number_range b p : digits_of b p -> 0 <= number b p < b ^ len p.
Proof.
  induction 1 as [|r p (v & -> & Hv) _ IH]; [change (len (A:=res Z) []) with 0; rewrite Z.pow_0_r; change (number b []) with 0; lia|]. cbn [number foldr]. fold (number b p). rewrite len_cons, (Z.add_comm 1), Z.pow_add_r by (pose proof (len_nonneg p); lia). rewrite Z.pow_1_r. nia.
Qed.
Lemma number_inj b p q : digits_of b p -> digits_of b q -> length p = length q -> number b p = number b q -> p = q.
Proof.
  intros Hp. revert q. induction Hp as [|r p (v & -> & Hv) _ IH]; intros [|s q] Hq Hl; try discriminate; [reflexivity|]. inversion Hq as [|? ? (u & -> & Hu) Hq']; subst.
  cbn [number foldr]. fold (number b p). fold (number b q). intros E.
  assert (Hm : number b p = number b q) by nia. assert (v = u) by nia. subst u. f_equal. apply IH; [exact Hq'|cbn in Hl; lia|exact Hm].
Qed.
Lemma distinct_below (l : list Z) N : 0 <= N -> NoDup l -> Forall (fun z => 0 <= z < N) l -> len l <= N.
Proof.
  intros HN Hn Hf. assert (l ⊆+ (Z.of_nat <$> seq 0 (Z.to_nat N))) as H.
  { apply NoDup_submseteq; [exact Hn|]. intros z Hz. rewrite Forall_forall in Hf. specialize (Hf z Hz). apply elem_of_list_fmap. exists (Z.to_nat z). split; [lia|]. apply elem_of_seq. lia. }
  apply submseteq_length in H. rewrite fmap_length, seq_length in H. unfold len. lia.
Qed.
Lemma remove_dups_length {A} `{EqDecision A} (l : list A) : len (remove_dups l) <= len l.
Proof. unfold len. apply inj_le. induction l as [|x l IH]; [apply Nat.le_refl|]. cbn [remove_dups]. case_decide; cbn [length]; lia. Qed.
Lemma patterns_bound b addrs xs : 2 <= b -> Forall (fun x => Forall (fun a => exists v, im_get x a = Ok v /\ 0 <= v < b) addrs) xs ->
  patterns addrs xs <= Z.min (len xs) (b ^ len addrs).
Proof.
  intros Hb H. unfold patterns. apply Z.min_glb.
  - etransitivity; [apply remove_dups_length|]. unfold len. rewrite fmap_length. lia.
  - set (l := remove_dups (pattern addrs <$> xs)).
    assert (Hl : forall p, p ∈ l -> digits_of b p /\ length p = length addrs).
    { intros p Hp. apply elem_of_remove_dups, elem_of_list_fmap in Hp as (x & -> & Hx). rewrite Forall_forall in H. specialize (H x Hx). unfold pattern. split; [|apply fmap_length].
      apply Forall_fmap. eapply Forall_impl; [exact H|]. intros a (v & E & Hv). exists v. auto. }
    replace (len l) with (len (number b <$> l)) by (unfold len; rewrite fmap_length; reflexivity). apply distinct_below; [apply Z.pow_nonneg; lia| |].
    + apply (NoDup_fmap_2_strong (number b) l); [|apply NoDup_remove_dups]. intros p q Hp Hq E. destruct (Hl p Hp), (Hl q Hq). eapply number_inj; try eassumption. congruence.
    + apply Forall_fmap, Forall_forall. intros p Hp. destruct (Hl p Hp) as [Hd Hn]. cbn. replace (len addrs) with (len p) by (unfold len; congruence). apply number_range, Hd.
Qed.

Lemma learned_bound d0 h : fresh d0 -> all_valid d0 h ->
  learned_patterns d0 h <= zsum ((fun r => Z.min (len (trained_images h)) (r_base r ^ len (r_addresses r))) <$> d_rams d0).
Proof.
  intros [_ Hf] Hv. unfold learned_patterns. apply zsum_le, Forall2_fmap, Forall_Forall2_diag, Forall_forall. intros r Hr. rewrite Forall_forall in Hf. destruct (Hf r Hr) as [[Hb _] _].
  apply patterns_bound; [exact Hb|]. apply Forall_forall. intros x Hx. apply trained_images_elem in Hx. unfold all_valid in Hv. rewrite Forall_forall in Hv. specialize (Hv _ Hx). destruct Hv as [_ Hv]. rewrite Forall_forall in Hv. apply (Hv r Hr).
Qed.
Lemma learned_space d0 h : fresh d0 -> all_valid d0 h -> learned_patterns d0 h <= address_space d0.
Proof.
  intros Hf Hv. etransitivity; [apply learned_bound; eassumption|]. unfold address_space. apply zsum_le, Forall2_fmap, Forall_Forall2_diag, Forall_true. intros r. apply Z.le_min_r.
Qed.

(** C169 for a discriminator: however many images it learned, every RAM adds at most 12 bytes for every
    image and at most 12 bytes for every pattern its positions can show. *)
Theorem C169_discriminator : forall S d0 h d, constructed d0 -> all_valid d0 h -> len h <= INT_MAX -> run d0 h = (Ok tt, d) ->
  disc_getsizeof S d <= disc_getsizeof S d0 + 12 * zsum ((fun r => Z.min (len (trained_images h)) (r_base r ^ len (r_addresses r))) <$> d_rams d0).
Proof.
  intros S d0 h d Hc Hv Hl E. rewrite (C103_discriminator_size S d0 h d Hc Hv Hl E). pose proof (learned_bound d0 h (constructed_fresh d0 Hc) Hv). lia.
Qed.
Print Assumptions C169_discriminator.
(** For a Wisard: the size is at most that of the new discriminators of its labels (and the names), and
    12 bytes for every pattern they can show. *)
Theorem C169_wisard : forall S lhs_first w0 n cs,
  w_discriminators w0 = ∅ -> configured w0 n -> Forall (proper_call w0 n) cs -> len (all_examples cs) <= INT_MAX ->
  exists w (d0 : gmap str disc), wrun lhs_first w0 cs = (Ok tt, w) /\
    (forall l, is_Some (d0 !! l) <-> SpecWisard.trained l (all_examples cs)) /\
    (forall l d, d0 !! l = Some d -> built w0 n l d) /\
    wisard_getsizeof S w <= S_Wisard S + 4 * len (w_indexes w0) +
      zsum ((fun ld => len ld.1 + (disc_getsizeof S ld.2 + 12 * zsum ((fun r => Z.min (len (trained_images (history ld.1 (all_examples cs)))) (r_base r ^ len (r_addresses r))) <$> d_rams ld.2))) <$> sorted_items d0).
Proof.
  intros S lhs w0 n cs H0 Hc Hp Hl. destruct (wrun_inv lhs w0 n cs H0 Hc Hp Hl) as (w & d0 & E & Hi).
  assert (HF : Forall (fun e => plain_image (w_base w0) n (op_image e.2)) (all_examples cs)).
  { unfold all_examples. apply Forall_concat, Forall_fmap. eapply Forall_impl; [exact Hp|]. intros c Hpc. apply Hpc. }
  destruct Hc as (Hn & Hc'). exists w, d0. split; [exact E|]. rewrite (winv_size S w0 n d0 (all_examples cs) w Hn Hi HF). destruct Hi as [_ Hi]. split; [|split].
  - intros l. rewrite <- history_trained. specialize (Hi l). unfold label_inv in Hi. destruct (d0 !! l), (w_discriminators w !! l); try contradiction.
    + split; [intros _; apply Hi|intros _; eauto].
    + split; [intros [? ?]; discriminate|congruence].
  - intros l d Ed. specialize (Hi l). rewrite Ed in Hi. destruct (w_discriminators w !! l); [|destruct Hi]. apply Hi.
  - apply Z.add_le_mono_l, zsum_le, Forall2_fmap, Forall_Forall2_diag, Forall_forall. intros [l d] Hin. apply sorted_items_elem in Hin. cbn [fst snd].
    apply Z.add_le_mono_l, Z.add_le_mono_l. apply Z.mul_le_mono_nonneg_l; [lia|]. specialize (Hi l). rewrite Hin in Hi. unfold label_inv in Hi. destruct (w_discriminators w !! l); [|destruct Hi].
    destruct Hi as (_ & _ & Hsh & _). apply learned_bound; [apply Hsh|]. apply Forall_forall. intros o Ho. apply history_elem in Ho. rewrite Forall_forall in HF. apply (plain_valid (w_base w0) n _ d Hn Hsh (HF _ Ho)).
Qed.
Print Assumptions C169_wisard.

(** ** The saved text *)
Lemma after_saved d0 h d : fresh d0 -> all_valid d0 h -> after d0 h d -> saved_size d = 16 * learned_patterns d0 h + len (d_rams d0).
Proof.
  intros [_ Hf] Hv Ha. pose proof (af_rams _ _ _ Ha) as HR. pose proof (valid_rams d0 h Hv) as HV. unfold saved_size, learned_patterns. clear -HR HV Hf.
  induction HR as [|r0 r rs0 rs Hr HR IH]; [reflexivity|]. rewrite !fmap_cons, len_cons. unfold zsum in *. cbn [foldr].
  apply Forall_cons in HV as [HV0 HV]. apply Forall_cons in Hf as [[Hs He] Hf]. rewrite IH by assumption. rewrite (ram_after_size h r0 r Hs HV0 Hr). lia.
Qed.
(** C169: json() of a trained discriminator holds 16 characters for every pattern it learned and a point
    between RAMs; whatever it learned, at most 16 for every pattern its RAMs can show. *)
Theorem C169_text : forall iter rnd f path d0 h d,
  good_iter iter -> constructed d0 -> Forall (Forall is_int) (disc_mapping d0) ->
  all_valid d0 h -> len h <= INT_MAX -> run d0 h = (Ok tt, d) -> (exists x, Train x ∈ h) ->
  exists j data, disc_json iter rnd f d false path = (Ok j, f) /\ jfield j (lit "data") = Ok (JStr data) /\
    len data = 16 * learned_patterns d0 h + len (d_rams d0) - 1 /\ len data < 16 * address_space d0 + len (d_rams d0).
Proof.
  intros iter rnd f path d0 h d Hi Hc Hm Hv Hl E Hx. pose proof (run_inv d0 h d Hc Hv Hl E) as Ha. pose proof (constructed_fresh d0 Hc) as Hf.
  pose proof (after_saved d0 h d Hf Hv Ha) as Hs. pose proof (learned_space d0 h Hf Hv) as Hsp.
  destruct (constructed_uniform d0 Hc) as (iz & base & Hu).
  assert (Hne0 : d_rams d0 <> []) by apply Hu.
  assert (Hlen : length (d_rams d) = length (d_rams d0)) by (symmetry; eapply Forall2_length, (af_rams _ _ _ Ha)).
  assert (Hne : d_rams d <> []) by (intros K; rewrite K in Hlen; destruct (d_rams d0); [congruence|discriminate]).
  assert (Hp : Forall (fun r => r_positions r <> ∅) (d_rams d)).
  { destruct Hx as (x & Hx). pose proof (af_rams _ _ _ Ha) as HR. pose proof (valid_rams d0 h Hv) as HV. destruct Hf as [_ Hf]. clear -HR HV Hf Hx.
    induction HR as [|r0 r rs0 rs Hr HR IH]; [constructor|]. apply Forall_cons in HV as [HV0 HV]. apply Forall_cons in Hf as [[Hs He] Hf]. apply Forall_cons. split; [|apply IH; assumption].
    intros K. pose proof (ram_after_size h r0 r Hs HV0 Hr) as Hz. rewrite K, map_size_empty in Hz. apply trained_images_elem in Hx. unfold patterns in Hz.
    assert (pattern (r_addresses r0) x ∈ remove_dups (pattern (r_addresses r0) <$> trained_images h)) as Hin by (apply elem_of_remove_dups, elem_of_list_fmap; eauto).
    destruct (remove_dups _); [inversion Hin|]. rewrite len_cons in Hz. pose proof (len_nonneg l0). lia. }
  assert (Ed : ramsdata_mem iter (d_rams d) [] = join_dots (texts iter (d_rams d))).
  { apply mem_join. unfold texts. apply Forall_fmap. eapply Forall_impl; [exact Hp|]. intros r Hr. apply RamDataProofs.ram_text_len; [exact Hi|exact Hr]. }
  exists (json_value d (ramsdata_mem iter (d_rams d) [])), (ramsdata_mem iter (d_rams d) []).
  split; [rewrite disc_json_nf; [reflexivity|]; cbn [getRAMsData fst]; rewrite Ed; apply texts_utf8|].
  split; [unfold json_value; destruct (d_rams d); reflexivity|]. rewrite Ed. pose proof (texts_size iter d Hi Hne). lia.
Qed.
Print Assumptions C169_text.
(** C169: if the patterns the RAMs can show fit the text index (2^31), any history of trainings can be
    saved and read back, however long (compare C57, where the learned patterns have to fit). *)
Theorem C169_always_savable : forall iter rnd f path d0 h d,
  good_iter iter -> constructed d0 -> Forall (Forall is_int) (disc_mapping d0) -> 16 * address_space d0 + len (d_rams d0) <= INT_MAX + 1 ->
  all_valid d0 h -> len h <= INT_MAX -> run d0 h = (Ok tt, d) -> (exists x, Train x ∈ h) ->
  exists j, disc_json iter rnd f d false path = (Ok j, f) /\ forall f', disc_of_json f' j = Ok d.
Proof.
  intros iter rnd f path d0 h d Hi Hc Hm Hsp Hv Hl E Hx. apply (C57_roundtrip iter rnd f path d0 h d); try assumption.
  pose proof (constructed_fresh d0 Hc) as Hf. rewrite (after_saved d0 h d Hf Hv (run_inv d0 h d Hc Hv Hl E)). pose proof (learned_space d0 h Hf Hv). lia.
Qed.
Print Assumptions C169_always_savable.
(** C169 for a Wisard with the default wiring: if all addresses of one label fit the text index, the Wisard
    can be saved and read back after any sequence of calls (compare C60). *)
Lemma shuffled_space w0 n l d : configured w0 n -> w_mapping w0 = ∅ -> w_indexes w0 = [] -> can_learn w0 n l -> built w0 n l d ->
  16 * address_space d + len (d_rams d) = ram_count n (w_addressSize w0) (w_completeAddressing w0) * (16 * w_base w0 ^ w_addressSize w0 + 1).
Proof.
  intros (_ & Hb & _) Hm Hi Hl (dr & Hdr & E). unfold can_learn in Hl. unfold construct_discriminator in E. rewrite Hm, lookup_empty in Hl, E. rewrite Hi in E. cbn [length Nat.eqb negb] in E. destruct Hl as (Ha & Hs & Hf & _).
  destruct (shuffle_layout dr (w_addressSize w0) n (w_ignoreZero w0) (w_completeAddressing w0) (w_base w0) Hdr Ha Hb Hs Hf) as (d' & Hd & _ & _ & Hk & Hr & _).
  unfold disc_new in Hd. cbn [length Nat.eqb negb] in Hd. assert (d' = d) as -> by congruence. unfold ram_count. rewrite <- Hk. clear -Hr. unfold address_space.
  induction Hr as [|r rs (Hl & _ & Hb & _) _ IH]; [reflexivity|]. rewrite fmap_cons, len_cons. unfold zsum in *. cbn [foldr]. rewrite Hl, Hb. lia.
Qed.
Theorem C169_wisard_savable : forall iter rnd lhs_first w0 n cs w f path,
  good_iter iter -> w_discriminators w0 = ∅ -> configured w0 n -> w_mapping w0 = ∅ -> w_indexes w0 = [] ->
  ram_count n (w_addressSize w0) (w_completeAddressing w0) * (16 * w_base w0 ^ w_addressSize w0 + 1) <= INT_MAX + 1 ->
  SpecSaved.int_options w0 ->
  Forall (proper_call w0 n) cs -> len (all_examples cs) <= INT_MAX -> (forall l, SpecWisard.trained l (all_examples cs) -> is_utf8 l) -> wrun lhs_first w0 cs = (Ok tt, w) ->
  exists j, wisard_json iter rnd f w false path = (Ok j, f) /\ forall f', wisard_of_json f' j = Ok (without_mapping w).
Proof.
  intros iter rnd lhs w0 n cs w f path Hi H0 Hc Hm Hix Hsp Ho Hp Hl Hu E.
  apply (C60_roundtrip iter rnd lhs w0 n cs w f path Hi H0 Hc Hp Hl Ho); [intros l; rewrite Hm, lookup_empty; discriminate|exact E|].
  destruct (reach lhs w0 n cs w H0 Hc Hp Hl E) as (d0 & _ & Hinv). intros l d Ed. specialize (Hinv l). rewrite Ed in Hinv. unfold label_inv in Hinv. destruct (d0 !! l) as [dd|]; [|destruct Hinv].
  destruct Hinv as (Hh & Hb & Hsh & Ha). assert (Ht : SpecWisard.trained l (all_examples cs)) by (apply history_trained, Hh). split; [apply Hu, Ht|].
  assert (Hv : all_valid dd (history l (all_examples cs))).
  { apply Forall_forall. intros o Hoe. apply history_elem in Hoe. pose proof (proper_images w0 n cs Hp) as HF. rewrite Forall_forall in HF. apply (plain_valid (w_base w0) n _ dd (proj1 Hc) Hsh (HF _ Hoe)). }
  rewrite (after_saved dd _ d (proj1 Hsh) Hv Ha). pose proof (learned_space dd _ (proj1 Hsh) Hv).
  pose proof (shuffled_space w0 n l dd Hc Hm Hix (Recall.trained_learns w0 n cs l Hp Ht) Hb). lia.
Qed.
Print Assumptions C169_wisard_savable.
(** RAMs of three and two positions in base 3 hold at most 27 + 9 patterns. *)
Example C169_witness : constructed demo /\ all_valid demo story /\ run demo story = (Ok tt, told) /\ Train img1 ∈ story /\ address_space demo = 36 /\
  learned_patterns demo story = 3 /\ 16 * address_space demo + len (d_rams demo) <= INT_MAX + 1.
Proof.
  destruct C57_witness as (H1 & H2 & H3 & H4 & H5 & _). split; [exact H1|]. split; [exact H3|]. split; [exact H4|]. split; [exact H5|]. split; [vm_compute; reflexivity|]. split; [vm_compute; reflexivity|vm_compute; congruence].
Qed.
Print Assumptions C169_witness.

(** Any Wisard over 28 x 28 binary pixels with address size 16 and at most as much confidence as RAMs. *)
Definition mnist : wisard := Wisard 16 true false ∅ [] false true 2 false false false false 1 ∅.
Example C169_savable_witness : configured mnist 784 /\ SpecSaved.int_options mnist /\ can_learn mnist 784 hot /\
  ram_count 784 16 true * (16 * 2 ^ 16 + 1) <= INT_MAX + 1.
Proof.
  split; [unfold configured, INT_MAX; cbn; split; [lia|]; split; [lia|]; split; [lia|]; vm_compute; congruence|]. split; [|split].
  - unfold SpecSaved.int_options, is_int, INT_MIN, INT_MAX. cbn. split; [lia|]. split; [lia|]. split; [lia|]. split; [apply Forall_nil; exact I|]. split; [vm_compute; congruence|]. intros l m H. rewrite lookup_empty in H. discriminate.
  - unfold can_learn. cbn. rewrite lookup_empty. unfold INT_MAX. split; [lia|]. split; [lia|]. split; [split; [intros _; lia|congruence]|left; reflexivity].
  - vm_compute. congruence.
Qed.
