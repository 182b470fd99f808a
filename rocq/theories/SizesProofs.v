(** Proofs about getsizeof (C103, C104). *)
From Verif Require Import Prelude Bytes Float32 Bleaching Utils BinInput Ram Json Fs RamData Disc Wisard Cluster ClusWisard Sizes.
From Verif Require Import SpecDisc SpecWisard SpecClus SpecSizes BytesProofs UtilsProofs TextProofs DiscCtorProofs CtorFacts RamProofs DiscProofs DiscFacts BleachProofs WisardProofs.

Lemma remove_dups_two {A B C} `{EqDecision B} `{EqDecision C} (f : A -> B) (g : A -> C) l :
  (forall x y, x ∈ l -> y ∈ l -> f x = f y <-> g x = g y) -> length (remove_dups (f <$> l)) = length (remove_dups (g <$> l)).
Proof.
  induction l as [|x l IH]; intros H; [reflexivity|]. rewrite !fmap_cons. cbn [remove_dups].
  assert (E : f x ∈ f <$> l <-> g x ∈ g <$> l).
  { rewrite !elem_of_list_fmap. split; intros (y & Hy & Hi); exists y; (split; [|exact Hi]); apply H; first [left|right; exact Hi|exact Hy]. }
  assert (IH' : length (remove_dups (f <$> l)) = length (remove_dups (g <$> l))) by (apply IH; intros; apply H; right; assumption).
  destruct (decide_rel elem_of (f x) (f <$> l)) as [Hf|Hf], (decide_rel elem_of (g x) (g <$> l)) as [Hg|Hg]; cbn [length]; first [exact IH'|rewrite IH'; reflexivity|exfalso; tauto].
Qed.
Lemma trained_images_elem h x : x ∈ trained_images h <-> Train x ∈ h.
Proof.
  unfold trained_images. rewrite elem_of_list_omap. split.
  - intros ([y|y] & Hy & E); [|discriminate]. injection E as ->. exact Hy.
  - intros H. exists (Train x). auto.
Qed.
Lemma pattern_agree addrs x y : pattern addrs x = pattern addrs y <-> agree addrs x y.
Proof.
  unfold pattern, agree. induction addrs as [|a addrs IH]; [split; [constructor|reflexivity]|]. rewrite !fmap_cons, Forall_cons, <- IH. split; [intros [= ? ?]; auto|intros [-> ->]; reflexivity].
Qed.
Lemma ram_after_size h r0 r : ram_shape r0 -> Forall (fun o => valid_on r0 (op_image o)) h -> ram_after h r0 r ->
  Z.of_nat (size (r_positions r)) = patterns (r_addresses r0) (trained_images h).
Proof.
  intros Hs Hv [_ [H1 H2]].
  set (idx := fun x => match getIndex r0 x with Ok i => i | _ => 0 end).
  assert (Hval : forall x, x ∈ trained_images h -> valid_on r0 x).
  { intros x Hx. apply trained_images_elem in Hx. rewrite Forall_forall in Hv. exact (Hv _ Hx). }
  assert (Hidx : forall x, valid_on r0 x -> getIndex r0 x = Ok (idx x)).
  { intros x Hx. unfold idx. destruct (valid_index r0 x Hs Hx) as (ds & H). destruct_and? H. match goal with E : getIndex r0 x = _ |- _ => rewrite E end. reflexivity. }
  assert (Hdom : dom (r_positions r) = list_to_set (C := gset Z) (idx <$> trained_images h)).
  { apply set_eq. intros i. rewrite elem_of_dom, elem_of_list_to_set, elem_of_list_fmap. split.
    - intros [v Hi]. destruct (H2 i v Hi) as (y & Hy & Hvy & Hiy). exists y. split; [|apply trained_images_elem, Hy].
      rewrite (Hidx y Hvy) in Hiy. congruence.
    - intros (x & -> & Hx). rewrite (H1 x (idx x) (Hval x Hx) (Hidx x (Hval x Hx))). unfold cell.
      assert (0 < trainings (r_addresses r0) x h).
      { unfold trainings. apply count_if_pos. exists (Train x). split; [apply trained_images_elem, Hx|].
        apply bool_decide_eq_true. apply agree_refl. }
      destruct (Z.eqb_spec (trainings (r_addresses r0) x h) 0); [lia|]. eauto. }
  rewrite <- (size_dom (D := gset Z)), Hdom. unfold patterns, len. f_equal.
  rewrite <- (remove_dups_two idx (pattern (r_addresses r0)) (trained_images h)).
  - assert (E : list_to_set (C := gset Z) (idx <$> trained_images h) = list_to_set (remove_dups (idx <$> trained_images h))).
    { apply set_eq. intros i. rewrite !elem_of_list_to_set, elem_of_remove_dups. reflexivity. }
    rewrite E. apply size_list_to_set, NoDup_remove_dups.
  - intros x y Hx Hy. rewrite pattern_agree. pose proof (index_agree r0 x y Hs (Hval x Hx) (Hval y Hy)) as Ha.
    rewrite (Hidx x (Hval x Hx)), (Hidx y (Hval y Hy)) in Ha. rewrite <- Ha. split; [intros E; rewrite E; reflexivity|intros [= E]; exact E].
Qed.

Lemma getsizeof_sum S rs acc : foldl (fun size r => size + ram_getsizeof S r) acc rs = acc + zsum (ram_getsizeof S <$> rs).
Proof.
  revert acc. induction rs as [|r rs IH]; intros acc; [cbn; lia|]. cbn [foldl]. rewrite IH, fmap_cons. unfold zsum. cbn [foldr]. lia.
Qed.
Lemma disc_size_sum S d : disc_getsizeof S d = S_Discriminator S + zsum (ram_getsizeof S <$> d_rams d).
Proof. apply getsizeof_sum. Qed.
Lemma valid_rams d0 h : all_valid d0 h -> Forall (fun r0 => Forall (fun o => valid_on r0 (op_image o)) h) (d_rams d0).
Proof.
  intros H. apply Forall_forall. intros r Hr. apply Forall_forall. intros o Ho. unfold all_valid in H. rewrite Forall_forall in H.
  destruct (H o Ho) as [_ Hv]. rewrite Forall_forall in Hv. exact (Hv r Hr).
Qed.
Lemma after_size S d0 h d : fresh d0 -> all_valid d0 h -> after d0 h d -> disc_getsizeof S d = disc_getsizeof S d0 + 12 * learned_patterns d0 h.
Proof.
  intros Hf Hv Ha. rewrite !disc_size_sum. unfold learned_patterns.
  assert (E : zsum (ram_getsizeof S <$> d_rams d) = zsum (ram_getsizeof S <$> d_rams d0) + 12 * zsum ((fun r => patterns (r_addresses r) (trained_images h)) <$> d_rams d0)); [|lia].
  destruct Hf as [Hf0 Hf1]. pose proof (af_rams _ _ _ Ha) as HR.
  assert (HV : Forall (fun r0 => Forall (fun o => valid_on r0 (op_image o)) h) (d_rams d0)) by (apply valid_rams; exact Hv).
  clear -HR HV Hf1. induction HR as [|r0 r rs0 rs Hr HR IH]; [reflexivity|]. rewrite !fmap_cons. unfold zsum in *. cbn [foldr].
  apply Forall_cons in HV as [HV0 HV]. apply Forall_cons in Hf1 as [[Hs He] Hf1].
  rewrite IH by assumption. unfold ram_getsizeof. rewrite (ram_after_size h r0 r Hs HV0 Hr), He, (sr_addresses _ _ (proj1 Hr)), map_size_empty. lia.
Qed.

(** ** Never shrinking *)
Lemma ram_train_grows S r x : ram_getsizeof S r <= ram_getsizeof S (snd (ram_train r x)) <= ram_getsizeof S r + 12.
Proof.
  unfold ram_train. destruct (getIndex r x) as [i| | |]; cbn [snd]; try lia.
  destruct (r_positions r !! i) as [v|] eqn:E.
  - destruct (int_of (v + 1)); cbn [snd]; try lia. unfold ram_getsizeof, with_positions. cbn [r_addresses r_positions]. rewrite map_size_insert_Some by eauto. lia.
  - cbn [snd]. unfold ram_getsizeof, with_positions. cbn [r_addresses r_positions]. rewrite map_size_insert_None by exact E. lia.
Qed.
Lemma ram_untrain_keeps S r x : ram_getsizeof S (snd (ram_untrain r x)) = ram_getsizeof S r.
Proof.
  unfold ram_untrain. destruct (getIndex r x) as [i| | |]; cbn [snd]; try reflexivity.
  destruct (r_positions r !! i) as [v|] eqn:E; [|reflexivity].
  destruct (int_of (v - 1)); cbn [snd]; try reflexivity. unfold ram_getsizeof, with_positions. cbn [r_addresses r_positions]. rewrite map_size_insert_Some by eauto. reflexivity.
Qed.
Lemma rams_update_snd (R : ram -> ram -> Prop) f rs : (forall r, R r r) -> (forall r, R r (snd (f r))) -> Forall2 R rs (snd (rams_update f rs)).
Proof.
  intros HR Hf. induction rs as [|r rs IH]; [constructor|]. cbn [rams_update]. specialize (Hf r).
  assert (Forall2 R rs rs) by (apply Forall_Forall2_diag, Forall_forall; auto).
  destruct (f r) as [[?| | |] r']; cbn [snd] in *; [|constructor; assumption..].
  destruct (rams_update f rs) as [o rs']. cbn [snd] in *. constructor; assumption.
Qed.
Lemma zsum_le l l' : Forall2 Z.le l l' -> zsum l <= zsum l'.
Proof. unfold zsum. induction 1; cbn [foldr]; lia. Qed.
Lemma disc_train_grows S d x : disc_getsizeof S d <= disc_getsizeof S (snd (disc_train d x)) <= disc_getsizeof S d + 12 * len (d_rams d).
Proof.
  unfold disc_train. destruct (checkEntrySize _ _); cbn [snd]; try (pose proof (len_nonneg (d_rams d)); lia).
  destruct (int_of (d_count d + 1)); cbn [snd]; try (pose proof (len_nonneg (d_rams d)); lia).
  pose proof (rams_update_snd (fun r r' => ram_getsizeof S r <= ram_getsizeof S r' <= ram_getsizeof S r + 12) (fun r => ram_train r x) (d_rams d)
    ltac:(intros; cbv beta; lia) (fun r => ram_train_grows S r x)) as H.
  destruct (rams_update _ _) as [o rs]. cbn [snd] in *. rewrite !disc_size_sum. cbn [d_rams].
  revert H. generalize (d_rams d). intros rs0 H.
  assert (zsum (ram_getsizeof S <$> rs0) <= zsum (ram_getsizeof S <$> rs) <= zsum (ram_getsizeof S <$> rs0) + 12 * len rs0); [|lia].
  induction H as [|r r' rs0 rs Hr _ IH]; [unfold len; cbn; lia|]. rewrite !fmap_cons, len_cons. unfold zsum in *. cbn [foldr]. lia.
Qed.
Lemma disc_untrain_keeps S d x : disc_getsizeof S (snd (disc_untrain d x)) = disc_getsizeof S d.
Proof.
  unfold disc_untrain. destruct (checkEntrySize _ _); cbn [snd]; try reflexivity.
  destruct (int_of (d_count d - 1)); cbn [snd]; try reflexivity.
  pose proof (rams_update_snd (fun r r' => ram_getsizeof S r' = ram_getsizeof S r) (fun r => ram_untrain r x) (d_rams d)
    ltac:(intros; reflexivity) (fun r => ram_untrain_keeps S r x)) as H.
  destruct (rams_update _ _) as [o rs]. cbn [snd] in *. rewrite !disc_size_sum. cbn [d_rams]. f_equal.
  revert H. generalize (d_rams d). intros rs0 H. induction H as [|r r' rs0 rs Hr _ IH]; [reflexivity|]. rewrite !fmap_cons. unfold zsum in *. cbn [foldr]. lia.
Qed.

(** ** Wisard: the sum over a map *)
Definition label_size (S : class_sizes) (kd : str * disc) : Z := len kd.1 + disc_getsizeof S kd.2.
Lemma foldl_sum {A} (f : A -> Z) l acc : foldl (fun s x => s + f x) acc l = acc + zsum (f <$> l).
Proof. revert acc. induction l as [|x l IH]; intros acc; [cbn; lia|]. cbn [foldl]. rewrite IH, fmap_cons. unfold zsum. cbn [foldr]. lia. Qed.
Lemma zsum_perm l l' : l ≡ₚ l' -> zsum l = zsum l'.
Proof. unfold zsum. induction 1; cbn [foldr]; lia. Qed.
Definition map_sum {A} (f : str * A -> Z) (m : gmap str A) : Z := zsum (f <$> map_to_list m).
Lemma wisard_size_sum S w : wisard_getsizeof S w = S_Wisard S + 4 * len (w_indexes w) + map_sum (label_size S) (w_discriminators w).
Proof. unfold wisard_getsizeof. rewrite (foldl_sum (label_size S)). unfold map_sum. f_equal. apply zsum_perm. rewrite sorted_items_perm. reflexivity. Qed.
Lemma map_sum_None {A} (f : str * A -> Z) m k v : m !! k = None -> map_sum f (<[k := v]> m) = f (k, v) + map_sum f m.
Proof. intros H. unfold map_sum. rewrite (zsum_perm _ (f <$> ((k, v) :: map_to_list m))); [reflexivity|]. rewrite map_to_list_insert by exact H. reflexivity. Qed.
Lemma map_sum_Some {A} (f : str * A -> Z) m k v0 v : m !! k = Some v0 -> map_sum f (<[k := v]> m) = map_sum f m - f (k, v0) + f (k, v).
Proof.
  intros H. rewrite <- (insert_delete m k v0 H) at 2. rewrite <- insert_delete_insert. rewrite !map_sum_None by apply lookup_delete. lia.
Qed.

Lemma zsum_nonneg l : Forall (fun z => 0 <= z) l -> 0 <= zsum l.
Proof. unfold zsum. induction 1; cbn [foldr]; lia. Qed.
Definition real_sizes (S : class_sizes) : Prop := 0 <= S_RAM S /\ 0 <= S_Discriminator S /\ 0 <= S_Cluster S.
Lemma disc_size_pos S d : real_sizes S -> 0 <= disc_getsizeof S d.
Proof.
  intros (Hr & Hd & _). rewrite disc_size_sum. assert (0 <= zsum (ram_getsizeof S <$> d_rams d)); [|lia]. apply zsum_nonneg, Forall_fmap, Forall_forall.
  intros r _. unfold compose, ram_getsizeof. pose proof (len_nonneg (r_addresses r)). lia.
Qed.
Lemma wd_sum S w m : wisard_getsizeof S (with_discriminators w m) = S_Wisard S + 4 * len (w_indexes w) + map_sum (label_size S) m.
Proof. rewrite wisard_size_sum. reflexivity. Qed.
Lemma at_label_size S f w l : (forall d, disc_getsizeof S d <= disc_getsizeof S (snd (f d))) -> wisard_getsizeof S w <= wisard_getsizeof S (snd (at_label f w l)).
Proof.
  intros Hf. unfold at_label. destruct (w_discriminators w !! l) as [d|] eqn:E; [|cbn; lia]. specialize (Hf d). destruct (f d) as [o d']. cbn [snd] in *.
  rewrite wd_sum, wisard_size_sum, (map_sum_Some _ _ l d d' E). unfold label_size. cbn [fst snd]. lia.
Qed.
Lemma at_label_keeps S f w l : (forall d, disc_getsizeof S (snd (f d)) = disc_getsizeof S d) -> wisard_getsizeof S (snd (at_label f w l)) = wisard_getsizeof S w.
Proof.
  intros Hf. unfold at_label. destruct (w_discriminators w !! l) as [d|] eqn:E; [|reflexivity]. specialize (Hf d). destruct (f d) as [o d']. cbn [snd] in *.
  rewrite wd_sum, wisard_size_sum, (map_sum_Some _ _ l d d' E). unfold label_size. cbn [fst snd]. lia.
Qed.
Lemma make_size S lhs dr w l n : real_sizes S -> w_discriminators w !! l = None -> wisard_getsizeof S w <= wisard_getsizeof S (snd (makeDiscriminator lhs dr w l n)).
Proof.
  intros HS E. unfold makeDiscriminator. destruct (construct_discriminator dr w l n) as [d|e| |]; cbn [snd]; try lia.
  - rewrite wd_sum, wisard_size_sum, (map_sum_None _ _ l d E). unfold label_size at 2. cbn [fst snd]. pose proof (disc_size_pos S d HS). pose proof (len_nonneg l). lia.
  - destruct lhs; [|lia]. rewrite wd_sum, wisard_size_sum, (map_sum_None _ _ l _ E). unfold label_size at 2. cbn [fst snd]. pose proof (disc_size_pos S disc_default HS). pose proof (len_nonneg l). lia.
Qed.
Lemma ebind_size {St A B} (sz : St -> Z) (m : eff St A) (k : A -> St -> eff St B) z :
  z <= sz (snd m) -> (forall a s, sz s <= sz (snd (k a s))) -> z <= sz (snd (ebind m k)).
Proof. intros H Hk. destruct m as [[a| | |] s]; cbn [ebind snd] in *; try exact H. specialize (Hk a s). lia. Qed.
Lemma train1_size S lhs env w x l : real_sizes S -> wisard_getsizeof S w <= wisard_getsizeof S (snd (wisard_train1 lhs env w x l)).
Proof.
  intros HS. unfold wisard_train1. destruct (w_discriminators w !! l) eqn:E.
  - apply at_label_size. intros d'. apply disc_train_grows.
  - apply ebind_size; [apply make_size; assumption|]. intros _ s. apply at_label_size. intros d'. apply disc_train_grows.
Qed.
Lemma train_loop_size S lhs env : real_sizes S -> forall images labels w, wisard_getsizeof S w <= wisard_getsizeof S (snd (wisard_train_loop lhs env w images labels)).
Proof.
  intros HS. induction images as [|im images IH]; intros [|l labels] w; cbn [wisard_train_loop snd]; try lia.
  apply ebind_size; [apply train1_size, HS|]. intros _ s. apply IH.
Qed.

Lemma leave1_keeps S w x l : wisard_getsizeof S (snd (leaveOneOut w x l)) = wisard_getsizeof S w.
Proof. unfold leaveOneOut. destruct (w_discriminators w !! l); [|reflexivity]. apply at_label_keeps. intros d'. apply disc_untrain_keeps. Qed.
Lemma leave_loop_keeps S : forall images labels w, wisard_getsizeof S (snd (leaveMoreOut_loop w images labels)) = wisard_getsizeof S w.
Proof.
  induction images as [|im images IH]; intros [|l labels] w; cbn [leaveMoreOut_loop snd]; try reflexivity.
  pose proof (leave1_keeps S w im l) as H. destruct (leaveOneOut w im l) as [[?| | |] w']; cbn [ebind snd] in *; [rewrite IH|..]; exact H.
Qed.
Lemma leave_keeps S w c : (match c with CTrain _ _ _ => False | _ => True end) -> forall lhs, wisard_getsizeof S (snd (wcall_run lhs w c)) = wisard_getsizeof S w.
Proof.
  intros Hc lhs. destruct c as [|im l|images labels]; [contradiction|..]; cbn [wcall_run]; [apply leave1_keeps|].
  unfold leaveMoreOut. destruct (checkInputSizes _ _); [apply leave_loop_keeps|reflexivity..].
Qed.
Lemma call_size S lhs w c : real_sizes S -> wisard_getsizeof S w <= wisard_getsizeof S (snd (wcall_run lhs w c)).
Proof.
  intros HS. destruct c as [env images labels|im l|images labels]; [|rewrite leave_keeps by exact I; lia..].
  cbn [wcall_run]. unfold wisard_train. destruct images as [|im0 images]; [cbn; lia|].
  destruct (calculateNumberOfRams _ _ _); cbn [snd]; try lia. destruct (checkConfidence _ _); cbn [snd]; try lia. destruct (checkInputSizes _ _); cbn [snd]; try lia.
  apply train_loop_size, HS.
Qed.
Lemma wrun_size S lhs cs : real_sizes S -> forall w, wisard_getsizeof S w <= wisard_getsizeof S (snd (wrun lhs w cs)).
Proof.
  intros HS. unfold wrun. induction cs as [|c cs IH]; intros w; cbn [efor]; [cbn; lia|].
  apply ebind_size; [apply call_size, HS|]. intros _ s. apply IH.
Qed.
Lemma run_size S h : forall d, disc_getsizeof S d <= disc_getsizeof S (snd (run d h)).
Proof.
  unfold run. induction h as [|o h IH]; intros d; cbn [efor]; [cbn; lia|].
  apply ebind_size; [|intros _ s; apply IH]. destruct o; cbn [dstep]; [apply disc_train_grows|rewrite disc_untrain_keeps; lia].
Qed.
(** Exact size of a Wisard. *)
Lemma map_sum_ext {A B} (f : str * A -> Z) (g : str * B -> Z) (m1 : gmap str A) : forall (m2 : gmap str B),
  (forall k, match m1 !! k, m2 !! k with Some a, Some b => f (k, a) = g (k, b) | None, None => True | _, _ => False end) -> map_sum f m1 = map_sum g m2.
Proof.
  induction m1 as [|k a m1 Hk IH] using map_ind; intros m2 H.
  - assert (m2 = ∅) as ->; [|reflexivity]. apply map_empty. intros k. specialize (H k). rewrite lookup_empty in H. destruct (m2 !! k); tauto.
  - pose proof (H k) as Ek. rewrite lookup_insert in Ek. destruct (m2 !! k) as [b|] eqn:Eb; [|contradiction].
    rewrite (map_sum_None f m1 k a Hk). rewrite <- (insert_delete m2 k b Eb), (map_sum_None g _ k b) by apply lookup_delete.
    rewrite Ek. f_equal. apply IH. intros q. specialize (H q). destruct (decide (q = k)) as [->|Hq].
    + rewrite Hk, lookup_delete. exact I.
    + rewrite lookup_insert_ne in H by congruence. rewrite lookup_delete_ne by congruence. exact H.
Qed.
Lemma winv_size S w0 n d0 es w : 0 <= n <= INT_MAX -> winv w0 n d0 es w -> Forall (fun e => plain_image (w_base w0) n (op_image e.2)) es ->
  wisard_getsizeof S w = S_Wisard S + 4 * len (w_indexes w0) + zsum ((fun kd => len kd.1 + (disc_getsizeof S kd.2 + 12 * learned_patterns kd.2 (history kd.1 es))) <$> sorted_items d0).
Proof.
  intros Hn [Ew HI] HF. rewrite Ew, wd_sum. f_equal.
  rewrite (zsum_perm ((fun kd => len kd.1 + (disc_getsizeof S kd.2 + 12 * learned_patterns kd.2 (history kd.1 es))) <$> sorted_items d0)
    ((fun kd => len kd.1 + (disc_getsizeof S kd.2 + 12 * learned_patterns kd.2 (history kd.1 es))) <$> map_to_list d0)) by (rewrite sorted_items_perm; reflexivity).
  apply map_sum_ext. intros k. specialize (HI k). unfold label_inv in HI.
  destruct (d0 !! k) as [d|], (w_discriminators w !! k) as [d'|]; try contradiction; [|exact I].
  destruct HI as (_ & Hb & Hsh & Ha). unfold label_size. cbn [fst snd]. f_equal. apply after_size; [|apply Forall_forall|exact Ha].
  - apply Hsh.
  - intros o Ho. apply history_elem in Ho. rewrite Forall_forall in HF. apply (plain_valid (w_base w0) n _ d Hn Hsh (HF _ Ho)).
Qed.
Lemma wisard_size_law S lhs_first w0 n cs :
  w_discriminators w0 = ∅ -> configured w0 n -> Forall (proper_call w0 n) cs -> len (all_examples cs) <= INT_MAX ->
  exists w (d0 : gmap str disc), wrun lhs_first w0 cs = (Ok tt, w) /\
    (forall l, is_Some (d0 !! l) <-> SpecWisard.trained l (all_examples cs)) /\
    (forall l d, d0 !! l = Some d -> built w0 n l d) /\
    wisard_getsizeof S w = S_Wisard S + 4 * len (w_indexes w0) +
      zsum ((fun ld => len ld.1 + (disc_getsizeof S ld.2 + 12 * learned_patterns ld.2 (history ld.1 (all_examples cs)))) <$> sorted_items d0).
Proof.
  intros H0 Hc Hp Hl. destruct (wrun_inv lhs_first w0 n cs H0 Hc Hp Hl) as (w & d0 & E & HI). exists w, d0. split; [exact E|]. split; [|split].
  - intros l. rewrite <- history_trained. pose proof (proj2 HI l) as Hl'. unfold label_inv in Hl'. destruct (d0 !! l) as [d|], (w_discriminators w !! l) as [d'|]; try contradiction.
    + split; [intros _; apply Hl'|eauto].
    + split; [intros [? [=]]|congruence].
  - intros l d Hd. pose proof (proj2 HI l) as Hl'. unfold label_inv in Hl'. rewrite Hd in Hl'. destruct (w_discriminators w !! l); [apply Hl'|contradiction].
  - apply (winv_size S w0 n d0 _ w); [apply Hc|exact HI|]. apply Forall_concat, Forall_fmap, (Forall_impl _ _ _ Hp). intros c Hc'. exact (examples_images c w0 n Hc').
Qed.
