(** Guards, failing batches, ghosts, mental images and data sets (C49-C56). *)
From Verif Require Import Prelude Bytes Utils BinInput Bleaching Ram Disc DataSet Wisard SpecBin SpecDisc SpecBleach SpecWisard.
From Verif Require Import BytesProofs BinProofs UtilsProofs TextProofs BleachProofs DiscCtorProofs CtorFacts RamProofs DiscProofs DiscFacts MentalHistory WisardProofs WisardFacts.

(** C49 *)
Lemma s32_len_eq {A B} (l : list A) (k : list B) : len l <= INT_MAX -> len k <= INT_MAX -> (s32 (len l) =? s32 (len k)) = (len l =? len k).
Proof. intros H1 H2. pose proof (len_nonneg l). pose proof (len_nonneg k). rewrite !s32_id by (unfold INT_MIN; lia). reflexivity. Qed.

Lemma train_guards lhs env w x images labels :
  0 <= im_size x <= INT_MAX -> 1 <= w_addressSize w -> len (x :: images) <= INT_MAX -> len labels <= INT_MAX ->
  (ram_count (im_size x) (w_addressSize w) (w_completeAddressing w) < w_confidence w ->
     wisard_train lhs env w (x :: images) labels = (Throw confidence_exn, w)) /\
  (w_confidence w <= ram_count (im_size x) (w_addressSize w) (w_completeAddressing w) -> len (x :: images) <> len labels ->
     wisard_train lhs env w (x :: images) labels = (Throw sizes_exn, w)) /\
  (w_confidence w <= ram_count (im_size x) (w_addressSize w) (w_completeAddressing w) -> len (x :: images) = len labels ->
     wisard_train lhs env w (x :: images) labels = wisard_train_loop lhs env w (x :: images) labels).
Proof.
  intros Hx Ha Hl1 Hl2. unfold wisard_train. rewrite (s32_id (im_size x)) by (unfold INT_MIN; lia). rewrite ram_count_ok by lia.
  unfold checkConfidence. split; [|split].
  - intros Hc. replace (_ <? _) with true by lia. reflexivity.
  - intros Hc Hn. replace (_ <? _) with false by lia. unfold checkInputSizes. rewrite s32_len_eq by assumption.
    replace (_ =? _) with false by lia. reflexivity.
  - intros Hc Hn. replace (_ <? _) with false by lia. unfold checkInputSizes. rewrite s32_len_eq by assumption.
    replace (_ =? _) with true by lia. reflexivity.
Qed.
Lemma leave_guard w images labels : len images <= INT_MAX -> len labels <= INT_MAX -> len images <> len labels ->
  leaveMoreOut w images labels = (Throw sizes_exn, w).
Proof.
  intros H1 H2 Hn. unfold leaveMoreOut, checkInputSizes. rewrite s32_len_eq by assumption. replace (_ =? _) with false by lia. reflexivity.
Qed.

(** C50 *)
Lemma train_loop_app lhs env : forall xs1 ls1 w xs2 ls2, length xs1 = length ls1 ->
  wisard_train_loop lhs env w (xs1 ++ xs2) (ls1 ++ ls2) =
  ebind (wisard_train_loop lhs env w xs1 ls1) (fun _ w => wisard_train_loop lhs env w xs2 ls2).
Proof.
  induction xs1 as [|x xs1 IH]; intros [|l ls1] w xs2 ls2 H; try discriminate; [reflexivity|]. cbn [app wisard_train_loop].
  destruct (wisard_train1 lhs env w x l) as [[[]| | |] w1]; cbn [ebind]; try reflexivity. apply IH. cbn in H. lia.
Qed.
Lemma with_same w l d : w_discriminators w !! l = Some d -> with_discriminators w (<[l := d]> (w_discriminators w)) = w.
Proof. intros E. rewrite insert_id by exact E. destruct w. reflexivity. Qed.
Lemma train1_rejected lhs env w x l d : w_discriminators w !! l = Some d -> s32 (im_size x) <> d_entrySize d ->
  wisard_train1 lhs env w x l = (Throw entry_exn, w).
Proof.
  intros E Hn. unfold wisard_train1. rewrite E. unfold at_label. rewrite E.
  rewrite (proj1 (size_guard d x Hn)). f_equal. apply with_same, E.
Qed.
Lemma failing_batch lhs env w xs1 ls1 w1 x l d xs2 ls2 :
  xs1 <> [] -> length xs1 = length ls1 -> length xs2 = length ls2 -> 
  wisard_train lhs env w xs1 ls1 = (Ok tt, w1) ->
  w_discriminators w1 !! l = Some d -> s32 (im_size x) <> d_entrySize d ->
  wisard_train lhs env w (xs1 ++ x :: xs2) (ls1 ++ l :: ls2) = (Throw entry_exn, w1).
Proof.
  intros Hne Hl1 Hl2 E Ed Hn. destruct xs1 as [|x0 xs1]; [congruence|]. unfold wisard_train in *.
  change ((x0 :: xs1) ++ x :: xs2) with (x0 :: (xs1 ++ x :: xs2)). cbv iota beta in E |- *.
  destruct (calculateNumberOfRams _ _ _); try discriminate. destruct (checkConfidence _ _); try discriminate.
  destruct (checkInputSizes (len (x0 :: xs1)) (len ls1)) eqn:E2; try discriminate.
  unfold checkInputSizes. replace (len (x0 :: xs1 ++ x :: xs2)) with (len (ls1 ++ l :: ls2)).
  2:{ unfold len. cbn [length]. rewrite !app_length. cbn [length] in *. lia. }
  rewrite Z.eqb_refl. change (x0 :: xs1 ++ x :: xs2) with ((x0 :: xs1) ++ x :: xs2). rewrite train_loop_app by exact Hl1.
  rewrite E. cbn [ebind wisard_train_loop]. rewrite (train1_rejected lhs env w1 x l d Ed Hn). reflexivity.
Qed.
Lemma failing_first lhs env w x l d xs2 ls2 k : length xs2 = length ls2 ->
  calculateNumberOfRams (s32 (im_size x)) (w_addressSize w) (w_completeAddressing w) = Ok k -> w_confidence w <= k ->
  w_discriminators w !! l = Some d -> s32 (im_size x) <> d_entrySize d ->
  wisard_train lhs env w (x :: xs2) (l :: ls2) = (Throw entry_exn, w).
Proof.
  intros Hl Hk Hc E Hn. unfold wisard_train. rewrite Hk. unfold checkConfidence. replace (_ <? _) with false by lia.
  unfold checkInputSizes. replace (len (x :: xs2)) with (len (l :: ls2)) by (unfold len; cbn [length]; lia). rewrite Z.eqb_refl.
  cbn [wisard_train_loop]. rewrite (train1_rejected lhs env w x l d E Hn). reflexivity.
Qed.

(** C51: no out-of-bounds access on a non-empty batch of lists. *)
Definition all_wired (w : wisard) : Prop := forall l d, w_discriminators w !! l = Some d -> wired_inside d.
Definition no_oob {A} (r : res A) : Prop := r <> UB UBIndex.
Lemma rbind_no_oob {A B} (m : res A) (k : A -> res B) : no_oob m -> (forall a, m = Ok a -> no_oob (k a)) -> no_oob (rbind m k).
Proof. unfold no_oob. destruct m; cbn; intros H1 H2; [apply H2; reflexivity|discriminate|congruence|discriminate]. Qed.
Lemma rmapM_no_oob {A B} (f : A -> res B) l : (forall x, no_oob (f x)) -> no_oob (rmapM f l).
Proof.
  intros H. induction l as [|x l IH]; cbn [rmapM]; [discriminate|]. apply rbind_no_oob; [apply H|]. intros y _.
  apply rbind_no_oob; [exact IH|]. intros; discriminate.
Qed.
Lemma int_of_no_oob z : no_oob (int_of z). Proof. unfold int_of. destruct (in_int z); discriminate. Qed.
Lemma ipow_no_oob b n : no_oob (ipow b n).
Proof.
  unfold ipow. generalize 64%nat as fuel, 1 as acc. revert b n. intros b n fuel. revert b n.
  induction fuel as [|fuel IH]; intros b n acc; cbn [ipow_loop]; [discriminate|].
  apply rbind_no_oob; [destruct (Z.odd n); [unfold ll_of; destruct (in_ll _)|]; discriminate|]. intros r _. cbv zeta.
  destruct (_ =? 0); [discriminate|]. apply rbind_no_oob; [unfold ll_of; destruct (in_ll _); discriminate|]. intros; apply IH.
Qed.
Lemma ram_new_no_oob addrs iz base : no_oob (ram_new addrs iz base).
Proof.
  unfold ram_new. apply rbind_no_oob; [|intros; discriminate]. unfold checkLimitAddressSize. destruct (_ =? _); [destruct (_ <? _); discriminate|].
  apply rbind_no_oob; [apply ipow_no_oob|]. intros p _. destruct (_ <? _); discriminate.
Qed.
Lemma randint_no_oob lo hi r : no_oob (randint lo hi r).
Proof. unfold randint. repeat (apply rbind_no_oob; [apply int_of_no_oob|intros ? _]). destruct (_ =? _); [discriminate|]. apply int_of_no_oob || discriminate. Qed.
Lemma construct_no_oob dr w l n : no_oob (construct_discriminator dr w l n).
Proof.
  unfold construct_discriminator. destruct (w_mapping w !! l).
  - unfold setRAMByMapping. apply rbind_no_oob; [unfold checkBase; destruct (_ <? _); discriminate|]. intros _ _.
    apply rbind_no_oob; [|intros; discriminate]. apply rmapM_no_oob. intros. apply ram_new_no_oob.
  - destruct (negb _).
    + unfold setRAMByIndex. apply rbind_no_oob; [unfold checkAddressSize; repeat (destruct (_ <? _); try discriminate)|]. intros _ _.
      apply rbind_no_oob; [unfold checkBase; destruct (_ <? _); discriminate|]. intros _ _.
      apply rbind_no_oob.
      { unfold checkListOfIndexes. destruct (negb _); [discriminate|]. generalize (@nil Z). induction (w_indexes w) as [|i is IH]; intros seen; cbn; [discriminate|].
        destruct (_ <=? _); [discriminate|]. destruct (decide _); [discriminate|apply IH]. }
      intros _ _. apply rbind_no_oob; [|intros; discriminate]. apply rmapM_no_oob. intros. apply ram_new_no_oob.
    + unfold setRAMShuffle. apply rbind_no_oob; [unfold checkAddressSize; repeat (destruct (_ <? _); try discriminate)|]. intros _ _.
      apply rbind_no_oob; [unfold checkBase; destruct (_ <? _); discriminate|]. intros _ _. cbv zeta.
      apply rbind_no_oob; [apply int_of_no_oob|]. intros _ _.
      apply rbind_no_oob; [apply rmapM_no_oob; intros; apply randint_no_oob|]. intros fl _.
      apply rbind_no_oob; [|intros; discriminate]. apply rmapM_no_oob. intros. apply ram_new_no_oob.
Qed.

(** Where the wiring configured for label l stays inside an image of n pixels. *)
Definition inside (w : wisard) (n : Z) (l : str) : Prop :=
  match w_mapping w !! l with
  | Some m => Forall (fun addrs => len addrs <= INT_MAX /\ Forall (fun p => 0 <= p < n) addrs) m
  | None => len (w_indexes w) <= INT_MAX /\ Forall (fun p => 0 <= p) (w_indexes w)
  end.
Lemma rams_of_inside idx a k iz base n : Forall (fun p => 0 <= p < n) idx ->
  Forall (fun r => Forall (fun p => 0 <= p < n) (r_addresses r)) (rams_of idx a k iz base).
Proof.
  intros H. apply Forall_forall. intros r Hr. apply elem_rams_of in Hr as (i & _ & ->). cbn. apply Forall_forall. intros p Hp.
  rewrite Forall_forall in H. apply H. eapply sub_indexes_elem, Hp.
Qed.
Lemma construct_inside dr w l n d : valid_draw dr -> inside w n l -> construct_discriminator dr w l n = Ok d -> wired_inside d.
Proof.
  intros Hdr Hin E. unfold inside in Hin. unfold construct_discriminator in E. unfold wired_inside. destruct (w_mapping w !! l) as [m|].
  - apply setRAMByMapping_inv in E as (_ & _ & ->); [|eapply Forall_impl; [exact Hin|]; cbn; tauto].
    cbn [d_rams d_entrySize]. unfold rams_map. apply Forall_fmap. eapply Forall_impl; [exact Hin|]. cbn. tauto.
  - destruct Hin as [Hl Hp].
    assert (E' : disc_new dr (w_addressSize w) n (w_ignoreZero w) (w_completeAddressing w) (w_indexes w) [] (w_base w) = Ok d) by exact E.
    apply disc_new_inv in E' as (_ & [(H & _)|(_ & Ha & _ & [(_ & Hg & ->)|(_ & _ & idx & fs & Hidx & _ & Hfs & ->)])]); auto; [congruence| |];
      cbn [d_rams d_entrySize]; apply rams_of_inside.
    + destruct Hg as (_ & Hlt & _). apply Forall_and. auto.
    + rewrite Hidx. apply Forall_app. split; [|exact Hfs]. apply Forall_fmap, Forall_forall. intros z Hz. apply elem_of_seq in Hz. unfold compose. lia.
Qed.
Lemma rams_update_addresses f rs : (forall r, r_addresses (snd (f r)) = r_addresses r) ->
  r_addresses <$> snd (rams_update f rs) = r_addresses <$> rs.
Proof.
  intros H. induction rs as [|r rs IH]; [reflexivity|]. cbn [rams_update]. specialize (H r). destruct (f r) as [[[]| | |] r']; cbn [snd] in *;
    try (rewrite !fmap_cons, H; reflexivity). destruct (rams_update f rs) as [o rs']. cbn [snd] in *. rewrite !fmap_cons, H, IH. reflexivity.
Qed.
Lemma ram_train_addresses r x : r_addresses (snd (ram_train r x)) = r_addresses r.
Proof. unfold ram_train. destruct (getIndex r x); try reflexivity. destruct (_ !! _); [destruct (int_of _)|]; reflexivity. Qed.
Lemma train_wiring d x : d_entrySize (snd (disc_train d x)) = d_entrySize d /\ disc_mapping (snd (disc_train d x)) = disc_mapping d.
Proof.
  unfold disc_train. destruct (checkEntrySize _ _); try (split; reflexivity). destruct (int_of _); try (split; reflexivity).
  pose proof (rams_update_addresses (fun r => ram_train r x) (d_rams d) (fun r => ram_train_addresses r x)) as H.
  destruct (rams_update _ _) as [o rs]. cbn [snd] in *. split; [reflexivity|exact H].
Qed.
Lemma wired_mapping d : wired_inside d <-> Forall (Forall (fun p => 0 <= p < d_entrySize d)) (disc_mapping d).
Proof. unfold wired_inside, disc_mapping. rewrite Forall_fmap. reflexivity. Qed.
Lemma train_wired d x : wired_inside d -> wired_inside (snd (disc_train d x)).
Proof. rewrite !wired_mapping. destruct (train_wiring d x) as [-> ->]. auto. Qed.

Lemma getIndex_no_oob r x : Forall (fun a => no_oob (im_get x a)) (r_addresses r) -> no_oob (getIndex r x).
Proof.
  unfold getIndex. generalize 1 as p, 0 as i. intros p i. revert p i. induction (r_addresses r) as [|a l IH]; intros p i H; cbn [getIndex_loop]; [discriminate|].
  apply Forall_cons in H as [Ha H]. apply rbind_no_oob; [exact Ha|]. intros v _.
  apply rbind_no_oob; [unfold checkPos; destruct (_ <=? _); discriminate|]. intros _ _. apply IH, H.
Qed.
Lemma ram_train_no_oob r x : Forall (fun a => no_oob (im_get x a)) (r_addresses r) -> no_oob (fst (ram_train r x)).
Proof.
  intros H. apply getIndex_no_oob in H. unfold ram_train. destruct (getIndex r x) as [i| |u|] eqn:E; try discriminate.
  - destruct (_ !! _); [destruct (int_of _)|]; discriminate.
  - cbn. unfold no_oob in *. congruence.
Qed.
Lemma disc_train_no_oob d v : wired_inside d -> len v <= INT_MAX -> no_oob (fst (disc_train d (vec_image v))).
Proof.
  intros Hw Hl. unfold disc_train, checkEntrySize. cbn [im_size vec_image]. rewrite s32_id by (pose proof (len_nonneg v); unfold INT_MIN; lia).
  destruct (Z.eqb_spec (d_entrySize d) (len v)) as [He|]; [|discriminate]. destruct (int_of _); try discriminate.
  assert (no_oob (fst (rams_update (fun r => ram_train r (vec_image v)) (d_rams d)))) as H.
  { unfold wired_inside in Hw. induction (d_rams d) as [|r rs IH]; cbn [rams_update]; [discriminate|]. apply Forall_cons in Hw as [Hr Hw].
    assert (Hn : no_oob (fst (ram_train r (vec_image v)))).
    { apply ram_train_no_oob. eapply Forall_impl; [exact Hr|]. intros q Hq. cbv beta in Hq. cbn [im_get vec_image]. unfold vget. replace (0 <=? q) with true by lia.
      destruct (lookup_lt_is_Some_2 v (Z.to_nat q)) as [z ->]; [unfold len in *; lia|discriminate]. }
    destruct (ram_train r (vec_image v)) as [[[]| | |] r']; try exact Hn. specialize (IH Hw). destruct (rams_update _ rs) as [o rs']. exact IH. }
  destruct (rams_update _ _) as [o rs]. exact H.
Qed.

Lemma at_label_wired f w l : (forall d, wired_inside d -> wired_inside (snd (f d))) -> all_wired w -> all_wired (snd (at_label f w l)).
Proof.
  intros Hf Hw. unfold at_label. destruct (w_discriminators w !! l) as [d|] eqn:E; [|exact Hw]. specialize (Hf d (Hw _ _ E)).
  destruct (f d) as [o d']. intros k dk. cbn. destruct (decide (l = k)) as [<-|Hn].
  - rewrite lookup_insert. intros [= <-]. exact Hf.
  - rewrite lookup_insert_ne by exact Hn. apply Hw.
Qed.
Lemma train1_wired lhs env w x l : valid_draw (env l) -> inside w (s32 (im_size x)) l -> all_wired w ->
  all_wired (snd (wisard_train1 lhs env w x l)).
Proof.
  intros Hdr Hin Hw. unfold wisard_train1. destruct (w_discriminators w !! l) as [d|] eqn:E; [apply at_label_wired; [intros; apply train_wired; assumption|exact Hw]|].
  unfold makeDiscriminator. destruct (construct_discriminator _ _ _ _) as [d| | |] eqn:Ec; cbn [ebind].
  - apply at_label_wired; [intros; apply train_wired; assumption|]. intros k dk. cbn. destruct (decide (l = k)) as [<-|Hn].
    + rewrite lookup_insert. intros [= <-]. eapply construct_inside; eassumption.
    + rewrite lookup_insert_ne by exact Hn. apply Hw.
  - destruct lhs; [|exact Hw]. intros k dk. cbn. destruct (decide (l = k)) as [<-|Hn].
    + rewrite lookup_insert. intros [= <-]. apply Forall_nil. exact I.
    + rewrite lookup_insert_ne by exact Hn. apply Hw.
  - exact Hw.
  - exact Hw.
Qed.
Lemma at_label_no_oob f w l : is_Some (w_discriminators w !! l) -> (forall d, w_discriminators w !! l = Some d -> no_oob (fst (f d))) -> no_oob (fst (at_label f w l)).
Proof. intros [d E] H. unfold at_label. rewrite E. specialize (H d E). destruct (f d) as [o d']. exact H. Qed.
Lemma train1_no_oob lhs env w v l : valid_draw (env l) -> inside w (len v) l -> all_wired w -> len v <= INT_MAX ->
  no_oob (fst (wisard_train1 lhs env w (vec_image v) l)).
Proof.
  intros Hdr Hin Hw Hl. unfold wisard_train1. destruct (w_discriminators w !! l) as [d|] eqn:E.
  - apply at_label_no_oob; [eauto|]. intros d' E'. apply disc_train_no_oob; [eapply Hw; eassumption|exact Hl].
  - unfold makeDiscriminator. cbn [im_size vec_image]. rewrite s32_id by (pose proof (len_nonneg v); unfold INT_MIN; lia).
    pose proof (construct_no_oob (env l) w l (len v)) as Hc. destruct (construct_discriminator _ _ _ _) as [d| |u|] eqn:Ec; cbn [ebind]; try discriminate; [|intros [= ->]; apply Hc; reflexivity].
    apply at_label_no_oob; [eexists; apply lookup_insert|]. cbn. intros d' E'. rewrite lookup_insert in E'. injection E' as <-.
    apply disc_train_no_oob; [eapply construct_inside; eassumption|exact Hl].
Qed.
Lemma with_options w f l : inside (snd (at_label f w l)) = inside w.
Proof. unfold at_label. destruct (w_discriminators w !! l); [destruct (f d)|]; reflexivity. Qed.
Lemma train1_options lhs env w x l : inside (snd (wisard_train1 lhs env w x l)) = inside w.
Proof.
  unfold wisard_train1. destruct (w_discriminators w !! l); [apply with_options|].
  apply (ebind_snd _ _ (fun s => inside s = inside w)).
  - unfold makeDiscriminator. destruct (construct_discriminator _ _ _ _); try reflexivity. destruct lhs; reflexivity.
  - intros a s E. rewrite with_options. unfold makeDiscriminator in E. destruct (construct_discriminator _ _ _ _); try discriminate.
    injection E as <- <-. reflexivity.
Qed.
Lemma train_loop_no_oob lhs env : forall vs ls w, (forall l, valid_draw (env l)) -> length vs = length ls ->
  Forall (fun v => len v <= INT_MAX) vs -> (forall v l, (v, l) ∈ zip vs ls -> inside w (len v) l) -> all_wired w ->
  no_oob (fst (wisard_train_loop lhs env w (vec_image <$> vs) ls)).
Proof.
  induction vs as [|v vs IH]; intros [|l ls] w Hdr Hlen Hl Hin Hw; try discriminate.
  rewrite fmap_cons. cbn [wisard_train_loop]. apply Forall_cons in Hl as [Hv Hl].
  assert (Hiv : inside w (len v) l) by (apply Hin; left).
  pose proof (train1_no_oob lhs env w v l (Hdr l) Hiv Hw Hv) as H1.
  assert (H2 : all_wired (snd (wisard_train1 lhs env w (vec_image v) l))).
  { apply train1_wired; auto. cbn. rewrite s32_id by (pose proof (len_nonneg v); unfold INT_MIN; lia). exact Hiv. }
  pose proof (train1_options lhs env w (vec_image v) l) as H3.
  destruct (wisard_train1 lhs env w (vec_image v) l) as [[[]| | |] w1]; cbn [ebind fst snd] in *; try exact H1.
  apply IH; auto. intros v' l' Hvl. rewrite H3. apply Hin. right. exact Hvl.
Qed.
Lemma train_no_oob lhs env w vs ls : (forall l, valid_draw (env l)) -> vs <> [] -> len vs <= INT_MAX -> len ls <= INT_MAX ->
  Forall (fun v => len v <= INT_MAX) vs -> (forall v l, v ∈ vs -> l ∈ ls -> inside w (len v) l) -> all_wired w ->
  no_oob (fst (wisard_train lhs env w (vec_image <$> vs) ls)).
Proof.
  intros Hdr Hne H1 H2 Hl Hin Hw. unfold wisard_train. destruct vs as [|v vs]; [congruence|]. rewrite fmap_cons.
  destruct (calculateNumberOfRams _ _ _); try discriminate. destruct (checkConfidence _ _); try discriminate.
  unfold checkInputSizes. rewrite <- fmap_cons.
  assert (Hlf : len (vec_image <$> v :: vs) = len (v :: vs)) by (unfold len; rewrite fmap_length; reflexivity).
  rewrite Hlf, s32_len_eq by assumption. destruct (Z.eqb_spec (len (v :: vs)) (len ls)) as [He|]; [|discriminate].
  apply train_loop_no_oob; auto; [apply len_length, He|]. intros v' l' Hvl. apply Hin; [eapply elem_of_zip_l, Hvl|eapply elem_of_zip_r, Hvl].
Qed.
