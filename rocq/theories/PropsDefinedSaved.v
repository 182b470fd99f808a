(** Property theorems C176: saving a model after calls that failed. *)
From Verif Require Import Prelude Bytes Bleaching Utils BinInput Json Fs RamData Ram Disc DataSet Wisard.
From Verif Require Import SpecBin SpecDisc SpecBleach SpecWisard SpecValues SpecSaved SpecUtf8 Utf8Proofs BytesProofs BinProofs UtilsProofs TextProofs BleachProofs DiscCtorProofs CtorFacts RamProofs DiscProofs DiscFacts MentalHistory RamDataProofs JsonProofs JsonFacts WisardProofs WisardFacts WisardSafety WisardJson WisardSaved SizesProofs.
From Verif Require Import PropsWisard PropsDefined.

(** ** What every discriminator of the model keeps, whatever fails *)
Definition kept_ram (iz : bool) (base : Z) (r : ram) : Prop :=
  r_ignoreZero r = iz /\ r_base r = base /\ 2 <= base /\ width_ok base (len (r_addresses r)) /\ forall a v, r_positions r !! a = Some v -> 0 <= a < W64.
Definition kept (w : wisard) (d : disc) : Prop := is_int (d_entrySize d) /\ Forall (kept_ram (w_ignoreZero w) (w_base w)) (d_rams d).
Definition all_kept (w0 w : wisard) : Prop := with_discriminators w ∅ = with_discriminators w0 ∅ /\ forall l d, w_discriminators w !! l = Some d -> kept w0 d.
Lemma all_kept_put w0 w l d : all_kept w0 w -> kept w0 d -> all_kept w0 (with_discriminators w (<[l := d]> (w_discriminators w))).
Proof. intros [Ho H] Hd. split; [exact Ho|]. intros k e. cbn. rewrite lookup_insert_Some. intros [[_ <-]|[_ He]]; [exact Hd|exact (H k e He)]. Qed.
Lemma index_loop_range im : forall addrs base ix p i, 0 <= ix < W64 -> getIndex_loop addrs base im ix p = Ok i -> 0 <= i < W64.
Proof.
  induction addrs as [|a addrs IH]; intros base ix p i Hi E; cbn [getIndex_loop] in E; [injection E as <-; exact Hi|].
  destruct (im_get im a) as [b| | |]; cbn [rbind] in E; try discriminate. destruct (checkPos b base); cbn [rbind] in E; try discriminate. eapply IH; [|exact E]. unfold u64. apply Z.mod_pos_bound. reflexivity.
Qed.
Lemma update_all (R : ram -> Prop) (f : ram -> eff ram unit) : (forall r, R r -> R (snd (f r))) -> forall rs, Forall R rs -> Forall R (snd (rams_update f rs)).
Proof.
  intros Hf. induction 1 as [|r rs Hr Hrs IH]; [constructor|]. cbn [rams_update]. pose proof (Hf r Hr) as K. destruct (f r) as [[u|e|u|] r']; cbn [snd] in *; try (apply Forall_cons; auto).
  destruct (rams_update f rs) as [o rs']. cbn [snd] in *. apply Forall_cons; auto.
Qed.
Lemma ram_put (iz : bool) base r ix v : 0 <= ix < W64 -> kept_ram iz base r -> kept_ram iz base (with_positions r (<[ix := v]> (r_positions r))).
Proof.
  intros Hx (H1 & H2 & H3 & H4 & H5). unfold kept_ram. cbn. repeat (split; [assumption|]). intros a u. rewrite lookup_insert_Some. intros [[<- _]|[_ E]]; [exact Hx|exact (H5 a u E)].
Qed.
Lemma op_kept w d x : kept w d -> kept w (snd (disc_train d x)) /\ kept w (snd (disc_untrain d x)).
Proof.
  intros [He Hr]. assert (HI : forall r i, getIndex r x = Ok i -> 0 <= i < W64) by (intros r i; unfold getIndex; apply index_loop_range; unfold W64; lia).
  unfold disc_train, disc_untrain. destruct (checkEntrySize _ _); try (split; (split; [exact He|exact Hr])). split.
  - destruct (int_of _); try (split; [exact He|exact Hr]). pose proof (update_all (kept_ram (w_ignoreZero w) (w_base w)) (fun r => ram_train r x)) as H. specialize (fun K => H K _ Hr).
    destruct (rams_update _ _) as [o rs]. cbn [snd] in *. split; [exact He|]. cbn [d_rams]. apply H. intros r Hk. unfold ram_train. destruct (getIndex r x) as [i| | |] eqn:Ei; try exact Hk.
    destruct (r_positions r !! i) as [v|]; [destruct (int_of (v + 1)); try exact Hk|]; apply ram_put; eauto.
  - destruct (int_of _); try (split; [exact He|exact Hr]). pose proof (update_all (kept_ram (w_ignoreZero w) (w_base w)) (fun r => ram_untrain r x)) as H. specialize (fun K => H K _ Hr).
    destruct (rams_update _ _) as [o rs]. cbn [snd] in *. split; [exact He|]. cbn [d_rams]. apply H. intros r Hk. unfold ram_untrain. destruct (getIndex r x) as [i| | |] eqn:Ei; try exact Hk.
    destruct (r_positions r !! i) as [v|]; [destruct (int_of (v - 1)); try exact Hk|exact Hk]. apply ram_put; eauto.
Qed.
Lemma ram_new_kept addrs iz base r : 2 <= base -> len addrs <= INT_MAX -> ram_new addrs iz base = Ok r -> kept_ram iz base r.
Proof.
  intros Hb Hl. rewrite ram_new_spec by assumption. unfold kept_ram, width_ok. destruct (base =? 2).
  - destruct (Z.leb_spec (len addrs) 64); [|discriminate]. intros [= <-]. cbn. do 4 (split; [auto|]). intros k v. rewrite lookup_empty. discriminate.
  - destruct (Z.leb_spec (base ^ len addrs) LL_MAX); [|discriminate]. intros [= <-]. cbn. do 4 (split; [auto|]). intros k v. rewrite lookup_empty. discriminate.
Qed.
Lemma new_kept dr w l n d : int_options w -> is_int n -> construct_discriminator dr w l n = Ok d -> kept w d.
Proof.
  intros (Ha & Hb & _ & _ & _ & Hm) Hn E.
  assert (Hck : forall b u, checkBase b = Ok u -> 2 <= b) by (intros b u; unfold checkBase; destruct (Z.ltb_spec b 2); [discriminate|intros _; lia]).
  assert (Hac : forall e a u, checkAddressSize e a = Ok u -> 2 <= a) by (intros e a u; unfold checkAddressSize; destruct (Z.ltb_spec a 2); [discriminate|intros _; lia]).
  assert (Hmk : forall idx k rs, 2 <= w_base w -> 2 <= w_addressSize w -> make_rams idx (w_addressSize w) k (w_ignoreZero w) (w_base w) = Ok rs -> kept w (Disc n 0 rs)).
  { intros idx k rs Hb2 Ha2 Er. split; [exact Hn|]. cbn [d_rams]. apply DiscCtorProofs.rmapM_ok in Er. clear -Er Hb2 Ha2 Ha. induction Er as [|i r is rs Hr _ IH]; [constructor|]. apply Forall_cons. split; [|exact IH].
    eapply ram_new_kept; [exact Hb2| |exact Hr]. pose proof (sub_len idx (w_addressSize w) i). unfold is_int in Ha. lia. }
  unfold construct_discriminator in E. destruct (w_mapping w !! l) as [m|] eqn:Em; [|destruct (negb _)].
  - unfold setRAMByMapping in E. destruct (checkBase _) eqn:Eb; cbn [rbind] in E; try discriminate. destruct (rmapM _ _) as [rs| | |] eqn:Er; cbn [rbind] in E; try discriminate. injection E as <-.
    split; [exact Hn|]. cbn [d_rams]. apply DiscCtorProofs.rmapM_ok in Er. specialize (Hm l m Em). apply Hck in Eb. clear -Er Hm Eb. induction Er as [|i r is rs Hr _ IH]; [constructor|]. apply Forall_cons in Hm as [Hi Hm]. apply Forall_cons. split; [|exact (IH Hm)].
    eapply ram_new_kept; eassumption.
  - unfold setRAMByIndex in E. destruct (checkAddressSize _ _) eqn:Ea; cbn [rbind] in E; try discriminate. destruct (checkBase _) eqn:Eb; cbn [rbind] in E; try discriminate.
    destruct (checkListOfIndexes _ _); cbn [rbind] in E; try discriminate. destruct (make_rams _ _ _ _ _) as [rs| | |] eqn:Er; cbn [rbind] in E; try discriminate. injection E as <-. eapply Hmk; eauto.
  - unfold setRAMShuffle in E. destruct (checkAddressSize _ _) eqn:Ea; cbn [rbind] in E; try discriminate. destruct (checkBase _) eqn:Eb; cbn [rbind] in E; try discriminate. cbv zeta in E.
    destruct (int_of _); cbn [rbind] in E; try discriminate. destruct (rmapM _ _); cbn [rbind] in E; try discriminate. destruct (make_rams _ _ _ _ _) as [rs| | |] eqn:Er; cbn [rbind] in E; try discriminate. injection E as <-. eapply Hmk; eauto.
Qed.
Lemma s32_int z : is_int (s32 z).
Proof. unfold s32, is_int, INT_MIN, INT_MAX. pose proof (Z.mod_pos_bound (z + 2147483648) W32 eq_refl). unfold W32 in *. lia. Qed.
Lemma at_label_kept w0 w (f : disc -> eff disc unit) l : all_kept w0 w -> (forall d, kept w0 d -> kept w0 (snd (f d))) -> all_kept w0 (snd (at_label f w l)).
Proof.
  intros H Hf. unfold at_label. destruct (w_discriminators w !! l) as [d|] eqn:E; [|exact H]. specialize (Hf d (proj2 H l d E)). destruct (f d) as [o d']. cbn [snd] in *. apply all_kept_put; assumption.
Qed.
Lemma make_kept w0 lhs dr w l n : int_options w0 -> is_int n -> all_kept w0 w -> all_kept w0 (snd (makeDiscriminator lhs dr w l n)).
Proof.
  intros Ho Hn H. unfold makeDiscriminator. destruct (construct_discriminator dr w l n) as [d| | |] eqn:E; cbn [snd]; try exact H.
  - apply all_kept_put; [exact H|]. destruct H as [He _]. assert (construct_discriminator dr w0 l n = Ok d) as E'.
    { rewrite <- E. pose proof (f_equal (fun w => construct_discriminator dr w l n) He) as K. symmetry. exact K. }
    eapply new_kept; eassumption.
  - destruct lhs; [|exact H]. apply all_kept_put; [exact H|]. split; [unfold is_int, INT_MIN, INT_MAX; cbn; lia|constructor].
Qed.
Lemma train1_kept w0 lhs env w x l : int_options w0 -> all_kept w0 w -> all_kept w0 (snd (wisard_train1 lhs env w x l)).
Proof.
  intros Ho H. unfold wisard_train1. destruct (w_discriminators w !! l); [apply at_label_kept; [exact H|intros dd Hd; apply op_kept, Hd]|].
  apply (ebind_snd _ _ (all_kept w0)); [apply make_kept; [exact Ho|apply s32_int|exact H]|]. intros [] s Es. apply at_label_kept; [|intros dd Hd; apply op_kept, Hd].
  pose proof (make_kept w0 lhs (env l) w l (s32 (im_size x)) Ho (s32_int _) H) as K. rewrite Es in K. exact K.
Qed.
Lemma loop_kept w0 lhs env : int_options w0 -> forall xs ls w, all_kept w0 w -> all_kept w0 (snd (wisard_train_loop lhs env w xs ls)).
Proof.
  intros Ho. induction xs as [|x xs IH]; intros ls w H; [destruct ls; exact H|]. destruct ls as [|l ls]; [exact H|]. cbn [wisard_train_loop].
  apply (ebind_snd _ _ (all_kept w0)); [apply train1_kept; auto|]. intros [] s Es. apply IH. pose proof (train1_kept w0 lhs env w x l Ho H) as K. rewrite Es in K. exact K.
Qed.
Lemma leave1_kept w0 w x l : all_kept w0 w -> all_kept w0 (snd (leaveOneOut w x l)).
Proof. intros H. unfold leaveOneOut. destruct (w_discriminators w !! l); [|exact H]. apply at_label_kept; [exact H|intros dd Hd; apply op_kept, Hd]. Qed.
Lemma leaves_kept w0 : forall xs ls w, all_kept w0 w -> all_kept w0 (snd (leaveMoreOut_loop w xs ls)).
Proof.
  induction xs as [|x xs IH]; intros ls w H; [destruct ls; exact H|]. destruct ls as [|l ls]; [exact H|]. cbn [leaveMoreOut_loop].
  apply (ebind_snd _ _ (all_kept w0)); [apply leave1_kept, H|]. intros [] s Es. apply IH. pose proof (leave1_kept w0 w x l H) as K. rewrite Es in K. exact K.
Qed.
Lemma outcomes_kept w0 lhs : int_options w0 -> forall cs w, all_kept w0 w -> all_kept w0 (snd (outcomes (wcall_run lhs) w cs)).
Proof.
  intros Ho. induction cs as [|c cs IH]; intros w H; [exact H|]. cbn [outcomes].
  assert (H1 : all_kept w0 (snd (wcall_run lhs w c))).
  { destruct c as [env xs ls|x l|xs ls]; cbn [wcall_run] in *.
    - unfold wisard_train. destruct xs; [exact H|]. destruct (calculateNumberOfRams _ _ _); try exact H. destruct (checkConfidence _ _); try exact H. destruct (checkInputSizes _ _); try exact H. apply loop_kept; assumption.
    - apply leave1_kept, H.
    - unfold leaveMoreOut. destruct (checkInputSizes _ _); try exact H. apply leaves_kept, H. }
  destruct (wcall_run lhs w c) as [o w1]. cbn [snd] in H1. specialize (IH w1 H1). destruct (outcomes (wcall_run lhs) w1 cs) as [os w2]. destruct o; cbn [snd] in *; first [exact IH|exact H1].
Qed.
Lemma total_handed cs : 0 <= zsum (handed <$> cs).
Proof. induction cs as [|c cs IH]; [reflexivity|]. rewrite fmap_cons. unfold zsum in *. cbn [foldr]. pose proof (handed_nonneg c). lia. Qed.
Lemma sound_storable iter w N d : valid_iter iter -> is_int (w_base w) -> 0 <= N <= INT_MAX -> kept w d -> sound N d -> d_rams d <> [] -> Forall (fun r => r_positions r <> ∅) (d_rams d) -> saved_size d <= INT_MAX + 1 ->
  storable iter d /\ Forall (storable_ram (w_ignoreZero w) (w_base w)) (d_rams d).
Proof.
  intros Hi Hb HN [He Hk] (Hw & Hc & Hs) Hne Hfull Hsz.
  assert (HR : Forall (storable_ram (w_ignoreZero w) (w_base w)) (d_rams d)).
  { unfold wired_inside in Hw. rewrite Forall_forall in Hk, Hs, Hfull, Hw |- *. intros r Hr. destruct (Hk r Hr) as (K1 & K2 & K3 & K4 & K5). unfold storable_ram. do 3 (split; [assumption|]). split; [exact Hb|]. split; [exact K4|]. split.
    - pose proof (Hw r Hr) as Ha. eapply Forall_impl; [exact Ha|]. intros a Ha'. cbn beta in Ha'. unfold is_int, INT_MIN, INT_MAX in *. lia.
    - split; [|exact (Hfull r Hr)]. intros a v E. split; [exact (K5 a v E)|]. pose proof (bounded_at N r a v (Hs r Hr) E). unfold is_int, INT_MIN, INT_MAX in *. lia. }
  split; [|exact HR]. split; [exact He|]. split; [unfold is_int, INT_MIN, INT_MAX in *; lia|]. split; [exact Hne|]. split; [exists (w_ignoreZero w), (w_base w); exact HR|].
  pose proof (texts_size iter d Hi Hne). lia.
Qed.
(** The model the calls left is saved in memory and read back. *)
Lemma after_calls lhs iter w0 cs : valid_iter iter -> w_discriminators w0 = ∅ -> w_addressSize w0 <> 0 -> SpecSaved.int_options w0 -> Forall (safe_call w0) cs -> zsum (handed <$> cs) < INT_MAX - 1 ->
  let w := snd (outcomes (wcall_run lhs) w0 cs) in
  (forall l d, w_discriminators w !! l = Some d -> is_utf8 l /\ d_rams d <> [] /\ Forall (fun r => r_positions r <> ∅) (d_rams d) /\ saved_size d <= INT_MAX + 1) ->
  same_setup w0 w /\ all_sound (zsum (handed <$> cs)) w /\ SpecSaved.int_options w /\ savable iter w /\ (forall l, is_Some (w_discriminators w !! l) -> utf8_ok l = true).
Proof.
  intros Hi H0 Ha Ho Hc HM w Hall. pose proof (total_handed cs) as Hz.
  pose proof (outcomes_fine lhs w0 cs 0 w0 Ha (same_refl w0) ltac:(lia) ltac:(lia)) as H. specialize (H ltac:(intros l d; rewrite H0, lookup_empty; discriminate) Hc).
  pose proof (outcomes_kept w0 lhs Ho cs w0) as K. specialize (K ltac:(split; [reflexivity|intros l d; rewrite H0, lookup_empty; discriminate])).
  subst w. destruct (outcomes (wcall_run lhs) w0 cs) as [os w]. cbn [snd] in *. destruct H as (_ & _ & Hs & Hsm). destruct K as [_ Hk].
  assert (Hsame : w_ignoreZero w = w_ignoreZero w0 /\ w_base w = w_base w0) by (rewrite Hsm; split; reflexivity).
  assert (Hkw : forall l d, w_discriminators w !! l = Some d -> kept w d) by (intros l d E; unfold kept; destruct Hsame as [-> ->]; exact (Hk l d E)).
  split; [exact Hsm|]. split; [exact Hs|]. split; [rewrite Hsm; exact Ho|]. split.
  - intros l d E. destruct (Hall l d E) as (_ & H2 & H3 & H4). destruct (Hs l d E) as (S1 & S2 & S3). eapply sound_storable; [exact Hi| | |exact (Hkw l d E)| |exact H2|exact H3|exact H4].
    + destruct Hsame as [_ ->]. exact (proj1 (proj2 Ho)).
    + instantiate (1 := 0 + zsum (handed <$> cs)). lia.
    + split; [exact S1|]. split; assumption.
  - intros l [d E]. apply utf8_ok_iff. exact (proj1 (Hall l d E)).
Qed.

(** ** A training call that is answered fills its labels *)
Definition filled (d : disc) : Prop := d_rams d <> [] /\ Forall (fun r => r_positions r <> ∅) (d_rams d).
Definition rooted (d : disc) : Prop := d_rams d = [] -> d_entrySize d = 0.
Definition inv (F : str -> Prop) (w : wisard) : Prop :=
  (forall l d, w_discriminators w !! l = Some d -> rooted d) /\ (forall l, F l -> exists d, w_discriminators w !! l = Some d /\ filled d).
Lemma update_nil (f : ram -> eff ram unit) rs : snd (rams_update f rs) = [] <-> rs = [].
Proof. destruct rs as [|r rs]; [split; reflexivity|]. cbn [rams_update]. destruct (f r) as [[u|e|u|] r']; [destruct (rams_update f rs)|..]; cbn [snd]; split; discriminate. Qed.
Lemma update_ok (R : ram -> Prop) (f : ram -> eff ram unit) : (forall r, fst (f r) = Ok tt -> R (snd (f r))) -> forall rs, fst (rams_update f rs) = Ok tt -> Forall R (snd (rams_update f rs)).
Proof.
  intros Hf. induction rs as [|r rs IH]; [constructor|]. cbn [rams_update]. pose proof (Hf r) as K. destruct (f r) as [[[]|e|u|] r']; cbn [fst snd] in *; try discriminate.
  destruct (rams_update f rs) as [o rs']. cbn [fst snd] in *. intros E. apply Forall_cons; auto.
Qed.
Lemma put_nonempty (m : gmap Z Z) k v : <[k := v]> m <> ∅.
Proof. intros E. apply (f_equal (fun m => m !! k)) in E. rewrite lookup_insert, lookup_empty in E. discriminate. Qed.
Lemma op_filled d x : (rooted d -> rooted (snd (disc_train d x)) /\ rooted (snd (disc_untrain d x))) /\ (filled d -> filled (snd (disc_train d x)) /\ filled (snd (disc_untrain d x))).
Proof.
  unfold rooted, filled, disc_train, disc_untrain. destruct (checkEntrySize _ _); [|auto..].
  pose proof (update_nil (fun r => ram_train r x) (d_rams d)) as N1. pose proof (update_nil (fun r => ram_untrain r x) (d_rams d)) as N2.
  pose proof (update_all (fun r => r_positions r <> ∅) (fun r => ram_train r x)) as A1. pose proof (update_all (fun r => r_positions r <> ∅) (fun r => ram_untrain r x)) as A2.
  specialize (fun K => A1 K (d_rams d)). specialize (fun K => A2 K (d_rams d)).
  assert (K1 : forall r, r_positions r <> ∅ -> r_positions (snd (ram_train r x)) <> ∅).
  { intros r Hr. unfold ram_train. destruct (getIndex r x) as [i| | |]; try exact Hr. destruct (r_positions r !! i) as [v|]; [destruct (int_of (v + 1)); try exact Hr|]; apply put_nonempty. }
  assert (K2 : forall r, r_positions r <> ∅ -> r_positions (snd (ram_untrain r x)) <> ∅).
  { intros r Hr. unfold ram_untrain. destruct (getIndex r x) as [i| | |]; try exact Hr. destruct (r_positions r !! i) as [v|]; [destruct (int_of (v - 1)); try exact Hr|exact Hr]; apply put_nonempty. }
  specialize (A1 K1). specialize (A2 K2).
  destruct (int_of (d_count d + 1)), (int_of (d_count d - 1)); destruct (rams_update (fun r => ram_train r x) _) as [o1 rs1], (rams_update (fun r => ram_untrain r x) _) as [o2 rs2]; cbn [snd fst d_rams d_entrySize] in *; rewrite ?N1, ?N2; tauto.
Qed.
Lemma train_fills d x : s32 (im_size x) <> 0 -> rooted d -> fst (disc_train d x) = Ok tt -> filled (snd (disc_train d x)).
Proof.
  unfold rooted, filled, disc_train, checkEntrySize. intros Hx Hr. destruct (Z.eqb_spec (d_entrySize d) (s32 (im_size x))) as [E|]; [|discriminate].
  pose proof (update_nil (fun r => ram_train r x) (d_rams d)) as N1. pose proof (update_ok (fun r => r_positions r <> ∅) (fun r => ram_train r x)) as A1. specialize (fun K => A1 K (d_rams d)).
  assert (K1 : forall r, fst (ram_train r x) = Ok tt -> r_positions (snd (ram_train r x)) <> ∅).
  { intros r. unfold ram_train. destruct (getIndex r x) as [i| | |]; try discriminate. destruct (r_positions r !! i) as [v|]; [destruct (int_of (v + 1)); try discriminate|]; intros _; apply put_nonempty. }
  specialize (A1 K1). destruct (int_of (d_count d + 1)); try discriminate. destruct (rams_update _ _) as [o rs]. cbn [fst snd d_rams] in *. intros Ho. split; [|exact (A1 Ho)]. rewrite N1. intros En. apply Hx. rewrite <- E. exact (Hr En).
Qed.
Lemma make_some idx a n iz base rs : 1 <= n -> make_rams idx a n iz base = Ok rs -> rs <> [].
Proof. intros Hn E. apply DiscCtorProofs.rmapM_ok in E. apply Forall2_length in E. rewrite seq_length in E. intros ->. cbn in E. lia. Qed.
Lemma new_rooted dr w l n d : some_rams w -> construct_discriminator dr w l n = Ok d -> rooted d.
Proof.
  intros Hs E. assert (Hac : forall e a u, checkAddressSize e a = Ok u -> 2 <= a <= e).
  { intros e a u. unfold checkAddressSize. destruct (Z.ltb_spec a 2); [discriminate|]. destruct (Z.ltb_spec e 2); [discriminate|]. destruct (Z.ltb_spec e a); [discriminate|]. intros _. lia. }
  assert (Hq : forall e a, 2 <= a <= e -> 1 <= Z.quot e a) by (intros e a Hea; rewrite Z.quot_div_nonneg by lia; apply Z.div_le_lower_bound; lia).
  intros En. exfalso. unfold construct_discriminator in E. destruct (w_mapping w !! l) as [m|] eqn:Em; [|destruct (negb _)].
  - unfold setRAMByMapping in E. destruct (checkBase _) eqn:Eb; cbn [rbind] in E; try discriminate. destruct (rmapM _ _) as [rs| | |] eqn:Er; cbn [rbind] in E; try discriminate. injection E as <-.
    cbn [d_rams] in En. subst rs. apply DiscCtorProofs.rmapM_ok in Er. apply Forall2_length in Er. destruct m; [exact (Hs l Em)|discriminate].
  - unfold setRAMByIndex in E. destruct (checkAddressSize _ _) eqn:Ea; cbn [rbind] in E; try discriminate. destruct (checkBase _) eqn:Eb; cbn [rbind] in E; try discriminate.
    destruct (checkListOfIndexes _ _); cbn [rbind] in E; try discriminate. destruct (make_rams _ _ _ _ _) as [rs| | |] eqn:Er; cbn [rbind] in E; try discriminate. injection E as <-. eapply make_some; [|exact Er|exact En]. apply Hq, (Hac _ _ _ Ea).
  - unfold setRAMShuffle in E. destruct (checkAddressSize _ _) eqn:Ea; cbn [rbind] in E; try discriminate. destruct (checkBase _) eqn:Eb; cbn [rbind] in E; try discriminate. cbv zeta in E.
    destruct (int_of _); cbn [rbind] in E; try discriminate. destruct (rmapM _ _); cbn [rbind] in E; try discriminate. destruct (make_rams _ _ _ _ _) as [rs| | |] eqn:Er; cbn [rbind] in E; try discriminate. injection E as <-. eapply make_some; [|exact Er|exact En].
    pose proof (Hq _ _ (Hac _ _ _ Ea)). destruct (_ && _); lia.
Qed.
Lemma inv_put F w l d : inv F w -> rooted d -> (F l -> filled d) -> inv F (with_discriminators w (<[l := d]> (w_discriminators w))).
Proof.
  intros [H1 H2] Hr Hf. split; cbn.
  - intros k e. rewrite lookup_insert_Some. intros [[_ <-]|[_ He]]; [exact Hr|exact (H1 k e He)].
  - intros k Hk. destruct (decide (l = k)) as [<-|Hne]; [exists d; rewrite lookup_insert; auto|]. destruct (H2 k Hk) as (e & He & Hfe). exists e. rewrite lookup_insert_ne by exact Hne. auto.
Qed.
Lemma at_label_inv F w (f : disc -> eff disc unit) l : inv F w -> (forall d, rooted d -> rooted (snd (f d))) -> (forall d, filled d -> filled (snd (f d))) -> inv F (snd (at_label f w l)).
Proof.
  intros H Hf Hg. unfold at_label. destruct (w_discriminators w !! l) as [d|] eqn:E; [|exact H]. specialize (Hf d (proj1 H l d E)). specialize (Hg d).
  assert (F l -> filled (snd (f d))) as Hl. { intros Fl. apply Hg. destruct (proj2 H l Fl) as (e & He & Hfe). congruence. }
  destruct (f d) as [o d']. cbn [snd] in *. apply inv_put; assumption.
Qed.
Lemma same_opts w0 w : with_discriminators w ∅ = with_discriminators w0 ∅ -> some_rams w0 -> some_rams w.
Proof. intros E H l. pose proof (f_equal w_mapping E) as Em. cbn in Em. rewrite Em. apply H. Qed.
Lemma make_inv F lhs dr w l n : some_rams w -> w_discriminators w !! l = None -> inv F w -> inv F (snd (makeDiscriminator lhs dr w l n)).
Proof.
  intros Hs Hn H. assert (Hl : F l -> False) by (intros Fl; destruct (proj2 H l Fl) as (e & He & _); congruence).
  unfold makeDiscriminator. destruct (construct_discriminator dr w l n) as [d| | |] eqn:E; cbn [snd]; try exact H.
  - apply inv_put; [exact H|eapply new_rooted; eassumption|tauto].
  - destruct lhs; [|exact H]. apply inv_put; [exact H|intros _; reflexivity|tauto].
Qed.
Definition plus (F : str -> Prop) (ls : list str) (l : str) : Prop := F l \/ l ∈ ls.
Lemma train1_inv F lhs env w x l : some_rams w -> inv F w ->
  inv F (snd (wisard_train1 lhs env w x l)) /\ (s32 (im_size x) <> 0 -> fst (wisard_train1 lhs env w x l) = Ok tt -> inv (plus F [l]) (snd (wisard_train1 lhs env w x l))).
Proof.
  intros Hs H.
  assert (Hat : forall w, inv F w -> inv F (snd (at_label (fun d => disc_train d x) w l)) /\ (s32 (im_size x) <> 0 -> fst (at_label (fun d => disc_train d x) w l) = Ok tt -> w_discriminators w !! l <> None -> inv (plus F [l]) (snd (at_label (fun d => disc_train d x) w l)))).
  { clear. intros w H. assert (H' : inv F (snd (at_label (fun d => disc_train d x) w l))) by (apply at_label_inv; [exact H|intros d; apply op_filled|intros d; apply op_filled]). split; [exact H'|].
    intros Hx Ho Hk. split; [exact (proj1 H')|]. intros k [Fk|Hk']; [exact (proj2 H' k Fk)|]. apply elem_of_list_singleton in Hk' as ->. unfold at_label in *. destruct (w_discriminators w !! l) as [d|] eqn:E; [|congruence].
    pose proof (train_fills d x Hx (proj1 H l d E)) as Hf. destruct (disc_train d x) as [o d']. cbn [fst snd] in *. exists d'. cbn. rewrite lookup_insert. split; [reflexivity|exact (Hf Ho)]. }
  unfold wisard_train1. destruct (w_discriminators w !! l) as [d|] eqn:E.
  - destruct (Hat w H) as [H1 H2]. split; [exact H1|]. intros Hx Ho. apply H2; [exact Hx|exact Ho|congruence].
  - pose proof (make_inv F lhs (env l) w l (s32 (im_size x)) Hs E H) as K.
    assert (Hl : fst (makeDiscriminator lhs (env l) w l (s32 (im_size x))) = Ok tt -> w_discriminators (snd (makeDiscriminator lhs (env l) w l (s32 (im_size x)))) !! l <> None).
    { unfold makeDiscriminator. destruct (construct_discriminator _ _ _ _); try discriminate. cbn. rewrite lookup_insert. discriminate. }
    destruct (makeDiscriminator _ _ _ _ _) as [[[]|e|u|] w1]; cbn [ebind fst snd] in *; try (split; [exact K|discriminate]). destruct (Hat w1 K) as [H1 H2]. split; [exact H1|]. intros Hx Ho. apply H2; [exact Hx|exact Ho|apply Hl; reflexivity].
Qed.
Lemma train1_opts lhs env w x l : with_discriminators (snd (wisard_train1 lhs env w x l)) ∅ = with_discriminators w ∅.
Proof.
  assert (Hat : forall w (f : disc -> eff disc unit), with_discriminators (snd (at_label f w l)) ∅ = with_discriminators w ∅).
  { intros u f. unfold at_label. destruct (w_discriminators u !! l) as [d|]; [|reflexivity]. destruct (f d). reflexivity. }
  unfold wisard_train1. destruct (w_discriminators w !! l); [apply Hat|].
  assert (Hm : with_discriminators (snd (makeDiscriminator lhs (env l) w l (s32 (im_size x)))) ∅ = with_discriminators w ∅) by (unfold makeDiscriminator; destruct (construct_discriminator _ _ _ _); try reflexivity; destruct lhs; reflexivity).
  destruct (makeDiscriminator _ _ _ _ _) as [[[]|e|u|] w1]; cbn [ebind fst snd] in *; try exact Hm. rewrite Hat. exact Hm.
Qed.
Lemma inv_impl (F G : str -> Prop) w : (forall l, G l -> F l) -> inv F w -> inv G w.
Proof. intros H [H1 H2]. split; [exact H1|]. intros l Hl. apply H2, H, Hl. Qed.
Lemma loop_inv lhs env : forall xs ls F w, some_rams w -> inv F w ->
  inv F (snd (wisard_train_loop lhs env w xs ls)) /\
  (length xs = length ls -> Forall (fun x => s32 (im_size x) <> 0) xs -> fst (wisard_train_loop lhs env w xs ls) = Ok tt -> inv (plus F ls) (snd (wisard_train_loop lhs env w xs ls))).
Proof.
  assert (Hnil : forall F w, inv F w -> inv (plus F []) w). { intros F w. apply inv_impl. intros l [Fl|Hl]; [exact Fl|inversion Hl]. }
  induction xs as [|x xs IH]; intros ls F w Hs H; [destruct ls; (split; [exact H|]); [intros _ _ _; apply Hnil, H|discriminate]|].
  destruct ls as [|l ls]; [split; [exact H|discriminate]|]. cbn [wisard_train_loop]. destruct (train1_inv F lhs env w x l Hs H) as [H1 H2]. pose proof (train1_opts lhs env w x l) as Ho.
  destruct (wisard_train1 lhs env w x l) as [[[]|e|u|] w1]; cbn [ebind fst snd] in *; try (split; [exact H1|discriminate]).
  pose proof (same_opts w w1 Ho Hs) as Hs1. split; [exact (proj1 (IH ls F w1 Hs1 H1))|]. intros Hl Hx Hok. apply Forall_cons in Hx as [Hx Hxs]. injection Hl as Hl.
  destruct (IH ls (plus F [l]) w1 Hs1 (H2 Hx eq_refl)) as [_ H3]. eapply inv_impl; [|exact (H3 Hl Hxs Hok)]. intros k. unfold plus. rewrite elem_of_list_singleton, elem_of_cons. tauto.
Qed.
Lemma leave1_inv F w x l : inv F w -> inv F (snd (leaveOneOut w x l)).
Proof. intros H. unfold leaveOneOut. destruct (w_discriminators w !! l); [|exact H]. apply at_label_inv; [exact H|intros dd; apply op_filled|intros dd; apply op_filled]. Qed.
Lemma leaves_inv F : forall xs ls w, inv F w -> inv F (snd (leaveMoreOut_loop w xs ls)).
Proof.
  induction xs as [|x xs IH]; intros ls w H; [destruct ls; exact H|]. destruct ls as [|l ls]; [exact H|]. cbn [leaveMoreOut_loop].
  apply (ebind_snd _ _ (inv F)); [apply leave1_inv, H|]. intros [] s Es. apply IH. pose proof (leave1_inv F w x l H) as K. rewrite Es in K. exact K.
Qed.
Lemma Forall_and_ne xs : Forall readable xs -> Forall (fun x => im_size x <> 0) xs -> Forall (fun x => s32 (im_size x) <> 0) xs.
Proof. intros Hr. induction 1 as [|x xs Hx _ IH]; [constructor|]. apply Forall_cons in Hr as [Hr Hrs]. apply Forall_cons. split; [|exact (IH Hrs)]. rewrite s32_id; [exact Hx|]. destruct Hr as [Hr _]. unfold INT_MIN, INT_MAX in *. lia. Qed.
(** The call taught label l something: it is a training call that names l and hands over no empty image. *)
Definition teaches (l : str) (c : wcall) : Prop := match c with CTrain _ xs ls => l ∈ ls /\ Forall (fun x => im_size x <> 0) xs | _ => False end.
Lemma call_inv F lhs w c : some_rams w -> safe_call w c -> inv F w ->
  inv F (snd (wcall_run lhs w c)) /\ (fst (wcall_run lhs w c) = Ok tt -> inv (fun l => F l \/ teaches l c) (snd (wcall_run lhs w c))).
Proof.
  intros Hs Hc H. destruct c as [env xs ls|x l|xs ls]; cbn [wcall_run] in *.
  - destruct Hc as (_ & Hx1 & Hl1 & Hx & _ & _). destruct (loop_inv lhs env xs ls F w Hs H) as [H1 H2]. unfold wisard_train. destruct xs as [|x0 xs0]; [split; [exact H|discriminate]|].
    destruct (calculateNumberOfRams _ _ _); try (split; [exact H|discriminate]). destruct (checkConfidence _ _); try (split; [exact H|discriminate]).
    unfold checkInputSizes. rewrite s32_len_eq by assumption. destruct (Z.eqb_spec (len (x0 :: xs0)) (len ls)) as [He|]; [|split; [exact H|discriminate]].
    split; [exact H1|]. intros Hok. cbn [teaches]. pose proof H1 as [R _]. split; [exact R|]. intros l [Fl|[Hl Hne]]; [exact (proj2 H1 l Fl)|].
    apply (proj2 (H2 (proj1 (len_length _ _) He) (Forall_and_ne _ Hx Hne) Hok)). right. exact Hl.
  - split; [apply leave1_inv, H|]. intros _. eapply inv_impl; [|apply leave1_inv, H]. intros k [Fk|[]]. exact Fk.
  - assert (K : inv F (snd (leaveMoreOut w xs ls))) by (unfold leaveMoreOut; destruct (checkInputSizes _ _); try exact H; apply leaves_inv, H). split; [exact K|]. intros _. eapply inv_impl; [|exact K]. intros k [Fk|[]]. exact Fk.
Qed.
Lemma at_label_opts w (f : disc -> eff disc unit) l : with_discriminators (snd (at_label f w l)) ∅ = with_discriminators w ∅.
Proof. unfold at_label. destruct (w_discriminators w !! l) as [d|]; [|reflexivity]. destruct (f d). reflexivity. Qed.
Lemma call_opts lhs w c : with_discriminators (snd (wcall_run lhs w c)) ∅ = with_discriminators w ∅.
Proof.
  assert (Hl : forall env xs ls u, with_discriminators (snd (wisard_train_loop lhs env u xs ls)) ∅ = with_discriminators u ∅).
  { intros env. induction xs as [|x xs IH]; intros ls u; [destruct ls; reflexivity|]. destruct ls as [|l ls]; [reflexivity|]. cbn [wisard_train_loop]. pose proof (train1_opts lhs env u x l) as Ho.
    destruct (wisard_train1 lhs env u x l) as [[[]|e|v|] w1]; cbn [ebind fst snd] in *; try exact Ho. rewrite IH. exact Ho. }
  assert (H1 : forall u x l, with_discriminators (snd (leaveOneOut u x l)) ∅ = with_discriminators u ∅) by (intros u x l; unfold leaveOneOut; destruct (w_discriminators u !! l); [apply at_label_opts|reflexivity]).
  assert (Hm : forall xs ls u, with_discriminators (snd (leaveMoreOut_loop u xs ls)) ∅ = with_discriminators u ∅).
  { induction xs as [|x xs IH]; intros ls u; [destruct ls; reflexivity|]. destruct ls as [|l ls]; [reflexivity|]. cbn [leaveMoreOut_loop]. pose proof (H1 u x l) as Ho.
    destruct (leaveOneOut u x l) as [[[]|e|v|] w1]; cbn [ebind fst snd] in *; try exact Ho. rewrite IH. exact Ho. }
  destruct c as [env xs ls|x l|xs ls]; cbn [wcall_run]; [|apply H1|].
  - unfold wisard_train. destruct xs; [reflexivity|]. destruct (calculateNumberOfRams _ _ _); try reflexivity. destruct (checkConfidence _ _); try reflexivity. destruct (checkInputSizes _ _); try reflexivity. apply Hl.
  - unfold leaveMoreOut. destruct (checkInputSizes _ _); try reflexivity. apply Hm.
Qed.
Lemma safe_same w1 w c : with_discriminators w1 ∅ = with_discriminators w ∅ -> safe_call w1 c = safe_call w c.
Proof. intros E. exact (f_equal (fun w => safe_call w c) E). Qed.
Lemma outcomes_inv lhs w0 : some_rams w0 -> forall cs F w, with_discriminators w ∅ = with_discriminators w0 ∅ -> Forall (safe_call w) cs -> inv F w ->
  inv (fun l => F l \/ exists c, (c, Ok tt) ∈ zip cs (fst (outcomes (wcall_run lhs) w cs)) /\ teaches l c) (snd (outcomes (wcall_run lhs) w cs)).
Proof.
  intros Hs. induction cs as [|c cs IH]; intros F w He Hc H; cbn [outcomes].
  - cbn. eapply inv_impl; [|exact H]. intros l [Fl|(c & Hc' & _)]; [exact Fl|inversion Hc'].
  - apply Forall_cons in Hc as [Hc Hcs]. destruct (call_inv F lhs w c (same_opts w0 w He Hs) Hc H) as [H1 H2].
    assert (He1 : with_discriminators (snd (wcall_run lhs w c)) ∅ = with_discriminators w ∅) by apply call_opts.
    destruct (wcall_run lhs w c) as [o w1]. cbn [fst snd] in *.
    assert (Hcs1 : Forall (safe_call w1) cs). { eapply List.Forall_impl; [|exact Hcs]. intros a. rewrite (safe_same w1 w a He1). auto. }
    assert (He' : with_discriminators w1 ∅ = with_discriminators w0 ∅) by congruence.
    destruct o as [[]|e|u|].
    + specialize (IH _ w1 He' Hcs1 (H2 eq_refl)). destruct (outcomes (wcall_run lhs) w1 cs) as [os w2]. cbn [fst snd] in *. eapply inv_impl; [|exact IH]. intros l. cbn [zip zip_with]. setoid_rewrite elem_of_cons.
      intros [Fl|(k & [[= ->]|Hk] & Ht)]; [left; left; exact Fl|left; right; exact Ht|right; eauto].
    + specialize (IH _ w1 He' Hcs1 H1). destruct (outcomes (wcall_run lhs) w1 cs) as [os w2]. cbn [fst snd] in *. eapply inv_impl; [|exact IH]. intros l. cbn [zip zip_with]. setoid_rewrite elem_of_cons.
      intros [Fl|(k & [[=]|Hk] & Ht)]; [left; exact Fl|right; eauto].
    + cbn [fst snd]. eapply inv_impl; [|exact H1]. intros l [Fl|(k & Hk & Ht)]; [exact Fl|]. cbn in Hk. destruct cs; apply elem_of_list_singleton in Hk; discriminate.
    + cbn [fst snd]. eapply inv_impl; [|exact H1]. intros l [Fl|(k & Hk & Ht)]; [exact Fl|]. cbn in Hk. destruct cs; apply elem_of_list_singleton in Hk; discriminate.
Qed.
(** ** C176 *)
(** The claim is false: a first image of a label that is rejected after its first bits leaves RAMs that have
    learned nothing; the model is saved without complaint and its text is refused. *)
Definition half_learned : list wcall := [CTrain (fun _ => some_draw) [vec_image [1; 0; 7; 1]] [hot]].
Definition plain_iter : iteration := fun l => map_to_list l.
Definition disk0 : fs := Fs ∅ (fun _ => true).
Lemma wild_half_calls : Forall (list_call 2) half_learned.
Proof.
  apply Forall_cons. split; [|constructor]. cbn [list_call]. split; [discriminate|]. split; [vm_compute; congruence|]. split; [vm_compute; congruence|]. split; [intros l; apply some_draw_valid|].
  apply Forall_cons. split; [|constructor]. exists [1; 0; 7; 1]. split; [reflexivity|]. vm_compute. congruence.
Qed.
Theorem C176_saved_refuted : exists w0 cs, w_discriminators w0 = ∅ /\ w_mapping w0 = ∅ /\ w_indexes w0 = [] /\ w_addressSize w0 = 2 /\ w_base w0 = 2 /\ Forall (list_call 2) cs /\ zsum (handed <$> cs) = 1 /\
  forall lhs_first, exists j, wisard_json plain_iter (fun _ => []) disk0 (snd (outcomes (wcall_run lhs_first) w0 cs)) false [] = (Ok j, disk0) /\ wisard_of_json disk0 j = Throw EOutOfRange.
Proof.
  exists wild, half_learned. split; [reflexivity|]. split; [reflexivity|]. split; [reflexivity|]. split; [reflexivity|]. split; [reflexivity|]. split; [exact wild_half_calls|]. split; [reflexivity|].
  assert (H : forall lhs, let p := wisard_json plain_iter (fun _ => []) disk0 (snd (outcomes (wcall_run lhs) wild half_learned)) false [] in
    snd p = disk0 /\ match fst p with Ok j => wisard_of_json disk0 j = Throw EOutOfRange | _ => False end).
  { intros [|]; cbv zeta; (split; [vm_compute; reflexivity|vm_compute; reflexivity]). }
  intros lhs. destruct (H lhs) as [H1 H2]. destruct (wisard_json _ _ _ _ _ _) as [o f]. cbn [fst snd] in *. subst f. destruct o as [j| | |]; try contradiction. exists j. auto.
Qed.
Print Assumptions C176_saved_refuted.
(** What holds: when every label the model knows was named by some training call that was answered and handed
    over no empty image, whatever else failed before and after, the model is saved and read back; the copy
    answers the same and goes on being served. *)
Theorem C176_saved_partial : forall lhs_first iter rnd f path w0 cs,
  good_iter iter -> w_discriminators w0 = ∅ -> w_addressSize w0 <> 0 -> SpecSaved.int_options w0 -> some_rams w0 -> Forall (safe_call w0) cs -> zsum (handed <$> cs) < INT_MAX - 1 ->
  let '(os, w) := outcomes (wcall_run lhs_first) w0 cs in
  (forall l d, w_discriminators w !! l = Some d -> is_utf8 l /\ saved_size d <= INT_MAX + 1 /\ exists c, (c, Ok tt) ∈ zip cs os /\ teaches l c) ->
  exists j, wisard_json iter rnd f w false path = (Ok j, f) /\ (forall f', wisard_of_json f' j = Ok (without_mapping w)) /\
    (forall xs, wisard_classify (without_mapping w) xs = wisard_classify w xs) /\
    forall cs2, Forall (safe_call (without_mapping w0)) cs2 -> zsum (handed <$> cs) + zsum (handed <$> cs2) < INT_MAX - 1 ->
      let '(os2, w2) := outcomes (wcall_run lhs_first) (without_mapping w) cs2 in
      length os2 = length cs2 /\ Forall served os2 /\ forall xs, Forall readable xs -> served (wisard_classify w2 xs).
Proof.
  intros lhs iter rnd f path w0 cs Hi H0 Ha Ho Hr Hc HM. pose proof (after_calls lhs iter w0 cs Hi H0 Ha Ho Hc HM) as H. pose proof (total_handed cs) as Hz.
  pose proof (outcomes_inv lhs w0 Hr cs (fun _ => False) w0 eq_refl Hc) as K. specialize (K ltac:(split; [intros l d; rewrite H0, lookup_empty; discriminate|intros l []])).
  destruct (outcomes (wcall_run lhs) w0 cs) as [os w]. cbn [fst snd] in *. destruct K as [_ K]. intros Hall.
  destruct H as (Hsm & Hs & Hio & Hsv & Hu).
  { intros l d E. destruct (Hall l d E) as (H1 & H2 & c & Hc' & Ht). split; [exact H1|]. destruct (K l ltac:(right; eauto)) as (d' & E' & Hf1 & Hf2). rewrite E in E'. injection E' as <-. auto. }
  destruct (wisard_roundtrip_mem iter rnd f w path Hi Hio Hsv Hu) as (j & E1 & E2). exists j. split; [exact E1|]. split; [exact E2|]. split; [apply classify_wm|].
  intros cs2 Hc2 HM2. pose proof (total_handed cs2) as Hz2.
  pose proof (outcomes_fine lhs (without_mapping w0) cs2 (zsum (handed <$> cs)) (without_mapping w) Ha) as F. specialize (F ltac:(rewrite Hsm; reflexivity) ltac:(lia) ltac:(lia) Hs Hc2).
  destruct (outcomes (wcall_run lhs) (without_mapping w) cs2) as [os2 w2]. destruct F as (F1 & F2 & F3 & _). split; [exact F1|]. split; [exact F2|]. intros xs Hx. eapply classify_served; [|exact F3|exact Hx]. lia.
Qed.
Print Assumptions C176_saved_partial.
(** The hypotheses are met by a program with calls that fail in every way, once each label has been taught. *)
Definition survivors : list wcall := wild_calls ++ [CTrain (fun _ => some_draw) [vec_image [1; 0; 1; 1]; vec_image [0; 0; 1; 1]] [hot; cold]; CTrain (fun _ => some_draw) [vec_image [1; 0; 3; 1]] [cold]].
Lemma list_call_safe w a c : w_addressSize w = a -> w_mapping w = ∅ -> w_indexes w = [] -> 1 <= a -> addressable (w_base w) a -> list_call a c -> safe_call w c.
Proof.
  intros <- Hm Hi Ha Hb Hl. destruct c as [env xs ls|x l|xs ls]; cbn [list_call safe_call] in *.
  - destruct Hl as (K1 & K2 & K3 & K4 & K5). repeat (split; [assumption|]). split; [eapply Forall_impl; [exact K5|]; intros x; apply list_image_readable; lia|]. split; [exact K4|].
    intros x l Hx _. rewrite Forall_forall in K5. destruct (K5 x Hx) as (v & -> & Hv). unfold safe_wiring. rewrite Hm, lookup_empty, Hi. split; [exact Hb|]. split; [change (len (A:=Z) []) with 0; unfold INT_MAX; lia|]. split; [constructor|]. intros _. exact Hv.
  - eapply list_image_readable; [|exact Hl]. lia.
  - destruct Hl as (K1 & K2 & K3). split; [exact K1|]. split; [exact K2|]. eapply Forall_impl; [exact K3|]. intros x; apply list_image_readable; lia.
Qed.
Example C176_witness : Forall (safe_call wild) survivors /\ zsum (handed <$> survivors) < INT_MAX - 1 /\ SpecSaved.int_options wild /\ some_rams wild /\
  let p := outcomes (wcall_run false) wild survivors in
  fst p = [Throw pos_exn; Throw entry_small_exn; Throw sizes_exn; Throw entry_exn; Ok tt; Ok tt; Throw pos_exn] /\ size (w_discriminators (snd p)) = 2%nat /\
  forall l d, w_discriminators (snd p) !! l = Some d -> is_utf8 l /\ saved_size d <= INT_MAX + 1 /\ exists c, (c, Ok tt) ∈ zip survivors (fst p) /\ teaches l c.
Proof.
  split.
  { assert (Hl : forall v : list Z, (length v <= 4)%nat -> exists u, vec_image v = vec_image u /\ len u + 2 <= INT_MAX) by (intros v Hv; exists v; split; [reflexivity|]; unfold len, INT_MAX; lia).
    assert (Forall (list_call 2) survivors) as H.
    { unfold survivors. apply Forall_app. split; [exact (proj1 C173_witness)|].
      repeat (apply Forall_cons; split); [..|constructor]; cbn [list_call]; (split; [discriminate|]; split; [vm_compute; congruence|]; split; [vm_compute; congruence|]; split; [intros l; apply some_draw_valid|]; repeat (apply Forall_cons; split); [..|constructor]; apply Hl; cbn; lia). }
    eapply List.Forall_impl; [|exact H]. intros c. apply list_call_safe; try reflexivity; [lia|left; cbn; lia]. }
  split; [vm_compute; reflexivity|]. split; [unfold SpecSaved.int_options, is_int; cbn; unfold INT_MIN, INT_MAX; do 3 (split; [lia|]); split; [apply List.Forall_nil|]; split; [change (len (A:=Z) []) with 0; lia|intros l m; rewrite lookup_empty; discriminate]|].
  split; [intros l; cbn; rewrite lookup_empty; discriminate|]. cbv zeta.
  assert (Hos : fst (outcomes (wcall_run false) wild survivors) = [Throw pos_exn; Throw entry_small_exn; Throw sizes_exn; Throw entry_exn; Ok tt; Ok tt; Throw pos_exn]) by (vm_compute; reflexivity).
  split; [exact Hos|]. split; [vm_compute; reflexivity|].
  assert (Hall : map_Forall (fun l d => (l = hot \/ l = cold) /\ saved_size d <= INT_MAX + 1) (w_discriminators (snd (outcomes (wcall_run false) wild survivors)))) by (refine (bool_decide_unpack _ _); vm_compute; exact I).
  intros l d E. destruct (Hall l d E) as [Hl Hsz]. split; [apply utf8_ok_iff; destruct Hl as [-> | ->]; vm_compute; reflexivity|]. split; [exact Hsz|].
  exists (CTrain (fun _ => some_draw) [vec_image [1; 0; 1; 1]; vec_image [0; 0; 1; 1]] [hot; cold]). rewrite Hos. split.
  - cbn [survivors wild_calls app zip zip_with]. do 5 right. left.
  - cbn [teaches]. split; [destruct Hl as [-> | ->]; [left|right; left]|]. repeat (apply Forall_cons; split); [..|constructor]; vm_compute; discriminate.
Qed.
