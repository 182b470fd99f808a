(** Property theorems C162: pixels no RAM reads do not matter. Vocabulary in SpecUnread.v. *)
From Verif Require Import Prelude Bytes Utils BinInput Bleaching Ram Disc DataSet Wisard Cluster ClusWisard SpecDisc SpecBin SpecBleach SpecWisard SpecValues SpecUnread.
From Verif Require Import DiscCtorProofs CtorFacts DiscFacts WisardFacts PropsOnly PropsWisard.

(** Training and untraining keep the wiring. *)
Lemma update_mapping (f : ram -> eff ram unit) : (forall r, r_addresses (snd (f r)) = r_addresses r) -> forall rs, r_addresses <$> snd (rams_update f rs) = r_addresses <$> rs.
Proof.
  intros H. induction rs as [|r rs IH]; [reflexivity|]. cbn [rams_update]. specialize (H r). destruct (f r) as [[u|e|u|] r']; cbn [snd] in H.
  - destruct (rams_update f rs) as [o rs']. cbn [snd] in *. rewrite !fmap_cons. congruence.
  - cbn [snd]. rewrite !fmap_cons. congruence.
  - cbn [snd]. rewrite !fmap_cons. congruence.
  - cbn [snd]. rewrite !fmap_cons. congruence.
Qed.
Lemma train_mapping d x : disc_mapping (snd (disc_train d x)) = disc_mapping d.
Proof.
  unfold disc_train. destruct (checkEntrySize _ _); try reflexivity. destruct (int_of _); try reflexivity.
  pose proof (update_mapping (fun r => ram_train r x)) as H. destruct (rams_update _ _) as [o rs] eqn:E. unfold disc_mapping. cbn [snd d_rams].
  specialize (fun K => H K (d_rams d)). rewrite E in H. apply H. intros r. unfold ram_train. destruct (getIndex r x) as [ix| | |]; try reflexivity. destruct (r_positions r !! ix) as [z|]; [destruct (int_of (z + 1))|]; reflexivity.
Qed.
Lemma untrain_mapping d x : disc_mapping (snd (disc_untrain d x)) = disc_mapping d.
Proof.
  unfold disc_untrain. destruct (checkEntrySize _ _); try reflexivity. destruct (int_of _); try reflexivity.
  pose proof (update_mapping (fun r => ram_untrain r x)) as H. destruct (rams_update _ _) as [o rs] eqn:E. unfold disc_mapping. cbn [snd d_rams].
  specialize (fun K => H K (d_rams d)). rewrite E in H. apply H. intros r. unfold ram_untrain. destruct (getIndex r x) as [ix| | |]; try reflexivity. destruct (r_positions r !! ix) as [z|]; [destruct (int_of (z - 1))|]; reflexivity.
Qed.

Lemma view_of_mapping d x y : im_size x = im_size y -> (forall m p, m ∈ disc_mapping d -> p ∈ m -> im_get x p = im_get y p) -> same_view d x y.
Proof.
  intros Hs H. split; [exact Hs|]. apply Forall_forall. intros r Hr. unfold agree. apply Forall_forall. intros p Hp. apply (H (r_addresses r)); [|exact Hp]. unfold disc_mapping. apply elem_of_list_fmap. eauto.
Qed.

(** C162, one discriminator in any state: two images of one size that agree on every pixel of its
    mapping train, untrain and classify exactly alike, errors included. *)
Theorem C162_discriminator : forall d x y, im_size x = im_size y -> (forall m p, m ∈ disc_mapping d -> p ∈ m -> im_get x p = im_get y p) ->
  disc_train d x = disc_train d y /\ disc_untrain d x = disc_untrain d y /\ disc_classify d x = disc_classify d y.
Proof. intros d x y Hs H. apply view_same, view_of_mapping; assumption. Qed.
Print Assumptions C162_discriminator.

(** The wiring of a new discriminator is within what [reads] promises. *)
Lemma ram_new_addr a z b r : ram_new a z b = Ok r -> r_addresses r = a.
Proof. unfold ram_new. destruct (checkLimitAddressSize _ _); try discriminate. intros [= <-]. reflexivity. Qed.
Lemma s32_le z : 0 <= z -> s32 z <= z.
Proof. intros H. unfold s32. pose proof (Z.mod_le (z + 2147483648) W32 ltac:(lia) ltac:(reflexivity)). lia. Qed.
Lemma sub_part indexes a q i p : (i < q)%nat -> p ∈ sub_indexes indexes a i -> p ∈ take (q * Z.to_nat a) indexes.
Proof.
  unfold sub_indexes. intros Hi Hp. apply elem_of_list_lookup in Hp as (j & Hj). apply lookup_take_Some in Hj as [Hj Hlt]. rewrite lookup_drop in Hj.
  apply elem_of_list_lookup. exists (i * Z.to_nat a + j)%nat. rewrite lookup_take; [exact Hj|]. nia.
Qed.
Lemma new_reads dr w l n d : w_discriminators w !! l = None -> construct_discriminator dr w l n = Ok d -> forall m p, m ∈ disc_mapping d -> p ∈ m -> reads w l p.
Proof.
  intros Hn E m p Hm Hp. unfold reads. rewrite Hn. unfold construct_discriminator in E. destruct (w_mapping w !! l) as [mp|].
  - unfold setRAMByMapping in E. destruct (checkBase _); try discriminate. cbn [rbind] in E. destruct (rmapM _ mp) as [rs| | |] eqn:R; try discriminate. cbn [rbind] in E. injection E as <-.
    apply DiscCtorProofs.rmapM_ok in R. unfold disc_mapping in Hm. cbn [d_rams] in Hm. apply elem_of_list_fmap in Hm as (r & -> & Hr). apply elem_of_list_lookup in Hr as (i & Hi). destruct (Forall2_lookup_r _ _ _ _ _ R Hi) as (aa & Ha & Ea).
    apply ram_new_addr in Ea. rewrite Ea in Hp. exists aa. split; [|exact Hp]. apply elem_of_list_lookup. eauto.
  - destruct (w_indexes w) as [|i0 is] eqn:Ei; [left; reflexivity|]. right. cbn [length Nat.eqb negb] in E. rewrite <- Ei in *. clear Ei i0 is.
    unfold setRAMByIndex in E. destruct (checkAddressSize n (w_addressSize w)) eqn:Ea; try discriminate. cbn [rbind] in E. destruct (checkBase _); try discriminate. cbn [rbind] in E.
    destruct (checkListOfIndexes _ _) eqn:El; try discriminate. cbn [rbind] in E. destruct (make_rams _ _ _ _ _) as [rs| | |] eqn:R; try discriminate. cbn [rbind] in E. injection E as <-.
    unfold make_rams in R. apply DiscCtorProofs.rmapM_ok in R. unfold disc_mapping in Hm. cbn [d_rams] in Hm. apply elem_of_list_fmap in Hm as (r & -> & Hr). apply elem_of_list_lookup in Hr as (i & Hi). destruct (Forall2_lookup_r _ _ _ _ _ R Hi) as (j & Hj & Ej).
    apply ram_new_addr in Ej. rewrite Ej in Hp. apply lookup_seq in Hj as [-> Hj]. cbn [Nat.add] in *.
    unfold checkAddressSize in Ea. destruct (w_addressSize w <? 2) eqn:E1; try discriminate. destruct (n <? 2) eqn:E2; try discriminate. apply Z.ltb_ge in E1, E2.
    unfold checkListOfIndexes in El. destruct (s32 (len (w_indexes w)) =? n) eqn:E3; try discriminate. apply Z.eqb_eq in E3.
    assert (n <= len (w_indexes w)) as Hle. { rewrite <- E3. apply s32_le. unfold len. lia. }
    apply (sub_part _ _ _ _ _ Hj) in Hp. rewrite Z.quot_div_nonneg in Hp by lia. 
    apply elem_of_list_lookup in Hp as (k & Hk). apply lookup_take_Some in Hk as [Hk Hlt]. apply elem_of_list_lookup. exists k. rewrite lookup_take; [exact Hk|].
    pose proof (Z.div_le_mono n (len (w_indexes w)) (w_addressSize w) ltac:(lia) Hle). pose proof (Z.div_pos n (w_addressSize w) ltac:(lia) ltac:(lia)). nia.
Qed.

(** What a state reached from w0 reads was already promised by w0. *)
Definition within (w0 s : wisard) : Prop := opts s = opts w0 /\ forall l p, reads s l p -> reads w0 l p.
Lemma within_refl w : within w w.
Proof. split; auto. Qed.
Lemma within_put w0 s l d : within w0 s -> (forall m p, m ∈ disc_mapping d -> p ∈ m -> reads w0 l p) -> within w0 (with_discriminators s (<[l := d]> (w_discriminators s))).
Proof.
  intros [Ho Hr] Hd. split; [exact Ho|]. intros k p. destruct (decide (k = l)) as [-> |Hk]; unfold reads at 1; cbn [w_discriminators with_discriminators].
  - rewrite lookup_insert. intros (m & Hm & Hp). eauto.
  - rewrite lookup_insert_ne by congruence. intros H. apply Hr. exact H.
Qed.
Lemma at_label_within w0 s (f : disc -> eff disc unit) l : within w0 s -> (forall d, disc_mapping (snd (f d)) = disc_mapping d) -> within w0 (snd (at_label f s l)).
Proof.
  intros H Hf. unfold at_label. destruct (w_discriminators s !! l) as [d|] eqn:E; [|exact H]. specialize (Hf d). destruct (f d) as [o d']. cbn [snd] in *. apply within_put; [exact H|].
  intros m p Hm Hp. apply (proj2 H). unfold reads. rewrite E. rewrite Hf in Hm. eauto.
Qed.
Lemma at_label_ext s (f g : disc -> eff disc unit) l : (forall d, w_discriminators s !! l = Some d -> f d = g d) -> at_label f s l = at_label g s l.
Proof. intros H. unfold at_label. destruct (w_discriminators s !! l) as [d|]; [rewrite (H d eq_refl); reflexivity|reflexivity]. Qed.
Lemma within_view w0 s l x y d : within w0 s -> same_to w0 l x y -> w_discriminators s !! l = Some d -> same_view d x y.
Proof. intros [_ Hr] [Hs Hp] Hd. apply view_of_mapping; [exact Hs|]. intros m p Hm Hpm. apply Hp, Hr. unfold reads. rewrite Hd. eauto. Qed.
Lemma make_within lhs w0 s dr l n : within w0 s -> w_discriminators s !! l = None -> within w0 (snd (makeDiscriminator lhs dr s l n)).
Proof.
  intros H Hn. unfold makeDiscriminator. destruct (construct_discriminator dr s l n) as [d| | |] eqn:E; cbn [snd]; try exact H.
  - apply within_put; [exact H|]. intros m p Hm Hp. apply (proj2 H). eapply new_reads; eassumption.
  - destruct lhs; [|exact H]. apply within_put; [exact H|]. intros m p Hm. unfold disc_mapping in Hm. cbn in Hm. apply elem_of_nil in Hm. contradiction.
Qed.
Lemma train1_within lhs env w0 s x l : within w0 s -> within w0 (snd (wisard_train1 lhs env s x l)).
Proof.
  intros H. unfold wisard_train1. destruct (w_discriminators s !! l) eqn:E; [apply at_label_within; [exact H|intros; apply train_mapping]|].
  apply (ebind_snd _ _ (within w0)); [apply make_within; assumption|]. intros [] s' Es. apply at_label_within; [|intros; apply train_mapping].
  pose proof (make_within lhs w0 s (env l) l (s32 (im_size x)) H E) as K. rewrite Es in K. exact K.
Qed.
Lemma ebind_ext' {S A B} (m : eff S A) (f g : A -> S -> eff S B) : (forall a s, m = (Ok a, s) -> f a s = g a s) -> ebind m f = ebind m g.
Proof. intros H. unfold ebind. destruct m as [[a| | |] s]; try reflexivity. apply H. reflexivity. Qed.
Lemma train1_same lhs env w0 s x y l : within w0 s -> same_to w0 l x y -> wisard_train1 lhs env s x l = wisard_train1 lhs env s y l.
Proof.
  intros H Hxy. unfold wisard_train1. destruct (w_discriminators s !! l) eqn:E.
  - apply at_label_ext. intros d2 Hd. apply view_same. eapply within_view; eassumption.
  - rewrite (proj1 Hxy). apply ebind_ext'. intros [] s' Es. apply at_label_ext. intros d Hd. apply view_same. apply (within_view w0 s' l); [|exact Hxy|exact Hd].
    pose proof (make_within lhs w0 s (env l) l (s32 (im_size y)) H E) as K. rewrite Es in K. exact K.
Qed.
Lemma loop_within lhs env w0 : forall xs ls s, within w0 s -> within w0 (snd (wisard_train_loop lhs env s xs ls)).
Proof.
  induction xs as [|x xs IH]; intros ls s H; [destruct ls; exact H|]. destruct ls as [|l ls]; [exact H|]. cbn [wisard_train_loop].
  apply (ebind_snd _ _ (within w0)); [apply train1_within, H|]. intros [] s' Es. apply IH. pose proof (train1_within lhs env w0 s x l H) as K. rewrite Es in K. exact K.
Qed.
Lemma loop_same lhs env w0 ls xs ys : same_examples w0 ls xs ys -> forall s, within w0 s -> wisard_train_loop lhs env s xs ls = wisard_train_loop lhs env s ys ls.
Proof.
  induction 1 as [ls|l ls x y xs ys Hxy _ IH|x y xs ys _ _ _]; intros s H; [reflexivity| |reflexivity]. cbn [wisard_train_loop]. rewrite (train1_same lhs env w0 s x y l H Hxy).
  apply ebind_ext'. intros [] s' Es. apply IH. pose proof (train1_within lhs env w0 s y l H) as K. rewrite Es in K. exact K.
Qed.
Lemma leave1_within w0 s x l : within w0 s -> within w0 (snd (leaveOneOut s x l)).
Proof. intros H. unfold leaveOneOut. destruct (w_discriminators s !! l); [|exact H]. apply at_label_within; [exact H|intros; apply untrain_mapping]. Qed.
Lemma leave1_same w0 s x y l : within w0 s -> same_to w0 l x y -> leaveOneOut s x l = leaveOneOut s y l.
Proof. intros H Hxy. unfold leaveOneOut. destruct (w_discriminators s !! l); [|reflexivity]. apply at_label_ext. intros d' Hd. apply view_same. eapply within_view; eassumption. Qed.
Lemma leaves_within w0 : forall xs ls s, within w0 s -> within w0 (snd (leaveMoreOut_loop s xs ls)).
Proof.
  induction xs as [|x xs IH]; intros ls s H; [destruct ls; exact H|]. destruct ls as [|l ls]; [exact H|]. cbn [leaveMoreOut_loop].
  apply (ebind_snd _ _ (within w0)); [apply leave1_within, H|]. intros [] s' Es. apply IH. pose proof (leave1_within w0 s x l H) as K. rewrite Es in K. exact K.
Qed.
Lemma leaves_same w0 ls xs ys : same_examples w0 ls xs ys -> forall s, within w0 s -> leaveMoreOut_loop s xs ls = leaveMoreOut_loop s ys ls.
Proof.
  induction 1 as [ls|l ls x y xs ys Hxy _ IH|x y xs ys _ _ _]; intros s H; [reflexivity| |reflexivity]. cbn [leaveMoreOut_loop]. rewrite (leave1_same w0 s x y l H Hxy).
  apply ebind_ext'. intros [] s' Es. apply IH. pose proof (leave1_within w0 s y l H) as K. rewrite Es in K. exact K.
Qed.
Lemma same_count w0 ls xs ys : same_examples w0 ls xs ys -> len xs = len ys.
Proof. unfold len. induction 1; cbn [length]; lia. Qed.
Lemma call_within lhs w0 s c : within w0 s -> within w0 (snd (wcall_run lhs s c)).
Proof.
  intros H. destruct c as [env xs ls|x l|xs ls]; cbn [wcall_run].
  - unfold wisard_train. destruct xs; [exact H|]. destruct (calculateNumberOfRams _ _ _); try exact H. destruct (checkConfidence _ _); try exact H. destruct (checkInputSizes _ _); try exact H. apply loop_within, H.
  - apply leave1_within, H.
  - unfold leaveMoreOut. destruct (checkInputSizes _ _); try exact H. apply leaves_within, H.
Qed.
Lemma call_same lhs w0 s c c' : within w0 s -> same_call w0 c c' -> wcall_run lhs s c = wcall_run lhs s c'.
Proof.
  intros H Hc. destruct Hc as [env xs ys ls E|x y l E|xs ys ls E]; cbn [wcall_run].
  - unfold wisard_train. pose proof (same_count _ _ _ _ E) as Hn. pose proof (loop_same lhs env w0 ls xs ys E s H) as HL.
    destruct E as [ls|l ls x y xs ys Hxy Hr|x y xs ys Hxy Hr]; [reflexivity| |]; [rewrite (proj1 Hxy)|rewrite Hxy]; rewrite Hn, HL; reflexivity.
  - eapply leave1_same; eassumption.
  - unfold leaveMoreOut. rewrite (same_count _ _ _ _ E). rewrite (leaves_same w0 ls xs ys E s H). reflexivity.
Qed.
Lemma calls_same lhs w0 cs cs' : Forall2 (same_call w0) cs cs' -> forall s, within w0 s -> outcomes (wcall_run lhs) s cs = outcomes (wcall_run lhs) s cs'.
Proof.
  induction 1 as [|c c' cs cs' Hc _ IH]; intros s H; [reflexivity|]. cbn [outcomes]. rewrite (call_same lhs w0 s c c' H Hc). pose proof (call_within lhs w0 s c' H) as K.
  destruct (wcall_run lhs s c') as [o s']. cbn [snd] in K. destruct o as [u|e|u|]; try reflexivity; rewrite (IH s' K); reflexivity.
Qed.

(** C162, a Wisard in any state w: two histories of calls whose images differ only in pixels that
    the label concerned does not read return call by call the same values and errors and leave the
    same model. *)
Theorem C162_train : forall lhs_first w cs cs', Forall2 (same_call w) cs cs' ->
  outcomes (wcall_run lhs_first) w cs = outcomes (wcall_run lhs_first) w cs'.
Proof. intros lhs w cs cs' H. apply (calls_same lhs w cs cs' H w), within_refl. Qed.
Print Assumptions C162_train.

(** Two images that no trained label can tell apart get the same candidates and the same answer,
    and that of the labels of w stays so after any further calls. *)
Theorem C162_classify : forall w x y, (forall l, is_Some (w_discriminators w !! l) -> same_to w l x y) ->
  wisard_candidates w x = wisard_candidates w y /\ wisard_classify w [x] = wisard_classify w [y].
Proof.
  intros w x y H. assert (E : all_votes (w_discriminators w) x = all_votes (w_discriminators w) y).
  { unfold all_votes. f_equal. apply rmapM_ext'. apply Forall_forall. intros [l d] Hin. apply BleachProofs.sorted_items_elem in Hin. cbn [fst snd].
    destruct (view_same d x y) as (_ & _ & ->); [|reflexivity]. eapply within_view; [apply within_refl|apply H; eauto|exact Hin]. }
  assert (C : wisard_candidates w x = wisard_candidates w y) by (unfold wisard_candidates; rewrite E; reflexivity).
  split; [exact C|]. unfold wisard_classify. cbn [rmapM]. unfold wisard_classify1. rewrite C. reflexivity.
Qed.
Print Assumptions C162_classify.

Theorem C162_later : forall lhs_first w cs x y, (forall l, same_to w l x y) ->
  wisard_classify (snd (outcomes (wcall_run lhs_first) w cs)) [x] = wisard_classify (snd (outcomes (wcall_run lhs_first) w cs)) [y].
Proof.
  intros lhs w cs x y H. apply C162_classify. intros l _. destruct (H l) as [Hs Hp]. split; [exact Hs|]. intros p Hr. apply Hp.
  assert (W : within w (snd (outcomes (wcall_run lhs) w cs))); [|apply (proj2 W), Hr].
  apply (after_calls (wcall_run lhs) (within w) (fun _ => True)); [|apply within_refl|apply Forall_forall; trivial]. intros s c K _. apply call_within, K.
Qed.
Print Assumptions C162_later.
(** Not vacuous: with five indexes and addressSize 2 the last index is left over; cold reads only the
    pixels its mapping names. Histories over different images, one call failing. *)
Definition sparse : wisard := Wisard 2 true false {[cold := [[0; 1]]]} [3; 0; 1; 4; 2] false true 2 false false false false 1 ∅.
Definition h1 : list wcall := [CTrain env0 [vec_image [1; 1; 0; 0; 1]; vec_image [0; 0; 1; 1; 1]] [hot; cold]; CTrain env0 [vec_image [0; 0; 0; 0; 0]] []; CLeaveOne (vec_image [1; 1; 0; 0; 1]) hot; CLeaveMore [vec_image [0; 0; 1; 1; 1]] [cold]; CTrain env0 [vec_image [1; 0; 0; 0; 1]] [hot]].
Definition h2 : list wcall := [CTrain env0 [vec_image [1; 1; 1; 0; 1]; vec_image [0; 0; 0; 0; 0]] [hot; cold]; CTrain env0 [vec_image [1; 1; 1; 1; 1]] []; CLeaveOne (vec_image [1; 1; 1; 0; 1]) hot; CLeaveMore [vec_image [0; 0; 0; 1; 0]] [cold]; CTrain env0 [vec_image [1; 0; 1; 0; 1]] [hot]].
Lemma sparse_hot x : forall p, reads sparse hot p -> p = 3 \/ p = 0 \/ p = 1 \/ p = 4 \/ x.
Proof.
  intros p. unfold reads, sparse. cbn [w_discriminators w_mapping w_indexes w_addressSize]. rewrite lookup_empty. rewrite lookup_singleton_ne by (vm_compute; discriminate).
  intros [H|H]; [discriminate|]. change (take _ _) with [3; 0; 1; 4] in H. rewrite !elem_of_cons, elem_of_nil in H. tauto.
Qed.
Lemma sparse_cold x : forall p, reads sparse cold p -> p = 0 \/ p = 1 \/ x.
Proof.
  intros p. unfold reads, sparse. cbn [w_discriminators w_mapping w_indexes w_addressSize]. rewrite lookup_empty. rewrite lookup_singleton.
  intros (a & Ha & Hp). apply elem_of_list_singleton in Ha as ->. rewrite !elem_of_cons, elem_of_nil in Hp. tauto.
Qed.
Lemma same_hot a b c d e c' : same_to sparse hot (vec_image [a; b; c; d; e]) (vec_image [a; b; c'; d; e]).
Proof. split; [reflexivity|]. intros p Hp. apply (sparse_hot False) in Hp as [-> | [-> | [-> | [-> | []]]]]; reflexivity. Qed.
Lemma same_cold a b c d e c' d' e' : same_to sparse cold (vec_image [a; b; c; d; e]) (vec_image [a; b; c'; d'; e']).
Proof. split; [reflexivity|]. intros p Hp. apply (sparse_cold False) in Hp as [-> | [-> | []]]; reflexivity. Qed.
Example C162_witness : Forall2 (same_call sparse) h1 h2 /\
  fst (outcomes (wcall_run true) sparse h1) = [Ok tt; Throw sizes_exn; Ok tt; Ok tt; Ok tt] /\
  wisard_classify (snd (outcomes (wcall_run true) sparse h1)) [vec_image [1; 0; 0; 0; 1]; vec_image [1; 0; 1; 0; 1]] = Ok [hot; hot] /\
  snd (outcomes (wcall_run true) sparse [CTrain env0 [vec_image [1; 1; 0; 0; 1]] [hot]]) <> snd (outcomes (wcall_run true) sparse [CTrain env0 [vec_image [1; 1; 0; 0; 0]] [hot]]).
Proof.
  split.
  - repeat (apply List.Forall2_cons; [|]); try apply List.Forall2_nil; constructor; try apply same_hot; try apply same_cold; repeat constructor; try (intros p Hp); try (apply same_hot; exact Hp); try (apply same_cold; exact Hp).
  - split; [vm_compute; reflexivity|]. split; [vm_compute; reflexivity|]. intros H. apply (f_equal (fun w => match wisard_candidates w (vec_image [1; 1; 0; 0; 0]) with Ok m => m !! hot | _ => None end)) in H. vm_compute in H. discriminate.
Qed.

(** C162, classification by a ClusWisard in any state: two images that agree on the pixels of every
    discriminator of every cluster get the same answer; likewise for the unsupervised cluster. *)
Definition blind (c : cluster) (x y : image) : Prop := forall d m p, Some d ∈ c_discs c -> m ∈ disc_mapping d -> p ∈ m -> im_get x p = im_get y p.
Lemma cluster_blind c x y : im_size x = im_size y -> blind c x y -> cluster_classify c x = cluster_classify c y.
Proof.
  intros Hs H. unfold cluster_classify, on_discs. apply rmapM_ext'. apply Forall_forall. intros [d|] Hd; [|reflexivity].
  destruct (view_same d x y) as (_ & _ & E); [|exact E]. apply view_of_mapping; [exact Hs|]. intros m p Hm Hp. eapply H; eassumption.
Qed.
Theorem C162_cluswisard : forall k x y, im_size x = im_size y ->
  ((forall l c d m p, k_clusters k !! l = Some c -> Some d ∈ c_discs c -> m ∈ disc_mapping d -> p ∈ m -> im_get x p = im_get y p) ->
   clus_classify k [x] = clus_classify k [y]) /\
  ((forall d m p, Some d ∈ c_discs (k_unsupervised k) -> m ∈ disc_mapping d -> p ∈ m -> im_get x p = im_get y p) ->
   clus_classifyUnsupervised k [x] = clus_classifyUnsupervised k [y]).
Proof.
  intros k x y Hs. split; intros H.
  - assert (E : clus_votes (k_clusters k) x = clus_votes (k_clusters k) y).
    { unfold clus_votes. f_equal. apply rmapM_ext'. apply Forall_forall. intros [l c] Hin. apply BleachProofs.sorted_items_elem in Hin. cbn [fst snd]. rewrite (cluster_blind c x y Hs); [reflexivity|]. intros d m p. apply (H l c d m p Hin). }
    unfold clus_classify. cbn [rmapM]. unfold clus_classify1, clus_candidates. rewrite E. reflexivity.
  - unfold clus_classifyUnsupervised. cbn [rmapM]. unfold clus_classifyUnsupervised1. rewrite (cluster_blind (k_unsupervised k) x y Hs); [reflexivity|exact H].
Qed.
Print Assumptions C162_cluswisard.
(** Not vacuous: two classes of a mapping that looks at pixels 0 and 1 only. *)
Definition kblind : cluswisard := ClusWisard 2 PropsCluster.half 4 2 false false true false 2 false false false false 1 (<[hot := Cluster None [Some (Disc 4 1 [Ram [0; 1] {[3 := 1]} false 2])]]> {[cold := Cluster None [Some (Disc 4 1 [Ram [1; 0] {[0 := 1]} false 2])]]})
  (Cluster None [Some (Disc 4 1 [Ram [0; 1] {[3 := 1]} false 2])]).
Example C162_clus_witness : clus_classify kblind [vec_image [1; 1; 0; 0]; vec_image [1; 1; 1; 0]; vec_image [0; 0; 1; 1]] = Ok [hot; hot; cold].
Proof. vm_compute. reflexivity. Qed.
