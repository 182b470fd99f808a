(** Proofs about the Python-facing outputs. *)
From Coq Require Import SpecFloat.
From Verif Require ClusProofs.
From Verif Require Import Prelude Bytes Float32 Utils BinInput Bleaching Ram Disc DataSet Wisard Cluster ClusWisard Wrapper.
From Verif Require Import SpecDisc SpecBleach SpecCluster SpecWisard SpecWrapper CtorFacts DiscCtorProofs BleachProofs WisardSafety.

Lemma rmapM_post {A B C} (f : A -> res B) (g : B -> C) l :
  rmapM (fun x => let* y := f x in Ok (g y)) l = (let* ys := rmapM f l in Ok (g <$> ys)).
Proof.
  induction l as [|x l IH]; [reflexivity|]. cbn [rmapM]. destruct (f x) as [y| | |]; cbn [rbind]; try reflexivity.
  rewrite IH. destruct (rmapM f l); reflexivity.
Qed.

Lemma output_class a c d name n label cand : class_of (classify_output a c d name n label cand) = name label.
Proof.
  unfold classify_output. destruct (negb a && negb c && negb d); [reflexivity|].
  destruct a; [destruct (cand_get cand label) as [v cand']|]; (destruct c; [destruct (cand_get _ label)|]); reflexivity.
Qed.
Lemma output_carries a c d name n label cand : carries a c d (classify_output a c d name n label cand).
Proof.
  unfold classify_output. destruct a, c, d; cbn [negb andb]; repeat (destruct (cand_get _ label)); cbn; auto 10.
Qed.

Lemma py_wisard w im ims : w_addressSize w <> 0 ->
  match wisard_classify w (im :: ims) with
  | Ok labels => exists outs, py_classify w (im :: ims) = Ok outs /\ class_of <$> outs = labels /\
      Forall (carries (w_returnActivationDegree w) (w_returnConfidence w) (w_returnClassesDegrees w)) outs
  | Throw e => py_classify w (im :: ims) = Throw e
  | UB u => py_classify w (im :: ims) = UB u
  | Hang => py_classify w (im :: ims) = Hang
  end.
Proof.
  intros Ha. unfold py_classify, calculateNumberOfRams. destruct (Z.eqb_spec (w_addressSize w) 0) as [E|_]; [contradiction|].
  set (n := if w_completeAddressing w && _ then Ok _ else Ok _).
  assert (exists z, n = Ok z) as [z ->] by (unfold n; destruct (_ && _); eauto). cbn [rbind].
  unfold wisard_classify, wisard_classify1. rewrite (rmapM_post (wisard_candidates w) getBiggestCandidate).
  rewrite (rmapM_post (wisard_candidates w) (fun candidates => classify_output (w_returnActivationDegree w) (w_returnConfidence w) (w_returnClassesDegrees w) (fun k => k) (f32_of_Z z) (getBiggestCandidate candidates) candidates)).
  destruct (rmapM (wisard_candidates w) (im :: ims)) as [cs| | |]; cbn [rbind]; try reflexivity.
  eexists. split; [reflexivity|]. split.
  - rewrite <- list_fmap_compose. apply list_fmap_ext. intros i c _. unfold compose. apply output_class.
  - apply Forall_fmap, Forall_forall. intros c _. apply output_carries.
Qed.
Lemma py_clus k im ims : k_addressSize k <> 0 ->
  match clus_classify k (im :: ims) with
  | Ok labels => exists outs, py_clus_classify k (im :: ims) = Ok outs /\ class_of <$> outs = labels /\
      Forall (carries (k_returnActivationDegree k) (k_returnConfidence k) (k_returnClassesDegrees k)) outs
  | Throw e => py_clus_classify k (im :: ims) = Throw e
  | UB u => py_clus_classify k (im :: ims) = UB u
  | Hang => py_clus_classify k (im :: ims) = Hang
  end.
Proof.
  intros Ha. unfold py_clus_classify, calculateNumberOfRams. destruct (Z.eqb_spec (k_addressSize k) 0) as [E|_]; [contradiction|].
  set (n := if k_completeAddressing k && _ then Ok _ else Ok _).
  assert (exists z, n = Ok z) as [z ->] by (unfold n; destruct (_ && _); eauto). cbn [rbind].
  unfold clus_classify, clus_classify1.
  rewrite (rmapM_post (fun im => clus_candidates k im (k_searchBestConfidence k)) (fun c => before_colons (getBiggestCandidate c))).
  rewrite (rmapM_post (fun im => clus_candidates k im (k_searchBestConfidence k)) (fun candidates => classify_output (k_returnActivationDegree k) (k_returnConfidence k) (k_returnClassesDegrees k) before_colons (f32_of_Z z) (getBiggestCandidate candidates) candidates)).
  destruct (rmapM _ (im :: ims)) as [cs| | |]; cbn [rbind]; try reflexivity.
  eexists. split; [reflexivity|]. split.
  - rewrite <- list_fmap_compose. apply list_fmap_ext. intros i c _. unfold compose. apply output_class.
  - apply Forall_fmap, Forall_forall. intros c _. apply output_carries.
Qed.

(** One output of a batch. *)
Lemma py_item w im0 ims outs i im o : py_classify w (im0 :: ims) = Ok outs -> (im0 :: ims) !! i = Some im -> outs !! i = Some o ->
  exists n cand, calculateNumberOfRams (s32 (im_size im0)) (w_addressSize w) (w_completeAddressing w) = Ok n /\
    wisard_candidates w im = Ok cand /\
    o = classify_output (w_returnActivationDegree w) (w_returnConfidence w) (w_returnClassesDegrees w) (fun k => k) (f32_of_Z n) (getBiggestCandidate cand) cand.
Proof.
  unfold py_classify. destruct (calculateNumberOfRams _ _ _) as [n| | |]; try discriminate. cbn [rbind]. intros H Hi Ho.
  apply rmapM_ok in H. pose proof (Forall2_lookup_lr _ _ _ _ _ _ H Hi Ho) as Hx. cbv beta in Hx.
  destruct (wisard_candidates w im) as [cand| | |]; try discriminate. cbn [rbind] in Hx. injection Hx as <-. eauto.
Qed.
Lemma py_clus_item k im0 ims outs i im o : py_clus_classify k (im0 :: ims) = Ok outs -> (im0 :: ims) !! i = Some im -> outs !! i = Some o ->
  exists n cand, calculateNumberOfRams (s32 (im_size im0)) (k_addressSize k) (k_completeAddressing k) = Ok n /\
    clus_candidates k im (k_searchBestConfidence k) = Ok cand /\
    o = classify_output (k_returnActivationDegree k) (k_returnConfidence k) (k_returnClassesDegrees k) before_colons (f32_of_Z n) (getBiggestCandidate cand) cand.
Proof.
  unfold py_clus_classify. destruct (calculateNumberOfRams _ _ _) as [n| | |]; try discriminate. cbn [rbind]. intros H Hi Ho.
  apply rmapM_ok in H. pose proof (Forall2_lookup_lr _ _ _ _ _ _ H Hi Ho) as Hx. cbv beta in Hx.
  destruct (clus_candidates k im _) as [cand| | |]; try discriminate. cbn [rbind] in Hx. injection Hx as <-. eauto.
Qed.

(** The extras, when the winner is among the candidates. *)
Lemma output_extras (a c d : bool) (name : str -> str) (n : f32) (label : str) (cand : gmap str Z) (v : Z) (s : str) (fa fc : option f32) (fd : option (list (str * f32))) : cand !! label = Some v ->
  classify_output a c d name n label cand = PyDict s fa fc fd ->
  (forall f, fa = Some f -> f = f32_div (f32_of_Z v) n) /\ (forall f, fc = Some f -> f = getConfidence cand v) /\
  (forall l, fd = Some l -> l = getClassesDegrees name cand).
Proof.
  intros Hv. unfold classify_output, cand_get. rewrite Hv. destruct a, c, d; cbn [negb andb]; rewrite ?Hv; try discriminate;
    intros [= <- <- <- <-]; repeat split; intros ? [=]; auto.
Qed.

(** Counts and RAMs. *)
Lemma count_ge_bounds b vs : 0 <= count_ge b vs <= len vs.
Proof. unfold len. induction vs as [|v vs IH]; cbn [count_ge length]; [lia|]. destruct (b <=? v); lia. Qed.
Lemma bleach_loop_counts fuel : forall votes act c b out, bleach_loop fuel votes act c b = Ok out -> exists b', out = counts_at b' votes.
Proof.
  induction fuel as [|fuel IH]; intros votes act c b out; cbn [bleach_loop]; [discriminate|].
  destruct (negb act); [intros [= <-]; eauto|]. destruct (int_of (b + 1)) as [b1| | |]; cbn [rbind]; try discriminate.
  destruct (_ && _); [apply IH|intros [= <-]; eauto].
Qed.
Lemma bleach_counts votes act sbc c out : bleaching_make votes act sbc c = Ok out -> exists b, out = counts_at b votes.
Proof. unfold bleaching_make, makeWithConfidence, makeConfidenceless. destruct sbc; apply bleach_loop_counts. Qed.
Lemma classify_len d im vs : disc_classify d im = Ok vs -> d_entrySize d = s32 (im_size im) /\ length vs = length (d_rams d).
Proof.
  unfold disc_classify, checkEntrySize. destruct (Z.eqb_spec (d_entrySize d) (s32 (im_size im))) as [E|]; cbn [rbind]; [|discriminate].
  intros H. split; [exact E|]. apply rmapM_ok in H. symmetry. eapply Forall2_length, H.
Qed.
Lemma keyed_fst {A B} (f : A -> res B) (l : list (str * A)) vs :
  rmapM (fun kd => let* v := f kd.2 in Ok (kd.1, v)) l = Ok vs ->
  vs.*1 = l.*1 /\ Forall2 (fun kd kv => kd.1 = kv.1 /\ f kd.2 = Ok kv.2) l vs.
Proof.
  intros H. apply rmapM_ok in H. induction H as [|[k a] [k' b] l vs H HF IH]; [split; [reflexivity|constructor]|].
  cbn [fst snd] in H. destruct (f a) as [b'| | |] eqn:E; try discriminate. injection H as <- <-. destruct IH as [IH1 IH2].
  split; [rewrite !fmap_cons; cbn; f_equal; exact IH1|]. constructor; [cbn; auto|exact IH2].
Qed.
Lemma all_votes_elem m im votes : all_votes m im = Ok votes -> forall k vs, votes !! k = Some vs <->
  exists d, m !! k = Some d /\ disc_classify d im = Ok vs.
Proof.
  unfold all_votes. intros H k vs. destruct (rmapM _ _) as [l| | |] eqn:E; try discriminate. cbn [rbind] in H. injection H as <-.
  apply (keyed_fst (fun d => disc_classify d im)) in E as [E1 E2].
  assert (Hnd : NoDup l.*1) by (rewrite E1; apply sorted_items_nodup).
  rewrite <- elem_of_list_to_map by exact Hnd. split.
  - intros Hin. apply elem_of_list_lookup in Hin as [i Hi]. destruct (Forall2_lookup_r _ _ _ _ _ E2 Hi) as ([k' d] & Hd & Hk & Hc).
    cbn in *. subst k'. exists d. split; [|exact Hc]. apply sorted_items_elem, elem_of_list_lookup. eauto.
  - intros (d & Hd & Hc). apply sorted_items_elem, elem_of_list_lookup in Hd as [i Hi]. destruct (Forall2_lookup_l _ _ _ _ _ E2 Hi) as ([k' vs'] & Hd & Hk & Hc').
    cbn in *. subst k'. rewrite Hc in Hc'. injection Hc' as ->. apply elem_of_list_lookup. eauto.
Qed.
Lemma candidates_bound w im cand : wisard_candidates w im = Ok cand -> forall k v, cand !! k = Some v ->
  exists d, w_discriminators w !! k = Some d /\ d_entrySize d = s32 (im_size im) /\ 0 <= v <= len (d_rams d).
Proof.
  unfold wisard_candidates. destruct (all_votes _ im) as [votes| | |] eqn:E; try discriminate. cbn [rbind]. intros H k v Hk.
  apply bleach_counts in H as [b ->]. unfold counts_at in Hk. rewrite lookup_fmap in Hk. destruct (votes !! k) as [vs|] eqn:Ev; [|discriminate].
  injection Hk as <-. apply (all_votes_elem _ _ _ E) in Ev as (d & Hd & Hc). apply classify_len in Hc as [He Hl].
  exists d. split; [exact Hd|]. split; [exact He|]. pose proof (count_ge_bounds b vs). unfold len in *. lia.
Qed.
Lemma candidates_dom w im cand k : wisard_candidates w im = Ok cand -> is_Some (cand !! k) <-> is_Some (w_discriminators w !! k).
Proof.
  unfold wisard_candidates. destruct (all_votes _ im) as [votes| | |] eqn:E; try discriminate. cbn [rbind]. intros H.
  apply bleach_counts in H as [b ->]. unfold counts_at. rewrite lookup_fmap, fmap_is_Some. split.
  - intros [vs Hv]. apply (all_votes_elem _ _ _ E) in Hv as (d & Hd & _). eauto.
  - intros [d Hd]. unfold all_votes in E. destruct (rmapM _ _) as [l| | |] eqn:E'; try discriminate. 
    apply (keyed_fst (fun d => disc_classify d im)) in E' as [E1 E2]. apply sorted_items_elem, elem_of_list_lookup in Hd as [i Hi].
    destruct (Forall2_lookup_l _ _ _ _ _ E2 Hi) as ([k' vs'] & Hl & Hk & Hc). cbn in *. subst k'. exists vs'.
    apply (all_votes_elem (w_discriminators w) im); [|exists d; split; [|exact Hc]].
    + unfold all_votes. rewrite <- E. assert (Hx : rmapM (fun kd : str * disc => let* v := disc_classify kd.2 im in Ok (kd.1, v)) (sorted_items (w_discriminators w)) = Ok l).
      { apply rmapM_ok. eapply Forall2_impl; [exact E2|]. intros [k1 d1] [k2 v2] [H1 H2]. cbn in *. subst. rewrite H2. reflexivity. }
      rewrite Hx. cbn [rbind]. f_equal.
    + apply sorted_items_elem, elem_of_list_lookup. eauto.
Qed.

(** Number of RAMs of the discriminators of a Wisard without mapping and indexes. *)
Definition counted (w : wisard) (d : disc) : Prop :=
  (d_entrySize d = 0 /\ d_rams d = []) \/
  (1 <= len (d_rams d) /\ calculateNumberOfRams (d_entrySize d) (w_addressSize w) (w_completeAddressing w) = Ok (len (d_rams d))).
Definition cinv (w0 w : wisard) : Prop :=
  w_mapping w = ∅ /\ w_indexes w = [] /\ w_addressSize w = w_addressSize w0 /\ w_completeAddressing w = w_completeAddressing w0 /\
  forall l d, w_discriminators w !! l = Some d -> counted w0 d.
Lemma same_counted w d d' : d_entrySize d' = d_entrySize d -> length (d_rams d') = length (d_rams d) -> counted w d -> counted w d'.
Proof.
  intros H1 H2 [[H3 H4]|[H3 H4]]; [left|right]; unfold len in *; rewrite H1.
  - split; [exact H3|]. rewrite H4 in H2. destruct (d_rams d'); [reflexivity|discriminate].
  - rewrite H2. auto.
Qed.
Lemma cinv_at w0 f w l : (forall d, d_entrySize (snd (f d)) = d_entrySize d /\ length (d_rams (snd (f d))) = length (d_rams d)) ->
  cinv w0 w -> cinv w0 (snd (at_label f w l)).
Proof.
  intros Hf (H1 & H2 & H3 & H4 & Hd). unfold at_label. destruct (w_discriminators w !! l) as [d|] eqn:E; [|repeat split; assumption].
  destruct (Hf d) as [F1 F2]. destruct (f d) as [o d']. cbn [snd] in *. repeat split; try assumption. intros k dk. cbn.
  destruct (decide (l = k)) as [<-|Hn].
  - rewrite lookup_insert. intros [= <-]. eapply same_counted; eauto.
  - rewrite lookup_insert_ne by exact Hn. apply Hd.
Qed.
Lemma mapping_length d d' : disc_mapping d' = disc_mapping d -> length (d_rams d') = length (d_rams d).
Proof. intros H. apply (f_equal length) in H. unfold disc_mapping in H. rewrite !fmap_length in H. exact H. Qed.
Lemma train_size d x : d_entrySize (snd (disc_train d x)) = d_entrySize d /\ length (d_rams (snd (disc_train d x))) = length (d_rams d).
Proof. destruct (train_wiring d x) as [H1 H2]. split; [exact H1|apply mapping_length, H2]. Qed.
Lemma untrain_size d x : d_entrySize (snd (disc_untrain d x)) = d_entrySize d /\ length (d_rams (snd (disc_untrain d x))) = length (d_rams d).
Proof.
  unfold disc_untrain. destruct (checkEntrySize _ _); try (split; reflexivity). destruct (int_of _); try (split; reflexivity).
  assert (H : forall r, r_addresses (snd (ram_untrain r x)) = r_addresses r).
  { intros r. unfold ram_untrain. destruct (getIndex r x); try reflexivity. destruct (_ !! _); [destruct (int_of _)|]; reflexivity. }
  pose proof (rams_update_addresses (fun r => ram_untrain r x) (d_rams d) H) as H1.
  destruct (rams_update _ _) as [o rs]. cbn [snd d_entrySize d_rams] in *. split; [reflexivity|].
  apply (f_equal length) in H1. rewrite !fmap_length in H1. exact H1.
Qed.
Lemma counted_new w0 w dr l n d : cinv w0 w -> valid_draw dr -> construct_discriminator dr w l n = Ok d -> counted w0 d.
Proof.
  intros (H1 & H2 & H3 & H4 & _) Hdr. unfold construct_discriminator. rewrite H1, H2, lookup_empty. cbn [length Nat.eqb negb]. intros E.
  assert (E' : disc_new dr (w_addressSize w) n (w_ignoreZero w) (w_completeAddressing w) [] [] (w_base w) = Ok d) by exact E.
  pose proof (number_of_rams _ _ _ _ _ _ _ Hdr E') as Hn.
  assert (He : d_entrySize d = n /\ 2 <= w_addressSize w <= n).
  { unfold setRAMShuffle in E. destruct (checkAddressSize n (w_addressSize w)) eqn:Ec; try discriminate. cbn [rbind] in E.
    unfold checkAddressSize in Ec. destruct (Z.ltb_spec (w_addressSize w) 2); [discriminate|]. destruct (Z.ltb_spec n 2); [discriminate|].
    destruct (Z.ltb_spec n (w_addressSize w)); [discriminate|].
    destruct (checkBase _); try discriminate. cbn [rbind] in E. destruct (int_of _); try discriminate. cbn [rbind] in E.
    destruct (rmapM _ _); try discriminate. cbn [rbind] in E. destruct (make_rams _ _ _ _ _); try discriminate. cbn [rbind] in E. injection E as <-. cbn. lia. }
  destruct He as [He Ha]. right. rewrite He, <- H3, <- H4. split; [|exact Hn].
  unfold calculateNumberOfRams in Hn. destruct (Z.eqb_spec (w_addressSize w) 0); [lia|].
  assert (1 <= Z.quot n (w_addressSize w)). { rewrite Z.quot_div_nonneg by lia. apply Z.div_le_lower_bound; lia. }
  destruct (_ && _); injection Hn as Hn; lia.
Qed.
Lemma cinv_train1 w0 lhs env w x l : valid_draw (env l) -> cinv w0 w -> cinv w0 (snd (wisard_train1 lhs env w x l)).
Proof.
  intros Hdr Hw. unfold wisard_train1. destruct (w_discriminators w !! l) as [d|] eqn:E; [apply cinv_at; [intros; apply train_size|exact Hw]|].
  assert (Hins : forall d, counted w0 d -> cinv w0 (with_discriminators w (<[l := d]> (w_discriminators w)))).
  { intros d Hd. destruct Hw as (H1 & H2 & H3 & H4 & Hdd). repeat split; try assumption. intros k dk. cbn. destruct (decide (l = k)) as [<-|Hn].
    - rewrite lookup_insert. intros [= <-]. exact Hd.
    - rewrite lookup_insert_ne by exact Hn. apply Hdd. }
  unfold makeDiscriminator. destruct (construct_discriminator _ _ _ _) as [d| | |] eqn:Ec; cbn [ebind]; [| |exact Hw|exact Hw].
  - apply cinv_at; [intros; apply train_size|]. apply Hins. eapply counted_new; eassumption.
  - destruct lhs; [|exact Hw]. apply Hins. left. split; reflexivity.
Qed.
Lemma cinv_train w0 lhs env : (forall l, valid_draw (env l)) -> forall images labels w, cinv w0 w -> cinv w0 (snd (wisard_train lhs env w images labels)).
Proof.
  intros Hdr. assert (HL : forall images labels w, cinv w0 w -> cinv w0 (snd (wisard_train_loop lhs env w images labels))).
  { induction images as [|x xs IH]; intros [|l ls] w Hw; cbn [wisard_train_loop]; try exact Hw.
    pose proof (cinv_train1 w0 lhs env w x l (Hdr l) Hw) as H1. destruct (wisard_train1 lhs env w x l) as [[[]| | |] w1]; cbn [ebind snd] in *; try exact H1.
    apply IH, H1. }
  intros images labels w Hw. unfold wisard_train. destruct images as [|x xs]; [exact Hw|].
  destruct (calculateNumberOfRams _ _ _); try exact Hw. destruct (checkConfidence _ _); try exact Hw. destruct (checkInputSizes _ _); try exact Hw. apply HL, Hw.
Qed.
Lemma cinv_leave1 w0 w x l : cinv w0 w -> cinv w0 (snd (leaveOneOut w x l)).
Proof. intros Hw. unfold leaveOneOut. destruct (_ !! _); [|exact Hw]. apply cinv_at; [intros; apply untrain_size|exact Hw]. Qed.
Lemma cinv_leave w0 : forall images labels w, cinv w0 w -> cinv w0 (snd (leaveMoreOut w images labels)).
Proof.
  assert (HL : forall images labels w, cinv w0 w -> cinv w0 (snd (leaveMoreOut_loop w images labels))).
  { induction images as [|x xs IH]; intros [|l ls] w Hw; cbn [leaveMoreOut_loop]; try exact Hw.
    pose proof (cinv_leave1 w0 w x l Hw) as H1. destruct (leaveOneOut w x l) as [[[]| | |] w1]; cbn [ebind snd] in *; try exact H1. apply IH, H1. }
  intros images labels w Hw. unfold leaveMoreOut. destruct (checkInputSizes _ _); try exact Hw. apply HL, Hw.
Qed.
Lemma cinv_reaches lhs w0 w : w_mapping w0 = ∅ -> w_indexes w0 = [] -> w_discriminators w0 = ∅ -> wreaches lhs w0 w -> cinv w0 w.
Proof.
  intros Hm Hi Hd H. induction H as [|w c o w' _ IH Hc E _].
  - repeat split; try assumption. intros l d. rewrite Hd, lookup_empty. discriminate.
  - assert (E' : w' = snd (wcall_run lhs w c)) by (rewrite E; reflexivity). rewrite E'. destruct c; cbn [wcall_run].
    + apply cinv_train; assumption.
    + apply cinv_leave1, IH.
    + apply cinv_leave, IH.
Qed.

(** Counts of a ClusWisard: one per discriminator. *)
Lemma cluster_classify_len c im vs : cluster_classify c im = Ok vs -> length vs = length (c_discs c).
Proof. unfold cluster_classify, on_discs. intros H. apply rmapM_ok in H. symmetry. eapply Forall2_length, H. Qed.
Lemma clus_cand_dom k im sbc cand key : clus_candidates k im sbc = Ok cand ->
  is_Some (cand !! key) <-> exists l c j, k_clusters k !! l = Some c /\ (j < length (c_discs c))%nat /\ key = cluster_key l j.
Proof.
  unfold clus_candidates. destruct (clus_votes _ im) as [votes| | |] eqn:E; try discriminate. cbn [rbind]. intros H.
  apply bleach_counts in H as [b ->]. unfold counts_at. rewrite lookup_fmap, fmap_is_Some. destruct (Verif.ClusProofs.clus_votes_spec _ _ _ E) as [Hc Hs]. split.
  - intros [v Hv]. apply Hs in Hv as (l & c & vs & j & Hl & Ec & Hj & ->). exists l, c, j. split; [exact Hl|]. split; [|reflexivity].
    rewrite <- (cluster_classify_len _ _ _ Ec). eapply lookup_lt_Some. exact Hj.
  - intros (l & c & j & Hl & Hj & ->). destruct (Hc l c Hl) as [vs Ec]. rewrite <- (cluster_classify_len _ _ _ Ec) in Hj.
    apply lookup_lt_is_Some_2 in Hj as [v Hv]. exists v. apply Hs. exists l, c, vs, j. auto.
Qed.
Lemma clus_cand_pos k im sbc cand key v : clus_candidates k im sbc = Ok cand -> cand !! key = Some v -> 0 <= v.
Proof.
  unfold clus_candidates. destruct (clus_votes _ im) as [votes| | |] eqn:E; try discriminate. cbn [rbind]. intros H.
  apply bleach_counts in H as [b ->]. unfold counts_at. rewrite lookup_fmap. destruct (votes !! key) as [vs|]; [|discriminate]. intros [= <-].
  apply count_ge_bounds.
Qed.
