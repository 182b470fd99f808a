(** Property theorems C94-C100: what classify returns in Python. Vocabulary in SpecWrapper.v;
    [ratio_of f a b] (WrapperReals.v): the float f is a/b to 25 bits, lies in [0,1], and is 0 or 1
    exactly when a/b is; [runner_up b m s]: s is the largest count below b, 0 if there is none. *)
From Coq Require Import SpecFloat.
From Verif Require Import Prelude Bytes Float32 Utils BinInput Bleaching Ram Disc DataSet Wisard Cluster ClusWisard Wrapper.
From Verif Require Import SpecDisc SpecBleach SpecCluster SpecWisard SpecWrapper CtorFacts BleachProofs WrapperProofs WrapperReals SpecClus ClusProofs ClusCounts.

(** A model with all three extras requested, over 4 binary pixels with address size 2. *)
Definition pcfg (bleaching act conf deg : bool) : wisard := Wisard 2 bleaching false ∅ [] false true 2 false conf act deg 1 ∅.
Definition p1 := vec_image [1; 1; 0; 0].
Definition p2 := vec_image [0; 0; 1; 1].
Definition p3 := vec_image [1; 1; 0; 1].
Definition ptrained (w : wisard) : wisard := snd (wisard_train false (fun _ => some_draw) w [p1; p1; p2] [lit "a"; lit "a"; lit "b"]).

(** C94: for a non-empty batch the Python call names the classes the C++ call returns, with
    exactly the requested extras, and fails exactly when the C++ call does. *)
Theorem C94_wisard_python_classify : forall w im ims, w_addressSize w <> 0 ->
  match wisard_classify w (im :: ims) with
  | Ok labels => exists outs, py_classify w (im :: ims) = Ok outs /\ class_of <$> outs = labels /\
      Forall (carries (w_returnActivationDegree w) (w_returnConfidence w) (w_returnClassesDegrees w)) outs
  | Throw e => py_classify w (im :: ims) = Throw e
  | UB u => py_classify w (im :: ims) = UB u
  | Hang => py_classify w (im :: ims) = Hang
  end.
Proof. exact py_wisard. Qed.
Print Assumptions C94_wisard_python_classify.
(** The same for the Python call on a dataset: the images are those of the dataset, in order. *)
Theorem C94_wisard_python_classify_dataset : forall w ds, w_addressSize w <> 0 -> ds_data ds <> [] ->
  match wisard_classify w (bin_image <$> ds_data ds) with
  | Ok labels => exists outs, py_classify_ds w ds = Ok outs /\ class_of <$> outs = labels /\
      Forall (carries (w_returnActivationDegree w) (w_returnConfidence w) (w_returnClassesDegrees w)) outs
  | Throw e => py_classify_ds w ds = Throw e
  | UB u => py_classify_ds w ds = UB u
  | Hang => py_classify_ds w ds = Hang
  end.
Proof. intros w ds Ha Hd. unfold py_classify_ds. destruct (ds_data ds) as [|b bs]; [congruence|]. rewrite fmap_cons. apply py_wisard, Ha. Qed.
Print Assumptions C94_wisard_python_classify_dataset.
Theorem C94_cluswisard_python_classify : forall k im ims, k_addressSize k <> 0 ->
  match clus_classify k (im :: ims) with
  | Ok labels => exists outs, py_clus_classify k (im :: ims) = Ok outs /\ class_of <$> outs = labels /\
      Forall (carries (k_returnActivationDegree k) (k_returnConfidence k) (k_returnClassesDegrees k)) outs
  | Throw e => py_clus_classify k (im :: ims) = Throw e
  | UB u => py_clus_classify k (im :: ims) = UB u
  | Hang => py_clus_classify k (im :: ims) = Hang
  end.
Proof. exact py_clus. Qed.
Print Assumptions C94_cluswisard_python_classify.
Example C94_witness :
  rmap (fmap class_of) (py_classify (ptrained (pcfg true true true true)) [p1; p2; p3]) = Ok [lit "a"; lit "b"; lit "a"] /\
  py_classify (ptrained (pcfg true false false false)) [p1; p2] = Ok [PyLabel (lit "a"); PyLabel (lit "b")] /\
  py_classify (ptrained (pcfg true false false false)) [vec_image [1]] = Throw entry_exn.
Proof. split; [vm_compute; reflexivity|]. split; [vm_compute; reflexivity|vm_compute; reflexivity]. Qed.

(** C95: an empty batch. The C++ calls return an empty list; the Python ones read images[0]. *)
Theorem C95_empty_batch_refuted :
  (forall w, wisard_classify w [] = Ok [] /\ py_classify w [] = UB UBIndex) /\
  (forall w, py_classify_ds w ds_empty = UB UBIndex) /\
  (forall k, clus_classify k [] = Ok [] /\ py_clus_classify k [] = UB UBIndex).
Proof. split; [|split]; intros; try split; reflexivity. Qed.
Print Assumptions C95_empty_batch_refuted.
(** What holds: the calls that read no first image return the empty list. *)
Theorem C95_empty_batch_partial : forall w k,
  wisard_classify w [] = Ok [] /\ wisard_classify_ds w ds_empty = Ok [] /\ clus_classify k [] = Ok [] /\ clus_classifyUnsupervised k [] = Ok [].
Proof. intros. repeat split; reflexivity. Qed.
Print Assumptions C95_empty_batch_partial.

(** C96: the activation degree. With a mapping it is not the fraction of RAMs that recognised
    the image: the winner below has 4 RAMs, all of them vote, and the degree is 2. *)
Definition mcfg : wisard := Wisard 2 false false {[ lit "a" := [[0; 1]; [1; 2]; [2; 3]; [3; 0]] ]} [] false true 2 false false true false 1 ∅.
Theorem C96_activation_degree_refuted : exists w outs f, wreaches false mcfg w /\
  py_classify w [p1] = Ok outs /\ outs = [PyDict (lit "a") (Some f) None None] /\ f32_ltb f32_one f = true.
Proof.
  exists (snd (wisard_train false (fun _ => some_draw) mcfg [p1] [lit "a"])). exists [PyDict (lit "a") (Some (f32_of_Z 2)) None None], (f32_of_Z 2).
  split; [|split; [vm_compute; reflexivity|split; [reflexivity|vm_compute; reflexivity]]].
  apply (wreach_call _ _ mcfg (CTrain (fun _ => some_draw) [p1] [lit "a"]) (Ok tt)); [apply wreach_here|intros l; apply some_draw_valid|vm_compute; reflexivity|exact I].
Qed.
Print Assumptions C96_activation_degree_refuted.
(** What holds: for a Wisard without mapping and index list, after any calls, the degree is the
    number of RAMs that voted for the winner at the final threshold over the number of RAMs of
    its discriminator. Missing: models with a mapping or an index list (false for the former). *)
Theorem C96_activation_degree_partial : forall lhs_first w0 w im0 ims outs i im c f conf ds,
  w_mapping w0 = ∅ -> w_indexes w0 = [] -> w_discriminators w0 = ∅ -> wreaches lhs_first w0 w ->
  s32 (im_size im0) <> 0 -> (forall im, im ∈ ims -> im_size im = im_size im0) ->
  py_classify w (im0 :: ims) = Ok outs -> (im0 :: ims) !! i = Some im -> outs !! i = Some (PyDict c (Some f) conf ds) ->
  w_discriminators w <> ∅ ->
  exists d v cand, w_discriminators w !! c = Some d /\ wisard_candidates w im = Ok cand /\ cand !! c = Some v /\
    0 <= v <= len (d_rams d) /\ (len (d_rams d) <= 2 ^ 24 -> ratio_of f v (len (d_rams d))).
Proof.
  intros lhs w0 w im0 ims outs i im c f conf ds Hm Hi Hd Hr Hs0 Hsz E Him Ho Hne.
  destruct (cinv_reaches lhs w0 w Hm Hi Hd Hr) as (_ & _ & Ha & Hc & Hinv).
  destruct (py_item _ _ _ _ _ _ _ E Him Ho) as (n & cand & En & Ec & Eo).
  pose proof (candidates_bound w im cand Ec) as Hb.
  assert (Hpos : forall k v, cand !! k = Some v -> 0 <= v) by (intros k v Hk; destruct (Hb k v Hk) as (d & _ & _ & Hv); lia).
  assert (Hcne : cand <> ∅).
  { apply map_choose in Hne as (l & d & Hl). destruct (proj2 (candidates_dom w im cand l Ec)) as [v Hv]; [eauto|]. intros ->. rewrite lookup_empty in Hv. discriminate. }
  destruct (biggest_winner cand Hpos Hcne) as (v & Hv & _).
  assert (Hcl : c = getBiggestCandidate cand). { apply (f_equal class_of) in Eo. rewrite output_class in Eo. exact Eo. }
  destruct (Hb _ _ Hv) as (d & Hdd & He & Hvb). rewrite <- Hcl in *.
  exists d, v, cand. split; [exact Hdd|]. split; [exact Ec|]. split; [exact Hv|]. split; [exact Hvb|]. intros Hl.
  destruct (output_extras _ _ _ _ _ _ _ v c (Some f) conf ds Hv (eq_sym Eo)) as (Hf & _). rewrite (Hf f eq_refl).
  assert (Hsize : im_size im = im_size im0). { destruct i as [|i]; [injection Him as <-; reflexivity|]. apply Hsz. eapply elem_of_list_lookup_2. exact Him. }
  rewrite Hsize in He. destruct (Hinv _ _ Hdd) as [[H _]|[Hl1 Hn]]; [congruence|].
  rewrite He, <- Ha, <- Hc, En in Hn. injection Hn as ->. apply ratio_law; lia.
Qed.
Print Assumptions C96_activation_degree_partial.
Example C96_witness : exists w, wreaches false (pcfg false true false false) w /\
  py_classify w [p1; p3] = Ok [PyDict (lit "a") (Some f32_one) None None; PyDict (lit "a") (Some (f32_div f32_one (f32_of_Z 2))) None None].
Proof.
  exists (ptrained (pcfg false true false false)). split; [|vm_compute; reflexivity].
  apply (wreach_call _ _ (pcfg false true false false) (CTrain (fun _ => some_draw) [p1; p1; p2] [lit "a"; lit "a"; lit "b"]) (Ok tt)); [apply wreach_here|intros l; apply some_draw_valid|vm_compute; reflexivity|exact I].
Qed.

(** C97: the confidence. It should lie in [0,1] and be 0 for a tie. Without bleaching a perfect
    tie reports confidence 1, and with bleaching the same tie reports NaN. *)
Definition tied (w : wisard) : wisard := snd (wisard_train false (fun _ => some_draw) w [p1; p1] [lit "a"; lit "b"]).
Theorem C97_confidence_refuted :
  (exists cand, wisard_candidates (tied (pcfg false false true false)) p1 = Ok cand /\ cand !! lit "a" = Some 2 /\ cand !! lit "b" = Some 2 /\
     py_classify (tied (pcfg false false true false)) [p1] = Ok [PyDict (lit "b") None (Some f32_one) None]) /\
  py_classify (tied (pcfg true false true false)) [p1] = Ok [PyDict (lit "b") None (Some S754_nan) None].
Proof.
  split; [|vm_compute; reflexivity]. eexists. split; [vm_compute; reflexivity|]. split; [vm_compute; reflexivity|]. split; [vm_compute; reflexivity|vm_compute; reflexivity].
Qed.
Print Assumptions C97_confidence_refuted.
(** What holds: when the winner has a positive count b, the confidence is (b - s)/b with s the
    largest count strictly below b. Missing: ties count as no competition, and b = 0 gives NaN. *)
Theorem C97_confidence_partial : forall w im0 ims outs i im c act f ds cand b,
  py_classify w (im0 :: ims) = Ok outs -> (im0 :: ims) !! i = Some im -> outs !! i = Some (PyDict c act (Some f) ds) ->
  wisard_candidates w im = Ok cand -> cand !! c = Some b -> 0 < b <= 2 ^ 24 ->
  exists s, runner_up b cand s /\ ratio_of f (b - s) b.
Proof.
  intros w im0 ims outs i im c act f ds cand b E Him Ho Ec Hb Hbb.
  destruct (py_item _ _ _ _ _ _ _ E Him Ho) as (n & cand' & _ & Ec' & Eo). rewrite Ec in Ec'. injection Ec' as <-.
  assert (Hcl : c = getBiggestCandidate cand). { apply (f_equal class_of) in Eo. rewrite output_class in Eo. exact Eo. }
  subst c. destruct (output_extras _ _ _ _ _ _ _ b (getBiggestCandidate cand) act (Some f) ds Hb (eq_sym Eo)) as (_ & Hf & _). rewrite (Hf f eq_refl).
  apply confidence_law; [exact Hbb|]. intros k v Hk. destruct (candidates_bound w im cand Ec k v Hk) as (d & _ & _ & Hv). lia.
Qed.
Print Assumptions C97_confidence_partial.
Example C97_witness : exists cand, wisard_candidates (ptrained (pcfg false false true false)) p3 = Ok cand /\
  cand !! lit "a" = Some 1 /\ cand !! lit "b" = Some 0 /\
  py_classify (ptrained (pcfg false false true false)) [p3] = Ok [PyDict (lit "a") None (Some f32_one) None].
Proof. eexists. split; [vm_compute; reflexivity|]. split; [vm_compute; reflexivity|]. split; [vm_compute; reflexivity|vm_compute; reflexivity]. Qed.

(** C98: the class degrees of a Wisard: one entry per trained class. An untrained model asked
    for confidence as well lists a class "" that does not exist. *)
Theorem C98_classes_degrees_refuted :
  py_classify (pcfg true false false true) [p1] = Ok [PyDict [] None None (Some [])] /\
  py_classify (pcfg true true false true) [p1] = Ok [PyDict [] (Some f32_zero) None (Some [([], f32_zero)])].
Proof. split; vm_compute; reflexivity. Qed.
Print Assumptions C98_classes_degrees_refuted.
(** What holds: for a trained model, one entry per trained class, in ascending order of label,
    each with its share of the counts (all 0 when every count is 0). Missing: untrained models. *)
Theorem C98_classes_degrees_partial : forall w im0 ims outs i im c act conf l cand,
  py_classify w (im0 :: ims) = Ok outs -> (im0 :: ims) !! i = Some im -> outs !! i = Some (PyDict c act conf (Some l)) ->
  wisard_candidates w im = Ok cand -> w_discriminators w <> ∅ -> counts_sum cand <= 2 ^ 24 ->
  (forall k, k ∈ l.*1 <-> is_Some (w_discriminators w !! k)) /\ NoDup l.*1 /\ StronglySorted str_le l.*1 /\
  forall k f, (k, f) ∈ l -> exists v, cand !! k = Some v /\ ratio_of f v (Z.max 1 (counts_sum cand)).
Proof.
  intros w im0 ims outs i im c act conf l cand E Him Ho Ec Hne Hs.
  destruct (py_item _ _ _ _ _ _ _ E Him Ho) as (n & cand' & _ & Ec' & Eo). rewrite Ec in Ec'. injection Ec' as <-.
  assert (Hpos : forall k v, cand !! k = Some v -> 0 <= v) by (intros k v Hk; destruct (candidates_bound w im cand Ec k v Hk) as (d & _ & _ & Hv); lia).
  assert (Hcne : cand <> ∅).
  { apply map_choose in Hne as (l0 & d & Hl). destruct (proj2 (candidates_dom w im cand l0 Ec)) as [v Hv]; [eauto|]. intros ->. rewrite lookup_empty in Hv. discriminate. }
  destruct (biggest_winner cand Hpos Hcne) as (v & Hv & _).
  destruct (output_extras _ _ _ _ _ _ _ v c act conf (Some l) Hv (eq_sym Eo)) as (_ & _ & Hl). specialize (Hl l eq_refl).
  pose proof (degrees_law (fun k => k) cand Hpos Hs) as HF. rewrite <- Hl in HF. clear Hl.
  assert (Hk : l.*1 = (sorted_items cand).*1). { clear - HF. induction HF as [|[k v] [k' f] l1 l2 [H _] HF IH]; [reflexivity|]. rewrite !fmap_cons. cbn in *. subst. f_equal. exact IH. }
  split; [|split; [|split]].
  - intros k. rewrite Hk, <- (candidates_dom w im cand k Ec). rewrite elem_of_list_fmap. split.
    + intros ([k' v'] & -> & H). apply sorted_items_elem in H. eauto.
    + intros [v' H]. exists (k, v'). split; [reflexivity|]. apply sorted_items_elem, H.
  - rewrite Hk. apply sorted_items_nodup.
  - rewrite Hk. clear. pose proof (sorted_items_sorted cand) as HS. induction HS as [|[k v'] l' HS IH HFa]; [constructor|]. rewrite fmap_cons. constructor; [apply IH|].
    apply Forall_fmap. eapply Forall_impl; [exact HFa|]. intros y Hy. exact Hy.
  - intros k f Hf. apply elem_of_list_lookup in Hf as [j Hj]. destruct (Forall2_lookup_r _ _ _ _ _ HF Hj) as ([k' v'] & Hj' & H1 & H2). cbn in *. subst k'.
    exists v'. split; [|exact H2]. apply sorted_items_elem, elem_of_list_lookup. eauto.
Qed.
Print Assumptions C98_classes_degrees_partial.
Example C98_witness : counts_sum {[ lit "a" := 1; lit "b" := 1 ]} = 2 /\
  py_classify (tied (pcfg false false false true)) [p1] =
  Ok [PyDict (lit "b") None None (Some [(lit "a", f32_div f32_one (f32_of_Z 2)); (lit "b", f32_div f32_one (f32_of_Z 2))])].
Proof. split; vm_compute; reflexivity. Qed.

(** C99: the activation degree of a ClusWisard: after any training calls, it is the number of
    RAMs that voted for the winning discriminator (one of the class it names, with the largest
    count) over the number of RAMs of that discriminator. *)
Theorem C99_cluswisard_activation_degree : forall lhs_first k0 k im0 ims outs i im c f conf ds l0 cl0,
  is_int (k_addressSize k0) -> k_clusters k0 = ∅ -> kreaches lhs_first k0 k ->
  (forall im, im ∈ ims -> im_size im = im_size im0) ->
  py_clus_classify k (im0 :: ims) = Ok outs -> (im0 :: ims) !! i = Some im -> outs !! i = Some (PyDict c (Some f) conf ds) ->
  k_clusters k !! l0 = Some cl0 -> c_discs cl0 <> [] ->
  exists cand l cl j d v, clus_candidates k im (k_searchBestConfidence k) = Ok cand /\
    k_clusters k !! l = Some cl /\ c_discs cl !! j = Some (Some d) /\ (plain_label l -> c = l) /\
    cand !! cluster_key l j = Some v /\ (forall key v', cand !! key = Some v' -> v' <= v) /\
    0 <= v <= len (d_rams d) /\ (len (d_rams d) <= 2 ^ 24 -> ratio_of f v (len (d_rams d))).
Proof.
  intros lhs k0 k im0 ims outs i im c f conf ds l0 cl0 Hi H0 Hr Hsz E Him Ho Hl0 Hne.
  destruct (kinv_reaches k0 lhs Hi k H0 Hr) as (Ha & Hc & Hinv).
  destruct (py_clus_item _ _ _ _ _ _ _ E Him Ho) as (n & cand & En & Ec & Eo).
  assert (Hpos : forall k v, cand !! k = Some v -> 0 <= v) by (intros key v Hk; exact (clus_cand_pos _ _ _ _ _ _ Ec Hk)).
  assert (Hcne : cand <> ∅).
  { destruct (proj2 (clus_cand_dom k im _ cand (cluster_key l0 0) Ec)) as [v Hv].
    - exists l0, cl0, 0%nat. split; [exact Hl0|]. split; [|reflexivity]. destruct (c_discs cl0); [congruence|cbn; lia].
    - intros ->. rewrite lookup_empty in Hv. discriminate. }
  destruct (biggest_winner cand Hpos Hcne) as (v & Hv & Hmax).
  destruct (clus_cand_bound _ _ _ _ _ _ Ec Hv) as (l & cl & j & d & Hl & Hj & Hkey & He & Hvb).
  assert (Hcl : c = before_colons (getBiggestCandidate cand)). { apply (f_equal class_of) in Eo. rewrite output_class in Eo. exact Eo. }
  exists cand, l, cl, j, d, v. split; [exact Ec|]. split; [exact Hl|]. split; [exact Hj|].
  split. { intros Hp. rewrite Hcl, Hkey. unfold cluster_key. apply before_colons_key, Hp. }
  split; [rewrite <- Hkey; exact Hv|]. split; [intros key v' Hk; destruct (Hmax key v' Hk); lia|]. split; [exact Hvb|]. intros Hle.
  destruct (output_extras _ _ _ _ _ _ _ v c (Some f) conf ds Hv (eq_sym Eo)) as (Hf & _). rewrite (Hf f eq_refl).
  assert (Hsize : im_size im = im_size im0). { destruct i as [|i]; [injection Him as <-; reflexivity|]. apply Hsz. eapply elem_of_list_lookup_2. exact Him. }
  rewrite Hsize in He. destruct (Hinv _ _ Hl) as [_ HF]. rewrite Forall_lookup in HF. destruct (HF _ _ Hj) as [Hl1 Hn].
  rewrite He, <- Ha, <- Hc, En in Hn. injection Hn as ->. apply ratio_law; lia.
Qed.
Print Assumptions C99_cluswisard_activation_degree.
Definition kfg2 : cluswisard := ClusWisard 2 (f32_div f32_one (f32_of_Z 2)) 1 5 false false true false 2 false false true true 1 ∅ cluster_default.
Definition ktwice : cluswisard := snd (clus_train false (fun _ => some_draw) kfg2 [p1; p2] [lit "a"; lit "a"]).
Example C99_witness : kreaches false kfg2 ktwice /\
  py_clus_classify ktwice [p3] = Ok [PyDict (lit "a") (Some (f32_div f32_one (f32_of_Z 2))) None (Some [(lit "a", f32_one); (lit "a", f32_zero)])].
Proof.
  split; [|vm_compute; reflexivity].
  apply (kreach_call _ _ kfg2 (KTrain (fun _ => some_draw) [p1; p2] [lit "a"; lit "a"]) (Ok tt)); [apply kreach_here|intros i; apply some_draw_valid|vm_compute; reflexivity|exact I].
Qed.

(** C100: confidence and class degrees of a ClusWisard. One entry per class is expected, but a
    class with two discriminators is listed twice (C99_witness is another case), and the
    confidence weighs the discriminators of the winning class against each other: an image
    recognised by both discriminators of the only class, by one of them half, has confidence 1/2. *)
Definition kboth : cluswisard := snd (clus_train false (fun _ => some_draw)
  (ClusWisard 2 f32_one 1 5 false false true false 2 false true false true 1 ∅ cluster_default) [p1; p3] [lit "a"; lit "a"]).
Theorem C100_cluswisard_extras_refuted :
  (k_clusters kboth !! lit "b" = None) /\
  exists f g, py_clus_classify kboth [p1] = Ok [PyDict (lit "a") None (Some (f32_div f32_one (f32_of_Z 2))) (Some [(lit "a", f); (lit "a", g)])].
Proof. split; [vm_compute; reflexivity|]. eexists. eexists. vm_compute. reflexivity. Qed.
Print Assumptions C100_cluswisard_extras_refuted.
(** What holds: the degrees are one entry per discriminator, in ascending order of
    "label::index", each with its share of the counts; the confidence is (b - s)/b for the
    largest count b > 0 of a discriminator and the largest count s below b. Missing: both are per
    discriminator instead of per class. *)
Theorem C100_cluswisard_extras_partial : forall k im0 ims outs i im c act conf degrees l0 cl0,
  py_clus_classify k (im0 :: ims) = Ok outs -> (im0 :: ims) !! i = Some im -> outs !! i = Some (PyDict c act conf degrees) ->
  k_clusters k !! l0 = Some cl0 -> c_discs cl0 <> [] ->
  exists cand, clus_candidates k im (k_searchBestConfidence k) = Ok cand /\
    (forall key, is_Some (cand !! key) <-> exists l cl j, k_clusters k !! l = Some cl /\ (j < length (c_discs cl))%nat /\ key = cluster_key l j) /\
    (forall f key b, conf = Some f -> winner cand key -> cand !! key = Some b -> 0 < b <= 2 ^ 24 ->
       exists s, runner_up b cand s /\ ratio_of f (b - s) b) /\
    (forall l, degrees = Some l -> counts_sum cand <= 2 ^ 24 ->
       Forall2 (fun kv o => o.1 = before_colons kv.1 /\ ratio_of o.2 kv.2 (Z.max 1 (counts_sum cand))) (sorted_items cand) l).
Proof.
  intros k im0 ims outs i im c act conf degrees l0 cl0 E Him Ho Hl0 Hne.
  destruct (py_clus_item _ _ _ _ _ _ _ E Him Ho) as (n & cand & En & Ec & Eo).
  assert (Hpos : forall k v, cand !! k = Some v -> 0 <= v) by (intros key v Hk; exact (clus_cand_pos _ _ _ _ _ _ Ec Hk)).
  assert (Hcne : cand <> ∅).
  { destruct (proj2 (clus_cand_dom k im _ cand (cluster_key l0 0) Ec)) as [v Hv].
    - exists l0, cl0, 0%nat. split; [exact Hl0|]. split; [|reflexivity]. destruct (c_discs cl0); [congruence|cbn; lia].
    - intros ->. rewrite lookup_empty in Hv. discriminate. }
  destruct (biggest_winner cand Hpos Hcne) as (v & Hv & Hmax).
  destruct (output_extras _ _ _ _ _ _ _ v c act conf degrees Hv (eq_sym Eo)) as (_ & Hf & Hd).
  exists cand. split; [exact Ec|]. split; [intros key; apply (clus_cand_dom _ _ _ _ _ Ec)|]. split.
  - intros f key b -> (v' & Hv' & Hmax') Hb Hbb. rewrite Hv' in Hb. injection Hb as ->.
    assert (v = b) as -> by (destruct (Hmax _ _ Hv'), (Hmax' _ _ Hv); lia). rewrite (Hf f eq_refl). apply confidence_law; assumption.
  - intros l -> Hs. rewrite (Hd l eq_refl). apply degrees_law; assumption.
Qed.
Print Assumptions C100_cluswisard_extras_partial.
