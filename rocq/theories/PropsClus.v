(** Property theorems C68-C74, C76, C83-C86: the ClusWisard classifier. Vocabulary in
    SpecClus.v (calls, labels) and SpecLaw.v (what clusters learn). *)
From Verif Require Import Prelude Bytes Utils Float32 BinInput Bleaching Ram Json Fs RamData Disc Wisard Cluster ClusWisard.
From Verif Require Import SpecBin SpecDisc SpecBleach SpecWisard SpecCluster SpecClus SpecLaw.
From Verif Require Import BytesProofs UtilsProofs TextProofs CtorFacts FloatSign PropsDisc ClusterProofs PropsWisard PropsCluster ClusProofs ClusMore ClusterLaw ClusUnsup.

(** A ClusWisard over 4 binary pixels: address size 2, minScore 0.5, threshold 4, limit 2. *)
Definition kfg (base : Z) : cluswisard :=
  ClusWisard 2 half 4 2 true false true false base false false false false 1 ∅ cluster_default.
Definition envs : nat -> draw := fun _ => some_draw.
Example kfg_constructed : clus_of_options 2 half 4 2 (jobject []) = Ok (kfg 2).
Proof. reflexivity. Qed.
Definition ka := lit "a". Definition kb := lit "b".
(** The counters of each label's discriminators. *)
Definition kcounters (k : cluswisard) : list (str * list Z) := (fun lc => (lc.1, counters lc.2)) <$> sorted_items (k_clusters k).
Definition ktrained : cluswisard := snd (krun false (kfg 2) [KTrain envs [x1; x2; x4] [ka; kb; ka]]).

(** C68: classify returns trained labels, for labels that do not contain "::" and do not end
    with ":". *)
Theorem C68_classify_trained : forall lhs_first k0 cs k images out,
  k_clusters k0 = ∅ -> krun lhs_first k0 cs = (Ok tt, k) ->
  (forall l, named cs l -> plain_label l) -> (exists l, named cs l) ->
  clus_classify k images = Ok out ->
  Forall2 (fun _ r => named cs r) images out.
Proof. exact classify_named. Qed.
Print Assumptions C68_classify_trained.
Lemma plain_a l : l = ka \/ l = kb -> plain_label l.
Proof.
  intros H. split.
  - intros a b E. assert (Hl : length l = 1%nat) by (destruct H as [-> | ->]; reflexivity). rewrite E in Hl. rewrite !app_length in Hl. cbn in Hl. lia.
  - intros a E. destruct a as [|c a]; [destruct H as [-> | ->]; discriminate E|]. assert (Hl : length l = 1%nat) by (destruct H as [-> | ->]; reflexivity). rewrite E in Hl. cbn in Hl. rewrite app_length in Hl. cbn in Hl. lia.
Qed.
Example C68_witness : fst (krun false (kfg 2) [KTrain envs [x1; x2; x4] [ka; kb; ka]]) = Ok tt /\
  clus_classify ktrained [x1; x2; x4] = Ok [ka; kb; ka] /\ kcounters ktrained = [(ka, [1; 1]); (kb, [1])].
Proof. split; [|split]; vm_compute; reflexivity. Qed.
Example C68_labels : (exists l, named [KTrain envs [x1; x2; x4] [ka; kb; ka]] l) /\
  forall l, named [KTrain envs [x1; x2; x4] [ka; kb; ka]] l -> plain_label l.
Proof.
  split; [exists ka, (KTrain envs [x1; x2; x4] [ka; kb; ka]); split; [left|exists 0%nat, x1; split; reflexivity]|].
  intros l (c & Hc & Hn). apply elem_of_list_singleton in Hc as ->. destruct Hn as (i & im & _ & Hi). apply plain_a.
  destruct i as [|[|[|i]]]; [injection Hi as <-; auto|injection Hi as <-; auto|injection Hi as <-; auto|destruct i; discriminate].
Qed.

(** C69: false for arbitrary labels: "a::b" and "a:" are both reported as "a". *)
Theorem C69_label_text_refuted : exists k k' : cluswisard,
  krun false (kfg 2) [KTrain envs [x1] [lit "a::b"]] = (Ok tt, k) /\ clus_classify k [x1] = Ok [lit "a"] /\
  krun false (kfg 2) [KTrain envs [x1] [lit "a:"]] = (Ok tt, k') /\ clus_classify k' [x1] = Ok [lit "a"].
Proof.
  exists (snd (krun false (kfg 2) [KTrain envs [x1] [lit "a::b"]])), (snd (krun false (kfg 2) [KTrain envs [x1] [lit "a:"]])).
  split; [vm_compute; reflexivity|]. split; [vm_compute; reflexivity|]. split; vm_compute; reflexivity.
Qed.
Print Assumptions C69_label_text_refuted.
(** What holds for every label text (supervised and unsupervised training): the answer is a
    trained label cut at the first "::" of label ++ "::". *)
Theorem C69_label_text_partial : forall lhs_first k0 cs k images out,
  k_clusters k0 = ∅ -> krun lhs_first k0 cs = (Ok tt, k) ->
  Forall (fun c => forall e e2 i m, c <> KSemi e e2 i m) cs -> (exists l, named cs l) ->
  clus_classify k images = Ok out ->
  Forall2 (fun _ r => exists l s, named cs l /\ l ++ lit "::" = r ++ lit "::" ++ s) images out.
Proof.
  intros lhs k0 cs k images out H0 Hr Hs Hn Hc. eapply Forall2_impl; [exact (classify_shown lhs k0 cs k images out H0 Hr Hs Hn Hc)|].
  intros _ r (l & Hl & ->). destruct (shown_prefix l) as [s E]. eauto.
Qed.
Print Assumptions C69_label_text_partial.

(** C70: false: the unlabelled image x2 is ignored and the labelled image x1 is trained twice. *)
Definition semi2 : eff cluswisard unit := clus_train_semi false envs envs (kfg 2) [x1; x2] {[ 0 := ka ]}.
Theorem C70_unlabelled_used_refuted :
  fst semi2 = Ok tt /\ kcounters (snd semi2) = [(ka, [2])] /\
  clus_votes (k_clusters (snd semi2)) x2 = Ok {[ lit "a::0" := [0; 0] ]}.
Proof. split; [|split]; vm_compute; reflexivity. Qed.
Print Assumptions C70_unlabelled_used_refuted.
(** It holds when the unlabelled images are the first m ones, some image is labelled, and the
    dictionary only has indexes of images. *)
Theorem C70_unlabelled_used_partial : forall lhs_first env env2 k im0 rest labels m,
  let images := im0 :: rest in
  len images <= INT_MAX -> (forall i l, labels !! i = Some l -> 0 <= i < len images) ->
  (forall i, 0 <= i < len images -> labels !! i = None <-> i < Z.of_nat m) -> labels <> ∅ ->
  clus_train_semi lhs_first env env2 k images labels =
  ebind (elift k (clus_first_checks k im0)) (fun _ k =>
  ebind (efor (fun k x => clus_train1 lhs_first (env x.1.1) k x.1.2 x.2) (labelled labels images) k) (fun _ k =>
         efor (fun k ix => clus_train_unlabelled lhs_first (env2 ix.1) k ix.2) (imap pair (unlabelled labels images)) k)).
Proof.
  intros lhs env env2 k im0 rest labels m images Hl Hr Hm Hne.
  assert (Hs : len (labelled labels images) = Z.of_nat (size labels)) by (apply labelled_size, Hr).
  pose proof (unlabelled_len labels images) as Hu. assert (0 <= len (unlabelled labels images)) by (unfold len; lia).
  unfold images. rewrite (semi_exact lhs env env2 k im0 rest labels Hl); [|fold images; lia|right; exact Hr]. fold images.
  destruct (labelled labels images) as [|x ls] eqn:El.
  - exfalso. apply Hne. apply map_size_empty_inv. unfold len in Hs. cbn in Hs. lia.
  - rewrite <- El. assert (Hu2 : take (length (unlabelled labels images)) images = unlabelled labels images); [|rewrite Hu2, El; reflexivity].
    rewrite (unlabelled_first labels images m Hm), take_length. destruct (Nat.min_spec m (length images)) as [[? ->]|[? ->]]; [reflexivity|rewrite !take_ge by lia; reflexivity].
Qed.
Print Assumptions C70_unlabelled_used_partial.
Example C70_witness : let k := snd (clus_train_semi false envs envs (kfg 2) [x2; x1] {[ 1 := ka ]}) in
  fst (clus_train_semi false envs envs (kfg 2) [x2; x1] {[ 1 := ka ]}) = Ok tt /\ kcounters k = [(ka, [1; 1])].
Proof. split; vm_compute; reflexivity. Qed.

(** C71: false: one image and one label under a wrong index write outside labelless. *)
Theorem C71_semi_safe_refuted : fst (clus_train_semi false envs envs (kfg 2) [x1] {[ 5 := ka ]}) = UB UBIndex.
Proof. vm_compute. reflexivity. Qed.
Print Assumptions C71_semi_safe_refuted.
(** With fewer labels than images, or only indexes of images, the call is exactly this, and
    its loops stay within their vectors: it trains the labelled images with their labels, then
    the first ones, as many as there are unlabelled ones; without labelled images it throws. *)
Theorem C71_semi_safe_partial : forall lhs_first env env2 k im0 rest labels,
  let images := im0 :: rest in
  len images <= INT_MAX -> Z.of_nat (size labels) <= len images ->
  (Z.of_nat (size labels) < len images \/ forall i l, labels !! i = Some l -> 0 <= i < len images) ->
  clus_train_semi lhs_first env env2 k images labels =
  ebind (elift k (clus_first_checks k im0)) (fun _ k =>
  ebind (efor (fun k x => clus_train1 lhs_first (env x.1.1) k x.1.2 x.2) (labelled labels images) k) (fun _ k =>
    match labelled labels images with
    | [] => (Throw no_index_exn, k)
    | _ => efor (fun k ix => clus_train_unlabelled lhs_first (env2 ix.1) k ix.2)
             (imap pair (take (length (unlabelled labels images)) images)) k
    end)).
Proof. exact semi_exact. Qed.
Print Assumptions C71_semi_safe_partial.
Example C71_witness : fst (clus_train_semi false envs envs (kfg 2) [x1; x2] {[ 5 := ka ]}) = Throw no_index_exn /\
  fst (clus_train_semi false envs envs (kfg 2) [x1; x2; x4] {[ 0 := ka; 7 := kb ]}) = Ok tt.
Proof. split; vm_compute; reflexivity. Qed.

(** C72: false before any supervised training: the second call forgets the first. *)
Definition unsup (xs : list image) (k : cluswisard) : cluswisard := snd (trainUnsupervised false envs k xs).
Theorem C72_unsupervised_accumulates_refuted :
  fst (trainUnsupervised false envs (kfg 2) [x1; x4]) = Ok tt /\
  fst (trainUnsupervised false envs (unsup [x1; x4] (kfg 2)) [x2]) = Ok tt /\
  counters (k_unsupervised (unsup [x1; x4] (kfg 2))) = [1; 1] /\
  k_unsupervised (unsup [x2] (unsup [x1; x4] (kfg 2))) = k_unsupervised (unsup [x2] (kfg 2)) /\
  cluster_classify (k_unsupervised (unsup [x2] (unsup [x1; x4] (kfg 2)))) x1 = Ok [[0; 0]].
Proof. split; [|split; [|split; [|split]]]; vm_compute; reflexivity. Qed.
Print Assumptions C72_unsupervised_accumulates_refuted.
(** It holds once there is a supervised cluster. *)
Theorem C72_unsupervised_accumulates_partial : forall lhs_first env k xs ys k1,
  k_clusters k <> ∅ -> trainUnsupervised lhs_first env k xs = (Ok tt, k1) ->
  trainUnsupervised lhs_first (fun i => env (length xs + i)%nat) k1 ys = trainUnsupervised lhs_first env k (xs ++ ys).
Proof. exact unsup_accumulates. Qed.
Print Assumptions C72_unsupervised_accumulates_partial.
(** Without one, whatever had been learned is replaced. *)
Theorem C72_unsupervised_replaced : forall lhs_first env k u xs,
  k_clusters k = ∅ -> xs <> [] ->
  trainUnsupervised lhs_first env (with_unsupervised k u) xs = trainUnsupervised lhs_first env k xs.
Proof. exact unsup_replaces. Qed.
Print Assumptions C72_unsupervised_replaced.
Definition mixed : cluswisard := snd (krun false (kfg 2) [KUnsupervised envs [x1]; KTrain envs [x1] [ka]]).
Example C72_witness : k_clusters mixed <> ∅ /\ fst (trainUnsupervised false envs mixed [x1; x4]) = Ok tt /\
  counters (k_unsupervised (unsup [x1; x4] mixed)) = [2; 1].
Proof. split; [intros E; apply (f_equal size) in E; vm_compute in E; discriminate|]. split; vm_compute; reflexivity. Qed.

(** C73: false: after supervised training only, the unsupervised cluster's members are
    indeterminate. *)
Theorem C73_unsupervised_after_supervised_refuted : fst (trainUnsupervised false envs ktrained [x1]) = UB UBUninit.
Proof. vm_compute. reflexivity. Qed.
Print Assumptions C73_unsupervised_after_supervised_refuted.
(** It holds if the unsupervised cluster was first trained before the supervised ones, with
    the parameters of the ClusWisard (but base 2, see C74): all the images are learned by the
    law of clusters. *)
Theorem C73_unsupervised_after_supervised_partial : forall lhs_first env env2 k n xs k1 cs k2 ys,
  k_clusters k = ∅ -> good_params (unsupervised_params k n) n -> configured_for k n ->
  (forall i : nat, valid_draw (env i)) -> (forall i : nat, valid_draw (env2 i)) ->
  xs <> [] -> Forall (plain_image 2 n) xs -> Forall (plain_image 2 n) ys -> len xs + len ys <= INT_MAX - 2 ->
  trainUnsupervised lhs_first env k xs = (Ok tt, k1) ->
  Forall (proper_kcall k n) cs -> len (all_events cs) <= INT_MAX - 2 -> krun lhs_first k1 cs = (Ok tt, k2) -> k_clusters k2 <> ∅ ->
  exists k3 ss, trainUnsupervised lhs_first env2 k2 ys = (Ok tt, k3) /\
    cluster_law (unsupervised_params k n) (xs ++ ys) ss /\ holds ss (k_unsupervised k3).
Proof. exact unsup_between. Qed.
Print Assumptions C73_unsupervised_after_supervised_partial.

(** C74: false: pixel 3 is rejected although base is 4. *)
Theorem C74_unsupervised_base_refuted :
  fst (trainUnsupervised false envs (kfg 4) [vec_image [3; 3; 3; 3]]) = Throw pos_exn /\
  fst (clus_train false envs (kfg 4) [vec_image [3; 3; 3; 3]] [ka]) = Ok tt.
Proof. split; vm_compute; reflexivity. Qed.
Print Assumptions C74_unsupervised_base_refuted.
(** With base 2 the configured parameters are used. *)
Theorem C74_unsupervised_base_partial : forall lhs_first env k n xs,
  k_base k = 2 -> k_clusters k = ∅ -> good_params (params_for k n) n -> 1 <= k_threshold k <= INT_MAX ->
  (forall i : nat, valid_draw (env i)) -> xs <> [] -> Forall (plain_image (k_base k) n) xs -> len xs <= INT_MAX - 2 ->
  exists k' ss, trainUnsupervised lhs_first env k xs = (Ok tt, k') /\
    cluster_law (params_for k n) xs ss /\ holds ss (k_unsupervised k').
Proof.
  intros lhs env k n xs Hb H0 Hg Ht Henv Hne HF Hl. rewrite Hb in HF.
  assert (E : params_for k n = unsupervised_params k n) by (unfold params_for, unsupervised_params; rewrite Hb; reflexivity). rewrite E in *.
  destruct (unsupervised_law lhs env k n xs H0 Hg Ht Henv Hne HF Hl) as (k' & ss & E1 & _ & E2 & E3 & _). eauto.
Qed.
Print Assumptions C74_unsupervised_base_partial.

(** C76: false for a label never trained: training it afterwards is undefined behaviour. *)
Theorem C76_mental_query_refuted : forall iter,
  clus_mental1 iter (kfg 2) ka = (Ok [], snd (clus_mental1 iter (kfg 2) ka)) /\
  fst (clus_train false envs (kfg 2) [x1] [ka]) = Ok tt /\
  fst (clus_train false envs (snd (clus_mental1 iter (kfg 2) ka)) [x1] [ka]) = UB UBUninit.
Proof. intros iter. split; [|split]; vm_compute; reflexivity. Qed.
Print Assumptions C76_mental_query_refuted.
(** It holds for known labels; for unknown ones later classifications are unchanged. *)
Theorem C76_mental_query_partial : forall iter k l,
  (is_Some (k_clusters k !! l) -> snd (clus_mental1 iter k l) = k) /\
  (k_clusters k !! l = None -> forall images out, clus_classify k images = Ok out ->
     clus_classify (snd (clus_mental1 iter k l)) images = Ok out).
Proof. intros iter k l. split; [apply mental_known|]. intros Hl images out H. apply (mental_unknown iter k l images out Hl H). Qed.
Print Assumptions C76_mental_query_partial.
Example C76_witness : clus_classify ktrained [x1; x2] = Ok [ka; kb] /\ k_clusters ktrained !! lit "zz" = None.
Proof. split; vm_compute; reflexivity. Qed.

(** C83: the learning law of clusters: training never fails on images of the right shape, and
    what the cluster holds and answers is determined, up to the random wirings, by the images. *)
Theorem C83_cluster_law : forall lhs_first env p n xs,
  good_params p n -> (forall i : nat, valid_draw (env i)) -> Forall (plain_image (p_base p) n) xs -> len xs < INT_MAX ->
  exists c ss, efor (fun c ix => cluster_train lhs_first (env ix.1) c ix.2) (imap pair xs) (Cluster (Some p) []) = (Ok tt, c) /\
    cluster_law p xs ss /\ holds ss c /\
    forall x, plain_image (p_base p) n x -> cluster_classify c x = Ok ((fun s => slot_votes s x) <$> ss).
Proof. exact cluster_learning. Qed.
Print Assumptions C83_cluster_law.
Definition p0 : cparams := CParams 2 4 half 4 2 true false 2.
Lemma p0_good : good_params p0 4.
Proof. unfold good_params, p0, INT_MAX. cbn. split; [reflexivity|]. split; [lia|]. split; [lia|]. split; [lia|]. split; [split; [intros _; lia|congruence]|lia]. Qed.
Lemma x_plain : plain_image 2 4 x1 /\ plain_image 2 4 x2 /\ plain_image 2 4 x4.
Proof. split; [|split]; apply plain4; unfold is_bit; auto. Qed.
Example C83_witness : exists c ss, efor (fun c ix => cluster_train false (envs ix.1) c ix.2) (imap pair [x1; x2; x4]) c0 = (Ok tt, c) /\
  cluster_law p0 [x1; x2; x4] ss /\ holds ss c.
Proof.
  destruct x_plain as (H1 & H2 & H4). destruct (C83_cluster_law false envs p0 4 [x1; x2; x4] p0_good) as (c & ss & E & HL & Hh & _).
  - intros i. apply some_draw_valid.
  - repeat (apply Forall_cons; split; [assumption|]). apply Forall_nil. exact I.
  - vm_compute. reflexivity.
  - exists c, ss. split; [exact E|]. auto.
Qed.

(** C84: the learning law of ClusWisard. *)
Theorem C84_cluswisard_law : forall lhs_first k0 n cs,
  k_clusters k0 = ∅ -> configured_for k0 n -> Forall (proper_kcall k0 n) cs -> len (all_events cs) <= INT_MAX - 2 ->
  exists k m, krun lhs_first k0 cs = (Ok tt, k) /\ clus_law k0 (params_for k0 n) (all_events cs) m /\
    k = with_clusters k0 (k_clusters k) /\
    (forall l, match m !! l, k_clusters k !! l with Some ss, Some c => holds ss c | None, None => True | _, _ => False end) /\
    (cs <> [] -> forall xs, Forall (plain_image (k_base k0) n) xs ->
      exists ls, clus_classify k xs = Ok ls /\ Forall2 (fun x l => label_due k0 m x l) xs ls).
Proof. exact clus_learning. Qed.
Print Assumptions C84_cluswisard_law.
Definition kcalls : list kcall := [KTrain envs [x1; x2] [ka; kb]; KSemi envs envs [x4; x1; x2] {[ 2 := kb ]}].
Lemma kfg_configured : configured_for (kfg 2) 4.
Proof. split; [exact p0_good|]. cbn. unfold INT_MAX. split; [lia|]. split; [lia|]. vm_compute. congruence. Qed.
Lemma kcalls_proper : Forall (proper_kcall (kfg 2) 4) kcalls.
Proof.
  destruct x_plain as (H1 & H2 & H4). assert (Hd : forall i, valid_draw (envs i)) by (intros; apply some_draw_valid). unfold kcalls.
  assert (Hu : events (KSemi envs envs [x4; x1; x2] {[ 2 := kb ]}) = [Given kb x2; Guessed x4; Guessed x1]) by (vm_compute; reflexivity).
  apply Forall_cons. split; [|apply Forall_cons; split; [|apply Forall_nil; exact I]].
  - split; [|split; [discriminate|]; split; [reflexivity|exact Hd]]. cbn [events zip_with].
    apply Forall_cons; split; [split; [exact H1|apply plain_a; auto]|]. apply Forall_cons; split; [split; [exact H2|apply plain_a; auto]|]. apply Forall_nil. exact I.
  - split.
    + rewrite Hu. apply Forall_cons; split; [split; [exact H2|apply plain_a; auto]|]. apply Forall_cons; split; [split; [exact H4|exact I]|]. apply Forall_cons; split; [split; [exact H1|exact I]|]. apply Forall_nil. exact I.
    + split; [vm_compute; congruence|]. split; [vm_compute; congruence|]. split; [left; vm_compute; reflexivity|]. split; [vm_compute; discriminate|]. auto.
Qed.
Example C84_witness : fst (krun false (kfg 2) kcalls) = Ok tt /\ kcounters (snd (krun false (kfg 2) kcalls)) = [(ka, [2]); (kb, [2; 1])] /\
  clus_classify (snd (krun false (kfg 2) kcalls)) [x1; x2; x4] = Ok [ka; kb; kb].
Proof. split; [|split]; vm_compute; reflexivity. Qed.

(** C85: false when the compiler evaluates the map access first: a rejected construction (here
    address size 1) leaves a null discriminator and the next call dereferences it. *)
Definition kbad : cluswisard := ClusWisard 1 half 4 2 true false true false 2 false false false false 1 ∅ cluster_default.
Theorem C85_failed_train_refuted :
  fst (clus_train true envs kbad [x1] [ka]) = Throw addr_small_exn /\
  fst (clus_train true envs (snd (clus_train true envs kbad [x1] [ka])) [x1] [ka]) = UB UBNull /\
  clus_classify (snd (clus_train true envs kbad [x1] [ka])) [x1] = UB UBNull.
Proof. split; [|split]; vm_compute; reflexivity. Qed.
Print Assumptions C85_failed_train_refuted.
(** In the other order no null discriminator ever appears. *)
Theorem C85_failed_train_partial : forall dr c im o c',
  cluster_train false dr c im = (o, c') -> Forall is_Some (c_discs c) -> Forall is_Some (c_discs c').
Proof. exact train_no_null. Qed.
Print Assumptions C85_failed_train_partial.
Example C85_witness : fst (clus_train false envs (snd (clus_train false envs kbad [x1] [ka])) [x1] [ka]) = Throw addr_small_exn.
Proof. vm_compute. reflexivity. Qed.

(** C86: unsupervised classification: on a ClusWisard without supervised clusters,
    trainUnsupervised learns by the law of clusters (base 2), and classifyUnsupervised answers
    the number of one of the discriminators, chosen by the bleaching rule with confidence 1. *)
Theorem C86_unsupervised_law : forall lhs_first env k n xs,
  k_clusters k = ∅ -> good_params (unsupervised_params k n) n -> 1 <= k_threshold k <= INT_MAX ->
  (forall i : nat, valid_draw (env i)) -> xs <> [] -> Forall (plain_image 2 n) xs -> len xs <= INT_MAX - 2 ->
  exists k' ss, trainUnsupervised lhs_first env k xs = (Ok tt, k') /\ k' = with_unsupervised k (k_unsupervised k') /\
    cluster_law (unsupervised_params k n) xs ss /\ holds ss (k_unsupervised k') /\
    forall ys, Forall (plain_image 2 n) ys -> exists rs, clus_classifyUnsupervised k' ys = Ok rs /\ Forall2 (number_due k ss) ys rs.
Proof. exact unsupervised_law. Qed.
Print Assumptions C86_unsupervised_law.
Example C86_witness : good_params (unsupervised_params (kfg 2) 4) 4 /\
  clus_classifyUnsupervised (unsup [x1; x2; x1] (kfg 2)) [x1; x2] = Ok [lit "0"; lit "1"].
Proof. split; [exact p0_good|]. vm_compute. reflexivity. Qed.
