(** Property theorems C75, C87: saving and reloading a ClusWisard. A saved text is represented by
    what parsing it yields (Json.v, retext). Vocabulary in SpecClusSaved.v. *)
From Verif Require Import Prelude Bytes Utils Float32 BinInput Bleaching Ram Json Fs RamData Disc Wisard Cluster ClusWisard.
From Verif Require Import SpecBin SpecDisc SpecBleach SpecWisard SpecSaved SpecCluster SpecClus SpecLaw SpecClusSaved.
From Verif Require Import CtorFacts PropsDisc PropsWisard PropsCluster PropsClus PropsJson ClusSaved.
From Verif Require Import SpecUtf8 Utf8Proofs.

(** C75 is false when the unsupervised cluster was trained with base other than 2: its
    discriminators come back with the configured base and vote differently. *)
Definition u4 : cluswisard := snd (trainUnsupervised false envs (kfg 4) [x1; x4]).
Theorem C75_base_refuted : exists j k', clus_json it0 (fun _ _ => []) (fun _ => []) disk u4 false [] = (Ok j, disk) /\
  clus_of_json disk j = Ok k' /\
  cluster_classify (k_unsupervised u4) x1 = Ok [[1; 1]; [0; 0]] /\
  cluster_classify (k_unsupervised k') x1 = Ok [[0; 1]; [0; 0]].
Proof. eexists _, _. split; [vm_compute; reflexivity|]. split; [vm_compute; reflexivity|]. split; vm_compute; reflexivity. Qed.
Print Assumptions C75_base_refuted.
(** It is also false for a minScore that is not a number, which the constructor accepts: it is
    written as null and the text cannot be reloaded. *)
Definition knan : cluswisard := ClusWisard 2 SpecFloat.S754_nan 4 2 true false true false 2 false false false false 1 ∅ cluster_default.
Theorem C75_nan_refuted : clus_of_options 2 SpecFloat.S754_nan 4 2 (jobject []) = Ok knan /\
  exists j, clus_json it0 (fun _ _ => []) (fun _ => []) disk knan false [] = (Ok j, disk) /\ clus_of_json disk j = Throw EJsonType.
Proof. split; [vm_compute; reflexivity|]. eexists. split; [vm_compute; reflexivity|]. vm_compute. reflexivity. Qed.
Print Assumptions C75_nan_refuted.

(** What holds: labels are UTF-8, the contents can be indexed with an int, and nothing was
    trained unsupervised. [rnd], [urnd]: random parts of file names (unused here). *)
Theorem C75_roundtrip_partial : forall iter rnd urnd lhs_first k0 n cs k f path,
  good_iter iter -> k_clusters k0 = ∅ -> k_unsupervised k0 = cluster_default -> configured_for k0 n -> int_koptions k0 ->
  Forall (proper_kcall k0 n) cs -> len (all_events cs) <= INT_MAX - 2 -> krun lhs_first k0 cs = (Ok tt, k) ->
  (forall l c, k_clusters k !! l = Some c -> is_utf8 l /\ small_cluster c) ->
  exists j, clus_json iter rnd urnd f k false path = (Ok j, f) /\ forall f', clus_of_json f' j = Ok (without_search k).
Proof. setoid_rewrite <- utf8_ok_iff.
  intros iter rnd urnd lhs k0 n cs k f path Hi H0 Hu Hcf Hio Hp Hl Hr Hlab. apply (saved_mem iter rnd urnd f k n path Hi).
  - eapply reach_saved; eauto. intros l c Hc. apply (Hlab l c Hc).
  - intros l [c Hc]. apply (Hlab l c Hc).
Qed.
Print Assumptions C75_roundtrip_partial.
(** The same after unsupervised training with base 2 (followed or not by other training). *)
Theorem C75_unsupervised_partial : forall iter rnd urnd lhs_first env k0 n xs cs k f path,
  good_iter iter -> k_clusters k0 = ∅ -> k_base k0 = 2 -> configured_for k0 n -> int_koptions k0 ->
  (forall i : nat, valid_draw (env i)) -> xs <> [] -> Forall (plain_image 2 n) xs -> len xs <= INT_MAX - 2 ->
  Forall (proper_kcall k0 n) cs -> len (all_events cs) <= INT_MAX - 2 ->
  krun lhs_first k0 (KUnsupervised env xs :: cs) = (Ok tt, k) ->
  (forall l c, k_clusters k !! l = Some c -> is_utf8 l /\ small_cluster c) -> small_cluster (k_unsupervised k) ->
  exists j, clus_json iter rnd urnd f k false path = (Ok j, f) /\ forall f', clus_of_json f' j = Ok (without_search k).
Proof. setoid_rewrite <- utf8_ok_iff.
  intros iter rnd urnd lhs env k0 n xs cs k f path Hi H0 Hb Hcf Hio Henv Hne HF Hlx Hp Hl Hr Hlab Hsu. apply (saved_mem iter rnd urnd f k n path Hi).
  - unfold krun in Hr. cbn [efor kcall_run] in Hr. destruct (trainUnsupervised lhs env k0 xs) as [[[]| | |] k1] eqn:Et; cbn [ebind] in Hr; try discriminate.
    eapply reach_saved_unsup; eauto. intros l c Hc. apply (Hlab l c Hc).
  - intros l [c Hc]. apply (Hlab l c Hc).
Qed.
Print Assumptions C75_unsupervised_partial.
(** The reloaded ClusWisard then behaves as the saved one, whatever is called next. *)
Theorem C75_same_future : forall lhs_first k cs,
  fst (krun lhs_first (without_search k) cs) = fst (krun lhs_first k cs) /\
  k_clusters (snd (krun lhs_first (without_search k) cs)) = k_clusters (snd (krun lhs_first k cs)) /\
  k_unsupervised (snd (krun lhs_first (without_search k) cs)) = k_unsupervised (snd (krun lhs_first k cs)) /\
  (forall xs, clus_classify (snd (krun lhs_first (without_search k) cs)) xs = clus_classify (snd (krun lhs_first k cs)) xs) /\
  forall xs, clus_classifyUnsupervised (snd (krun lhs_first (without_search k) cs)) xs = clus_classifyUnsupervised (snd (krun lhs_first k cs)) xs.
Proof.
  intros lhs k cs. rewrite krun_ws. destruct (krun lhs k cs) as [o k']. cbn [klift fst snd]. split; [reflexivity|]. split; [reflexivity|]. split; [reflexivity|].
  split; [apply classify_ws|reflexivity].
Qed.
Print Assumptions C75_same_future.

Lemma small_check c : forallb (fun o => match o with Some d => saved_size d <=? INT_MAX + 1 | None => true end) (c_discs c) = true -> small_cluster c.
Proof. intros H d Hd. rewrite forallb_forall in H. specialize (H (Some d) (proj1 (elem_of_list_In _ _) Hd)). cbn in H. lia. Qed.
Lemma kfg_ints : int_koptions (kfg 2). Proof. repeat split; vm_compute; congruence. Qed.
(** Check of the labels of a concrete ClusWisard. *)
Definition labels_fine (k : cluswisard) : bool :=
  forallb (fun lc => utf8_ok lc.1 && forallb (fun o => match o with Some d => saved_size d <=? INT_MAX + 1 | None => true end) (c_discs lc.2)) (sorted_items (k_clusters k)).
Lemma labels_check k : labels_fine k = true -> forall l c, k_clusters k !! l = Some c -> is_utf8 l /\ small_cluster c.
Proof.
  intros H l c Hc. unfold labels_fine in H. rewrite forallb_forall in H.
  specialize (H (l, c)). cbn [fst snd] in H. rewrite <- elem_of_list_In in H. specialize (H (proj2 (BleachProofs.sorted_items_elem _ _ _) Hc)).
  apply andb_true_iff in H as [H1 H2]. split; [apply utf8_ok_iff, H1|]. apply small_check, H2.
Qed.
Definition kboth : cluswisard := snd (krun false (kfg 2) (KUnsupervised envs [x1; x4] :: kcalls)).
Example C75_witness : configured_for (kfg 2) 4 /\ int_koptions (kfg 2) /\ Forall (proper_kcall (kfg 2) 4) kcalls /\ krun false (kfg 2) (KUnsupervised envs [x1; x4] :: kcalls) = (Ok tt, kboth) /\ (forall l c, k_clusters kboth !! l = Some c -> is_utf8 l /\ small_cluster c) /\ small_cluster (k_unsupervised kboth) /\
  kcounters kboth = [(ka, [2]); (kb, [2; 1])] /\ counters (k_unsupervised kboth) = [1; 1] /\
  exists j, clus_json it0 (fun _ _ => []) (fun _ => []) disk kboth false [] = (Ok j, disk) /\ clus_of_json disk j = Ok (without_search kboth).
Proof.
  assert (Hr : krun false (kfg 2) (KUnsupervised envs [x1; x4] :: kcalls) = (Ok tt, kboth)).
  { unfold kboth. assert (H : fst (krun false (kfg 2) (KUnsupervised envs [x1; x4] :: kcalls)) = Ok tt) by (vm_compute; reflexivity).
    destruct (krun _ _ _) as [o k]. cbn [fst snd] in *. subst o. reflexivity. }
  assert (Hlab : forall l c, k_clusters kboth !! l = Some c -> is_utf8 l /\ small_cluster c) by (apply labels_check; vm_compute; reflexivity).
  assert (Hsu : small_cluster (k_unsupervised kboth)) by (apply small_check; vm_compute; reflexivity).
  split; [apply kfg_configured|]. split; [apply kfg_ints|]. split; [apply kcalls_proper|]. split; [exact Hr|]. split; [exact Hlab|]. split; [exact Hsu|].
  split; [vm_compute; reflexivity|]. split; [vm_compute; reflexivity|]. destruct x_plain as (H1 & H2 & H4).
  destruct (C75_unsupervised_partial it0 (fun _ _ => []) (fun _ => []) false envs (kfg 2) 4 [x1; x4] kcalls kboth disk []) as (j & E & H); try assumption.
  - apply it0_good.
  - reflexivity.
  - reflexivity.
  - apply kfg_configured.
  - apply kfg_ints.
  - intros i. apply some_draw_valid.
  - discriminate.
  - repeat (apply Forall_cons; split; [assumption|]). apply Forall_nil. exact I.
  - vm_compute. congruence.
  - apply kcalls_proper.
  - vm_compute. congruence.
  - exists j. auto.
Qed.

(** C87: json(true, path): one file per discriminator. If all these files are new and can be
    created, the ClusWisard that json() would give back is reloaded. The random parts of the
    file names have length 10; no label is called "unsupervised_cluster" if there is an
    unsupervised cluster (the two could then use one file). *)
Definition file_of (rnd : nat -> str) (path l : str) (j : nat) : str :=
  path ++ l ++ lit "__" ++ to_string j ++ lit "__" ++ rnd j ++ lit ".wdpkg".
Theorem C87_huge_clus : forall iter rnd urnd lhs_first k0 n cs k f path,
  good_iter iter -> k_clusters k0 = ∅ -> k_unsupervised k0 = cluster_default -> configured_for k0 n -> int_koptions k0 ->
  Forall (proper_kcall k0 n) cs -> len (all_events cs) <= INT_MAX - 2 -> krun lhs_first k0 cs = (Ok tt, k) ->
  (forall l c, k_clusters k !! l = Some c -> is_utf8 l /\ small_cluster c) ->
  (forall l j, length (rnd l j) = 10%nat) ->
  (forall l c j, k_clusters k !! l = Some c -> (j < length (c_discs c))%nat ->
     let name := file_of (rnd l) path l j in
     is_utf8 name /\ len name < W64 /\ fs_writable f name = true /\ fs_read f name = None) ->
  exists j f', clus_json iter rnd urnd f k true path = (Ok j, f') /\ clus_of_json f' j = Ok (without_search k).
Proof. cbv zeta. setoid_rewrite <- utf8_ok_iff.
  intros iter rnd urnd lhs k0 n cs k f path Hi H0 Hu Hcf Hio Hp Hl Hr Hlab Hrnd Hf.
  assert (Hs : saved_state iter k n) by (eapply reach_saved; eauto; intros l c Hc; apply (Hlab l c Hc)).
  assert (Hk : k_unsupervised k = cluster_default).
  { destruct (ClusterLaw.clus_reach lhs k0 n cs H0 Hcf Hp Hl) as (k' & m & E & [[Hk _] _] & _). rewrite Hr in E. injection E as <-. rewrite Hk. exact Hu. }
  assert (Hj : clus_json iter rnd urnd f k true path = clus_json iter rnd (fun _ => repeat "0"%char 10) f k true path).
  { unfold clus_json. rewrite Hk. reflexivity. }
  rewrite Hj. apply (saved_file iter rnd (fun _ => repeat "0"%char 10) f k n path Hi Hs).
  - exact Hrnd.
  - intros j. reflexivity.
  - left. exact Hk.
  - intros l c Hc. apply (Hlab l c Hc).
  - intros name [(l & c & j & Hc & Hlt & ->)|(j & Hlt & _)]; [exact (Hf l c j Hc Hlt)|]. rewrite Hk in Hlt. cbn in Hlt. lia.
Qed.
Print Assumptions C87_huge_clus.
Theorem C87_huge_unsupervised : forall iter rnd urnd lhs_first env k0 n xs cs k f path,
  good_iter iter -> k_clusters k0 = ∅ -> k_base k0 = 2 -> configured_for k0 n -> int_koptions k0 ->
  (forall i : nat, valid_draw (env i)) -> xs <> [] -> Forall (plain_image 2 n) xs -> len xs <= INT_MAX - 2 ->
  Forall (proper_kcall k0 n) cs -> len (all_events cs) <= INT_MAX - 2 ->
  krun lhs_first k0 (KUnsupervised env xs :: cs) = (Ok tt, k) ->
  (forall l c, k_clusters k !! l = Some c -> is_utf8 l /\ small_cluster c) -> small_cluster (k_unsupervised k) ->
  (forall l j, length (rnd l j) = 10%nat) -> (forall j, length (urnd j) = 10%nat) -> k_clusters k !! lit "unsupervised_cluster" = None ->
  (forall name, (exists l c j, k_clusters k !! l = Some c /\ (j < length (c_discs c))%nat /\ name = file_of (rnd l) path l j) \/
                (exists j, (j < length (c_discs (k_unsupervised k)))%nat /\ name = file_of urnd path (lit "unsupervised_cluster") j) ->
     is_utf8 name /\ len name < W64 /\ fs_writable f name = true /\ fs_read f name = None) ->
  exists j f', clus_json iter rnd urnd f k true path = (Ok j, f') /\ clus_of_json f' j = Ok (without_search k).
Proof. setoid_rewrite <- utf8_ok_iff.
  intros iter rnd urnd lhs env k0 n xs cs k f path Hi H0 Hb Hcf Hio Henv Hne HF Hlx Hp Hl Hr Hlab Hsu Hrnd Hur Hno Hf.
  unfold krun in Hr. cbn [efor kcall_run] in Hr. destruct (trainUnsupervised lhs env k0 xs) as [[[]| | |] k1] eqn:Et; cbn [ebind] in Hr; try discriminate.
  apply (saved_file iter rnd urnd f k n path Hi); auto.
  - eapply reach_saved_unsup; eauto. intros l c Hc. apply (Hlab l c Hc).
  - intros l c Hc. apply (Hlab l c Hc).
Qed.
Print Assumptions C87_huge_unsupervised.
Definition rnd10 : str := lit "AbCdEfGh12".
Example C87_witness : (let '(r, f') := clus_json it0 (fun _ _ => rnd10) (fun _ => rnd10) disk kboth true (lit "d/") in
   (exists s, fs_read f' (file_of (fun _ => rnd10) (lit "d/") kb 1) = Some s /\ s <> []) /\
   (exists s, fs_read f' (file_of (fun _ => rnd10) (lit "d/") (lit "unsupervised_cluster") 0) = Some s /\ s <> []) /\
   exists k, (let* j := r in clus_of_json f' j) = Ok k /\ kcounters k = kcounters kboth /\ k_unsupervised k = k_unsupervised kboth) /\
  k_clusters kboth !! lit "unsupervised_cluster" = None /\ fs_writable disk (file_of (fun _ => rnd10) (lit "d/") kb 1) = true.
Proof.
  split; [|split; vm_compute; reflexivity].
  destruct (clus_json it0 (fun _ _ => rnd10) (fun _ => rnd10) disk kboth true (lit "d/")) as [r f'] eqn:E. vm_compute in E. injection E as <- <-. split; [|split].
  - eexists. split; [vm_compute; reflexivity|discriminate].
  - eexists. split; [vm_compute; reflexivity|discriminate].
  - eexists. split; [vm_compute; reflexivity|]. split; vm_compute; reflexivity.
Qed.
