(** Property theorem C172: a dictionary that names every image is a list of labels. *)
From Verif Require Import Prelude Bytes Float32 Utils BinInput Bleaching Ram Disc Wisard Cluster ClusWisard.
From Verif Require Import SpecClus TextProofs ClusProofs PropsCluster PropsClus.

(** {0: labels[0], 1: labels[1], ...} *)
Definition dictionary (labels : list str) : gmap Z str := list_to_map (imap (fun i (l : str) => (Z.of_nat i, l)) labels).

Lemma dict_keys (labels : list str) : (imap (fun i (l : str) => (Z.of_nat i, l)) labels).*1 = Z.of_nat <$> seq 0 (length labels).
Proof.
  assert (G : forall k, (imap (fun i (l : str) => (Z.of_nat (k + i), l)) labels).*1 = Z.of_nat <$> seq k (length labels)); [|exact (G 0%nat)].
  induction labels as [|l labels IH]; intros k; [reflexivity|]. cbn. rewrite Nat.add_0_r. f_equal. rewrite <- (IH (S k)). f_equal. apply imap_ext. intros i x _. cbn. do 2 f_equal. lia.
Qed.
Lemma dict_nodup (labels : list str) : NoDup (imap (fun i (l : str) => (Z.of_nat i, l)) labels).*1.
Proof. rewrite dict_keys. apply NoDup_fmap_2; [intros a b; lia|]. apply NoDup_seq. Qed.
Lemma dict_lookup labels i : dictionary labels !! Z.of_nat i = labels !! i.
Proof.
  apply option_eq. intros l. unfold dictionary. rewrite <- elem_of_list_to_map by apply dict_nodup. rewrite elem_of_list_lookup. split.
  - intros (j & H). rewrite list_lookup_imap in H. destruct (labels !! j) as [l'|] eqn:E; [|discriminate]. cbn in H. injection H as H ->. assert (j = i) as -> by lia. exact E.
  - intros H. exists i. rewrite list_lookup_imap, H. reflexivity.
Qed.
Lemma dict_size labels : size (dictionary labels) = length labels.
Proof.
  change (length (map_to_list (dictionary labels)) = length labels). unfold dictionary. rewrite map_to_list_to_map by apply dict_nodup. apply imap_length.
Qed.
Lemma dict_range labels i l : dictionary labels !! i = Some l -> 0 <= i < len labels.
Proof.
  unfold dictionary. rewrite <- elem_of_list_to_map by apply dict_nodup. intros H. apply (elem_of_list_fmap_1 fst) in H. cbn [fst] in H. rewrite dict_keys in H.
  apply elem_of_list_fmap in H as (j & -> & Hj). apply elem_of_seq in Hj. unfold len. lia.
Qed.

Lemma dict_loop lhs env (m : gmap Z str) : forall images labels i k, length images = length labels -> (forall j : nat, m !! Z.of_nat (i + j) = labels !! j) ->
  efor (fun k x => clus_train1 lhs (env x.1.1) k x.1.2 x.2)
    (omap (fun ix : nat * image => match m !! Z.of_nat ix.1 with Some l => Some (ix.1, ix.2, l) | None => None end) (imap (fun j x => ((i + j)%nat, x)) images)) k =
  clus_train_loop lhs env i k images labels.
Proof.
  induction images as [|im images IH]; intros [|l labels] i k Hl Hm; try discriminate Hl; [reflexivity|]. cbn [imap omap list_omap fst snd clus_train_loop]. rewrite (Hm 0%nat). cbn [lookup list_lookup].
  cbn [efor fst snd]. rewrite Nat.add_0_r. destruct (clus_train1 lhs (env i) k im l) as [[[]| | |] k1]; try reflexivity. cbn [ebind].
  rewrite <- (IH labels (S i) k1); [|cbn in Hl; lia|intros j; etransitivity; [|exact (Hm (S j))]; do 2 f_equal; lia].
  f_equal. f_equal. apply imap_ext. intros j x _. cbn. f_equal. lia.
Qed.
Lemma dict_none (m : gmap Z str) : forall (images : list image) (labels : list str) i, length images = length labels -> (forall j : nat, m !! Z.of_nat (i + j) = labels !! j) ->
  omap (fun ix : nat * image => match m !! Z.of_nat ix.1 with Some l => None | None => Some ix.2 end) (imap (fun j x => ((i + j)%nat, x)) images) = [].
Proof.
  induction images as [|im images IH]; intros [|l labels] i Hl Hm; try discriminate Hl; [reflexivity|]. cbn [imap omap list_omap fst snd]. rewrite (Hm 0%nat). cbn [lookup list_lookup].
  rewrite <- (IH labels (S i)); [|cbn in Hl; lia|intros j; etransitivity; [|exact (Hm (S j))]; do 2 f_equal; lia]. f_equal. apply imap_ext. intros j x _. cbn. f_equal. lia.
Qed.

(** C172: in every state, train(images, {0: l0, 1: l1, ...}) with a label for every image is
    train(images, [l0, l1, ...]): the same outcome (or exception) and the same state afterwards. *)
Theorem C172_dictionary : forall lhs_first env env2 k images labels,
  images <> [] -> len images = len labels -> len images <= INT_MAX ->
  clus_train_semi lhs_first env env2 k images (dictionary labels) = clus_train lhs_first env k images labels.
Proof.
  intros lhs env env2 k [|im0 rest] labels Hne Hl Hmax; [congruence|]. set (images := im0 :: rest) in *.
  assert (Hlen : length images = length labels) by (unfold len in Hl; lia).
  etransitivity; [apply (C71_semi_safe_partial lhs env env2 k im0 rest (dictionary labels))|]; fold images.
  - exact Hmax.
  - rewrite dict_size. unfold len in *. lia.
  - right. intros i l H. apply dict_range in H. lia.
  - assert (E1 : forall k, efor (fun k x => clus_train1 lhs (env x.1.1) k x.1.2 x.2) (labelled (dictionary labels) images) k = clus_train_loop lhs env 0 k images labels)
      by (intros k'; apply (dict_loop lhs env (dictionary labels) images labels 0 k' Hlen); intros j; apply dict_lookup).
    assert (E2 : unlabelled (dictionary labels) images = []) by (apply (dict_none (dictionary labels) images labels 0 Hlen); intros j; apply dict_lookup).
    assert (E3 : labelled (dictionary labels) images <> []).
    { unfold labelled, images. cbn [imap omap list_omap fst snd]. rewrite (dict_lookup labels 0). destruct labels as [|l labels]; [discriminate Hlen|]. discriminate. }
    change (clus_train lhs env k images labels) with (ebind (elift k (let* _ := clus_first_checks k im0 in checkInputSizes (len images) (len labels))) (fun _ k => clus_train_loop lhs env 0 k images labels)).
    destruct (clus_first_checks k im0) as [[]| | |]; try reflexivity. cbn [elift ebind rbind]. unfold checkInputSizes. rewrite Hl, Z.eqb_refl. cbn [elift ebind].
    rewrite E1, E2. cbn [length take imap]. destruct (clus_train_loop lhs env 0 k images labels) as [[[]| | |] k']; try reflexivity. cbn [ebind].
    destruct (labelled (dictionary labels) images); [congruence|reflexivity].
Qed.
Print Assumptions C172_dictionary.
(** Two images, two labels; with one label less the other image is guessed. *)
Example C172_witness : dictionary [ka; kb] = {[ 0 := ka; 1 := kb ]} /\
  fst (clus_train_semi false envs envs (kfg 2) [x1; x2] (dictionary [ka; kb])) = Ok tt /\
  kcounters (snd (clus_train_semi false envs envs (kfg 2) [x1; x2] (dictionary [ka; kb]))) = [(ka, [1]); (kb, [1])] /\
  kcounters (snd (clus_train_semi false envs envs (kfg 2) [x1; x2] (dictionary [ka]))) = [(ka, [2])].
Proof. split; [vm_compute; reflexivity|]. split; [vm_compute; reflexivity|]. split; vm_compute; reflexivity. Qed.
