(** Proofs about getsizeof of ClusWisard (C104). *)
From Verif Require Import Prelude Bytes Float32 Bleaching Utils BinInput Ram Json Fs RamData Disc Wisard Cluster ClusWisard Sizes.
From Verif Require Import SpecDisc SpecWisard SpecClus SpecSizes BytesProofs UtilsProofs TextProofs BleachProofs SizesProofs.

Definition osize (S : class_sizes) (od : option disc) : Z := match od with Some d => 4 + disc_getsizeof S d | None => 0 end.
Definition csum (S : class_sizes) (c : cluster) : Z := S_Cluster S + zsum (osize S <$> c_discs c).
Definition ksum (S : class_sizes) (k : cluswisard) : Z :=
  S_ClusWisard S + csum S (k_unsupervised k) + map_sum (fun kc => len kc.1 + csum S kc.2) (k_clusters k).
Lemma foldl_bind_stop {A B} (f : B -> A -> res B) l (r : res B) : (forall b, r <> Ok b) -> foldl (fun r a => let* b := r in f b a) r l = r.
Proof. intros H. induction l as [|a l IH]; [reflexivity|]. cbn [foldl]. destruct r as [b| | |]; [exfalso; exact (H b eq_refl)|exact IH..]. Qed.
Lemma csum_ok S c s : cluster_getsizeof S c = Ok s -> s = csum S c.
Proof.
  unfold cluster_getsizeof, csum. generalize (S_Cluster S) as acc. induction (c_discs c) as [|[d|] ds IH]; intros acc.
  - cbn. intros [= <-]. lia.
  - cbn [foldl rbind]. intros H. apply IH in H. rewrite fmap_cons. unfold zsum in *. cbn [foldr osize]. lia.
  - cbn [foldl rbind]. intros H. rewrite (foldl_bind_stop (fun size od => match od with Some d => Ok (size + (4 + disc_getsizeof S d)) | None => UB UBNull end)) in H by discriminate. discriminate.
Qed.
Lemma ksum_ok S k s : clus_getsizeof S k = Ok s -> s = ksum S k.
Proof.
  unfold clus_getsizeof, ksum. destruct (cluster_getsizeof S (k_unsupervised k)) as [u| | |] eqn:Eu; cbn [rbind]; try discriminate.
  apply csum_ok in Eu as ->. generalize (S_ClusWisard S + csum S (k_unsupervised k)) as acc. intros acc.
  unfold map_sum. rewrite <- (zsum_perm _ _ (fmap_Permutation (fun kc => len kc.1 + csum S kc.2) _ _ (sorted_items_perm (k_clusters k)))).
  revert acc. induction (sorted_items (k_clusters k)) as [|[l c] its IH]; intros acc.
  - cbn. intros [= <-]. lia.
  - cbn [foldl rbind fst snd]. destruct (cluster_getsizeof S c) as [z| | |] eqn:Ec; cbn [rbind]; [|intros H;
      rewrite (foldl_bind_stop (fun size kc => let* c := cluster_getsizeof S kc.2 in Ok (size + (len kc.1 + c)))) in H by discriminate; discriminate..].
    intros H. apply IH in H. apply csum_ok in Ec as ->. rewrite fmap_cons. unfold zsum in *. cbn [foldr fst snd]. lia.
Qed.
Lemma osize_pos S od : real_sizes S -> 0 <= osize S od.
Proof. intros HS. destruct od as [d|]; cbn [osize]; [pose proof (disc_size_pos S d HS); lia|lia]. Qed.
Lemma csum_pos S c : real_sizes S -> 0 <= csum S c.
Proof.
  intros HS. unfold csum. assert (0 <= zsum (osize S <$> c_discs c)); [|destruct HS as (_ & _ & ?); lia]. apply zsum_nonneg, Forall_fmap, Forall_forall.
  intros od _. apply osize_pos, HS.
Qed.
Lemma zsum_app l l' : zsum (l ++ l') = zsum l + zsum l'.
Proof. unfold zsum. induction l; cbn [app foldr]; lia. Qed.
Lemma zsum_insert_le {A} (f : A -> Z) (l : list A) i x y : l !! i = Some x -> f x <= f y -> zsum (f <$> l) <= zsum (f <$> <[i := y]> l).
Proof.
  revert i. induction l as [|z l IH]; intros [|i] H Hf; try discriminate; cbn in H.
  - injection H as ->. cbn. unfold zsum. cbn [foldr]. lia.
  - change (<[Datatypes.S i := y]> (z :: l)) with (z :: <[i := y]> l). rewrite !fmap_cons. specialize (IH i H Hf). unfold zsum in *. cbn [foldr]. lia.
Qed.
Lemma make_csum S lhs dr c : real_sizes S -> csum S c <= csum S (snd (cluster_make lhs dr c)).
Proof.
  intros HS. unfold cluster_make. destruct (c_params c); [|cbn; lia]. destruct (setRAMShuffle _ _ _ _ _ _); cbn [snd]; try lia.
  - unfold csum, with_discs. cbn [c_discs]. rewrite fmap_app, zsum_app. cbn. pose proof (disc_size_pos S a HS). lia.
  - destruct lhs; [|lia]. unfold csum, with_discs. cbn [c_discs]. rewrite fmap_app, zsum_app. cbn. lia.
Qed.
Lemma train_at_csum S c i x : csum S c <= csum S (snd (cluster_train_at c i x)).
Proof.
  unfold cluster_train_at. destruct (c_discs c !! i) as [[d|]|] eqn:E; cbn [snd]; try lia.
  pose proof (disc_train_grows S d x) as H. destruct (disc_train d x) as [o d']. cbn [snd] in *. unfold csum, with_discs. cbn [c_discs].
  assert (zsum (osize S <$> c_discs c) <= zsum (osize S <$> <[i := Some d']> (c_discs c))); [|lia]. eapply zsum_insert_le; [exact E|]. cbn [osize]. lia.
Qed.
Lemma scan_csum S p x : forall ds i best bi tr, zsum (osize S <$> ds) <= zsum (osize S <$> snd (cluster_scan p x ds i best bi tr)).
Proof.
  induction ds as [|[d|] ds IH]; intros i best bi tr; cbn [cluster_scan snd]; try lia.
  destruct (disc_classify d x) as [votes| | |]; cbn [snd]; try lia.
  destruct (f32_leb (train_limit p d) (getScore votes)).
  - pose proof (disc_train_grows S d x) as H. destruct (disc_train d x) as [[?| | |] d']; cbn [snd] in *;
      [specialize (IH (Datatypes.S i) (if f32_leb best (getScore votes) then getScore votes else best) (if f32_leb best (getScore votes) then Some i else bi) true);
       destruct (cluster_scan _ _ _ _ _ _ _) as [r rest]; cbn [snd] in *|..]; rewrite !fmap_cons; unfold zsum in *; cbn [foldr osize]; lia.
  - specialize (IH (Datatypes.S i) (if f32_leb best (getScore votes) then getScore votes else best) (if f32_leb best (getScore votes) then Some i else bi) tr).
    destruct (cluster_scan _ _ _ _ _ _ _) as [r rest]; cbn [snd] in *. rewrite !fmap_cons; unfold zsum in *; cbn [foldr osize]; lia.
Qed.
Lemma cluster_train_csum S lhs dr c x : real_sizes S -> csum S c <= csum S (snd (cluster_train lhs dr c x)).
Proof.
  intros HS. unfold cluster_train. destruct (c_discs c) as [|od ds] eqn:E.
  - apply ebind_size; [apply make_csum, HS|]. intros _ s. apply train_at_csum.
  - destruct (c_params c) as [p|]; [|cbn; lia]. rewrite <- E.
    pose proof (scan_csum S p x (c_discs c) 0 f32_zero None false) as H. destruct (cluster_scan _ _ _ _ _ _ _) as [r ds']. cbn [snd] in H.
    assert (H' : csum S c <= csum S (with_discs c ds')) by (unfold csum, with_discs; cbn [c_discs]; lia).
    destruct r as [[bi tr]| | |]; cbn [snd]; try exact H'. destruct tr; [exact H'|]. destruct (_ <? _).
    + etransitivity; [exact H'|]. apply ebind_size; [apply make_csum, HS|]. intros _ s. apply train_at_csum.
    + destruct bi as [i|]; [|exact H']. etransitivity; [exact H'|]. apply train_at_csum.
Qed.
Lemma at_cluster_ksum S f k l : real_sizes S -> (forall c, csum S c <= csum S (snd (f c))) -> ksum S k <= ksum S (snd (at_cluster f k l)).
Proof.
  intros HS Hf. unfold at_cluster. specialize (Hf (default cluster_default (k_clusters k !! l))).
  destruct (f (default cluster_default (k_clusters k !! l))) as [o c']. cbn [snd] in *. unfold ksum, with_clusters. cbn [k_clusters k_unsupervised].
  destruct (k_clusters k !! l) as [c|] eqn:E; cbn [from_option id] in Hf.
  - rewrite (map_sum_Some _ _ l c c' E). cbn [fst snd]. lia.
  - rewrite (map_sum_None _ _ l c' E). cbn [fst snd]. pose proof (csum_pos S c' HS). pose proof (len_nonneg l). lia.
Qed.
Lemma train1_ksum S lhs dr k x l : real_sizes S -> ksum S k <= ksum S (snd (clus_train1 lhs dr k x l)).
Proof.
  intros HS. unfold clus_train1. etransitivity; [|apply at_cluster_ksum; [exact HS|intros c; apply cluster_train_csum, HS]].
  destruct (k_clusters k !! l) eqn:E; [lia|]. unfold makeClusters, ksum, with_clusters. cbn [k_clusters k_unsupervised].
  rewrite (map_sum_None _ _ l _ E). cbn [fst snd]. pose proof (csum_pos S (new_cluster k (s32 (im_size x)) (k_base k)) HS). pose proof (len_nonneg l). lia.
Qed.
Lemma train_loop_ksum S lhs env : real_sizes S -> forall images labels i k, ksum S k <= ksum S (snd (clus_train_loop lhs env i k images labels)).
Proof.
  intros HS. induction images as [|im images IH]; intros [|l labels] i k; cbn [clus_train_loop snd]; try lia.
  apply ebind_size; [apply train1_ksum, HS|]. intros _ s. apply IH.
Qed.
Lemma unlabelled_ksum S lhs dr k x : real_sizes S -> ksum S k <= ksum S (snd (clus_train_unlabelled lhs dr k x)).
Proof.
  intros HS. unfold clus_train_unlabelled. apply ebind_size; [destruct (clus_candidates k x false); cbn; lia|].
  intros cand s. apply at_cluster_ksum; [exact HS|]. intros c. apply cluster_train_csum, HS.
Qed.
Lemma semi_loop_ksum S lhs env labels : real_sizes S -> forall images i ls j k, ksum S k <= ksum S (snd (semi_loop lhs env labels i ls j images k)).
Proof.
  intros HS. induction images as [|im images IH]; intros i ls j k; cbn [semi_loop snd]; [lia|].
  destruct (labels !! s32 (Z.of_nat i)) as [l|].
  - apply ebind_size; [apply train1_ksum, HS|]. intros _ s. apply IH.
  - destruct (_ <? _); [apply IH|]. destruct (_ <? _); [apply IH|cbn; lia].
Qed.
Lemma efor_size {St X} (sz : St -> Z) (body : St -> X -> eff St unit) l : (forall s x, sz s <= sz (snd (body s x))) -> forall s, sz s <= sz (snd (efor body l s)).
Proof. intros H. induction l as [|x l IH]; intros s; cbn [efor]; [cbn; lia|]. apply ebind_size; [apply H|]. intros _ s'. apply IH. Qed.
Lemma elift_size {St A} (sz : St -> Z) (s : St) (r : res A) : sz s <= sz (snd (elift s r)).
Proof. destruct r; cbn; lia. Qed.
Lemma labelled_ksum S lhs c k : real_sizes S -> (match c with KUnsupervised _ _ => k_clusters k <> ∅ | _ => True end) -> ksum S k <= ksum S (snd (kcall_run lhs k c)).
Proof.
  intros HS Hc. destruct c as [env images labels|env env2 images labels|env images]; cbn [kcall_run].
  - unfold clus_train. destruct images as [|im0 images]; [cbn; lia|]. apply ebind_size; [apply elift_size|]. intros _ s. apply train_loop_ksum, HS.
  - unfold clus_train_semi. destruct images as [|im0 images]; [cbn; lia|]. apply ebind_size; [apply elift_size|]. intros _ s.
    apply ebind_size; [apply semi_loop_ksum, HS|]. intros ls s'. destruct (_ =? _); [cbn; lia|]. unfold semi_unlabelled. apply efor_size. intros s0 i.
    apply ebind_size; [apply elift_size|]. intros im s1. apply unlabelled_ksum, HS.
  - unfold trainUnsupervised. destruct (Nat.eqb_spec (size (k_clusters k)) 0) as [E|E]; [exfalso; apply map_size_empty_iff in E; exact (Hc E)|].
    unfold at_unsupervised. pose proof (efor_size (csum S) (fun c iim => cluster_train lhs (env iim.1) c iim.2) (imap pair images)
      (fun c iim => cluster_train_csum S lhs (env iim.1) c iim.2 HS) (k_unsupervised k)) as H.
    destruct (efor _ _ _) as [o c']. cbn [snd] in *. unfold ksum, with_unsupervised. cbn [k_clusters k_unsupervised]. lia.
Qed.
