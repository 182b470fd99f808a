(** The labels of a ClusWisard do not interfere with each other (for C131). *)
From Verif Require Import Prelude Bytes Utils Float32 BinInput Bleaching Ram Disc Wisard Cluster ClusWisard SpecDisc SpecBleach SpecCluster SpecClus.
From Verif Require Import BleachProofs DiscCtorProofs ClusterProofs ClusProofs WisardFacts.

(** Everything but the supervised clusters is the same. *)
Definition framed (k k' : cluswisard) : Prop := k' = with_clusters k (k_clusters k').
Lemma framed_refl k : framed k k. Proof. destruct k; reflexivity. Qed.
Lemma framed_trans k k1 k2 : framed k k1 -> framed k1 k2 -> framed k k2.
Proof. unfold framed. intros H1 H2. rewrite H2, H1. reflexivity. Qed.

Lemma at_cluster_other f k l B : B <> l -> k_clusters (snd (at_cluster f k l)) !! B = k_clusters k !! B.
Proof.
  intros H. unfold at_cluster. destruct (f _) as [o c']. cbn [snd with_clusters k_clusters]. apply lookup_insert_ne. congruence.
Qed.
Lemma at_cluster_frame f k l : framed k (snd (at_cluster f k l)).
Proof. unfold at_cluster. destruct (f _) as [o c']. reflexivity. Qed.
Lemma ctrain1_other lhs dr k x l B : B <> l -> k_clusters (snd (clus_train1 lhs dr k x l)) !! B = k_clusters k !! B.
Proof.
  intros H. unfold clus_train1. rewrite at_cluster_other by exact H. destruct (k_clusters k !! l); [reflexivity|].
  unfold makeClusters. cbn [with_clusters k_clusters]. apply lookup_insert_ne. congruence.
Qed.
Lemma ctrain1_frame lhs dr k x l : framed k (snd (clus_train1 lhs dr k x l)).
Proof.
  unfold clus_train1. destruct (k_clusters k !! l); [apply at_cluster_frame|]. eapply framed_trans; [|apply at_cluster_frame].
  unfold framed, makeClusters. destruct k; reflexivity.
Qed.
Lemma framed_bind {A B} k (m : eff cluswisard A) (f : A -> cluswisard -> eff cluswisard B) :
  framed k (snd m) -> (forall a k1, framed k1 (snd (f a k1))) -> framed k (snd (ebind m f)).
Proof.
  intros H1 H2. destruct m as [[a| | |] k1]; cbn [ebind snd] in *; try exact H1. eapply framed_trans; [exact H1|apply H2].
Qed.
Lemma ctrain_loop_frame lhs env : forall images labels i k, framed k (snd (clus_train_loop lhs env i k images labels)).
Proof.
  induction images as [|x images IH]; intros [|l labels] i k; try apply framed_refl. cbn [clus_train_loop].
  apply framed_bind; [apply ctrain1_frame|]. intros _ k1. apply IH.
Qed.
Lemma ctrain_loop_other lhs env : forall images labels i k B, B ∉ labels ->
  k_clusters (snd (clus_train_loop lhs env i k images labels)) !! B = k_clusters k !! B.
Proof.
  induction images as [|x images IH]; intros [|l labels] i k B HB; try reflexivity.
  apply not_elem_of_cons in HB as [Hl HB]. cbn [clus_train_loop].
  pose proof (ctrain1_other lhs (env i) k x l B Hl) as H1.
  destruct (clus_train1 lhs (env i) k x l) as [r k']. cbn [snd] in *.
  destruct r; cbn [ebind snd]; auto. rewrite (IH labels (S i) k' B HB). exact H1.
Qed.
Lemma elift_frame {A} k (r : res A) : framed k (snd (elift k r)).
Proof. apply framed_refl. Qed.
Lemma ctrain_frame lhs env k images labels : framed k (snd (clus_train lhs env k images labels)).
Proof.
  unfold clus_train. destruct images as [|x images]; [apply framed_refl|]. apply framed_bind; [apply elift_frame|]. intros _ k1. apply ctrain_loop_frame.
Qed.
Lemma ctrain_other lhs env k images labels B : B ∉ labels ->
  k_clusters (snd (clus_train lhs env k images labels)) !! B = k_clusters k !! B.
Proof.
  intros HB. unfold clus_train. destruct images as [|x images]; [reflexivity|]. destruct (rbind _ _) as [u| | |]; cbn [elift ebind snd]; try reflexivity.
  apply ctrain_loop_other, HB.
Qed.
Lemma semi_loop_frame lhs env labels : forall images i ls j k,
  framed k (snd (semi_loop lhs env labels i ls j images k)).
Proof.
  induction images as [|x images IH]; intros i ls j k; [apply framed_refl|]. cbn [semi_loop]. destruct (labels !! _) as [l|].
  - apply framed_bind; [apply ctrain1_frame|]. intros _ k1. apply IH.
  - destruct (_ <? j); [apply IH|]. destruct (j <? ls); [apply IH|apply framed_refl].
Qed.
Lemma unlabelled_frame lhs dr k x : framed k (snd (clus_train_unlabelled lhs dr k x)).
Proof. unfold clus_train_unlabelled. apply framed_bind; [apply elift_frame|]. intros cand k1. apply at_cluster_frame. Qed.
Lemma semi_frame lhs env env2 k images labels : framed k (snd (clus_train_semi lhs env env2 k images labels)).
Proof.
  unfold clus_train_semi. destruct images as [|x images]; [apply framed_refl|]. apply framed_bind; [apply elift_frame|]. intros _ k1.
  apply framed_bind; [apply semi_loop_frame|]. intros ls k2. destruct (_ =? _); [apply framed_refl|]. unfold semi_unlabelled.
  generalize (seq 0 (Z.to_nat ls)), k2. clear k1 k2. intros is. induction is as [|i is IH]; intros k2; [apply framed_refl|]. cbn [efor].
  apply framed_bind; [|intros _ k3; apply IH]. apply framed_bind; [apply elift_frame|]. intros y k3. apply unlabelled_frame.
Qed.
Lemma unsup_frame lhs env k images : k_clusters (snd (trainUnsupervised lhs env k images)) = k_clusters k /\
  snd (trainUnsupervised lhs env k images) = with_unsupervised k (k_unsupervised (snd (trainUnsupervised lhs env k images))).
Proof.
  unfold trainUnsupervised, at_unsupervised. destruct (Nat.eqb _ _).
  - destruct images as [|x images]; [destruct k; auto|]. destruct (efor _ _ _) as [o c']. destruct k; auto.
  - destruct (efor _ _ _) as [o c']. destruct k; auto.
Qed.

(** Votes of one label. *)
Lemma cvotes_other m m' x v v' B j : m' !! B = m !! B -> clus_votes m x = Ok v -> clus_votes m' x = Ok v' ->
  v' !! cluster_key B j = v !! cluster_key B j.
Proof.
  intros HB Hv Hv'. destruct (clus_votes_spec _ _ _ Hv) as [_ S1]. destruct (clus_votes_spec _ _ _ Hv') as [_ S2].
  apply option_eq. intros u. rewrite S1, S2. split; intros (l & c & vs & i & Hl & Hc & Hi & E); apply cluster_key_inj in E as [<- <-];
    exists B, c, vs, j; (split; [congruence|auto]).
Qed.
Lemma cmental_other iter k k' M M' B : k_clusters k' !! B = k_clusters k !! B -> clus_mental iter k = Ok M -> clus_mental iter k' = Ok M' -> M' !! B = M !! B.
Proof.
  intros H Ev Ev'. pose proof (keyed_inv (cluster_mental iter) _ _ Ev B) as H1. pose proof (keyed_inv (cluster_mental iter) _ _ Ev' B) as H2. rewrite H in H2.
  destruct (k_clusters k !! B); [|congruence]. destruct H1 as (b & Eb & ->), H2 as (b' & Eb' & ->). congruence.
Qed.
