(** Training a ClusWisard is training the cluster of each label on the examples of that label (for C142). *)
From Verif Require Import Prelude Bytes Utils Float32 BinInput Bleaching Ram Disc Wisard Cluster ClusWisard SpecClusOrder.
From Verif Require Import ClusIso.

Section fixed.
Context (lhs_first : bool) (k0 : cluswisard).
(** One example given to what is stored under its label. *)
Definition slot_train (c : option cluster) (e : example) : res cluster :=
  let c0 := match c with None => new_cluster k0 (s32 (im_size (ex_image e))) (k_base k0) | Some c => c end in
  let '(o, c') := cluster_train lhs_first (ex_draw e) c0 (ex_image e) in
  let* _ := o in Ok c'.
Fixpoint slot_run (c : option cluster) (xs : list example) : res (option cluster) :=
  match xs with
  | [] => Ok c
  | e :: xs' => let* c' := slot_train c e in slot_run (Some c') xs'
  end.
Lemma new_cluster_framed k k' a b : framed k k' -> new_cluster k' a b = new_cluster k a b.
Proof. intros ->. reflexivity. Qed.
Lemma train1_slot k e k' : framed k0 k ->
  clus_train1 lhs_first (ex_draw e) k (ex_image e) (ex_label e) = (Ok tt, k') <->
  exists c, slot_train (k_clusters k !! ex_label e) e = Ok c /\ k' = with_clusters k (<[ex_label e := c]> (k_clusters k)).
Proof.
  intros Hf. unfold clus_train1, slot_train. destruct (k_clusters k !! ex_label e) as [c|] eqn:Ec.
  - unfold at_cluster. rewrite Ec. cbn [from_option id]. destruct (cluster_train _ _ c _) as [[[]| | |] c']; cbn [rbind]; split; intros H; try discriminate; try (destruct H as (? & H & _); discriminate).
    + injection H as <-. eauto.
    + destruct H as (c1 & E & ->). injection E as <-. reflexivity.
  - unfold at_cluster, makeClusters. cbn [with_clusters k_clusters]. rewrite lookup_insert. cbn [from_option id]. rewrite (new_cluster_framed k0 k) by exact Hf. assert (Hb : k_base k = k_base k0) by (rewrite Hf; reflexivity). rewrite Hb.
    destruct (cluster_train _ _ _ _) as [[[]| | |] c']; cbn [rbind]; split; intros H; try discriminate; try (destruct H as (? & H & _); discriminate).
    + injection H as <-. exists c'. split; [reflexivity|]. rewrite insert_insert. reflexivity.
    + destruct H as (c1 & E & ->). injection E as <-. rewrite insert_insert. reflexivity.
Qed.
Lemma loop_slots (env : nat -> draw) : forall xs i k k', framed k0 k -> (forall j e, xs !! j = Some e -> env (i + j)%nat = ex_draw e) ->
  clus_train_loop lhs_first env i k (ex_image <$> xs) (ex_label <$> xs) = (Ok tt, k') <->
  k' = with_clusters k (k_clusters k') /\ forall l, slot_run (k_clusters k !! l) (of_label l xs) = Ok (k_clusters k' !! l).
Proof.
  induction xs as [|e xs IH]; intros i k k' Hf He.
  - cbn. split; [intros E; injection E as <-; split; [destruct k; reflexivity|reflexivity]|]. intros [-> H]. f_equal. assert (E : k_clusters k = k_clusters k').
    { apply map_eq. intros l. specialize (H l). injection H as H. exact H. } rewrite <- E. destruct k; reflexivity.
  - rewrite !fmap_cons. cbn [clus_train_loop]. rewrite <- (Nat.add_0_r i) at 1. rewrite (He 0%nat e eq_refl).
    assert (He' : forall j e', xs !! j = Some e' -> env (S i + j)%nat = ex_draw e') by (intros j e' H; replace (S i + j)%nat with (i + S j)%nat by lia; apply He; exact H).
    pose proof (train1_slot k e) as HT.
    destruct (clus_train1 lhs_first (ex_draw e) k (ex_image e) (ex_label e)) as [o k1] eqn:E1. destruct o as [[]| | |].
    + cbn [ebind]. destruct (proj1 (HT k1 Hf) eq_refl) as (c & Ec & Ek). pose proof (ctrain1_frame lhs_first (ex_draw e) k (ex_image e) (ex_label e)) as Hf1. rewrite E1 in Hf1. cbn [snd] in Hf1.
      rewrite (IH (S i) k1 k' (framed_trans _ _ _ Hf Hf1) He').
      assert (HS : forall l, slot_run (k_clusters k !! l) (of_label l (e :: xs)) = slot_run (k_clusters k1 !! l) (of_label l xs)).
      { intros l. unfold of_label. rewrite filter_cons. rewrite Ek. cbn [with_clusters k_clusters]. case_decide as Hd.
        - cbn [slot_run]. rewrite <- Hd, Ec. cbn [rbind]. rewrite lookup_insert. reflexivity.
        - rewrite lookup_insert_ne by exact Hd. reflexivity. }
      setoid_rewrite HS. rewrite Ek. cbn [with_clusters]. tauto.
    + cbn [ebind]. split; [discriminate|]. intros [_ H]. specialize (H (ex_label e)). unfold of_label in H. rewrite filter_cons in H. rewrite decide_True in H by reflexivity. cbn [slot_run] in H.
      destruct (slot_train (k_clusters k !! ex_label e) e) as [c| | |] eqn:Ec; try discriminate. discriminate (proj2 (HT (with_clusters k (<[ex_label e := c]> (k_clusters k))) Hf) (ex_intro _ c (conj eq_refl eq_refl))).
    + cbn [ebind]. split; [discriminate|]. intros [_ H]. specialize (H (ex_label e)). unfold of_label in H. rewrite filter_cons in H. rewrite decide_True in H by reflexivity. cbn [slot_run] in H.
      destruct (slot_train (k_clusters k !! ex_label e) e) as [c| | |] eqn:Ec; try discriminate. discriminate (proj2 (HT (with_clusters k (<[ex_label e := c]> (k_clusters k))) Hf) (ex_intro _ c (conj eq_refl eq_refl))).
    + cbn [ebind]. split; [discriminate|]. intros [_ H]. specialize (H (ex_label e)). unfold of_label in H. rewrite filter_cons in H. rewrite decide_True in H by reflexivity. cbn [slot_run] in H.
      destruct (slot_train (k_clusters k !! ex_label e) e) as [c| | |] eqn:Ec; try discriminate. discriminate (proj2 (HT (with_clusters k (<[ex_label e := c]> (k_clusters k))) Hf) (ex_intro _ c (conj eq_refl eq_refl))).
Qed.
End fixed.

Lemma perm_of_labels xs xs' : (forall l, of_label l xs = of_label l xs') -> length xs = length xs'.
Proof.
  revert xs'. assert (HC : forall (ys : list example) l, (length ys = length (of_label l ys) + length (filter (fun e => ex_label e <> l) ys))%nat).
  { induction ys as [|e ys IH]; intros l; [reflexivity|]. unfold of_label in *. rewrite !filter_cons. repeat case_decide; cbn; try rewrite (IH l); try lia; contradiction. }
  induction xs as [xs IH] using (induction_ltof1 _ (@length example)). unfold ltof in IH. intros xs' H.
  destruct xs as [|e xs].
  - destruct xs' as [|e' xs']; [reflexivity|]. specialize (H (ex_label e')). unfold of_label in H. rewrite filter_cons, decide_True in H by reflexivity. discriminate.
  - pose proof (HC (e :: xs) (ex_label e)) as H1. pose proof (HC xs' (ex_label e)) as H2.
    assert (H3 : (length (of_label (ex_label e) (e :: xs)) > 0)%nat) by (unfold of_label; rewrite filter_cons, decide_True by reflexivity; cbn; lia).
    rewrite H1, H2, (H (ex_label e)). f_equal. apply IH; [lia|]. intros l. unfold of_label. rewrite !list_filter_filter.
    destruct (decide (l = ex_label e)) as [-> |Hn].
    + assert (HN : forall ys : list example, filter (fun x => ex_label x = ex_label e /\ ex_label x <> ex_label e) ys = []). { intros ys. induction ys as [|y ys IHy]; [reflexivity|]. rewrite filter_cons, decide_False by tauto. exact IHy. }
      rewrite !HN. reflexivity.
    + assert (HN : forall ys : list example, filter (fun x => ex_label x = l /\ ex_label x <> ex_label e) ys = of_label l ys).
      { intros ys. unfold of_label. apply list_filter_iff. intros x. split; [tauto|]. intros <-. tauto. }
      rewrite !HN. apply H.
Qed.
Theorem interleave lhs k xs xs' n k' : Forall (fun e => im_size (ex_image e) = n) xs -> (forall l, of_label l xs = of_label l xs') ->
  train_on lhs k xs = (Ok tt, k') -> train_on lhs k xs' = (Ok tt, k').
Proof.
  intros HF HL. pose proof (perm_of_labels xs xs' HL) as Hlen.
  assert (HF' : Forall (fun e => im_size (ex_image e) = n) xs').
  { apply Forall_forall. intros e He. apply (proj1 (Forall_forall _ _) HF). assert (e ∈ of_label (ex_label e) xs) as Hin by (rewrite HL; unfold of_label; apply elem_of_list_filter; auto).
    unfold of_label in Hin. apply elem_of_list_filter in Hin. tauto. }
  unfold train_on, clus_train. destruct xs as [|e xs]; [discriminate|]. destruct xs' as [|e' xs']; [discriminate|]. set (d := Ex _ _ _). clearbody d. rewrite !fmap_cons. cbv iota beta.
  pose proof (proj1 (Forall_cons_1 _ _ _ HF)) as Hs. pose proof (proj1 (Forall_cons_1 _ _ _ HF')) as Hs'. cbv beta in Hs, Hs'.
  assert (HC : clus_first_checks k (ex_image e') = clus_first_checks k (ex_image e)) by (unfold clus_first_checks; rewrite Hs, Hs'; reflexivity).
  rewrite HC. rewrite <- !fmap_cons.
  assert (HL1 : len (ex_image <$> e' :: xs') = len (ex_image <$> e :: xs)) by (unfold len; rewrite !fmap_length; lia).
  assert (HL2 : len (ex_label <$> e' :: xs') = len (ex_label <$> e :: xs)) by (unfold len; rewrite !fmap_length; lia).
  rewrite HL1, HL2. destruct (rbind _ _) as [[]| | |]; cbn [elift ebind]; try discriminate.
  rewrite (loop_slots lhs k _ (e :: xs) 0 k k' (framed_refl k)) by (intros j x Hj; cbn [Nat.add]; rewrite Hj; reflexivity).
  rewrite (loop_slots lhs k _ (e' :: xs') 0 k k' (framed_refl k)) by (intros j x Hj; cbn [Nat.add]; rewrite Hj; reflexivity).
  intros [H1 H2]. split; [exact H1|]. intros l. rewrite <- HL. apply H2.
Qed.
