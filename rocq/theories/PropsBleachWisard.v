(** Property theorems C41-C44 for a Wisard: what its answers owe to its options bleachingActivated and
    confidence. The candidates are what returnClassesDegrees lists. *)
From Verif Require Import Prelude Bytes Utils BinInput Bleaching Ram Disc DataSet Wisard SpecDisc SpecBin SpecBleach SpecWisard SpecOrder.
From Verif Require Import BleachProofs WisardProofs WisardFacts PropsWisard PropsBleach PropsOrder.

Lemma bleach_shape votes a s c out : bleaching_make votes a s c = Ok out -> exists t, out = tallies t votes.
Proof.
  assert (H : forall fuel b, bleach_loop fuel votes a c b = Ok out -> exists t, out = tallies t votes).
  { induction fuel as [|fuel IH]; intros b; cbn [bleach_loop]; [discriminate|]. rewrite counts_at_tallies. destruct (negb a); [intros [= <-]; eauto|].
    destruct (int_of (b + 1)) as [b'| | |]; cbn [rbind]; try discriminate. destruct (_ && _); [apply IH|intros [= <-]; eauto]. }
  unfold bleaching_make, makeWithConfidence, makeConfidenceless. destruct s; apply H.
Qed.
Lemma before_neq a : ~ comes_before a a.
Proof.
  intros [(r & Hr & H)|(p & x & y & r & r' & H1 & H2 & H)].
  - apply Hr. apply (app_inv_head a). rewrite app_nil_r. symmetry. exact H.
  - rewrite H1 in H2. apply app_inv_head in H2. injection H2 as -> _. lia.
Qed.
Lemma before_lt a b : comes_before a b -> str_lt a b.
Proof. intros H. apply str_le_lt; [apply str_le_before; right; exact H|]. intros ->. exact (before_neq _ H). Qed.

(** The votes of the RAMs of the label l for the image x are vs. *)
Definition votes_of (w : wisard) (x : image) (l : str) (vs : list Z) : Prop :=
  exists d, w_discriminators w !! l = Some d /\ disc_classify d x = Ok vs.
Lemma candidates_votes w x out : wisard_candidates w x = Ok out -> exists votes : gmap str (list Z), all_votes (w_discriminators w) x = Ok votes /\
  (forall l vs, votes !! l = Some vs <-> votes_of w x l vs) /\ bleaching_make votes (w_bleachingActivated w) (w_searchBestConfidence w) (w_confidence w) = Ok out.
Proof.
  unfold wisard_candidates. destruct (all_votes (w_discriminators w) x) as [votes| | |] eqn:E; try discriminate. cbn [rbind]. intros H. exists votes. split; [reflexivity|]. split; [|exact H].
  intros l vs. pose proof (keyed_inv (fun d => disc_classify d x) _ _ E l) as K. unfold votes_of. destruct (w_discriminators w !! l) as [d|].
  - destruct K as (b & K1 & K2). rewrite K2. split; [intros [= <-]; eauto|]. intros (d' & [= <-] & H'). congruence.
  - rewrite K. split; [discriminate|]. intros (d' & [=] & _).
Qed.

(** C41: with bleachingActivated=false the count of each label is the number of its RAMs with a vote
    of 1 or more, and every label of the classifier has a count. *)
Theorem C41_wisard : forall w x out, w_bleachingActivated w = false -> wisard_candidates w x = Ok out ->
  forall l n, out !! l = Some n <-> exists vs, votes_of w x l vs /\ n = count_if (fun v => 1 <=? v) vs.
Proof.
  intros w x out Hb E l n. destruct (candidates_votes w x out E) as (votes & _ & Hv & Hm). rewrite Hb in Hm.
  destruct (C41_without_bleaching votes (w_searchBestConfidence w) (w_confidence w)) as (o & Ho & Hk). rewrite Hm in Ho. injection Ho as <-. rewrite Hk.
  destruct (votes !! l) as [vs|] eqn:El; cbn [fmap option_fmap option_map].
  - split; [intros [= <-]; exists vs; split; [apply Hv, El|reflexivity]|]. intros (vs' & H & ->). apply Hv in H. congruence.
  - split; [discriminate|]. intros (vs' & H & ->). apply Hv in H. congruence.
Qed.
Print Assumptions C41_wisard.

(** C40: with bleachingActivated=true the counts are those of the least threshold that settles for the
    configured confidence. *)
Theorem C40_wisard : forall w x out, w_bleachingActivated w = true -> (forall l vs, votes_of w x l vs -> Forall (fun v => v < INT_MAX - 1) vs) ->
  wisard_candidates w x = Ok out -> exists votes, (forall l vs, votes !! l = Some vs <-> votes_of w x l vs) /\ bleached (w_confidence w) votes out.
Proof.
  intros w x out Hb Hlt E. destruct (candidates_votes w x out E) as (votes & _ & Hv & Hm). rewrite Hb in Hm. exists votes. split; [exact Hv|].
  destruct (C40_least_threshold votes (w_searchBestConfidence w) (w_confidence w)) as (o & Ho & Hk); [|rewrite Hm in Ho; injection Ho as <-; exact Hk].
  intros k vs Hl. apply (Hlt k vs), Hv, Hl.
Qed.
Print Assumptions C40_wisard.

(** C42: the class returned is a label of the classifier with the highest count, the last of those in
    the alphabet; the empty string if there is none. *)
Theorem C42_wisard : forall w x out k, wisard_candidates w x = Ok out -> wisard_classify w [x] = Ok [k] ->
  (w_discriminators w = ∅ -> k = []) /\
  (w_discriminators w <> ∅ -> is_Some (w_discriminators w !! k) /\ exists v, out !! k = Some v /\
    forall k' v', out !! k' = Some v' -> k' <> k -> v' < v \/ (v' = v /\ comes_before k' k)).
Proof.
  intros w x out k E Ek. unfold wisard_classify in Ek. cbn [rmapM] in Ek. unfold wisard_classify1 in Ek. rewrite E in Ek. cbn [rbind] in Ek. injection Ek as <-.
  destruct (candidates_votes w x out E) as (votes & _ & Hv & Hm).
  assert (Hdom : forall l, is_Some (out !! l) <-> is_Some (votes !! l)).
  { intros l. destruct (bleach_shape _ _ _ _ _ Hm) as (b & ->). unfold tallies. rewrite lookup_fmap. destruct (votes !! l); split; intros [y Hy]; cbn in *; eauto; discriminate. }
  assert (Hnn : forall l v, out !! l = Some v -> 0 <= v) by (destruct (bleach_shape _ _ _ _ _ Hm) as (b & ->); apply tallies_nonneg).
  assert (Hd2 : forall l, is_Some (out !! l) -> is_Some (w_discriminators w !! l)). { intros l H. apply Hdom in H as [vs H]. apply Hv in H as (d & Hd & _). eauto. }
  split; intros Hw.
  - assert (out = ∅) as ->; [|reflexivity]. apply map_empty. intros l. destruct (out !! l) eqn:El; [|reflexivity]. destruct (Hd2 l ltac:(eauto)) as [d Hd]. rewrite Hw, lookup_empty in Hd. discriminate.
  - assert (Hne : out <> ∅).
    { intros ->. apply Hw. apply map_empty. intros l. destruct (w_discriminators w !! l) as [d|] eqn:El; [|reflexivity]. exfalso.
      destruct (candidates_votes w x ∅ E) as (votes' & Ea & Hv' & _). pose proof (keyed_inv (fun d => disc_classify d x) _ _ Ea l) as K. rewrite El in K. destruct K as (b & K1 & K2).
      assert (votes !! l = Some b) by (apply Hv; exists d; auto). destruct (proj2 (Hdom l) ltac:(eauto)) as [y Hy]. rewrite lookup_empty in Hy. discriminate. }
    destruct (C42_ties out Hnn Hne) as (v & Hv1 & Hx). split; [apply Hd2; eauto|]. exists v. split; [exact Hv1|exact Hx].
Qed.
Print Assumptions C42_wisard.

(** C43: with bleaching on and confidence 1 or more, a class returned with a count above 1 beats
    every other. *)
Theorem C43_wisard : forall w x out k v, w_bleachingActivated w = true -> 1 <= w_confidence w -> (forall l vs, votes_of w x l vs -> Forall (fun v => v < INT_MAX - 1) vs) ->
  wisard_candidates w x = Ok out -> wisard_classify w [x] = Ok [k] -> out !! k = Some v -> 1 < v ->
  forall k' v', out !! k' = Some v' -> k' <> k -> v' < v.
Proof.
  intros w x out k v Hb Hc Hlt E Ek. unfold wisard_classify in Ek. cbn [rmapM] in Ek. unfold wisard_classify1 in Ek. rewrite E in Ek. cbn [rbind] in Ek. injection Ek as <-.
  destruct (candidates_votes w x out E) as (votes & _ & Hv & Hm). rewrite Hb in Hm. eapply C43_decided_unique; [exact Hc| |exact Hm]. intros k' vs Hl. apply (Hlt k' vs), Hv, Hl.
Qed.
Print Assumptions C43_wisard.

(** C44: the configured confidence is the least margin over the labels after the winner. *)
Theorem C44_wisard_partial : forall w x out k v, w_bleachingActivated w = true -> (forall l vs, votes_of w x l vs -> Forall (fun v => v < INT_MAX - 1) vs) ->
  wisard_candidates w x = Ok out -> wisard_classify w [x] = Ok [k] -> out !! k = Some v -> 1 < v ->
  forall k' v', out !! k' = Some v' -> comes_before k k' -> w_confidence w <= v - v'.
Proof.
  intros w x out k v Hb Hlt E Ek. unfold wisard_classify in Ek. cbn [rmapM] in Ek. unfold wisard_classify1 in Ek. rewrite E in Ek. cbn [rbind] in Ek. injection Ek as <-.
  destruct (candidates_votes w x out E) as (votes & _ & Hv & Hm). rewrite Hb in Hm. intros Hk H1 k' v' Hk' Hbef. eapply C44_margin_partial; [|exact Hm|exact Hk|exact H1|exact Hk'|]; [|apply before_lt, Hbef].
  intros k2 vs Hl. apply (Hlt k2 vs), Hv, Hl.
Qed.
Print Assumptions C44_wisard_partial.


(** Non-vacuity: a classifier after training, with two labels, one image each. *)
Definition taught : wisard := snd (wrun true cfg calls).
Example wisard_witness : w_bleachingActivated taught = true /\ 1 <= w_confidence taught /\ wisard_classify taught [w1] = Ok [hot] /\
  (exists out, wisard_candidates taught w1 = Ok out /\ out !! hot = Some 2 /\ out !! cold = Some 0) /\
  forallb (fun kd => match disc_classify (snd kd) w1 with Ok vs => forallb (fun v => v <? INT_MAX - 1) vs | _ => false end) (map_to_list (w_discriminators taught)) = true.
Proof.
  split; [vm_compute; reflexivity|]. split; [vm_compute; discriminate|]. split; [vm_compute; reflexivity|]. split; [|vm_compute; reflexivity].
  destruct (wisard_candidates taught w1) as [o| | |] eqn:E; revert E; vm_compute; intros E; try discriminate. injection E as <-. eexists. split; [reflexivity|]. split; reflexivity.
Qed.
