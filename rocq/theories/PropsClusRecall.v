(** Property theorem C154: a ClusWisard recalls its training images. *)
From Verif Require Import Prelude Bytes Float32 Utils BinInput Bleaching Ram Disc Cluster ClusWisard.
From Verif Require Import SpecDisc SpecBleach SpecWisard SpecCluster SpecClus SpecLaw.
From Verif Require Import BleachProofs CtorFacts DiscProofs Recall ClusProofs SpecBin ClusterLaw ClusRecall PropsDisc PropsCluster PropsWisard PropsClus.

Definition quarter : f32 := f32_div f32_one (f32_of_Z 4).
(** Two discriminators per label, bleaching as configured. *)
Definition kre (limit : Z) (bleaching : bool) : cluswisard := ClusWisard 2 quarter 100 limit bleaching false true false 2 false false false false 1 ∅ cluster_default.
Definition im4 (a b c d : Z) : image := vec_image [a; b; c; d].
(** C154: false. With bleaching, both discriminators of a label learn the image, tie with each
    other, and the bleaching that follows lets another label win, although pixel 2 tells every
    image of that label from the one asked about. *)
Definition tieing : list kcall := [KTrain envs [im4 1 1 0 0; im4 0 0 1 1; im4 1 1 1 1; im4 1 1 0 0; im4 1 1 0 0] [ka; ka; ka; kb; kb]].
Theorem C154_recall_refuted : fst (krun false (kre 2 true) tieing) = Ok tt /\ Given ka (im4 1 1 1 1) ∈ all_events tieing /\
  Forall (fun e => match e with Given l y => l = kb -> im_get y 2 <> im_get (im4 1 1 1 1) 2 | Guessed _ => False end) (all_events tieing) /\
  clus_classify (snd (krun false (kre 2 true) tieing)) [im4 1 1 1 1] = Ok [kb].
Proof.
  split; [vm_compute; reflexivity|]. split; [right; right; left|]. split; [|vm_compute; reflexivity]. unfold tieing, all_events. cbn.
  repeat (apply Forall_cons; split; [vm_compute; discriminate|]). apply Forall_nil. exact I.
Qed.
Print Assumptions C154_recall_refuted.
(** Without bleaching, and with one discriminator per label, another label may cover the image. *)
Definition covered : list kcall := [KTrain envs [im4 1 1 0 0; im4 0 0 1 1; im4 1 1 1 1] [kb; kb; ka]].
Theorem C154_covered_refuted : fst (krun false (kre 1 false) covered) = Ok tt /\ Given ka (im4 1 1 1 1) ∈ all_events covered /\
  Given kb (im4 1 1 1 1) ∉ all_events covered /\ clus_classify (snd (krun false (kre 1 false) covered)) [im4 1 1 1 1] = Ok [kb].
Proof.
  split; [vm_compute; reflexivity|]. split; [right; right; left|]. split; [|vm_compute; reflexivity].
  intros H. apply elem_of_cons in H as [H|H]; [|apply elem_of_cons in H as [H|H]; [|apply elem_of_cons in H as [H|H]; [|inversion H]]]; try discriminate.
  all: injection H as H; apply (f_equal (fun g => (g 0, g 2))) in H; vm_compute in H; discriminate.
Qed.
Print Assumptions C154_covered_refuted.

(** What holds, without ignoreZero and with every pixel wired. An image given with label l is
    answered l when for every other label some pixel tells it from all images given with that
    label and all images whose label was guessed: always without bleaching, and with one
    discriminator per label and confidence up to 1 also with bleaching. *)
Theorem C154_recalled_partial : forall lhs_first k0 n cs l x,
  k_clusters k0 = ∅ -> configured_for k0 n -> Forall (proper_kcall k0 n) cs -> len (all_events cs) <= INT_MAX - 2 ->
  k_ignoreZero k0 = false -> k_completeAddressing k0 = true \/ n mod k_addressSize k0 = 0 ->
  (k_bleachingActivated k0 = true -> k_confidence k0 <= 1 /\ k_limit k0 <= 1) ->
  Given l x ∈ all_events cs ->
  (forall l', l' <> l -> exists q, 0 <= q < n /\ forall y, Given l' y ∈ all_events cs \/ Guessed y ∈ all_events cs -> im_get y q <> im_get x q) ->
  exists k, krun lhs_first k0 cs = (Ok tt, k) /\ clus_classify k [x] = Ok [l].
Proof.
  intros lhs k0 n cs l x H0 Hc Hp Hl Hz Hw Hb Hx Hd. destruct (clus_learning lhs k0 n cs H0 Hc Hp Hl) as (k & m & E & Hlaw & _ & _ & Hcl). exists k. split; [exact E|].
  assert (Hne : cs <> []) by (intros ->; inversion Hx).
  assert (Hpx : plain_image (k_base k0) n x).
  { clear - Hp Hx. unfold all_events in Hx. apply elem_of_list_In, in_concat in Hx as (ev & He & Hx). apply elem_of_list_In in He, Hx. apply elem_of_list_fmap in He as (c & -> & Hcs).
    rewrite Forall_forall in Hp. destruct (Hp c Hcs) as (HF & _). rewrite Forall_forall in HF. apply (HF _ Hx). }
  destruct (Hcl Hne [x]) as (ls & El & HF); [apply Forall_cons_2; [exact Hpx|apply Forall_nil_2]|].
  inversion HF as [|? r ? rs Hr Hn]; subst. inversion Hn; subst. rewrite El. f_equal. f_equal. exact (recalled k0 n _ m Hc Hz Hlaw x l r Hw Hb Hx Hd Hr).
Qed.
Print Assumptions C154_recalled_partial.
(** Without bleaching some discriminator of the image's label always has the full count, one per
    RAM, which no discriminator of any label exceeds, and so has the one that is answered. *)
Theorem C154_full_count_partial : forall lhs_first k0 n cs l x,
  k_clusters k0 = ∅ -> configured_for k0 n -> Forall (proper_kcall k0 n) cs -> len (all_events cs) <= INT_MAX - 2 ->
  k_ignoreZero k0 = false -> k_bleachingActivated k0 = false -> Given l x ∈ all_events cs ->
  let full := ram_count n (k_addressSize k0) (k_completeAddressing k0) in
  exists k cand j l' j', krun lhs_first k0 cs = (Ok tt, k) /\ clus_candidates k x (k_searchBestConfidence k) = Ok cand /\ clus_classify k [x] = Ok [l'] /\
    cand !! (l ++ lit "::" ++ to_string j) = Some full /\ cand !! (l' ++ lit "::" ++ to_string j') = Some full /\
    (forall key v, cand !! key = Some v -> v <= full).
Proof.
  intros lhs k0 n cs l x H0 Hc Hp Hl Hz Hb Hx full. destruct (clus_reach lhs k0 n cs H0 Hc Hp Hl) as (k & m & E & (Hks & Hlaw) & Hm). exists k.
  assert (Hpx : plain_image (k_base k0) n x).
  { clear - Hp Hx. unfold all_events in Hx. apply elem_of_list_In, in_concat in Hx as (ev & He & Hx). apply elem_of_list_In in He, Hx. apply elem_of_list_fmap in He as (c & -> & Hcs).
    rewrite Forall_forall in Hp. destruct (Hp c Hcs) as (HF & _). rewrite Forall_forall in HF. apply (HF _ Hx). }
  assert (Hne : cs <> []) by (intros ->; inversion Hx).
  pose proof (TextProofs.len_nonneg (all_events cs)) as Hnn.
  destruct (clus_votes_owed k0 n (len (all_events cs)) m k x Hc ltac:(lia) Hks Hpx) as (vts & Hv & Ho).
  assert (Hk0 : k = with_clusters k0 (k_clusters k)) by apply Hks.
  assert (Ecand : forall sb, clus_candidates k x sb = Ok (tallies 1 vts)).
  { intros sb. unfold clus_candidates. rewrite Hv. cbn [rbind]. rewrite Hk0. cbn [k_bleachingActivated with_clusters]. rewrite Hb. apply bleach_off. }
  destruct (clus_label_due k0 n (len (all_events cs)) m k x (k_searchBestConfidence k) Hc ltac:(lia) ltac:(lia) Hks (Hm Hne) Hpx) as (cand & Ec & Hdue).
  assert (cand = tallies 1 vts) as -> by (specialize (Ecand (k_searchBestConfidence k)); congruence).
  destruct (owed_full k0 n _ m Hc Hz Hlaw x l vts Ho Hx) as (j & Hj). pose proof (owed_most k0 n _ m Hc Hz Hlaw x vts Ho) as Hmost.
  destruct Hdue as (votes & cand' & ss & j' & Ho' & Hcand & Hl' & Hwin). rewrite Hb in Hcand. subst cand'.
  assert (votes = vts) as ->. { apply map_eq. intros key. destruct (votes !! key) as [v|] eqn:E1.
    - apply Ho' in E1. apply Ho in E1. symmetry. exact E1.
    - destruct (vts !! key) as [v|] eqn:E2; [|reflexivity]. apply Ho in E2. apply Ho' in E2. congruence. }
  exists (tallies 1 vts), j, (before_colons (getBiggestCandidate (tallies 1 vts))), j'. split; [exact E|]. split; [apply Ecand|].
  split; [unfold clus_classify; cbn [rmapM]; unfold clus_classify1; rewrite Ecand; reflexivity|]. split; [exact Hj|]. split; [|exact Hmost].
  destruct Hwin as (v & Hv' & Hmax). rewrite Hv'. f_equal. destruct (Hmax _ _ Hj) as [Hlt|[Heq _]]; [specialize (Hmost _ _ Hv'); unfold full; lia|]. symmetry. exact Heq.
Qed.
Print Assumptions C154_full_count_partial.

(** Both theorems apply: with and without bleaching. *)
Definition recalls : list kcall := [KTrain envs [im4 0 1 0 0; im4 0 0 1 1; im4 1 1 1 1] [kb; kb; ka]; KTrain envs [im4 1 0 1 0; im4 1 0 1 1] [ka; ka]].
Lemma kre_configured b : configured_for (kre 1 b) 4.
Proof. split; [|cbn; unfold INT_MAX; split; [lia|]; split; [lia|]; vm_compute; congruence].
  unfold good_params, INT_MAX. cbn. split; [reflexivity|]. split; [lia|]. split; [lia|]. split; [lia|]. split; [split; [intros _; lia|congruence]|lia]. Qed.
Lemma recalls_proper b : Forall (proper_kcall (kre 1 b) 4) recalls.
Proof.
  assert (Hi : forall a b c d, is_bit a -> is_bit b -> is_bit c -> is_bit d -> plain_image 2 4 (im4 a b c d)) by (intros; apply plain4; assumption).
  assert (Hd : forall i, valid_draw (envs i)) by (intros; apply some_draw_valid).
  assert (H0 : is_bit 0) by (left; reflexivity). assert (H1 : is_bit 1) by (right; reflexivity).
  apply Forall_cons_2; [|apply Forall_cons_2; [|apply Forall_nil_2]]; (split; [|split; [discriminate|]; split; [reflexivity|exact Hd]]); cbn [events zip_with];
    repeat (apply Forall_cons_2; [split; [apply Hi; assumption|apply plain_a; auto]|]); apply Forall_nil_2.
Qed.
Example C154_witness :
  (forall l', l' <> ka -> exists q, 0 <= q < 4 /\ forall y, Given l' y ∈ all_events recalls \/ Guessed y ∈ all_events recalls -> im_get y q <> im_get (im4 1 0 1 0) q) /\
  Given ka (im4 1 0 1 0) ∈ all_events recalls /\
  clus_classify (snd (krun false (kre 1 true) recalls)) [im4 1 0 1 0] = Ok [ka] /\ clus_classify (snd (krun false (kre 1 false) recalls)) [im4 1 0 1 0] = Ok [ka].
Proof.
  split; [|split; [right; right; right; left|split; vm_compute; reflexivity]].
  intros l' Hne. exists 0. split; [lia|]. intros y [H|H].
  - apply elem_of_cons in H as [[= -> ->]|H]; [vm_compute; discriminate|]. apply elem_of_cons in H as [[= -> ->]|H]; [vm_compute; discriminate|].
    repeat (apply elem_of_cons in H as [[= -> ->]|H]; [congruence|]). inversion H.
  - repeat (apply elem_of_cons in H as [H|H]; [discriminate|]). inversion H.
Qed.
