(** Property theorem C155: the discriminators limit matters only when it is reached. *)
From Verif Require Import Prelude Bytes Float32 BinInput Bleaching Ram Json Disc Cluster ClusWisard SpecClus SpecLimit.
From Verif Require Import CtorFacts Limit PropsCluster PropsClus.

(** Two ClusWisards built alike but for the limit. *)
Lemma options_limit a ms th L L' c k k' : clus_of_options a ms th L c = Ok k -> clus_of_options a ms th L' c = Ok k' -> klimited L k /\ k' = with_limit L' k.
Proof.
  unfold clus_of_options. intros H H'.
  repeat match goal with H : rbind ?m _ = Ok _ |- _ => destruct m; cbn [rbind] in *; [|congruence..] end.
  injection H as <-. injection H' as <-. split; [|unfold with_limit; cbn; rewrite fmap_empty; reflexivity]. split; [reflexivity|]. split; [intros l c0 H; cbn [k_clusters] in H; rewrite lookup_empty in H; discriminate|intros p H; discriminate].
Qed.
Lemma unsupervised_limit L k xs : clus_classifyUnsupervised (with_limit L k) xs = clus_classifyUnsupervised k xs.
Proof. reflexivity. Qed.

(** C155: if a history of training calls (supervised, semi-supervised, unsupervised; any images
    and labels) succeeds with limit L and no label ever holds more than L' <= L discriminators,
    the same history with limit L' gives the same discriminators, hence the same answers. *)
Theorem C155_lower_limit : forall lhs_first a minScore threshold L L' options k0 k0' cs k,
  clus_of_options a minScore threshold L options = Ok k0 -> clus_of_options a minScore threshold L' options = Ok k0' ->
  L' <= L <= INT_MAX -> krun lhs_first k0 cs = (Ok tt, k) ->
  (forall cs1 cs2, cs = cs1 ++ cs2 -> at_most L' (snd (krun lhs_first k0 cs1))) ->
  exists k', krun lhs_first k0' cs = (Ok tt, k') /\ k' = with_limit L' k /\
    (forall xs, clus_classify k' xs = clus_classify k xs) /\
    (forall xs, clus_classifyUnsupervised k' xs = clus_classifyUnsupervised k xs) /\
    (forall iter, clus_mental iter k' = clus_mental iter k).
Proof.
  intros lhs a ms th L L' opts k0 k0' cs k H H' HL E Hm. destruct (options_limit _ _ _ _ _ _ _ _ H H') as (Hk & ->). exists (with_limit L' k).
  split; [|split; [reflexivity|]; split; [intros; apply classify_limit|]; split; [intros; apply unsupervised_limit|intros; apply mental_limit]].
  apply (krun_agrees L L'); [lia|lia|exact Hk|exact E|]. intros cs1 cs2 Ecs. destruct (Hm cs1 cs2 Ecs) as (H1 & H2).
  split; [intros l c Hc; left; specialize (H1 l c Hc); lia|left; lia].
Qed.
Print Assumptions C155_lower_limit.
(** Nor does raising a limit that is never reached change anything. *)
Theorem C155_higher_limit : forall lhs_first a minScore threshold L L' options k0 k0' cs k,
  clus_of_options a minScore threshold L options = Ok k0 -> clus_of_options a minScore threshold L' options = Ok k0' ->
  L <= L' <= INT_MAX -> krun lhs_first k0 cs = (Ok tt, k) ->
  (forall cs1 cs2, cs = cs1 ++ cs2 -> at_most (L - 1) (snd (krun lhs_first k0 cs1))) ->
  exists k', krun lhs_first k0' cs = (Ok tt, k') /\ k' = with_limit L' k /\
    (forall xs, clus_classify k' xs = clus_classify k xs) /\
    (forall xs, clus_classifyUnsupervised k' xs = clus_classifyUnsupervised k xs) /\
    (forall iter, clus_mental iter k' = clus_mental iter k).
Proof.
  intros lhs a ms th L L' opts k0 k0' cs k H H' HL E Hm. destruct (options_limit _ _ _ _ _ _ _ _ H H') as (Hk & ->). exists (with_limit L' k).
  split; [|split; [reflexivity|]; split; [intros; apply classify_limit|]; split; [intros; apply unsupervised_limit|intros; apply mental_limit]].
  apply (krun_agrees L L'); [lia|lia|exact Hk|exact E|]. intros cs1 cs2 Ecs. destruct (Hm cs1 cs2 Ecs) as (H1 & H2).
  split; [intros l c Hc; right; specialize (H1 l c Hc); lia|right; lia].
Qed.
Print Assumptions C155_higher_limit.

(** The hypotheses are met: three calls, at most two discriminators per label, limits 2 and 9. *)
Definition kbuild (L : Z) : res cluswisard := clus_of_options 2 half 4 L (jobject []).
Definition kb0 (L : Z) : cluswisard := ClusWisard 2 half 4 L true false true false 2 false false false false 1 ∅ cluster_default.
Definition lcalls : list kcall := [KTrain envs [x1; x2] [ka; kb]; KSemi envs envs [x4; x1; x2] {[ 2 := kb ]}; KTrain envs [x2] [ka]].
Lemma at_most_test N k : forallb (fun lc => len (c_discs lc.2) <=? N) (sorted_items (k_clusters k)) = true -> len (c_discs (k_unsupervised k)) <=? N = true -> at_most N k.
Proof.
  intros H1 H2. split; [|lia]. intros l c Hc. rewrite forallb_forall in H1. specialize (H1 (l, c)). cbn in H1. apply Z.leb_le, H1, elem_of_list_In, BleachProofs.sorted_items_elem, Hc.
Qed.
Example C155_witness : kbuild 9 = Ok (kb0 9) /\ kbuild 2 = Ok (kb0 2) /\ fst (krun false (kb0 9) lcalls) = Ok tt /\
  (forall cs1 cs2, lcalls = cs1 ++ cs2 -> at_most 2 (snd (krun false (kb0 9) cs1))) /\ kcounters (snd (krun false (kb0 9) lcalls)) = [(ka, [2; 1]); (kb, [2; 1])].
Proof.
  split; [reflexivity|]. split; [reflexivity|]. split; [vm_compute; reflexivity|]. split; [|vm_compute; reflexivity]. intros cs1 cs2 E.
  assert (Hc : cs1 = take (length cs1) lcalls) by (rewrite E, take_app; reflexivity). rewrite Hc.
  assert (Hl : (length cs1 <= 3)%nat) by (apply (f_equal length) in E; rewrite app_length in E; cbn in E; lia). clear -Hl.
  destruct (length cs1) as [|[|[|[|n]]]]; [..|lia]; apply at_most_test; vm_compute; reflexivity.
Qed.
(** A limit that is reached does matter. *)
Example C155_reached : fst (krun false (kb0 1) lcalls) = Ok tt /\ kcounters (snd (krun false (kb0 1) lcalls)) = [(ka, [3]); (kb, [3])] /\
  kcounters (snd (krun false (kb0 2) lcalls)) = [(ka, [2; 1]); (kb, [2; 1])].
Proof. split; [|split]; vm_compute; reflexivity. Qed.
