(** Property theorems C40-C44: the bleaching rule. Vocabulary in SpecBleach.v. *)
From Verif Require Import Prelude Bytes Bleaching SpecDisc SpecBleach BleachProofs.

(** Decision of [votes_below], for the witnesses. *)
Lemma votes_check N votes :
  List.forallb (fun kv => List.forallb (fun v => v <? N) kv.2) (map_to_list votes) = true -> votes_below N votes.
Proof.
  intros H k vs Hk. apply elem_of_map_to_list, elem_of_list_In in Hk. rewrite List.forallb_forall in H.
  specialize (H _ Hk). cbn in H. rewrite List.forallb_forall in H. apply List.Forall_forall. intros v Hv. specialize (H v Hv). lia.
Qed.

(** C40: the search stops, at the least threshold that settles, for all votes below 2^31-2
    (one threshold beyond the highest vote must fit an int, and the code increments once more). *)
Theorem C40_least_threshold : forall votes searchBest c,
  votes_below (INT_MAX - 1) votes ->
  exists out, bleaching_make votes true searchBest c = Ok out /\ bleached c votes out.
Proof. exact bleach_terminates. Qed.
Print Assumptions C40_least_threshold.
(** The rule determines the outcome. *)
Theorem C40_determined : forall c votes out out', bleached c votes out -> bleached c votes out' -> out = out'.
Proof. exact bleach_unique. Qed.
Print Assumptions C40_determined.
(** The bound matters: with a two-way tie at the largest int the threshold overflows. *)
Theorem C40_overflow_at_int_max : bleaching_make
  {[ lit "a" := [INT_MAX; INT_MAX]; lit "b" := [INT_MAX; INT_MAX] ]} true false 1 = UB UBOverflow.
Proof. exact bleach_overflow. Qed.
Print Assumptions C40_overflow_at_int_max.
(** A tie at threshold 1, decided at 2. *)
Definition demo_votes : gmap str (list Z) := {[ lit "a" := [3; 1; 3; 1]; lit "b" := [2; 2; 2; 1]; lit "c" := [0; 0; 1; 0] ]}.
Example C40_witness : votes_below (INT_MAX - 1) demo_votes /\
  rmap sorted_items (bleaching_make demo_votes true false 1) = Ok [(lit "a", 2); (lit "b", 3); (lit "c", 0)] /\
  rmap sorted_items (bleaching_make demo_votes true false 2) = Ok [(lit "a", 2); (lit "b", 3); (lit "c", 0)] /\
  rmap sorted_items (bleaching_make {[ lit "a" := [3; 3]; lit "b" := [2; 2] ]} true false 1) = Ok [(lit "a", 2); (lit "b", 0)].
Proof.
  split; [apply votes_check; vm_compute; reflexivity|].
  split; [vm_compute; reflexivity|]. split; [vm_compute; reflexivity|vm_compute; reflexivity].
Qed.

(** C41: bleaching off. *)
Theorem C41_without_bleaching : forall votes searchBest c,
  exists out, bleaching_make votes false searchBest c = Ok out /\
    forall k, out !! k = (fun vs => count_if (fun v => 1 <=? v) vs) <$> votes !! k.
Proof.
  intros votes sbc c. eexists. split; [apply bleach_off|]. intros k. unfold tallies. apply lookup_fmap.
Qed.
Print Assumptions C41_without_bleaching.
Example C41_witness : rmap sorted_items (bleaching_make demo_votes false false 1) = Ok [(lit "a", 4); (lit "b", 4); (lit "c", 1)].
Proof. vm_compute. reflexivity. Qed.

(** C42: the chosen class. *)
Theorem C42_winner : forall m, (forall k v, m !! k = Some v -> 0 <= v) ->
  (m <> ∅ -> exists v, m !! getBiggestCandidate m = Some v /\
     forall k' v', m !! k' = Some v' -> v' < v \/ (v' = v /\ str_le k' (getBiggestCandidate m))) /\
  (m = ∅ -> getBiggestCandidate m = []).
Proof. intros m H. split; [exact (biggest_winner m H)|intros ->; exact biggest_empty]. Qed.
Print Assumptions C42_winner.
Example C42_witness : getBiggestCandidate {[ lit "cold" := 4; lit "hot" := 4; lit "warm" := 2 ]} = lit "hot".
Proof. vm_compute. reflexivity. Qed.

(** C43: a decided winner is unique, for confidence 1 and above. *)
Theorem C43_decided_unique : forall c votes searchBest out v, 1 <= c -> votes_below (INT_MAX - 1) votes ->
  bleaching_make votes true searchBest c = Ok out -> out !! getBiggestCandidate out = Some v -> 1 < v ->
  forall k' v', out !! k' = Some v' -> k' <> getBiggestCandidate out -> v' < v.
Proof.
  intros c votes sbc out v Hc Hb E Hk Hv. destruct (bleach_terminates votes sbc c Hb) as (out' & E' & Hbl).
  rewrite E in E'. injection E' as <-. apply (decided_unique c votes out _ v Hc Hbl); auto.
  apply biggest_winner; [|intros ->; rewrite lookup_empty in Hk; discriminate].
  destruct Hbl as (b & _ & -> & _). intros. eapply tallies_nonneg. eassumption.
Qed.
Print Assumptions C43_decided_unique.
Example C43_witness : exists out, bleaching_make demo_votes true false 1 = Ok out /\ out !! getBiggestCandidate out = Some 3.
Proof. eexists. split; [vm_compute; reflexivity|vm_compute; reflexivity]. Qed.

(** C44: with confidence 2 a winner with margin 1 is returned although the next threshold
    would give a margin of 3: the ambiguity test misses labels before the winner. *)
Theorem C44_margin_refuted : exists votes out, votes_below (INT_MAX - 1) votes /\
  bleaching_make votes true false 2 = Ok out /\ getBiggestCandidate out = lit "b" /\
  out !! lit "b" = Some 3 /\ out !! lit "a" = Some 2 /\
  tallies 2 votes !! lit "b" = Some 3 /\ tallies 2 votes !! lit "a" = Some 0.
Proof.
  exists {[ lit "a" := [1; 1; 0]; lit "b" := [2; 2; 2] ]}. eexists.
  split; [apply votes_check; vm_compute; reflexivity|]. split; [vm_compute; reflexivity|]. vm_compute. auto.
Qed.
Print Assumptions C44_margin_refuted.
(** The margin holds over the labels after the winner in lexicographic order (and is at least 1
    over all, C43). Missing (false): the labels before the winner. *)
Theorem C44_margin_partial : forall c votes searchBest out v, votes_below (INT_MAX - 1) votes ->
  bleaching_make votes true searchBest c = Ok out -> out !! getBiggestCandidate out = Some v -> 1 < v ->
  forall k' v', out !! k' = Some v' -> str_lt (getBiggestCandidate out) k' -> c <= v - v'.
Proof.
  intros c votes sbc out v Hb E Hk Hv. destruct (bleach_terminates votes sbc c Hb) as (out' & E' & Hbl).
  rewrite E in E'. injection E' as <-. apply (margin_after c votes out _ v Hbl); auto.
  apply biggest_winner; [|intros ->; rewrite lookup_empty in Hk; discriminate].
  destruct Hbl as (b & _ & -> & _). intros. eapply tallies_nonneg. eassumption.
Qed.
Print Assumptions C44_margin_partial.
Example C44_witness : exists out, bleaching_make demo_votes true false 2 = Ok out /\
  out !! getBiggestCandidate out = Some 3 /\ str_lt (getBiggestCandidate out) (lit "c").
Proof. eexists. split; [vm_compute; reflexivity|]. split; [vm_compute; reflexivity|vm_compute; reflexivity]. Qed.
