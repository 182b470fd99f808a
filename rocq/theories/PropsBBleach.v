(** Property theorems C111-C112: bleaching by halving steps. Vocabulary in SpecBleach.v and SpecBBleach.v. *)
From Verif Require Import Prelude Bytes Bleaching BBleaching SpecDisc SpecBleach SpecBBleach BleachProofs BBleachProofs PropsBleach.

(** C111: for votes below 2^30 the search stops, at the first threshold of the halving sequence that
    breaks the tie, or at the last one. *)
Theorem C111_halving_search : forall votes, votes_below (2 ^ 30) votes ->
  exists out, bbleaching_make votes true = Ok out /\ halved votes out.
Proof. exact bbleach_on. Qed.
Print Assumptions C111_halving_search.
(** The rule determines the outcome. *)
Theorem C111_determined : forall votes out out', halved votes out -> halved votes out' -> out = out'.
Proof. exact halved_unique. Qed.
Print Assumptions C111_determined.
(** For any int votes: the same, or an undefined conversion, and then only with a vote of 2^30 or more
    and a tie at each of the first 29 thresholds. *)
Theorem C111_any_votes : forall votes, votes_below (2 ^ 31) votes ->
  (exists out, bbleaching_make votes true = Ok out /\ halved votes out) \/
  (bbleaching_make votes true = UB UBCast /\ exists B, highest_vote votes B /\ 2 ^ 30 <= B /\
     forall n, (1 <= n < 30)%nat -> shared_top (tallies (halving B n) votes)).
Proof. exact bbleach_any. Qed.
Print Assumptions C111_any_votes.
(** The bound matters: a tie at 2^30. *)
Theorem C111_cast_at_2_30 :
  bbleaching_make {[ lit "a" := [2 ^ 30]; lit "b" := [2 ^ 30] ]} true = UB UBCast.
Proof. vm_compute. reflexivity. Qed.
Print Assumptions C111_cast_at_2_30.
(** Highest vote 9: thresholds 4, 6 and 7. Tied at 4 and 6, decided at 7. *)
Definition halving_votes : gmap str (list Z) := {[ lit "a" := [9; 9; 3]; lit "b" := [9; 6; 1]; lit "c" := [2; 4; 8] ]}.
Example C111_witness : votes_below (2 ^ 30) halving_votes /\
  sorted_items (counts_at 4 halving_votes) = [(lit "a", 2); (lit "b", 2); (lit "c", 2)] /\
  sorted_items (counts_at 6 halving_votes) = [(lit "a", 2); (lit "b", 2); (lit "c", 1)] /\
  (halving 9 1, halving 9 2, halving 9 3) = (4, 6, 7) /\
  rmap sorted_items (bbleaching_make halving_votes true) = Ok [(lit "a", 2); (lit "b", 1); (lit "c", 1)].
Proof.
  split; [apply votes_check; vm_compute; reflexivity|].
  split; [vm_compute; reflexivity|]. split; [vm_compute; reflexivity|]. split; [vm_compute; reflexivity|vm_compute; reflexivity].
Qed.

Lemma halves_off votes b : getBiggestValue votes / 2 = b -> bbleaching_make votes false = Ok (tallies b votes).
Proof.
  intros <-. destruct (bbleach_off votes) as (B & HB & E). rewrite E.
  rewrite (highest_vote_unique _ _ _ HB (getBiggestValue_spec votes)). reflexivity.
Qed.
(** C112 is false: with bleaching off the ordinary rule counts the RAMs that answered (votes of at least 1);
    the halving one does not: it drops the low votes, and with no vote above 1 it counts every RAM. *)
Theorem C112_without_bleaching_refuted :
  (exists votes out, votes_below (2 ^ 30) votes /\ bbleaching_make votes false = Ok out /\
     votes !! lit "a" = Some [1; 1; 1] /\ out !! lit "a" = Some 0) /\
  (exists votes out, votes_below (2 ^ 30) votes /\ bbleaching_make votes false = Ok out /\
     votes !! lit "a" = Some [0; 0; 0] /\ out !! lit "a" = Some 3 /\
     votes !! lit "b" = Some [1; 1; 1] /\ out !! lit "b" = Some 3).
Proof.
  split.
  - exists {[ lit "a" := [1; 1; 1]; lit "b" := [9; 0; 0] ]}, (tallies 4 {[ lit "a" := [1; 1; 1]; lit "b" := [9; 0; 0] ]}).
    split; [apply votes_check; vm_compute; reflexivity|].
    split; [apply halves_off; vm_compute; reflexivity|]. split; [vm_compute; reflexivity|vm_compute; reflexivity].
  - exists {[ lit "a" := [0; 0; 0]; lit "b" := [1; 1; 1] ]}, (tallies 0 {[ lit "a" := [0; 0; 0]; lit "b" := [1; 1; 1] ]}).
    split; [apply votes_check; vm_compute; reflexivity|].
    split; [apply halves_off; vm_compute; reflexivity|]. split; [vm_compute; reflexivity|]. split; [vm_compute; reflexivity|].
    split; [vm_compute; reflexivity|vm_compute; reflexivity].
Qed.
Print Assumptions C112_without_bleaching_refuted.
(** What holds: the counts are those of the votes of at least half the highest one, rounded down. They are
    the ordinary ones whenever the highest vote is 2 or 3. *)
Theorem C112_without_bleaching_partial : forall votes, exists B out, highest_vote votes B /\
  bbleaching_make votes false = Ok out /\
  (forall k, out !! k = (fun vs => count_if (fun v => B / 2 <=? v) vs) <$> votes !! k) /\
  (2 <= B <= 3 -> forall k, out !! k = (fun vs => count_if (fun v => 1 <=? v) vs) <$> votes !! k).
Proof.
  intros votes. destruct (bbleach_off votes) as (B & HB & E). exists B, (tallies (B / 2) votes).
  split; [exact HB|]. split; [exact E|]. split.
  - intros k. unfold tallies. apply lookup_fmap.
  - intros H k. replace (B / 2) with 1 by (destruct (decide (B = 2)) as [->|]; [reflexivity|replace B with 3 by lia; reflexivity]).
    unfold tallies. apply lookup_fmap.
Qed.
Print Assumptions C112_without_bleaching_partial.
Example C112_witness : getBiggestValue {[ lit "a" := [3; 1; 0]; lit "b" := [0; 2; 0] ]} = 3 /\
  rmap sorted_items (bbleaching_make {[ lit "a" := [3; 1; 0]; lit "b" := [0; 2; 0] ]} false) = Ok [(lit "a", 2); (lit "b", 1)].
Proof. split; [vm_compute; reflexivity|vm_compute; reflexivity]. Qed.
