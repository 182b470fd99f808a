(** What the halving search computes, in terms of votes only. *)
From Verif Require Import Prelude Bytes SpecDisc SpecBleach.

(** B is the highest vote (0 if there is none above 0). *)
Definition highest_vote (votes : gmap str (list Z)) (B : Z) : Prop :=
  0 <= B /\ (forall k vs v, votes !! k = Some vs -> v ∈ vs -> v <= B) /\
  (B = 0 \/ exists k vs, votes !! k = Some vs /\ B ∈ vs).
(** The n-th threshold: B/2 + B/4 + ... + B/2^n, each rounded down. *)
Fixpoint halving (B : Z) (n : nat) : Z :=
  match n with O => 0 | S n' => halving B n' + B / 2 ^ Z.of_nat n end.
(** The highest count M is positive and shared by two labels. *)
Definition shared_top (m : gmap str Z) : Prop :=
  exists M k k', 0 < M /\ bounded_by m M /\ k <> k' /\ m !! k = Some M /\ m !! k' = Some M.
(** The counts at the first of these thresholds that breaks the tie, or at the last one. *)
Definition halved (votes : gmap str (list Z)) (out : gmap str Z) : Prop :=
  exists B n, highest_vote votes B /\ (1 <= n)%nat /\ out = tallies (halving B n) votes /\
    (~ shared_top out \/ B < 2 ^ (Z.of_nat n + 1)) /\
    forall n', (1 <= n' < n)%nat -> shared_top (tallies (halving B n') votes) /\ 2 ^ (Z.of_nat n' + 1) <= B.
