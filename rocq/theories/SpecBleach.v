(** What the bleaching rule should compute, in terms of votes only. *)
From Verif Require Import Prelude Bytes SpecDisc.

(** Number of votes of a label that reach the threshold b. *)
Definition tally (b : Z) (votes : list Z) : Z := count_if (fun v => b <=? v) votes.
Definition tallies (b : Z) (allvotes : gmap str (list Z)) : gmap str Z := tally b <$> allvotes.

(** M bounds all the counts. *)
Definition bounded_by (m : gmap str Z) (M : Z) : Prop := forall k v, m !! k = Some v -> v <= M.
(** M is the highest count (0 when there is no label). *)
Definition highest (m : gmap str Z) (M : Z) : Prop :=
  0 <= M /\ bounded_by m M /\ (M = 0 \/ exists k, m !! k = Some M).

(** What the package calls ambiguous: some label comes after a label holding the (positive)
    highest count M, in lexicographic order, with a count above M - c. *)
Definition ambiguous (c : Z) (m : gmap str Z) : Prop :=
  exists M k v, highest m M /\ m !! k = Some v /\ M - v < c /\
    (M = 0 \/ exists k0, m !! k0 = Some M /\ str_lt k0 k).

(** When the search for a threshold stops. *)
Definition settled (c : Z) (m : gmap str Z) : Prop := ~ ambiguous c m \/ bounded_by m 1.

(** The outcome owed by the rule: the counts at the least threshold b >= 1 that settles. *)
Definition bleached (c : Z) (allvotes : gmap str (list Z)) (out : gmap str Z) : Prop :=
  exists b, 1 <= b /\ out = tallies b allvotes /\ settled c out /\
    forall b', 1 <= b' < b -> ~ settled c (tallies b' allvotes).

(** The winner: a label with the highest count, the lexicographically greatest such. *)
Definition winner (m : gmap str Z) (k : str) : Prop :=
  exists v, m !! k = Some v /\ forall k' v', m !! k' = Some v' -> v' < v \/ (v' = v /\ str_le k' k).

(** Votes the integer threshold can count past. *)
Definition votes_below (N : Z) (allvotes : gmap str (list Z)) : Prop :=
  forall k vs, allvotes !! k = Some vs -> Forall (fun v => v < N) vs.
