(** Vocabulary for saving and reloading a ClusWisard (C75). *)
From Verif Require Import Prelude Bytes Float32 BinInput Ram Json Disc Cluster ClusWisard SpecDisc SpecSaved.

(** The same ClusWisard, with searchBestConfidence off. *)
Definition without_search (k : cluswisard) : cluswisard :=
  ClusWisard (k_addressSize k) (k_minScore k) (k_threshold k) (k_limit k) (k_bleachingActivated k)
    (k_verbose k) (k_completeAddressing k) (k_ignoreZero k) (k_base k) false
    (k_returnConfidence k) (k_returnActivationDegree k) (k_returnClassesDegrees k) (k_confidence k)
    (k_clusters k) (k_unsupervised k).
(** Options are C ints, and minScore is a float and a number. *)
Definition int_koptions (k : cluswisard) : Prop :=
  is_int (k_addressSize k) /\ is_int (k_threshold k) /\ is_int (k_limit k) /\ is_int (k_base k) /\
  is_int (k_confidence k) /\ is_f32 (k_minScore k) /\ f32_finite (k_minScore k) = true.
(** The saved contents of the discriminators of a cluster can be indexed with an int. *)
Definition small_cluster (c : cluster) : Prop := forall d, Some d ∈ c_discs c -> saved_size d <= INT_MAX + 1.
