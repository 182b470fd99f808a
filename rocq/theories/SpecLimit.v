(** A ClusWisard with another discriminators limit, and how many discriminators it holds. *)
From Verif Require Import Prelude Bytes Float32 BinInput Disc Cluster ClusWisard.

(** The same cluster with limit L. *)
Definition relimit (L : Z) (c : cluster) : cluster :=
  Cluster ((fun p => CParams (p_addressSize p) (p_entrySize p) (p_minScore p) (p_threshold p) L (p_complete p) (p_ignoreZero p) (p_base p)) <$> c_params c) (c_discs c).
(** The same ClusWisard with limit L: same discriminators, same options. *)
Definition with_limit (L : Z) (k : cluswisard) : cluswisard :=
  ClusWisard (k_addressSize k) (k_minScore k) (k_threshold k) L (k_bleachingActivated k)
    (k_verbose k) (k_completeAddressing k) (k_ignoreZero k) (k_base k) (k_searchBestConfidence k)
    (k_returnConfidence k) (k_returnActivationDegree k) (k_returnClassesDegrees k) (k_confidence k)
    (relimit L <$> k_clusters k) (relimit L (k_unsupervised k)).
(** Every label, and the unsupervised cluster, has at most N discriminators. *)
Definition at_most (N : Z) (k : cluswisard) : Prop :=
  (forall l c, k_clusters k !! l = Some c -> len (c_discs c) <= N) /\ len (c_discs (k_unsupervised k)) <= N.
