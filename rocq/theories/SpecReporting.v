(** The options that only concern what is reported (for C145). *)
From Verif Require Import Prelude Bytes Disc Wisard Cluster ClusWisard Wrapper.

(** The four options: verbose, returnConfidence, returnActivationDegree, returnClassesDegrees. *)
Definition set_reporting (v rc ra rd : bool) (w : wisard) : wisard :=
  Wisard (w_addressSize w) (w_bleachingActivated w) v (w_mapping w) (w_indexes w) (w_ignoreZero w) (w_completeAddressing w)
    (w_base w) (w_searchBestConfidence w) rc ra rd (w_confidence w) (w_discriminators w).
Definition set_clus_reporting (v rc ra rd : bool) (k : cluswisard) : cluswisard :=
  ClusWisard (k_addressSize k) (k_minScore k) (k_threshold k) (k_limit k) (k_bleachingActivated k) v (k_completeAddressing k)
    (k_ignoreZero k) (k_base k) (k_searchBestConfidence k) rc ra rd (k_confidence k) (k_clusters k) (k_unsupervised k).
(** The label in an answer given to Python. *)
Definition class_of (o : pyout) : str := match o with PyLabel s => s | PyDict c _ _ _ => c end.
Definition classes_of (r : res (list pyout)) : res (list str) := let* l := r in Ok (class_of <$> l).
