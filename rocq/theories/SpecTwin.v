(** A ClusWisard and the Wisard it is compared with (for C132). *)
From Verif Require Import Prelude Bytes BinInput Disc Wisard ClusWisard SpecWisard SpecClus.

(** The Wisard with the same options. *)
Definition as_wisard (k : cluswisard) : wisard :=
  Wisard (k_addressSize k) (k_bleachingActivated k) (k_verbose k) ∅ [] (k_ignoreZero k) (k_completeAddressing k) (k_base k)
    (k_searchBestConfidence k) (k_returnConfidence k) (k_returnActivationDegree k) (k_returnClassesDegrees k) (k_confidence k) ∅.
(** The random choices used when the Wisard creates label l: those of the first image with that label. *)
Definition first_draw (env : nat -> draw) (labels : list str) (l : str) : draw :=
  match list_find (fun k => k = l) labels with Some (i, _) => env i | None => env 0%nat end.

(** A labelled training call, on either of them. *)
Record batch := Batch { b_env : nat -> draw; b_images : list image; b_labels : list str }.
Definition clus_batch (b : batch) : kcall := KTrain (b_env b) (b_images b) (b_labels b).
Definition wisard_batch (b : batch) : wcall := CTrain (first_draw (b_env b) (b_labels b)) (b_images b) (b_labels b).
