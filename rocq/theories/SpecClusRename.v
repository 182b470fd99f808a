(** Renaming the labels of a ClusWisard and of the calls on it (for C158). *)
From Verif Require Import Prelude Bytes BinInput Bleaching Disc Cluster ClusWisard SpecClus.

(** The same ClusWisard with every label renamed. *)
Definition krename (f : str -> str) (k : cluswisard) : cluswisard := with_clusters k (kmap f (k_clusters k)).
(** The same call with every label renamed, with the same random choices. *)
Definition krename_call (f : str -> str) (c : kcall) : kcall :=
  match c with
  | KTrain env images labels => KTrain env images (f <$> labels)
  | KSemi env env2 images labels => KSemi env env2 images (f <$> labels)
  | KUnsupervised env images => KUnsupervised env images
  end.
(** Calls that give a label to every image, or to none. *)
Definition decided (c : kcall) : Prop := match c with KSemi _ _ _ _ => False | _ => True end.
(** The new names are plain as the old ones are, and keep the alphabetical order of the
    "label::number" names of the votes of different labels. *)
Definition same_order (D : str -> Prop) (f : str -> str) : Prop :=
  (forall l, D l -> plain_label l /\ plain_label (f l)) /\
  forall a b i j, D a -> D b -> a <> b -> str_lt (cluster_key a i) (cluster_key b j) -> str_lt (cluster_key (f a) i) (cluster_key (f b) j).
