(** What a ClusWisard should do, in terms of calls on it. *)
From Verif Require Import Prelude Bytes Float32 BinInput Ram Disc Cluster ClusWisard.

(** The calls that train a ClusWisard ([env i]: the random choices of the i-th image). *)
Inductive kcall :=
| KTrain (env : nat -> draw) (images : list image) (labels : list str)
| KSemi (env env2 : nat -> draw) (images : list image) (labels : gmap Z str)
| KUnsupervised (env : nat -> draw) (images : list image).
Definition kcall_run (lhs_first : bool) (k : cluswisard) (c : kcall) : eff cluswisard unit :=
  match c with
  | KTrain env images labels => clus_train lhs_first env k images labels
  | KSemi env env2 images labels => clus_train_semi lhs_first env env2 k images labels
  | KUnsupervised env images => trainUnsupervised lhs_first env k images
  end.
Definition krun (lhs_first : bool) (k : cluswisard) (cs : list kcall) : eff cluswisard unit := efor (kcall_run lhs_first) cs k.

(** The label given to an image by a call. *)
Definition names (c : kcall) (l : str) : Prop :=
  match c with
  | KTrain _ images labels => exists i im, images !! i = Some im /\ labels !! i = Some l
  | KSemi _ _ images labels => exists i im, images !! i = Some im /\ labels !! s32 (Z.of_nat i) = Some l
  | KUnsupervised _ _ => False
  end.
Definition named (cs : list kcall) (l : str) : Prop := exists c, c ∈ cs /\ names c l.

(** Labels that survive the package's own "label::number" keys. *)
Definition plain_label (l : str) : Prop :=
  (forall a b, l <> a ++ lit "::" ++ b) /\ forall a, l <> a ++ lit ":".

(** Images with their positions, and the labelled / unlabelled ones. *)
Definition labelled (labels : gmap Z str) (images : list image) : list (nat * image * str) :=
  omap (fun ix => match labels !! Z.of_nat ix.1 with Some l => Some (ix.1, ix.2, l) | None => None end) (imap pair images).
Definition unlabelled (labels : gmap Z str) (images : list image) : list image :=
  omap (fun ix => match labels !! Z.of_nat ix.1 with Some l => None | None => Some ix.2 end) (imap pair images).

