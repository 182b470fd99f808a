(** Calls that speak of one label only (for C161). *)
From Verif Require Import Prelude Bytes BinInput Disc Wisard Cluster ClusWisard SpecWisard SpecClus.

(** Every label the call names is L. *)
Definition only_about (L : str) (c : wcall) : Prop :=
  match c with CTrain _ _ ls => Forall (fun k => k = L) ls | CLeaveOne _ k => k = L | CLeaveMore _ ls => Forall (fun k => k = L) ls end.
(** A labelled training call of a ClusWisard, all of whose labels are L. *)
Definition only_kabout (L : str) (c : kcall) : Prop :=
  match c with KTrain _ _ ls => Forall (fun k => k = L) ls | _ => False end.
