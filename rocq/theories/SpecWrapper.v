(** Vocabulary for the Python-facing outputs. *)
From Verif Require Import Prelude Bytes BinInput Ram Disc Wisard ClusWisard Wrapper SpecCluster SpecWisard SpecClus.

(** The class an output names, and whether it carries exactly the requested extras. *)
Definition class_of (o : pyout) : str := match o with PyLabel s => s | PyDict s _ _ _ => s end.
Definition has {A} (o : option A) : bool := match o with Some _ => true | None => false end.
Definition carries (activation confidence degrees : bool) (o : pyout) : Prop :=
  match o with
  | PyLabel _ => activation = false /\ confidence = false /\ degrees = false
  | PyDict _ a c d => has a = activation /\ has c = confidence /\ has d = degrees /\
                      (activation = true \/ confidence = true \/ degrees = true)
  end.

(** The Wisards a program can reach by training and leaving out, catching exceptions. *)
Definition drawn (c : wcall) : Prop := match c with CTrain env _ _ => forall l, valid_draw (env l) | _ => True end.
Inductive wreaches (lhs_first : bool) (w0 : wisard) : wisard -> Prop :=
| wreach_here : wreaches lhs_first w0 w0
| wreach_call w c o w' : wreaches lhs_first w0 w -> drawn c ->
    wcall_run lhs_first w c = (o, w') -> returns o -> wreaches lhs_first w0 w'.

(** The ClusWisards a program can reach by training, catching exceptions. *)
Definition kdrawn (c : kcall) : Prop :=
  match c with
  | KTrain env _ _ | KUnsupervised env _ => forall i : nat, valid_draw (env i)
  | KSemi env env2 _ _ => forall i : nat, valid_draw (env i) /\ valid_draw (env2 i)
  end.
Inductive kreaches (lhs_first : bool) (k0 : cluswisard) : cluswisard -> Prop :=
| kreach_here : kreaches lhs_first k0 k0
| kreach_call k c o k' : kreaches lhs_first k0 k -> kdrawn c ->
    kcall_run lhs_first k c = (o, k') -> returns o -> kreaches lhs_first k0 k'.
