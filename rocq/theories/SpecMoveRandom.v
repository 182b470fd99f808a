(** Moving the pixels of the images of randomly wired classifiers (for C159). *)
From Verif Require Import Prelude Bytes BinInput Disc Wisard Cluster ClusWisard SpecDisc SpecWisard SpecClus SpecMove.

(** A call on images of n pixels, with random choices the C and C++ standards allow. *)
Definition sized_kcall (n : Z) (c : kcall) : Prop :=
  match c with
  | KTrain env xs _ => (forall i, valid_draw (env i)) /\ Forall (fun x => im_size x = n) xs
  | KSemi env env2 xs _ => (forall i, valid_draw (env i)) /\ (forall i, valid_draw (env2 i)) /\ Forall (fun x => im_size x = n) xs
  | KUnsupervised env xs => (forall i, valid_draw (env i)) /\ Forall (fun x => im_size x = n) xs
  end.
Definition sized_wcall (n : Z) (c : wcall) : Prop :=
  match c with
  | CTrain env xs _ => (forall l, valid_draw (env l)) /\ Forall (fun x => im_size x = n) xs
  | CLeaveOne x _ => im_size x = n
  | CLeaveMore xs _ => Forall (fun x => im_size x = n) xs
  end.

(** The same call on the images made by [mv], with other such random choices. *)
Inductive replayed_kcall (mv : image -> image) : kcall -> kcall -> Prop :=
| replayed_ktrain env env' xs ls : (forall i, valid_draw (env' i)) -> replayed_kcall mv (KTrain env xs ls) (KTrain env' (mv <$> xs) ls)
| replayed_ksemi env env' env2 env2' xs ls : (forall i, valid_draw (env' i)) -> (forall i, valid_draw (env2' i)) -> replayed_kcall mv (KSemi env env2 xs ls) (KSemi env' env2' (mv <$> xs) ls)
| replayed_kunsup env env' xs : (forall i, valid_draw (env' i)) -> replayed_kcall mv (KUnsupervised env xs) (KUnsupervised env' (mv <$> xs)).
Inductive replayed_wcall (mv : image -> image) : wcall -> wcall -> Prop :=
| replayed_wtrain env env' xs ls : (forall l, valid_draw (env' l)) -> replayed_wcall mv (CTrain env xs ls) (CTrain env' (mv <$> xs) ls)
| replayed_wone x l : replayed_wcall mv (CLeaveOne x l) (CLeaveOne (mv x) l)
| replayed_wmore xs ls : replayed_wcall mv (CLeaveMore xs ls) (CLeaveMore (mv <$> xs) ls).
