(** Calls about one label only (for C153). *)
From Verif Require Import Prelude Bytes BinInput Disc Wisard SpecDisc SpecWisard.

(** A training call all of whose labels are l. *)
Definition teaches (l : str) (c : wcall) : Prop := match c with CTrain _ _ ls => Forall (fun k => k = l) ls | _ => False end.
(** A leaveOneOut or leaveMoreOut call all of whose labels are l. *)
Definition forgets (l : str) (c : wcall) : Prop :=
  match c with CTrain _ _ _ => False | CLeaveOne _ k => k = l | CLeaveMore _ ls => Forall (fun k => k = l) ls end.
(** Bleaching is off, or the confidence is at most 2, or the answer l to x is given with a degree above 1. *)
Definition firm (w : wisard) (x : image) (l : str) : Prop :=
  w_bleachingActivated w = false \/ w_confidence w <= 2 \/ exists cand v, wisard_candidates w x = Ok cand /\ cand !! l = Some v /\ 1 < v.
