(** Wirings that use no pixel twice (for C143). *)
From Verif Require Import Prelude.

(** [m] gives each of the [e / a] RAMs [a] pixels out of 0..e-1, none of them twice. *)
Definition proper_wiring (a e : Z) (m : list (list Z)) : Prop :=
  len m = e / a /\ Forall (fun l => len l = a) m /\ NoDup (List.concat m) /\ Forall (fun p => 0 <= p < e) (List.concat m).
