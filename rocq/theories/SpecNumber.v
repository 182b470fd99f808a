(** Decimal numbers (for C86, C144). *)
From Verif Require Import Prelude Bytes.
(** [s] is the number n written in decimal: digits only, no leading zero, and of value n. *)
Definition written (n : nat) (s : str) : Prop :=
  Forall (fun c => 48 <= nat_of_ascii c <= 57)%nat s /\ s <> [] /\ (forall c r, s = "0"%char :: c :: r -> False) /\
  foldl (fun v c => 10 * v + (nat_of_ascii c - 48))%nat 0%nat s = n.
