(** The order of labels (for C42): that of the bytes, as numbers 0..255, at the first difference; a
    label that the other one continues comes first. *)
From Verif Require Import Prelude Bytes.
Definition comes_before (a b : str) : Prop :=
  (exists rest, rest <> [] /\ b = a ++ rest) \/
  exists common x y resta restb, a = common ++ x :: resta /\ b = common ++ y :: restb /\ (nat_of_ascii x < nat_of_ascii y)%nat.
