(** Progress output (for C144). *)
From Verif Require Import Prelude Bytes.

(** One progress report: carriage return, "<what> <k> of <n>". *)
Definition report (what : str) (n k : Z) : str :=
  [to_char 13] ++ what ++ lit " " ++ Bytes.to_string k ++ lit " of " ++ Bytes.to_string n.
(** The reports 1 of n, ..., k of n. *)
Definition reports (what : str) (n : Z) (k : nat) : str := List.concat ((fun i => report what n (Z.of_nat i)) <$> seq 1 k).
Definition line_end : str := [to_char 13; to_char 10].

(** What a call over [n] items writes ([t]) when it ends with outcome [o]. [upto k] is the outcome of the
    same call on the first [k] items only. On success all reports and [ending]; when it fails either
    nothing (the call was refused) or the reports up to the item that made it fail. *)
Definition told {A} (verbose : bool) (what : str) (n : nat) (ending : str) (upto : nat -> res A) (o : res A) (t : str) : Prop :=
  if verbose then
    match o with
    | Ok _ => t = reports what (Z.of_nat n) n ++ ending
    | _ => t = [] \/ exists k, (k < n)%nat /\ t = reports what (Z.of_nat n) (S k) /\
             (k = 0%nat \/ exists a, upto k = Ok a) /\ upto (S k) = o
    end
  else t = [].
