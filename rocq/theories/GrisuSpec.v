(** What the digit generation must do, stated with rational numbers only. *)
From Coq Require Import QArith Qcanon Qpower.
From Verif Require Import Prelude.
Local Open Scope Z_scope.

(** A canonical positive double m * 2^e. *)
Definition is_double (m e : Z) : Prop := 0 < m < 2 ^ 53 /\ -1074 <= e <= 971 /\ (2 ^ 52 <= m \/ e = -1074).
(** The double below m * 2^e is half as far away as the one above. *)
Definition closer (m e : Z) : bool := (m =? 2 ^ 52) && (-1074 <? e).
(** m * 2^e and m * 10^e. *)
Definition binary (m e : Z) : Qc := Q2Qc (inject_Z m * Qpower (2 # 1) e).
Definition decimal (m e : Z) : Qc := Q2Qc (inject_Z m * Qpower (10 # 1) e).
(** The midpoints between m * 2^e and its neighbours. *)
Definition above (m e : Z) : Qc := binary (2 * m + 1) (e - 1).
Definition below (m e : Z) : Qc := if closer m e then binary (4 * m - 1) (e - 2) else binary (2 * m - 1) (e - 1).
(** The rationals that only m * 2^e is nearest to. *)
Definition rounds_to (q : Qc) (m e : Z) : Prop := (below m e < q)%Qc /\ (q < above m e)%Qc.
(** The number with the given decimal digits. *)
Definition digits_of (ds : list Z) : Z := fold_left (fun a d => a * 10 + d) ds 0.
(** Decimal digits without a leading zero. *)
Definition good_digits (ds : list Z) : Prop := Forall (fun d => 0 <= d <= 9) ds /\ ds !! 0%nat <> Some 0.
