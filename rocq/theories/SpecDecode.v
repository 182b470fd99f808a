(** Texts that Base64::decode reads within bounds (C04). *)
From Verif Require Import Prelude Bytes.

(** Padding characters announced at the end. *)
Definition padding (d : list ascii) : Z :=
  if decide (d !! Z.to_nat (len d - 2) = Some "="%char) then 2
  else if decide (d !! Z.to_nat (len d - 1) = Some "="%char) then 1 else 0.
(** Not empty and of a length that is a multiple of four. *)
Definition framed (d : list ascii) : Prop := d <> [] /\ len d mod 4 = 0.
(** A complete group of four has a padding character in third or fourth place, while the [room] bytes
    set aside for the result still have place for what precedes it: the loop stops there. *)
Definition early_stop (d : list ascii) (room : Z) : Prop := exists g, 0 <= g < len d / 4 /\
  ((d !! Z.to_nat (4 * g + 2) = Some "="%char /\ 3 * g + 1 <= room) \/
   (d !! Z.to_nat (4 * g + 3) = Some "="%char /\ 3 * g + 2 <= room)).
