(** Files of which only the beginning was written. *)
From Verif Require Import Prelude Bytes BinInput Ram Disc.

(** Bytes of one record of a data set file: base64 of the label, '#', base64 of one byte and the
    packed pixels. *)
Definition record_size (bl : bininput * str) : Z :=
  4 * ((len bl.2 + 2) / 3) + 1 + 4 * ((1 + (bin_size bl.1 + 7) / 8 + 2) / 3).
(** Bytes of one RAM: 16 for each pattern it has learned (12 bytes in base64). *)
Definition ram_size (r : ram) : Z := 16 * Z.of_nat (size (r_positions r)).

(** Bytes of a file of items separated by one character. *)
Definition file_size {A} (item : A -> Z) (l : list A) : Z :=
  match l with [] => 0 | _ => foldr (fun x n => item x + n) 0 l + len l - 1 end.
(** [n] items are wholly within the first [k] bytes, and no more. *)
Definition whole_items {A} (item : A -> Z) (k : Z) (l : list A) (n : nat) : Prop :=
  (n <= length l)%nat /\ file_size item (take n l) <= k /\ (n = length l \/ k < file_size item (take (S n) l)).
