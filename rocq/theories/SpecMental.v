(** What a mental image shows when RAMs have any number of inputs (C37). *)
From Verif Require Import Prelude Bytes BinInput Ram Disc SpecDisc.

Definition pixel (x : image) (a : Z) : Z := match im_get x a with Ok v => v | _ => 0 end.
(** The pixels at [addrs] read as a number in the base, first digit least significant. *)
Definition number_at (base : Z) (x : image) (addrs : list Z) : Z := foldr (fun a n => pixel x a + base * n) 0 addrs.
(** The low 32 bits as a signed number. *)
Definition signed32 (z : Z) : Z := (z + 2 ^ 31) mod 2 ^ 32 - 2 ^ 31.
(** Whether image x is counted at the j-th input of RAM r: the j-th digit of the number, cut to a
    signed 32-bit one, is positive. *)
Definition shown (r : ram) (j : nat) (x : image) : bool :=
  let z := signed32 (number_at (r_base r) x (r_addresses r)) in
  (0 <? z) && (0 <? (z / r_base r ^ Z.of_nat j) mod r_base r).
(** Value of the mental image at p: over all inputs wired to p, the number of images counted there. *)
Definition wide_law (d : disc) (xs : list image) (p : Z) : Z :=
  zsum ((fun r => zsum (imap (fun j a => if a =? p then count_if (shown r j) xs else 0) (r_addresses r))) <$> d_rams d).
(** The same for base 2: the pixel is on, the input is one of the first 31, and the 32nd pixel of
    the RAM, if there is one, is off. *)
Definition shown_bits (r : ram) (j : nat) (a : Z) (x : image) : bool :=
  on a x && (j <=? 30)%nat && match r_addresses r !! 31%nat with Some q => negb (on q x) | None => true end.
Definition binary_law (d : disc) (xs : list image) (p : Z) : Z :=
  zsum ((fun r => zsum (imap (fun j a => if a =? p then count_if (shown_bits r j a) xs else 0) (r_addresses r))) <$> d_rams d).
