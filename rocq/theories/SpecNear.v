(** Images that differ in few pixels (for C160). *)
From Verif Require Import Prelude Bytes BinInput Ram Disc Wisard SpecDisc SpecWisard.

(** The positions among the first n where two images differ. *)
Definition differing (n : Z) (x y : image) : list Z := filter (fun p => im_get x p <> im_get y p) (Z.of_nat <$> seq 0 (Z.to_nat n)).
(** How often a position of the list is wired. *)
Definition wires_to (ps : list Z) (wiring : list (list Z)) : Z := zsum ((fun p => count_if (fun a => a =? p) (List.concat wiring)) <$> ps).
(** The RAM inputs that completeAddressing adds to the random wiring. *)
Definition spare (w : wisard) (n : Z) : Z :=
  if decide (w_indexes w = []) then (if w_completeAddressing w && negb (n mod w_addressSize w =? 0) then w_addressSize w - n mod w_addressSize w else 0) else 0.
(** By how much the count of a label may change when the image x is replaced by y. *)
Definition reach (w : wisard) (n : Z) (l : str) (x y : image) : Z :=
  match w_mapping w !! l with
  | Some m => wires_to (differing n x y) m
  | None => len (differing n x y) + spare w n
  end.
