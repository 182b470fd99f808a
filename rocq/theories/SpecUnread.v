(** Which pixels a label can see (for C162). *)
From Verif Require Import Prelude Bytes BinInput Ram Disc Wisard SpecWisard.

(** The pixels the RAMs of the label l look at. A trained label has the wiring its "mapping" lists;
    one not seen yet will get the wiring the options give it: its mapping; else the indexes cut into
    pieces of addressSize, a shorter rest being left over; else a random one, of which nothing is
    known beforehand. *)
Definition reads (w : wisard) (l : str) (p : Z) : Prop :=
  match w_discriminators w !! l with
  | Some d => exists m, m ∈ disc_mapping d /\ p ∈ m
  | None =>
      match w_mapping w !! l with
      | Some m => exists a, a ∈ m /\ p ∈ a
      | None => w_indexes w = [] \/ p ∈ take (Z.to_nat (len (w_indexes w) / w_addressSize w * w_addressSize w)) (w_indexes w)
      end
  end.
(** Two images of one size that the label l cannot tell apart. *)
Definition same_to (w : wisard) (l : str) (x y : image) : Prop :=
  im_size x = im_size y /\ forall p, reads w l p -> im_get x p = im_get y p.
(** Two lists of images of which each is used with the label at its place; an image without a label need only have the same size. *)
Inductive same_examples (w : wisard) : list str -> list image -> list image -> Prop :=
| same_none ls : same_examples w ls [] []
| same_one l ls x y xs ys : same_to w l x y -> same_examples w ls xs ys -> same_examples w (l :: ls) (x :: xs) (y :: ys)
| same_rest x y xs ys : im_size x = im_size y -> same_examples w [] xs ys -> same_examples w [] (x :: xs) (y :: ys).
(** The same call with images no label concerned can tell apart. *)
Inductive same_call (w : wisard) : wcall -> wcall -> Prop :=
| same_train env xs ys ls : same_examples w ls xs ys -> same_call w (CTrain env xs ls) (CTrain env ys ls)
| same_leave x y l : same_to w l x y -> same_call w (CLeaveOne x l) (CLeaveOne y l)
| same_leaves xs ys ls : same_examples w ls xs ys -> same_call w (CLeaveMore xs ls) (CLeaveMore ys ls).
