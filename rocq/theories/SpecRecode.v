(** Renaming the pixel values of the images of a Wisard (for C151). *)
From Verif Require Import Prelude Bytes BinInput Disc Wisard SpecWisard.

(** [f p] sends the values 0..base-1 of pixel p to different values 0..base'-1. *)
Definition recodes (f : Z -> Z -> Z) (base base' n : Z) : Prop := forall p, 0 <= p < n ->
  (forall v, 0 <= v < base -> 0 <= f p v < base') /\
  (forall u v, 0 <= u < base -> 0 <= v < base -> f p u = f p v -> u = v).
(** It leaves the value 0 of every pixel alone. *)
Definition keeps_zero (f : Z -> Z -> Z) (n : Z) : Prop := forall p, 0 <= p < n -> f p 0 = 0.
(** x' is x with the values renamed. *)
Definition recoded (f : Z -> Z -> Z) (n : Z) (x x' : image) : Prop :=
  im_size x = n /\ im_size x' = n /\ forall p v, 0 <= p < n -> im_get x p = Ok v -> im_get x' p = Ok (f p v).
(** The same Wisard with another base. *)
Definition with_base (w : wisard) (base' : Z) : wisard :=
  Wisard (w_addressSize w) (w_bleachingActivated w) (w_verbose w) (w_mapping w) (w_indexes w) (w_ignoreZero w) (w_completeAddressing w) base'
    (w_searchBestConfidence w) (w_returnConfidence w) (w_returnActivationDegree w) (w_returnClassesDegrees w) (w_confidence w) (w_discriminators w).
(** The same call, with the same random choices, on the renamed images. *)
Inductive recoded_call (f : Z -> Z -> Z) (n : Z) : wcall -> wcall -> Prop :=
| recoded_train env xs xs' ls : Forall2 (recoded f n) xs xs' -> recoded_call f n (CTrain env xs ls) (CTrain env xs' ls)
| recoded_one x x' l : recoded f n x x' -> recoded_call f n (CLeaveOne x l) (CLeaveOne x' l)
| recoded_more xs xs' ls : Forall2 (recoded f n) xs xs' -> recoded_call f n (CLeaveMore xs ls) (CLeaveMore xs' ls).
