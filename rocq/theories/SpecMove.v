(** Moving the pixels of the images of a Wisard (for C140). *)
From Verif Require Import Prelude Bytes BinInput Disc Wisard SpecWisard.

(** [pi] permutes the positions 0..n-1. *)
Definition moves (pi : Z -> Z) (n : Z) : Prop := (pi <$> (Z.of_nat <$> seq 0 (Z.to_nat n))) ≡ₚ (Z.of_nat <$> seq 0 (Z.to_nat n)).
(** x' is x with the pixel at p moved to pi p. *)
Definition moved (pi : Z -> Z) (n : Z) (x x' : image) : Prop :=
  im_size x = n /\ im_size x' = n /\ forall p, 0 <= p < n -> im_get x' (pi p) = im_get x p.
(** The same Wisard with the configured wiring moved likewise. *)
Definition move_wiring (pi : Z -> Z) (w : wisard) : wisard :=
  Wisard (w_addressSize w) (w_bleachingActivated w) (w_verbose w) ((fun m : list (list Z) => (fun addrs : list Z => pi <$> addrs) <$> m) <$> w_mapping w) (pi <$> w_indexes w) (w_ignoreZero w) (w_completeAddressing w) (w_base w)
    (w_searchBestConfidence w) (w_returnConfidence w) (w_returnActivationDegree w) (w_returnClassesDegrees w) (w_confidence w) (w_discriminators w).
(** The same call on the moved images. *)
Inductive moved_call (pi : Z -> Z) (n : Z) : wcall -> wcall -> Prop :=
| moved_train env env' xs xs' ls : (forall l, valid_draw (env' l)) -> Forall2 (moved pi n) xs xs' -> moved_call pi n (CTrain env xs ls) (CTrain env' xs' ls)
| moved_one x x' l : moved pi n x x' -> moved_call pi n (CLeaveOne x l) (CLeaveOne x' l)
| moved_more xs xs' ls : Forall2 (moved pi n) xs xs' -> moved_call pi n (CLeaveMore xs ls) (CLeaveMore xs' ls).
