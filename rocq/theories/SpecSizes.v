(** What getsizeof() should report. *)
From Verif Require Import Prelude Bytes BinInput Ram Disc SpecDisc.

(** The images a history trains. *)
Definition trained_images (h : list dop) : list image := omap (fun o => match o with Train x => Some x | Untrain _ => None end) h.
(** What an image shows at the given positions, and how many different such patterns a list of images has. *)
Definition pattern (addrs : list Z) (x : image) : list (res Z) := im_get x <$> addrs.
Definition patterns (addrs : list Z) (xs : list image) : Z := len (remove_dups (pattern addrs <$> xs)).
(** Patterns learned_patterns by all the RAMs together. *)
Definition learned_patterns (d : disc) (h : list dop) : Z := zsum ((fun r => patterns (r_addresses r) (trained_images h)) <$> d_rams d).
