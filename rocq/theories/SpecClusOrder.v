(** Labelled examples for a ClusWisard, each with the random choices made should it create a
    discriminator (for C142). *)
From Verif Require Import Prelude Bytes BinInput Disc ClusWisard.

Record example := Ex { ex_draw : draw; ex_image : image; ex_label : str }.
(** The examples of one label, in order. *)
Definition of_label (l : str) (xs : list example) : list example := filter (fun e => ex_label e = l) xs.
(** train(images, labels) on the examples. *)
Definition train_on (lhs_first : bool) (k : cluswisard) (xs : list example) : eff cluswisard unit :=
  clus_train lhs_first (fun i => match xs !! i with Some e => ex_draw e | None => ex_draw (nth 0 xs (Ex (Draw (fun _ => 0) id) (vec_image []) [])) end)
    k (ex_image <$> xs) (ex_label <$> xs).
