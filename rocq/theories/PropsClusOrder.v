(** Property theorem C142: the order of the examples given to a ClusWisard. *)
From Verif Require Import Prelude Bytes Utils Float32 BinInput Bleaching Ram Json Disc Wisard Cluster ClusWisard SpecDisc SpecCluster SpecClus SpecClusOrder.
From Verif Require Import CtorFacts PropsCluster PropsClus ClusOrder.

(** C142: false. The same four examples in two orders; the image answered "b" after the first is
    answered "a" after the second. *)
Definition y0 := vec_image [0; 0; 0; 0].
Definition y1 := vec_image [1; 0; 0; 0].
Definition y4 := vec_image [0; 0; 1; 0].
Definition exs (l : list (image * str)) : list example := (fun '(x, s) => Ex some_draw x s) <$> l.
Definition one_order : list example := exs [(y0, ka); (y1, ka); (y4, ka); (y1, kb)].
Definition other_order : list example := exs [(y4, ka); (y1, ka); (y0, ka); (y1, kb)].
Theorem C142_order_refuted : exists k k', one_order ≡ₚ other_order /\
  train_on false (kfg 2) one_order = (Ok tt, k) /\ train_on false (kfg 2) other_order = (Ok tt, k') /\
  clus_classify k [y1] = Ok [kb] /\ clus_classify k' [y1] = Ok [ka].
Proof.
  exists (snd (train_on false (kfg 2) one_order)), (snd (train_on false (kfg 2) other_order)).
  assert (F1 : fst (train_on false (kfg 2) one_order) = Ok tt) by (vm_compute; reflexivity).
  assert (F2 : fst (train_on false (kfg 2) other_order) = Ok tt) by (vm_compute; reflexivity).
  assert (HP : forall p : eff cluswisard unit, fst p = Ok tt -> p = (Ok tt, snd p)) by (intros [o k]; cbn; intros ->; reflexivity).
  split; [|split; [exact (HP _ F1)|split; [exact (HP _ F2)|split; vm_compute; reflexivity]]].
  unfold one_order, other_order, exs. apply fmap_Permutation. change ([(y0, ka); (y1, ka); (y4, ka)] ++ [(y1, kb)] ≡ₚ rev [(y0, ka); (y1, ka); (y4, ka)] ++ [(y1, kb)]). apply Permutation_app_tail, Permutation_rev.
Qed.
Print Assumptions C142_order_refuted.

(** What holds: examples of different labels may be interleaved in any way. If each label sees its
    examples in the same order (with the same random choices), the two calls end in the same state. *)
Theorem C142_interleaving_partial : forall lhs_first k xs xs' n k',
  Forall (fun e => im_size (ex_image e) = n) xs ->
  (forall l, of_label l xs = of_label l xs') ->
  train_on lhs_first k xs = (Ok tt, k') -> train_on lhs_first k xs' = (Ok tt, k').
Proof. intros lhs k xs xs' n k' HF HL E. exact (interleave lhs k xs xs' n k' HF HL E). Qed.
Print Assumptions C142_interleaving_partial.
Definition mixed_order : list example := exs [(y0, ka); (y1, kb); (y1, ka); (y4, ka)].
Example C142_witness : mixed_order <> one_order /\ Forall (fun e => im_size (ex_image e) = 4) one_order /\
  of_label ka one_order = of_label ka mixed_order /\ of_label kb one_order = of_label kb mixed_order /\ (forall l, l <> ka -> l <> kb -> of_label l one_order = [] /\ of_label l mixed_order = []) /\
  fst (train_on false (kfg 2) one_order) = Ok tt /\ clus_classify (snd (train_on false (kfg 2) mixed_order)) [y1] = Ok [kb].
Proof.
  split; [discriminate|]. split; [repeat constructor|]. split; [reflexivity|]. split; [reflexivity|]. split.
  - intros l Ha Hb. unfold one_order, mixed_order, exs, of_label. rewrite !fmap_cons, !fmap_nil. split; rewrite !filter_cons; cbn [ex_label]; rewrite !decide_False by congruence; reflexivity.
  - split; vm_compute; reflexivity.
Qed.
