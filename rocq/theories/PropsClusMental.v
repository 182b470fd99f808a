(** Property theorem C128: mental images of a ClusWisard. *)
From Verif Require Import Prelude Bytes Utils Float32 BinInput Bleaching Ram Disc Wisard Cluster ClusWisard.
From Verif Require Import SpecDisc SpecBleach SpecWisard SpecCluster SpecClus SpecLaw PropsCluster PropsClus ClusMental.

(** C128: after any training calls, getMentalImages has an entry for exactly the labels learned;
    the entry of a label lists one image per discriminator of its cluster, in order; pixel p of
    the image counts, for every input wired to p, the learned images whose pixel p is on.
    getMentalImage(label) gives the same list and changes nothing. The bounds exclude addresses
    beyond 31 bits (see C37) and overflow of the accumulated ints. *)
Theorem C128_cluswisard_mental_images : forall lhs_first k0 n cs,
  k_clusters k0 = ∅ -> configured_for k0 n -> Forall (proper_kcall k0 n) cs -> len (all_events cs) <= INT_MAX - 2 ->
  exists k m, krun lhs_first k0 cs = (Ok tt, k) /\ clus_law k0 (params_for k0 n) (all_events cs) m /\
    forall iter, good_iter iter -> k_base k0 ^ k_addressSize k0 <= 2 ^ 31 ->
      len (all_events cs) * (ram_count n (k_addressSize k0) (k_completeAddressing k0) * k_addressSize k0) <= INT_MAX ->
      exists M, clus_mental iter k = Ok M /\
        forall l, match m !! l with
          | None => M !! l = None
          | Some ss => exists imgs, M !! l = Some imgs /\ clus_mental1 iter k l = (Ok imgs, k) /\
              Forall2 (fun s img => len img = n /\ forall p, 0 <= p < n -> img !! Z.to_nat p = Some (wires (s_first s) p * active p (s_seen s))) ss imgs
          end.
Proof. exact clus_mental_law. Qed.
Print Assumptions C128_cluswisard_mental_images.
Example C128_witness :
  k_clusters (kfg 2) = ∅ /\ configured_for (kfg 2) 4 /\ Forall (proper_kcall (kfg 2) 4) kcalls /\ len (all_events kcalls) = 5 /\
  k_base (kfg 2) ^ k_addressSize (kfg 2) = 4 /\ ram_count 4 2 true * 2 = 4 /\
  rmap sorted_items (clus_mental (fun m => map_to_list m) (snd (krun false (kfg 2) kcalls))) =
    Ok [(ka, [[2; 2; 0; 0]]); (kb, [[0; 0; 2; 2]; [1; 0; 1; 0]])].
Proof.
  split; [reflexivity|]. split; [exact kfg_configured|]. split; [exact kcalls_proper|]. split; [vm_compute; reflexivity|].
  split; [reflexivity|]. split; [reflexivity|]. vm_compute. reflexivity.
Qed.
