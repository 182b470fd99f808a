(** getsizeof() of the models. *)
From Verif Require Import Prelude Bytes Float32 Bleaching Utils BinInput Ram Json Fs RamData Disc Wisard Cluster ClusWisard.

(** sizeof of the classes, fixed by the compiler; addr_t takes 8 bytes, content_t and int 4
    (definetypes.cc:1-2). Sums are unbounded integers here: the counted bytes are in memory, so the
    real sums fit a long. *)
Record class_sizes := ClassSizes { S_RAM : Z; S_Discriminator : Z; S_Wisard : Z; S_Cluster : Z; S_ClusWisard : Z }.
(** RAM::getsizeof, ram.cc:97-102. *)
Definition ram_getsizeof (S : class_sizes) (r : ram) : Z :=
  S_RAM S + len (r_addresses r) * 8 + Z.of_nat (size (r_positions r)) * (8 + 4).
(** Discriminator::getsizeof, discriminator.cc:155-161. *)
Definition disc_getsizeof (S : class_sizes) (d : disc) : Z :=
  foldl (fun size r => size + ram_getsizeof S r) (S_Discriminator S) (d_rams d).
(** Wisard::getsizeof, wisard.cc:62-69. *)
Definition wisard_getsizeof (S : class_sizes) (w : wisard) : Z :=
  foldl (fun size kd => size + (len kd.1 + disc_getsizeof S kd.2)) (S_Wisard S + 4 * len (w_indexes w)) (sorted_items (w_discriminators w)).
(** Cluster::getsizeof, cluster.cc:109-115 (a null pointer is dereferenced). *)
Definition cluster_getsizeof (S : class_sizes) (c : cluster) : res Z :=
  foldl (fun r od => let* size := r in match od with Some d => Ok (size + (4 + disc_getsizeof S d)) | None => UB UBNull end)
    (Ok (S_Cluster S)) (c_discs c).
(** ClusWisard::getsizeof, cluswisard.cc:201-208. *)
Definition clus_getsizeof (S : class_sizes) (k : cluswisard) : res Z :=
  let* u := cluster_getsizeof S (k_unsupervised k) in
  foldl (fun r kc => let* size := r in let* c := cluster_getsizeof S kc.2 in Ok (size + (len kc.1 + c)))
    (Ok (S_ClusWisard S + u)) (sorted_items (k_clusters k)).
