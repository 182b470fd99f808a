(** Vocabulary for the texts two saves of the same model can give (C146). *)
From Verif Require Import Prelude Bytes Base64 Ram Disc Wisard Cluster ClusWisard.

(** One learned pattern in a saved text: its address on 8 bytes, its counter on 4, in base64. *)
Definition record_text (kv : Z * Z) : str := encode (bytes_of_addr kv.1 ++ bytes_of_content kv.2).
(** The records of a RAM one after the other, and the RAMs separated by dots. *)
Fixpoint dotted (l : list str) : str :=
  match l with
  | [] => []
  | [s] => s
  | s :: l' => s ++ lit "." ++ dotted l'
  end.
Definition records_text (rams : list (list (Z * Z))) : str := dotted ((fun records => List.concat (record_text <$> records)) <$> rams).

(** No RAM holds more than one pattern. *)
Definition sparse (d : disc) : Prop := Forall (fun r => (size (r_positions r) <= 1)%nat) (d_rams d).
Definition sparse_wisard (w : wisard) : Prop := forall l d, w_discriminators w !! l = Some d -> sparse d.
Definition sparse_cluster (c : cluster) : Prop := forall d, Some d ∈ c_discs c -> sparse d.
Definition sparse_clus (k : cluswisard) : Prop :=
  (forall l c, k_clusters k !! l = Some c -> sparse_cluster c) /\ sparse_cluster (k_unsupervised k).
