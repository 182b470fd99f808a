(** Vocabulary for saved texts (C107-C110). *)
From Coq Require Import SpecFloat QArith Qcanon.
From Verif Require Import Prelude Bytes Float32 Json Ram Disc Wisard Cluster ClusWisard JsonText GrisuSpec SpecUtf8 SpecDisc.

(** The int members of a C++ object hold C ints, the float member a float. *)
Definition int_disc (d : disc) : Prop :=
  is_int (d_entrySize d) /\ is_int (d_count d) /\ Forall (fun r => is_int (r_base r) /\ Forall is_int (r_addresses r)) (d_rams d).
Definition int_wisard (w : wisard) : Prop :=
  is_int (w_addressSize w) /\ is_int (w_base w) /\ is_int (w_confidence w) /\ Forall is_int (w_indexes w) /\
  forall l d, w_discriminators w !! l = Some d -> int_disc d.
Definition int_cluster (c : cluster) : Prop :=
  (forall p, c_params c = Some p -> is_int (p_entrySize p)) /\ forall d, Some d ∈ c_discs c -> int_disc d.
Definition int_clus (k : cluswisard) : Prop :=
  is_int (k_addressSize k) /\ is_int (k_threshold k) /\ is_int (k_limit k) /\ is_int (k_base k) /\ is_int (k_confidence k) /\ is_f32 (k_minScore k) /\
  (forall l c, k_clusters k !! l = Some c -> int_cluster c) /\ int_cluster (k_unsupervised k).

(** strtod rounds correctly: zero is read as zero, and a number to which exactly one double is nearest as that double. *)
Definition correct_strtod (T : numtext) : Prop :=
  (forall s, nearest T s 0%Qc = S754_zero s) /\
  forall s m e q, is_double (Z.pos m) e -> rounds_to q (Z.pos m) e -> nearest T s q = S754_finite s m e.
(** strtod returns a double. *)
Definition returns_double (T : numtext) : Prop := forall s q, is_f64 (nearest T s q).

(** Values that have a JSON text: integers of 64 bits (signed or unsigned), finite doubles, UTF-8 strings, arrays, and objects
    with ascending UTF-8 keys. *)
Inductive has_text : json -> Prop :=
| text_null : has_text JNull
| text_bool b : has_text (JBool b)
| text_int z : (- 2 ^ 63 <= z < 2 ^ 64)%Z -> has_text (JInt z)
| text_float f : is_f64 f -> f32_finite f = true -> has_text (JFloat f)
| text_str s : is_utf8 s -> has_text (JStr s)
| text_arr l : Forall has_text l -> has_text (JArr l)
| text_obj l : StronglySorted str_lt l.*1 -> Forall is_utf8 l.*1 -> Forall has_text l.*2 -> has_text (JObj l).
