(** Property theorems C133 (options given as JSON) and C134 (a loaded ClusWisard is a valid one). *)
From Verif Require Import Prelude Bytes Float32 Bleaching Json JsonText Fs Disc Wisard Cluster ClusWisard TextApi SpecJsonOptions.
From Verif Require Import Nearest JsonOptionsProofs TidyProofs.

(** C133: false as stated. Integers are taken modulo 2^32, booleans count as numbers and fractions
    are dropped. *)
Theorem C133_as_written_refuted : forall f, exists w,
  wisard_of_text strtod_even f (lit "{""addressSize"":4294967299,""base"":2.9,""confidence"":true,""indexes"":[4294967297,false],""classes"":{}}") = Ok w /\
  w_addressSize w = 3 /\ w_base w = 2 /\ w_confidence w = 1 /\ w_indexes w = [1; 0].
Proof. intros f. eexists. split; [vm_compute; reflexivity|]. repeat split. Qed.
Print Assumptions C133_as_written_refuted.

(** What holds: Wisard(addressSize, options) succeeds exactly with the options read as
    SpecJsonOptions.v says, and fails otherwise, with an exception unless some fraction is beyond
    an int. *)
Theorem C133_options_partial : forall a l w, NoDup l.*1 -> (forall ms, (lit "mapping", JObj ms) ∈ l -> NoDup ms.*1) ->
  wisard_of_options a (JObj l) = Ok w <-> wisard_read l w /\ w_addressSize w = a /\ w_discriminators w = ∅.
Proof. intros a l w H Hm. apply wisard_options_read; assumption. Qed.
Print Assumptions C133_options_partial.
Theorem C133_cluswisard_options_partial : forall a s t n l k, NoDup l.*1 ->
  clus_of_options a s t n (JObj l) = Ok k <-> clus_read l k /\ k_addressSize k = a /\ k_minScore k = s /\ k_threshold k = t /\ k_limit k = n /\
    k_clusters k = ∅ /\ k_unsupervised k = cluster_default /\ valid_config s t n.
Proof. intros a s t n l k H. apply clus_options_read; assumption. Qed.
Print Assumptions C133_cluswisard_options_partial.
Theorem C133_failure : forall a c, (exists w, wisard_of_options a c = Ok w) \/ wisard_of_options a c = Throw EJsonType \/ wisard_of_options a c = UB UBCast.
Proof. exact wisard_options_outcome. Qed.
Print Assumptions C133_failure.

(** The same for Wisard(text): the options of the loaded object are those of the text. *)
Theorem C133_text_partial : forall T f text w, wisard_of_text T f text = Ok w ->
  exists l, json_parse T text = Ok (JObj l) /\ NoDup l.*1 /\ wisard_read l w /\ member_read int_read l (lit "addressSize") (w_addressSize w).
Proof.
  intros T f text w H. destruct (wisard_text_read T f text w H) as (l & E & Hr & Ha). exists l. split; [exact E|]. split; [|auto].
  apply json_parse_tidy in E. inversion E. assumption.
Qed.
Print Assumptions C133_text_partial.

(** Reading is as written for an int, and impossible for a value of another kind. *)
Theorem C133_int_as_written : forall z x, INT_MIN <= z <= INT_MAX -> int_read (JInt z) x <-> x = z.
Proof.
  intros z x Hz. split; [|intros ->; constructor; [exact Hz|rewrite Z.sub_diag; reflexivity]]. intros H. apply int_reader in H. cbn in H. injection H as <-. apply BytesProofs.s32_id, Hz.
Qed.
Print Assumptions C133_int_as_written.
Theorem C133_other_kinds : forall v,
  ((exists x, bool_read v x) <-> exists b, v = JBool b) /\
  (forall s x, ~ int_read (JStr s) x) /\ (forall l x, ~ int_read (JArr l) x) /\ (forall l x, ~ int_read (JObj l) x) /\
  (forall x, ints_read v x -> exists js, v = JArr js) /\ (forall x, mappings_read v x -> exists l, v = JObj l).
Proof.
  intros v. split; [split; [intros (x & []); eauto|intros (b & ->); exists b; constructor]|].
  split; [inversion 1|]. split; [inversion 1|]. split; [inversion 1|]. split; [intros x []; eauto|intros x []; eauto].
Qed.
Print Assumptions C133_other_kinds.

(** Not vacuous: a text with a wrong kind is refused, one with an int is taken as written. *)
Example C133_witness : (forall T f, wisard_of_text T f (lit "{""addressSize"":3,""bleachingActivated"":1,""classes"":{}}") = Throw EJsonType) /\
  (forall T f, exists w, wisard_of_text T f (lit "{""addressSize"":3,""bleachingActivated"":false,""base"":4,""mapping"":{""a"":[[0,1],[2]]},""classes"":{}}") = Ok w /\
     w_bleachingActivated w = false /\ w_base w = 4 /\ w_mapping w !! lit "a" = Some [[0; 1]; [2]] /\ w_confidence w = 1).
Proof.
  split; [intros T f; vm_compute; reflexivity|]. intros T f. eexists. split; [vm_compute; reflexivity|]. repeat split.
Qed.

(** C134: false: ClusWisard(text) checks nothing, so a text can hold a configuration the
    constructor refuses. *)
Theorem C134_loaded_valid_refuted : forall T f, exists k,
  clus_of_text T f (lit "{""addressSize"":2,""minScore"":7,""threshold"":0,""discriminatorsLimit"":-1,""clusters"":null,""unsupervisedCluster"":null}") = Ok k /\
  k_minScore k = f32_of_Z 7 /\ k_threshold k = 0 /\ k_limit k = -1 /\
  forall a l k', NoDup l.*1 -> clus_of_options a (k_minScore k) (k_threshold k) (k_limit k) (JObj l) <> Ok k'.
Proof.
  intros T f. eexists. split; [vm_compute; reflexivity|]. split; [reflexivity|]. split; [reflexivity|]. split; [reflexivity|].
  intros a l k' Hl E. apply clus_options_read in E; [|exact Hl]. destruct E as (_ & _ & _ & _ & _ & _ & _ & (_ & H & _)). vm_compute in H. discriminate.
Qed.
Print Assumptions C134_loaded_valid_refuted.
(** What holds: minScore, threshold and discriminatorsLimit are those of the text, so the loaded
    object is valid exactly when the text holds valid ones. *)
Theorem C134_loaded_valid_partial : forall T f text k, clus_of_text T f text = Ok k ->
  exists l, json_parse T text = Ok (JObj l) /\ NoDup l.*1 /\ clus_read l k /\
    member_read int_read l (lit "addressSize") (k_addressSize k) /\
    (valid_config (k_minScore k) (k_threshold k) (k_limit k) <->
     exists s t n, member_read float_read l (lit "minScore") s /\ member_read int_read l (lit "threshold") t /\
       member_read int_read l (lit "discriminatorsLimit") n /\ valid_config s t n).
Proof.
  intros T f text k H. destruct (clus_text_read T f text k H) as (l & E & Hr & Ha & Hs & Ht & Hn). exists l. split; [exact E|]. apply json_parse_tidy in E. inversion E as [| | | | | |? Hnd _]; subst.
  split; [exact Hnd|]. split; [exact Hr|]. split; [exact Ha|]. split.
  - intros Hv. exists (k_minScore k), (k_threshold k), (k_limit k). auto.
  - intros (s & t & n & Hs' & Ht' & Hn' & Hv).
    assert (D : forall A (get : json -> res A) read name x y, reader get read -> member_read read l name x -> member_read read l name y -> x = y).
    { intros A get read name x y Hrd Hx Hy. apply (member_reads get read l name _ Hnd Hrd) in Hx, Hy. congruence. }
    rewrite (D _ _ _ _ _ _ float_reader Hs Hs'), (D _ _ _ _ _ _ int_reader Ht Ht'), (D _ _ _ _ _ _ int_reader Hn Hn'). exact Hv.
Qed.
Print Assumptions C134_loaded_valid_partial.
Example C134_witness : forall T f, exists k,
  clus_of_text T f (lit "{""addressSize"":2,""minScore"":1,""threshold"":3,""discriminatorsLimit"":5,""clusters"":null,""unsupervisedCluster"":null}") = Ok k /\
  valid_config (k_minScore k) (k_threshold k) (k_limit k) /\ k_threshold k = 3.
Proof.
  intros T f. eexists. split; [vm_compute; reflexivity|]. split; [|reflexivity]. split; [vm_compute; reflexivity|]. split; [vm_compute; reflexivity|]. split; vm_compute; discriminate.
Qed.
