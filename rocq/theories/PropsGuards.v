(** Property theorems C105, C106: what ClusWisard checks. *)
From Coq Require Import SpecFloat Reals Psatz.
From Flocq Require Import Core BinarySingleNaN.
From Verif Require Import Prelude Bytes Float32 Bleaching Utils BinInput Ram Json Fs RamData Disc Wisard Cluster ClusWisard.
From Verif Require Import SpecDisc SpecWisard SpecClus BytesProofs UtilsProofs TextProofs ScoreProofs WisardProofs WisardSafety PropsCluster PropsClus PropsClusJson.
Local Open Scope Z_scope.
Local Existing Instance ScoreProofs.Hprec.
Local Existing Instance ScoreProofs.Hmax.

(** C105 is false: a minScore that is not a number passes the check. *)
Theorem C105_nan_refuted : clus_of_options 2 SpecFloat.S754_nan 4 2 (jobject []) = Ok knan.
Proof. vm_compute. reflexivity. Qed.
Print Assumptions C105_nan_refuted.
(** What holds, for every minScore that is a number (b is any finite float): the model is created
    exactly if 0 <= minScore <= 1 (as real numbers), threshold >= 1 and the limit >= 1; what is wrong
    first is reported. *)
Theorem C105_validation_partial : forall a (b : binary_float 24 128) t l, is_finite b = true ->
  ((exists k, clus_of_options a (B2SF b) t l (jobject []) = Ok k) <-> (0 <= B2R b <= 1)%R /\ 1 <= t /\ 1 <= l) /\
  (~ (0 <= B2R b <= 1)%R -> clus_of_options a (B2SF b) t l (jobject []) = Throw minscore_exn) /\
  ((0 <= B2R b <= 1)%R -> t < 1 -> clus_of_options a (B2SF b) t l (jobject []) = Throw threshold_exn) /\
  ((0 <= B2R b <= 1)%R -> 1 <= t -> l < 1 -> clus_of_options a (B2SF b) t l (jobject []) = Throw limit_exn_k).
Proof.
  intros a b t l Hb.
  assert (E : clus_of_options a (B2SF b) t l (jobject []) = let* _ := checkConfigInputs (B2SF b) t l in
    Ok (ClusWisard a (B2SF b) t l true false true false 2 false false false false 1 ∅ cluster_default)) by reflexivity.
  rewrite E. unfold checkConfigInputs.
  destruct (bz_exact 0 ltac:(lia)) as [H0 F0]. destruct (bz_exact 1 ltac:(lia)) as [H1 F1].
  assert (L0 : f32_ltb (B2SF b) f32_zero = Rlt_bool (B2R b) 0).
  { unfold f32_zero. rewrite of_Z_equiv. etransitivity; [exact (Bltb_correct 24 128 b (bz 0) Hb F0)|]. rewrite H0. reflexivity. }
  assert (L1 : f32_ltb f32_one (B2SF b) = Rlt_bool 1 (B2R b)).
  { unfold f32_one. rewrite of_Z_equiv. etransitivity; [exact (Bltb_correct 24 128 (bz 1) b F1 Hb)|]. rewrite H1. reflexivity. }
  rewrite L0, L1. clear E L0 L1 H0 F0 H1 F1.
  set (k0 := ClusWisard a (B2SF b) t l true false true false 2 false false false false 1 ∅ cluster_default). clearbody k0.
  assert (T : forall e : exn, ~ ((0 <= B2R b <= 1)%R /\ 1 <= t /\ 1 <= l) ->
    (exists k, Throw (A:=cluswisard) e = Ok k) <-> (0 <= B2R b <= 1)%R /\ 1 <= t /\ 1 <= l).
  { intros e N. split; [intros (k & [=])|intros H; destruct (N H)]. }
  destruct (Rlt_bool_spec (B2R b) 0) as [R0|R0]; cbn [orb rbind].
  { split; [apply T; intros ((?&?)&?); lra|]. split; [reflexivity|]. split; intros (?&?); exfalso; lra. }
  destruct (Rlt_bool_spec 1 (B2R b)) as [R1|R1]; cbn [orb rbind].
  { split; [apply T; intros ((?&?)&?); lra|]. split; [reflexivity|]. split; intros (?&?); exfalso; lra. }
  assert (RR : (0 <= B2R b <= 1)%R) by (split; assumption).
  destruct (Z.ltb_spec t 1) as [Ht|Ht]; cbn [rbind].
  { split; [apply T; intros (_&?&?); lia|]. split; [intros N; destruct (N RR)|]. split; [reflexivity|]. intros _ ?; lia. }
  destruct (Z.ltb_spec l 1) as [Hl|Hl]; cbn [rbind].
  { split; [apply T; intros (_&?&?); lia|]. split; [intros N; destruct (N RR)|]. split; [intros _ ?; lia|reflexivity]. }
  split; [split; [intros _; auto|intros _; eauto]|]. split; [intros N; destruct (N RR)|]. split; intros; lia.
Qed.
Print Assumptions C105_validation_partial.
(** Infinities are refused too. *)
Theorem C105_infinite_partial : forall s a t l, clus_of_options a (S754_infinity s) t l (jobject []) = Throw minscore_exn.
Proof. intros [] a t l; reflexivity. Qed.
Print Assumptions C105_infinite_partial.
Example C105_witness : exists k, clus_of_options 2 (f32_div f32_one (f32_of_Z 2)) 4 2 (jobject []) = Ok k /\
  clus_of_options 2 (f32_of_Z 2) 4 2 (jobject []) = Throw minscore_exn /\
  clus_of_options 2 (f32_of_Z (-1)) 0 2 (jobject []) = Throw minscore_exn /\
  clus_of_options 2 f32_one 0 0 (jobject []) = Throw threshold_exn /\
  clus_of_options 2 f32_zero 1 0 (jobject []) = Throw limit_exn_k.
Proof. eexists. split; [vm_compute; reflexivity|]. split; [vm_compute; reflexivity|]. split; [vm_compute; reflexivity|]. split; vm_compute; reflexivity. Qed.

(** C106: the argument guards of train fire before anything is learned. *)
Theorem C106_train_guards : forall lhs_first env k x images labels,
  0 <= im_size x <= INT_MAX -> 1 <= k_addressSize k -> len (x :: images) <= INT_MAX -> len labels <= INT_MAX ->
  (ram_count (im_size x) (k_addressSize k) (k_completeAddressing k) < k_confidence k ->
     clus_train lhs_first env k (x :: images) labels = (Throw confidence_exn, k)) /\
  (k_confidence k <= ram_count (im_size x) (k_addressSize k) (k_completeAddressing k) -> len (x :: images) <> len labels ->
     clus_train lhs_first env k (x :: images) labels = (Throw sizes_exn, k)).
Proof.
  intros lhs env k x images labels Hx Ha Hl1 Hl2. unfold clus_train, clus_first_checks.
  rewrite (s32_id (im_size x)) by (unfold INT_MIN; lia). rewrite ram_count_ok by lia. cbn [rbind]. unfold checkConfidence. split.
  - intros Hc. rewrite (proj2 (Z.ltb_lt _ _)) by exact Hc. reflexivity.
  - intros Hc Hn. rewrite (proj2 (Z.ltb_ge _ _)) by exact Hc. cbn [rbind]. unfold checkInputSizes. rewrite s32_len_eq by assumption.
    rewrite (proj2 (Z.eqb_neq _ _)) by exact Hn. reflexivity.
Qed.
Print Assumptions C106_train_guards.
Theorem C106_semi_guards : forall lhs_first env env2 k x images (labels : gmap Z str),
  0 <= im_size x <= INT_MAX -> 1 <= k_addressSize k -> len (x :: images) <= INT_MAX -> Z.of_nat (size labels) <= INT_MAX ->
  (ram_count (im_size x) (k_addressSize k) (k_completeAddressing k) < k_confidence k ->
     clus_train_semi lhs_first env env2 k (x :: images) labels = (Throw confidence_exn, k)) /\
  (k_confidence k <= ram_count (im_size x) (k_addressSize k) (k_completeAddressing k) -> len (x :: images) < Z.of_nat (size labels) ->
     clus_train_semi lhs_first env env2 k (x :: images) labels = (Throw many_labels_exn, k)).
Proof.
  intros lhs env env2 k x images labels Hx Ha Hl1 Hl2. unfold clus_train_semi, clus_first_checks.
  rewrite (s32_id (im_size x)) by (unfold INT_MIN; lia). rewrite ram_count_ok by lia. cbn [rbind]. unfold checkConfidence. split.
  - intros Hc. rewrite (proj2 (Z.ltb_lt _ _)) by exact Hc. reflexivity.
  - intros Hc Hn. rewrite (proj2 (Z.ltb_ge _ _)) by exact Hc. cbn [rbind]. pose proof (len_nonneg (x :: images)).
    rewrite (s32_id (len (x :: images))) by (unfold INT_MIN; lia). rewrite (s32_id (Z.of_nat (size labels))) by (unfold INT_MIN; lia).
    rewrite (proj2 (Z.ltb_lt _ _)) by exact Hn. reflexivity.
Qed.
Print Assumptions C106_semi_guards.
Example C106_witness : fst (clus_train true envs (kfg 2) [x1; x2] [lit "a"]) = Throw sizes_exn /\
  fst (clus_train true envs (ClusWisard 2 f32_zero 4 2 true false true false 2 false false false false 3 ∅ cluster_default) [x1] [lit "a"]) = Throw confidence_exn /\
  fst (clus_train_semi true envs envs (kfg 2) [x1] {[0 := lit "a"; 1 := lit "b"]}) = Throw many_labels_exn.
Proof. split; [vm_compute; reflexivity|]. split; vm_compute; reflexivity. Qed.
