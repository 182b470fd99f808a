(** Property theorem C132: a ClusWisard with one discriminator per label is a Wisard. *)
From Verif Require Import Prelude Bytes Utils Float32 BinInput Bleaching Ram Json Disc Wisard Cluster ClusWisard SpecDisc SpecWisard SpecCluster SpecClus SpecTwin.
From Verif Require Import PropsCluster PropsClus ClusOne.

(** C132: false as stated. Candidates are ordered by "label::number", so labels like "1" and "10"
    swap places and ties go to the other one. *)
Definition kone : cluswisard := ClusWisard 2 half 4 1 true false true false 2 false false false false 1 ∅ cluster_default.
Example kone_constructed : clus_of_options 2 half 4 1 (jobject []) = Ok kone. Proof. vm_compute. reflexivity. Qed.
Definition tie_batches : list batch := [Batch envs [x1; x1] [lit "1"; lit "10"]].
Theorem C132_one_per_label_refuted : exists k w,
  krun false kone (clus_batch <$> tie_batches) = (Ok tt, k) /\
  wrun false (as_wisard kone) (wisard_batch <$> tie_batches) = (Ok tt, w) /\
  clus_classify k [x1] = Ok [lit "1"] /\ wisard_classify w [x1] = Ok [lit "10"].
Proof.
  exists (snd (krun false kone (clus_batch <$> tie_batches))), (snd (wrun false (as_wisard kone) (wisard_batch <$> tie_batches))).
  assert (F1 : fst (krun false kone (clus_batch <$> tie_batches)) = Ok tt) by (vm_compute; reflexivity).
  assert (F2 : fst (wrun false (as_wisard kone) (wisard_batch <$> tie_batches)) = Ok tt) by (vm_compute; reflexivity).
  split; [rewrite <- F1; destruct (krun _ _ _); reflexivity|]. split; [rewrite <- F2; destruct (wrun _ _ _); reflexivity|].
  split; vm_compute; reflexivity.
Qed.
Print Assumptions C132_one_per_label_refuted.

(** What holds: with discriminatorsLimit at most 1 and labels without "::" (and not ending in a
    colon), none of which continues another one with a character up to ':', any sequence of
    labelled train calls the ClusWisard accepts is accepted by a Wisard with the same options that
    makes the same random choices when it creates a label, and from then on the two give the same
    answer, or fail in the same way, on every image. *)
Theorem C132_one_per_label_partial : forall lhs_first k0 bs k,
  k_clusters k0 = ∅ -> is_int (k_addressSize k0) -> k_limit k0 <= 1 ->
  let given l := exists b, b ∈ bs /\ l ∈ b_labels b in
  (forall l, given l -> plain_label l) ->
  (forall l c s, given l -> given (l ++ c :: s) -> byte ":" < byte c) ->
  krun lhs_first k0 (clus_batch <$> bs) = (Ok tt, k) ->
  exists w, wrun lhs_first (as_wisard k0) (wisard_batch <$> bs) = (Ok tt, w) /\
    forall xs, clus_classify k xs = wisard_classify w xs.
Proof.
  intros lhs k0 bs k H0 Ha Hl given Hp Hm E. destruct (one_is_wisard lhs k0 bs k H0 Ha Hl Hp Hm E) as (w & Ew & Hx). exists w. split; [exact Ew|].
  intros xs. unfold clus_classify, wisard_classify. apply WisardFacts.rmapM_ext, Hx.
Qed.
Print Assumptions C132_one_per_label_partial.

(** Labels of one length meet the condition on labels. *)
Theorem C132_same_length : forall (given : str -> Prop) n, (forall l, given l -> len l = n) ->
  forall l c s, given l -> given (l ++ c :: s) -> byte ":" < byte c.
Proof. intros given n H l c s H1 H2. apply H in H1, H2. unfold len in *. rewrite app_length in H2. cbn [length] in H2. lia. Qed.
Print Assumptions C132_same_length.

(** Not vacuous: two labels, four images, one call after another. *)
Definition fair_batches : list batch := [Batch envs [x1; x2] [ka; kb]; Batch envs [x4; x2] [kb; ka]].
Lemma fair_given l : (exists b, b ∈ fair_batches /\ l ∈ b_labels b) -> l = ka \/ l = kb.
Proof.
  intros (b & Hb & Hl). unfold fair_batches in Hb. rewrite !elem_of_cons in Hb. destruct Hb as [-> |[-> |Hb]]; [| |inversion Hb]; cbn [b_labels] in Hl;
    rewrite !elem_of_cons in Hl; (destruct Hl as [-> |[-> |Hl]]; [auto|auto|inversion Hl]).
Qed.
Example C132_witness : k_clusters kone = ∅ /\ is_int (k_addressSize kone) /\ k_limit kone <= 1 /\
  (forall l, (exists b, b ∈ fair_batches /\ l ∈ b_labels b) -> plain_label l /\ len l = len ka) /\
  fst (krun false kone (clus_batch <$> fair_batches)) = Ok tt /\
  clus_classify (snd (krun false kone (clus_batch <$> fair_batches))) [x1; x2; x4] = Ok [ka; kb; kb].
Proof.
  split; [reflexivity|]. split; [vm_compute; split; discriminate|]. split; [vm_compute; discriminate|]. split.
  - intros l Hl. apply fair_given in Hl as [-> | ->]; (split; [apply plain_a; auto|reflexivity]).
  - split; vm_compute; reflexivity.
Qed.
