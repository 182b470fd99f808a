(** Property theorems C64-C67: clusters of discriminators. Vocabulary in SpecCluster.v. *)
From Coq Require Import SpecFloat.
From Verif Require Import Prelude Bytes Float32 BinInput Ram Disc Cluster SpecDisc SpecCluster.
From Verif Require Import CtorFacts FloatSign ClusterProofs ScoreProofs.

(** A cluster over 4 binary pixels: minScore 0.5, threshold 4, at most 2 discriminators. *)
Definition half : f32 := f32_div f32_one (f32_of_Z 2).
Definition c0 : cluster := cluster_new 4 2 half 4 2 true false 2.
Definition x1 := vec_image [1; 1; 0; 0].
Definition x2 := vec_image [0; 0; 1; 1].
Definition x3 := vec_image [1; 1; 1; 1].
Definition x4 := vec_image [1; 0; 1; 0].
Definition x5 := vec_image [1; 1; 0].
Definition fed (ims : list image) (c : cluster) : cluster :=
  foldl (fun c im => snd (cluster_train false some_draw c im)) c ims.
Definition counters (c : cluster) : list Z := (fun o => match o with Some d => d_count d | None => -1 end) <$> c_discs c.

(** C64: along any sequence of train calls (whether they return or throw), from any cluster
    within its limit, the size stays within max(1,limit) and every discriminator keeps its
    index, wiring and entry size, with a counter that never decreases. *)
Theorem C64_cluster_size_limit : forall lhs_first c p c',
  c_params c = Some p -> p_limit p <= INT_MAX -> len (c_discs c) <= Z.max 1 (p_limit p) -> reaches lhs_first c c' ->
  len (c_discs c') <= Z.max 1 (p_limit p) /\ (length (c_discs c) <= length (c_discs c'))%nat /\
  forall i o, c_discs c !! i = Some o -> exists o', c_discs c' !! i = Some o' /\ slot_kept o o'.
Proof. exact size_limit. Qed.
Print Assumptions C64_cluster_size_limit.
Example C64_witness : counters (fed [x1; x2; x3; x4; x4; x5] c0) = [1; 4] /\
  fst (cluster_train false some_draw (fed [x1; x2] c0) x5) = Throw entry_exn.
Proof. split; vm_compute; reflexivity. Qed.
Example C64_reaches : reaches false c0 (fed [x1; x2; x5; x3] c0).
Proof.
  apply (reach_train _ _ (fed [x1; x2; x5] c0) some_draw x3 (Ok tt)); [|vm_compute; reflexivity|exact I].
  apply (reach_train _ _ (fed [x1; x2] c0) some_draw x5 (Throw entry_exn)); [|vm_compute; reflexivity|exact I].
  apply (reach_train _ _ (fed [x1] c0) some_draw x2 (Ok tt)); [|vm_compute; reflexivity|exact I].
  apply (reach_train _ _ c0 some_draw x1 (Ok tt)); [apply reach_here|vm_compute; reflexivity|exact I].
Qed.

(** C65: a train call that returns adds one to at least one counter, and changes no counter
    otherwise. Clusters of counting discriminators are what the constructor and training
    produce. *)
Theorem C65_image_learned : forall lhs_first dr c im c',
  all_counting c -> len (c_discs c) <= INT_MAX -> cluster_train lhs_first dr c im = (Ok tt, c') ->
  (exists i, counter_at c' i = counter_at c i + 1) /\ forall i, counter_at c i <= counter_at c' i <= counter_at c i + 1.
Proof. exact learned. Qed.
Print Assumptions C65_image_learned.
Theorem C65_counting_reachable : forall lhs_first e a minScore threshold limit complete ignoreZero base c,
  limit <= INT_MAX -> reaches lhs_first (cluster_new e a minScore threshold limit complete ignoreZero base) c ->
  all_counting c /\ len (c_discs c) <= INT_MAX.
Proof.
  intros lhs e a ms t l cp iz b c Hl Hr. split; [eapply reaches_counting; [|exact Hr]; apply Forall_nil; exact I|].
  destruct (size_limit lhs (cluster_new e a ms t l cp iz b) _ c eq_refl Hl) as [H _]; [cbn [cluster_new c_discs p_limit]; unfold len; cbn; lia|exact Hr|].
  cbn [p_limit] in H. unfold INT_MAX in *. lia.
Qed.
Print Assumptions C65_counting_reachable.
Example C65_witness : counters (fed [x1; x2] c0) = [1; 1] /\ counters (fed [x1; x2; x3] c0) = [1; 2] /\
  counters (fed [x1; x2; x3; x1] c0) = [2; 2].
Proof. split; [|split]; vm_compute; reflexivity. Qed.

(** C66: the decision rule. [learner i d]: discriminator d at index i scores at least
    min(1, minScore + count/threshold). *)
Theorem C66_decision_rule : forall lhs_first dr c p im c',
  c_params c = Some p -> all_counting c -> c_discs c <> [] -> len (c_discs c) <= INT_MAX ->
  cluster_train lhs_first dr c im = (Ok tt, c') ->
  exists ss, scores c im ss /\
    let learner i d := exists s, c_discs c !! i = Some (Some d) /\ ss !! i = Some s /\ f32_leb (bar p (d_count d)) s = true in
    ((exists i d, learner i d) /\ length (c_discs c') = length (c_discs c) /\
     forall i d, c_discs c !! i = Some (Some d) -> exists d', c_discs c' !! i = Some (Some d') /\
       ((learner i d /\ disc_train d im = (Ok tt, d')) \/ (~ learner i d /\ d' = d)))
    \/ ((~ exists i d, learner i d) /\ len (c_discs c) < p_limit p /\
        exists d0 d', setRAMShuffle dr (s32 (p_entrySize p)) (s32 (p_addressSize p)) (p_ignoreZero p) (p_complete p) (p_base p) = Ok d0 /\
          disc_train d0 im = (Ok tt, d') /\ c_discs c' = c_discs c ++ [Some d'])
    \/ ((~ exists i d, learner i d) /\ p_limit p <= len (c_discs c) /\
        exists i d d', last_best ss i /\ c_discs c !! i = Some (Some d) /\ disc_train d im = (Ok tt, d') /\
          c_discs c' = <[i := Some d']> (c_discs c)).
Proof. exact decision. Qed.
Print Assumptions C66_decision_rule.
Definition seen_by (c : cluster) (im : image) : res (list (Z * Z)) :=
  rmap (fun vs => (fun v => (score_max v, zsum v)) <$> vs) (cluster_classify c im).
(** The three cases on concrete clusters: x2 is new, x1 is known, x4 goes to the last best. *)
Example C66_witness :
  seen_by (fed [x1] c0) x2 = Ok [(0, 0)] /\ counters (fed [x1; x2] c0) = [1; 1] /\
  seen_by (fed [x1; x2] c0) x1 = Ok [(1, 2); (0, 0)] /\ counters (fed [x1; x2; x1] c0) = [2; 1] /\
  seen_by (fed [x1; x2] c0) x4 = Ok [(0, 0); (0, 0)] /\ counters (fed [x1; x2; x4] c0) = [1; 2].
Proof. repeat (split; [vm_compute; reflexivity|]). vm_compute. reflexivity. Qed.

(** C67: the score, for vote sums below 2^24 (the bound is sharp in kind: see C67_beyond). *)
Theorem C67_score_range : forall votes,
  Forall (fun v => 0 <= v) votes -> zsum votes < 2 ^ 24 -> len votes <= INT_MAX ->
  f32_leb f32_zero (getScore votes) = true /\ f32_leb (getScore votes) f32_one = true /\
  (f32_eqb (getScore votes) f32_zero = true <-> Forall (fun v => v = 0) votes) /\
  (f32_eqb (getScore votes) f32_one = true <-> votes <> [] /\ exists m, 0 < m /\ Forall (fun v => v = m) votes).
Proof. exact score_law. Qed.
Print Assumptions C67_score_range.
Example C67_witness : f32_eqb (getScore [7; 7; 7]) f32_one = true /\ f32_eqb (getScore [1; 2; 0; 1]) half = true /\
  f32_ltb (getScore [8388607; 8388606]) f32_one = true.
Proof. split; [|split]; vm_compute; reflexivity. Qed.
(** Above 2^24 a score can exceed 1. *)
Example C67_beyond : f32_ltb f32_one (getScore [16777219; 16777219; 16777219]) = true.
Proof. vm_compute. reflexivity. Qed.
