(** Property theorem C159: pixel positions mean nothing to randomly wired classifiers. Vocabulary in SpecMoveRandom.v. *)
From Verif Require Import Prelude Bytes Utils BinInput Float32 Bleaching Ram Disc DataSet Wisard Cluster ClusWisard SpecDisc SpecWisard SpecClus SpecValues SpecMove SpecMoveRandom.
From Verif Require Import BytesProofs CtorFacts ValueSim MoveSim MoveLockstep PropsWisard PropsCluster PropsClus.

(** C159 for Wisard: move the pixels of all images by a permutation: to all the random choices of
    one run there are random choices for the other such that every call has the same outcome and
    every image then gets the same degrees and the same answer. *)
Theorem C159_wisard : forall pi n mv lhs w0 cs, 0 < n <= INT_MAX -> moves pi n -> (forall x, im_size x = n -> moved pi n x (mv x)) ->
  w_mapping w0 = ∅ -> w_indexes w0 = [] -> w_discriminators w0 = ∅ -> Forall (sized_wcall n) cs ->
  exists cs', Forall2 (replayed_wcall mv) cs cs' /\
    let after := outcomes (wcall_run lhs) w0 cs in let after' := outcomes (wcall_run lhs) w0 cs' in
    fst after' = fst after /\
    (forall x, im_size x = n -> wisard_candidates (snd after') (mv x) = wisard_candidates (snd after) x) /\
    (forall xs, Forall (fun x => im_size x = n) xs -> wisard_classify (snd after') (mv <$> xs) = wisard_classify (snd after) xs).
Proof.
  intros pi n mv lhs w0 cs Hn Hpi Hmv Hm Hi H0 Hcs. set (rd := redraw pi n (w_addressSize w0) (w_completeAddressing w0)).
  assert (HX : forall xs, Forall (fun x => im_size x = n) xs -> Forall2 (moved pi n) xs (mv <$> xs)) by (induction 1; [constructor|rewrite fmap_cons; constructor; auto]).
  exists ((fun c => match c with CTrain env xs ls => CTrain (fun l => rd (env l)) (mv <$> xs) ls | CLeaveOne x l => CLeaveOne (mv x) l | CLeaveMore xs ls => CLeaveMore (mv <$> xs) ls end) <$> cs).
  split.
  - induction Hcs as [|c cs Hc _ IH]; [constructor|]. rewrite fmap_cons. constructor; [|exact IH]. destruct c as [env xs ls|x l|xs ls]; constructor. intros l. apply redraw_valid; [exact Hn|exact Hpi|apply Hc].
  - assert (H2 : Forall2 (moved_wcall pi n w0) cs ((fun c => match c with CTrain env xs ls => CTrain (fun l => rd (env l)) (mv <$> xs) ls | CLeaveOne x l => CLeaveOne (mv x) l | CLeaveMore xs ls => CLeaveMore (mv <$> xs) ls end) <$> cs)).
    { induction Hcs as [|c cs Hc _ IH]; [constructor|]. rewrite fmap_cons. constructor; [|exact IH]. destruct c as [env xs ls|x l|xs ls]; cbn [sized_wcall] in Hc; constructor.
      - intros l. apply redraw_match; [exact Hn|exact Hpi|apply Hc].
      - apply HX, Hc.
      - apply Hmv, Hc.
      - apply HX, Hc. }
    cbv zeta. destruct (wrun_wrel pi n Hn w0 Hm Hi lhs _ _ H2 w0 w0 (start_wrel pi n w0 H0)) as [E H]. split; [exact E|]. split; [intros x Hx; eapply candidates_wrel; [exact H|apply Hmv, Hx]|].
    intros xs Hxs. eapply classify_wrel; [exact H|apply HX, Hxs].
Qed.
Print Assumptions C159_wisard.

(** The same for ClusWisard, with semi-supervised and unsupervised training. *)
Theorem C159_cluswisard : forall pi n mv lhs k0 cs, 0 < n <= INT_MAX -> moves pi n -> (forall x, im_size x = n -> moved pi n x (mv x)) ->
  k_clusters k0 = ∅ -> k_unsupervised k0 = cluster_default -> Forall (sized_kcall n) cs ->
  exists cs', Forall2 (replayed_kcall mv) cs cs' /\
    let after := outcomes (kcall_run lhs) k0 cs in let after' := outcomes (kcall_run lhs) k0 cs' in
    fst after' = fst after /\
    (forall x, im_size x = n -> clus_votes (k_clusters (snd after')) (mv x) = clus_votes (k_clusters (snd after)) x) /\
    (forall xs, Forall (fun x => im_size x = n) xs -> clus_classify (snd after') (mv <$> xs) = clus_classify (snd after) xs /\
       clus_classifyUnsupervised (snd after') (mv <$> xs) = clus_classifyUnsupervised (snd after) xs).
Proof.
  intros pi n mv lhs k0 cs Hn Hpi Hmv H0 HU Hcs. set (rd := redraw pi n (s32 (k_addressSize k0)) (k_completeAddressing k0)).
  assert (HX : forall xs, Forall (fun x => im_size x = n) xs -> Forall2 (moved pi n) xs (mv <$> xs)) by (induction 1; [constructor|rewrite fmap_cons; constructor; auto]).
  set (rc := fun c => match c with KTrain env xs ls => KTrain (fun i => rd (env i)) (mv <$> xs) ls | KSemi env env2 xs ls => KSemi (fun i => rd (env i)) (fun i => rd (env2 i)) (mv <$> xs) ls
                   | KUnsupervised env xs => KUnsupervised (fun i => rd (env i)) (mv <$> xs) end).
  exists (rc <$> cs). split.
  - induction Hcs as [|c cs Hc _ IH]; [constructor|]. rewrite fmap_cons. constructor; [|exact IH]. destruct c as [env xs ls|env env2 xs ls|env xs]; cbn [sized_kcall] in Hc; constructor; intros i; (apply redraw_valid; [exact Hn|exact Hpi|apply Hc]).
  - assert (H2 : Forall2 (moved_kcall pi n (s32 (k_addressSize k0)) (k_completeAddressing k0)) cs (rc <$> cs)).
    { induction Hcs as [|c cs Hc _ IH]; [constructor|]. rewrite fmap_cons. constructor; [|exact IH].
      destruct c as [env xs ls|env env2 xs ls|env xs]; cbn [sized_kcall] in Hc; constructor; try (intros i; apply redraw_match; [exact Hn|exact Hpi|apply Hc]); apply HX, Hc. }
    cbv zeta. destruct (krun_rel pi n Hn _ _ lhs _ _ H2 k0 k0 (start_rel pi n _ _ k0 eq_refl eq_refl H0 HU)) as [E H]. split; [exact E|]. split; [intros x Hx; eapply votes_krel; [exact H|apply Hmv, Hx]|].
    intros xs Hxs. split; [eapply classify_krel|eapply classify_unsup_krel]; first [exact H|apply HX, Hxs].
Qed.
Print Assumptions C159_cluswisard.

(** Not vacuous: reading 4-pixel images backwards, with no configured wiring; three of the calls of
    Wisard's history train, one of them fails (more labels than images), and the answers are labels. *)
Definition mirror (x : image) : image := Image (im_size x) (fun p => im_get x (3 - p)).
Definition free_cfg : wisard := Wisard 2 true false ∅ [] false true 2 false false false false 1 ∅.
Definition free_calls : list wcall := [ CTrain env0 [w1; w2; w3] [hot; cold; hot]; CLeaveOne w3 hot; CTrain env0 [w2] [cold; hot]; CTrain env0 [w2] [cold] ].
Definition free_kcalls : list kcall := [ KUnsupervised envs [x1; x4]; KTrain envs [x1; x2; x1] [ka; kb; ka]; KTrain envs [x4] []; KSemi envs envs [x4; x2] {[1 := kb]} ].
Lemma mirror_moved x : im_size x = 4 -> moved (fun p => 3 - p) 4 x (mirror x).
Proof.
  intros H. split; [exact H|]. split; [exact H|]. intros p _. cbn [mirror im_get]. f_equal. lia.
Qed.
Example C159_wisard_witness : moves (fun p => 3 - p) 4 /\ (forall x, im_size x = 4 -> moved (fun p => 3 - p) 4 x (mirror x)) /\ Forall (sized_wcall 4) free_calls /\
  ((fun r : res unit => match r with Ok _ => true | _ => false end) <$> fst (outcomes (wcall_run true) free_cfg free_calls)) = [true; true; false; true] /\
  wisard_classify (snd (outcomes (wcall_run true) free_cfg free_calls)) [w1; w2] = Ok [hot; cold].
Proof.
  split; [unfold moves; change ([3; 2; 1; 0] ≡ₚ [0; 1; 2; 3]); apply (Permutation_rev [3; 2; 1; 0])|].
  split; [exact mirror_moved|].
  assert (Hv : forall l, valid_draw (env0 l)) by (intros; apply some_draw_valid).
  split; [repeat constructor; apply Hv|]. split; vm_compute; reflexivity.
Qed.
Example C159_cluswisard_witness : Forall (sized_kcall 4) free_kcalls /\
  ((fun r : res unit => match r with Ok _ => true | _ => false end) <$> fst (outcomes (kcall_run true) (kfg 2) free_kcalls)) = [true; true; false; true] /\
  clus_classify (snd (outcomes (kcall_run true) (kfg 2) free_kcalls)) [x1; x2] = Ok [ka; kb].
Proof.
  assert (Hv : forall l, valid_draw (envs l)) by (intros; apply some_draw_valid).
  split; [repeat constructor; apply Hv|]. split; vm_compute; reflexivity.
Qed.
