(** Property theorem C64 for a ClusWisard: its discriminatorsLimit. *)
From Verif Require Import Prelude Bytes Utils Float32 BinInput Bleaching Ram Json Disc DataSet Wisard Cluster ClusWisard SpecDisc SpecBin SpecClus SpecCluster SpecValues.
From Verif Require Import CtorFacts DiscProofs DiscFacts WisardFacts ClusterProofs ClusProofs PropsCluster PropsClus.

Definition sized (L : Z) (c : cluster) : Prop := len (c_discs c) <= Z.max 1 L /\ forall p, c_params c = Some p -> p_limit p = L.
Definition all_sized (k : cluswisard) : Prop := (forall l c, k_clusters k !! l = Some c -> sized (k_limit k) c) /\ sized (k_limit k) (k_unsupervised k).
Definition grows (c c' : cluster) : Prop := (length (c_discs c) <= length (c_discs c'))%nat /\ forall i o, c_discs c !! i = Some o -> exists o', c_discs c' !! i = Some o' /\ slot_kept o o'.
Definition goes_on (k k' : cluswisard) : Prop := k_limit k' = k_limit k /\ (k_limit k <= INT_MAX -> all_sized k -> all_sized k') /\
  forall l c, k_clusters k !! l = Some c -> exists c', k_clusters k' !! l = Some c' /\ grows c c'.
Lemma grows_ext c c' : extends (c_discs c) (c_discs c') -> grows c c'.
Proof.
  intros (l1 & l2 & E & H2). unfold grows. rewrite E. split; [rewrite app_length, (Forall2_length _ _ _ H2); lia|].
  intros i o Ho. destruct (Forall2_lookup_l _ _ _ _ _ H2 Ho) as (o' & Ho' & Hk). exists o'. split; [|assumption]. apply lookup_app_l_Some. assumption.
Qed.
Lemma train_sized lhs dr c x L : L <= INT_MAX -> sized L c -> sized L (snd (cluster_train lhs dr c x)).
Proof.
  intros HL [H1 H2]. destruct (cluster_train lhs dr c x) as [o c'] eqn:E. cbn [snd]. destruct (train_keeps _ _ _ _ _ _ E) as (K1 & _ & _ & K4). split; [|rewrite K1; exact H2].
  unfold len in *. destruct K4 as [K4|[K4 [K5|(q & Hq & Hlim)]]]; [lia|rewrite K5 in K4; cbn in K4; lia|]. rewrite (H2 q Hq) in Hlim. rewrite s32_small in Hlim by (unfold len, INT_MAX in *; lia). unfold len in *. lia.
Qed.
Lemma grows_refl c : grows c c.
Proof. apply grows_ext, extends_refl. Qed.
Lemma slot_kept_trans o1 o2 o3 : slot_kept o1 o2 -> slot_kept o2 o3 -> slot_kept o1 o3.
Proof. apply slot_trans. Qed.
Lemma grows_trans a b c : grows a b -> grows b c -> grows a c.
Proof. intros [H1 H2] [H3 H4]. split; [lia|]. intros i o H. destruct (H2 i o H) as (o' & H' & K). destruct (H4 i o' H') as (o2 & Ho2 & K2). exists o2. split; [exact Ho2|eapply slot_kept_trans; eassumption]. Qed.
Lemma goes_refl k : goes_on k k.
Proof. split; [reflexivity|]. split; [auto|]. intros l c H. exists c. split; [exact H|apply grows_refl]. Qed.
Lemma goes_trans a b c : goes_on a b -> goes_on b c -> goes_on a c.
Proof.
  intros (A1 & A2 & A3) (B1 & B2 & B3). split; [congruence|]. split; [intros H K; apply B2; [rewrite A1; exact H|apply A2; assumption]|].
  intros l x H. destruct (A3 l x H) as (y & Hy & G). destruct (B3 l y Hy) as (z & Hz & G'). exists z. split; [exact Hz|eapply grows_trans; eassumption].
Qed.
(** A step that goes on from wherever it starts, and sequences of such steps. *)
Definition step {A} (f : cluswisard -> eff cluswisard A) : Prop := forall k, goes_on k (snd (f k)).
Lemma step_bind {A B} (f : cluswisard -> eff cluswisard A) (g : A -> cluswisard -> eff cluswisard B) : step f -> (forall a, step (g a)) -> step (fun k => ebind (f k) g).
Proof. intros Hf Hg k. specialize (Hf k). cbn beta. unfold ebind. destruct (f k) as [[a| | |] k1]; cbn [snd] in *; try exact Hf. eapply goes_trans; [exact Hf|apply Hg]. Qed.
Lemma step_lift {A} (f : cluswisard -> res A) : step (fun k => elift k (f k)).
Proof. intros k. apply goes_refl. Qed.
Lemma step_for {X} (f : cluswisard -> X -> eff cluswisard unit) l : (forall x, step (fun k => f k x)) -> step (efor f l).
Proof. intros H. induction l as [|x l IH]; [intros k; apply goes_refl|]. exact (step_bind (fun k => f k x) (fun _ => efor f l) (H x) (fun _ => IH)). Qed.
Lemma put_goes k l c' : (forall c, k_clusters k !! l = Some c -> grows c c') -> (k_limit k <= INT_MAX -> all_sized k -> sized (k_limit k) c') -> goes_on k (with_clusters k (<[l := c']> (k_clusters k))).
Proof.
  intros Hg Hs. split; [reflexivity|]. split.
  - intros HL Hk. split; [|exact (proj2 Hk)]. intros l0 c0 H0. cbn [with_clusters k_clusters k_limit] in *. apply lookup_insert_Some in H0 as [[<- <-]|[_ H0]]; [apply Hs; assumption|apply (proj1 Hk l0 c0 H0)].
  - intros l0 c0 H0. cbn [with_clusters k_clusters]. destruct (decide (l0 = l)) as [-> |Hne]; [exists c'; split; [apply lookup_insert|apply Hg, H0]|]. exists c0. split; [rewrite lookup_insert_ne by congruence; exact H0|apply grows_refl].
Qed.
Lemma step_at lhs dr x l : step (fun k => at_cluster (fun c => cluster_train lhs dr c x) k l).
Proof.
  intros k. unfold at_cluster. destruct (cluster_train lhs dr (default cluster_default (k_clusters k !! l)) x) as [o c'] eqn:E. cbn [snd]. apply put_goes.
  - intros c Hc. rewrite Hc in E. cbn [default] in E. apply grows_ext. destruct (train_keeps _ _ _ _ _ _ E) as (_ & K & _). exact K.
  - intros HL Hk. pose proof (train_sized lhs dr (default cluster_default (k_clusters k !! l)) x (k_limit k) HL) as T. rewrite E in T. apply T.
    destruct (k_clusters k !! l) as [c|] eqn:Ec; cbn [default]; [apply (proj1 Hk l c Ec)|]. split; [change (len _) with 0; lia|intros p; discriminate].
Qed.
Lemma step_train1 lhs dr x l : step (fun k => clus_train1 lhs dr k x l).
Proof.
  intros k. unfold clus_train1. destruct (k_clusters k !! l) as [c|] eqn:Ec; [apply step_at|]. eapply goes_trans; [|apply step_at].
  unfold makeClusters. apply put_goes; [intros c Hc; congruence|]. intros _ _. split; [change (len _) with 0; lia|]. intros p [= <-]. reflexivity.
Qed.
Lemma step_loop lhs env : forall xs ls i, step (fun k => clus_train_loop lhs env i k xs ls).
Proof.
  induction xs as [|x xs IH]; intros ls i; [intros k; destruct ls; apply goes_refl|]. destruct ls as [|l ls]; [intros k; apply goes_refl|]. cbn [clus_train_loop].
  apply (step_bind (fun k => clus_train1 lhs (env i) k x l)); [apply step_train1|]. intros a. apply IH.
Qed.
Lemma step_semi lhs env labels : forall xs i ls j, step (semi_loop lhs env labels i ls j xs).
Proof.
  induction xs as [|x xs IH]; intros i ls j k; [apply goes_refl|]. cbn [semi_loop]. destruct (labels !! s32 (Z.of_nat i)) as [l|].
  - apply (step_bind (fun k => clus_train1 lhs (env i) k x l)); [apply step_train1|]. intros a. apply IH.
  - destruct (u64 (ls - 1) <? j); [apply IH|]. destruct (j <? ls); [apply IH|apply goes_refl].
Qed.
Lemma step_unlabelled lhs dr x : step (fun k => clus_train_unlabelled lhs dr k x).
Proof. unfold clus_train_unlabelled. apply (step_bind (fun k => elift k (clus_candidates k x false))); [apply step_lift|]. intros c. apply step_at. Qed.
Lemma unsup_sized lhs env L : L <= INT_MAX -> forall xs c, sized L c -> sized L (snd (efor (fun c (iim : nat * image) => cluster_train lhs (env iim.1) c iim.2) xs c)).
Proof.
  intros HL. induction xs as [|x xs IH]; intros c H; [exact H|]. cbn [efor]. pose proof (train_sized lhs (env x.1) c x.2 L HL H) as K. unfold ebind.
  destruct (cluster_train lhs (env x.1) c x.2) as [[u| | |] c']; cbn [snd] in *; try exact K. apply IH, K.
Qed.
Lemma step_call lhs c : step (fun k => kcall_run lhs k c).
Proof.
  destruct c as [env xs ls|env env2 xs ls|env xs]; cbn [kcall_run].
  - intros k. unfold clus_train. destruct xs as [|x xs]; [apply goes_refl|].
    apply (step_bind (fun k => elift k (let* _ := clus_first_checks k x in checkInputSizes (len (x :: xs)) (len ls)))); [apply step_lift|]. intros a. apply step_loop.
  - intros k. unfold clus_train_semi. destruct xs as [|x xs]; [apply goes_refl|].
    apply (step_bind (fun k => elift k (let* _ := clus_first_checks k x in if s32 (len (x :: xs)) <? s32 (Z.of_nat (size ls)) then Throw many_labels_exn else Ok tt))); [apply step_lift|]. intros a.
    apply step_bind; [apply step_semi|]. intros n k'. cbn beta. destruct (s32 n =? s32 (len (x :: xs))); [apply goes_refl|]. unfold semi_unlabelled. apply step_for. intros i.
    apply (step_bind (fun k => elift k (vget (x :: xs) (Z.of_nat i)))); [apply step_lift|]. intros im. apply step_unlabelled.
  - intros k. unfold trainUnsupervised.
    assert (G : forall k1, k_limit k1 = k_limit k -> k_clusters k1 = k_clusters k -> (k_limit k <= INT_MAX -> all_sized k -> sized (k_limit k) (k_unsupervised k1)) ->
      goes_on k (snd (at_unsupervised (fun c => efor (fun c (iim : nat * image) => cluster_train lhs (env iim.1) c iim.2) (imap pair xs) c) k1))).
    { intros k1 E1 E2 Hs. unfold at_unsupervised. pose proof (unsup_sized lhs env (k_limit k)) as U. specialize (fun HL => U HL (imap pair xs) (k_unsupervised k1)).
      destruct (efor _ (imap pair xs) (k_unsupervised k1)) as [o c']. cbn [snd] in *. split; [exact E1|]. split.
      - intros HL Hk. unfold all_sized. cbn [with_unsupervised k_clusters k_limit k_unsupervised]. rewrite E1, E2. split; [exact (proj1 Hk)|apply U; auto].
      - intros l c Hc. cbn [with_unsupervised k_clusters]. rewrite E2. exists c. split; [exact Hc|apply grows_refl]. }
    destruct (Nat.eqb (size (k_clusters k)) 0).
    + destruct xs as [|x xs]; [apply goes_refl|]. apply G; [reflexivity|reflexivity|]. intros _ _. cbn [with_unsupervised k_unsupervised]. split; [change (len _) with 0; lia|]. intros p [= <-]. reflexivity.
    + apply G; [reflexivity|reflexivity|]. intros _ Hk. exact (proj2 Hk).
Qed.
Lemma outcomes_goes lhs : forall cs k, goes_on k (snd (outcomes (kcall_run lhs) k cs)).
Proof.
  induction cs as [|c cs IH]; intros k; [apply goes_refl|]. cbn [outcomes]. pose proof (step_call lhs c k) as S. cbn beta in S. destruct (kcall_run lhs k c) as [o k']. cbn [snd] in S.
  destruct o as [u|e|u|]; cbn [snd]; try exact S; (specialize (IH k'); destruct (outcomes (kcall_run lhs) k' cs) as [os t]; cbn [snd] in *; eapply goes_trans; eassumption).
Qed.

(** C64 for a ClusWisard, from its constructor through any calls (labelled, semi-supervised,
    unsupervised), whether they return or throw: no label, nor the unsupervised cluster, ever has more
    discriminators than discriminatorsLimit. *)
Theorem C64_cluswisard : forall lhs_first addressSize minScore threshold discriminatorsLimit options k0 cs k,
  clus_of_options addressSize minScore threshold discriminatorsLimit options = Ok k0 -> discriminatorsLimit <= INT_MAX ->
  snd (outcomes (kcall_run lhs_first) k0 cs) = k ->
  (forall l c, k_clusters k !! l = Some c -> len (c_discs c) <= discriminatorsLimit) /\ len (c_discs (k_unsupervised k)) <= discriminatorsLimit.
Proof.
  intros lhs a ms th L o k0 cs k E HL <-.
  assert (F : k_limit k0 = L /\ k_clusters k0 = ∅ /\ k_unsupervised k0 = cluster_default /\ 1 <= L).
  { unfold clus_of_options in E.
    repeat match type of E with (let* _ := ?x in _) = Ok _ => let E' := fresh in destruct x eqn:E'; cbn [rbind] in E; [|discriminate E..] end.
    injection E as <-. cbn. split; [reflexivity|]. split; [reflexivity|]. split; [reflexivity|].
    match goal with H : checkConfigInputs _ _ _ = _ |- _ => unfold checkConfigInputs in H; destruct (_ || _); [discriminate|]; destruct (th <? 1); [discriminate|]; destruct (L <? 1) eqn:EL; [discriminate|] end. lia. }
  destruct F as (F1 & F2 & F3 & F4). destruct (outcomes_goes lhs cs k0) as (G1 & G2 & _). rewrite F1 in *.
  assert (S : all_sized k0). { split; [intros l c H; rewrite F2, lookup_empty in H; discriminate|]. rewrite F3. split; [change (len _) with 0; lia|intros p; discriminate]. }
  destruct (G2 HL S) as [S1 S2]. rewrite G1 in *. split; [intros l c H; specialize (S1 l c H)|]; unfold sized in *; lia.
Qed.
Print Assumptions C64_cluswisard.
(** And from any state, through any calls: every discriminator of a label keeps its place, wiring and
    entry size, with a counter that never decreases. *)
Theorem C64_cluswisard_keeps : forall lhs_first k cs l c,
  k_clusters k !! l = Some c ->
  exists c', k_clusters (snd (outcomes (kcall_run lhs_first) k cs)) !! l = Some c' /\ (length (c_discs c) <= length (c_discs c'))%nat /\
    forall i o, c_discs c !! i = Some o -> exists o', c_discs c' !! i = Some o' /\ slot_kept o o'.
Proof. intros lhs k cs l c H. destruct (outcomes_goes lhs cs k) as (_ & _ & G). exact (G l c H). Qed.
Print Assumptions C64_cluswisard_keeps.
(** Not vacuous: a limit of 2 that is reached, with a failing call in between. *)
Definition kthree : list kcall := [KTrain envs [x1; x2] [ka; ka]; KTrain envs [x1] []; KTrain envs [x4; x2] [ka; kb]; KSemi envs envs [x1; x2] {[0 := ka]}].
Example C64_clus_witness : exists k0, clus_of_options 2 f32_one 1 2 JNull = Ok k0 /\
  fst (outcomes (kcall_run true) k0 kthree) = [Ok tt; Throw sizes_exn; Ok tt; Ok tt] /\
  (length ∘ c_discs <$> k_clusters (snd (outcomes (kcall_run true) k0 kthree)) !! ka) = Some 2%nat.
Proof. eexists. split; [reflexivity|]. split; vm_compute; reflexivity. Qed.
