(** Property theorems C161: examples of one label only win or lose answers for that label. Vocabulary in SpecOnly.v. *)
From Verif Require Import Prelude Bytes Utils BinInput Bleaching Ram Disc DataSet Wisard Cluster ClusWisard SpecDisc SpecBin SpecBleach SpecWisard SpecClus SpecValues SpecOnly.
From Verif Require Import BytesProofs BleachProofs CtorFacts WisardFacts ClusProofs ClusIso PropsWisard PropsCluster PropsClus.

(** Candidates that only change where P holds: the winner changes only from or to such a candidate. *)
Lemma winner_only (P : str -> Prop) `{HdecP : !forall k, Decision (P k)} (m m' : gmap str Z) : (forall k v, m !! k = Some v -> 0 <= v) -> (forall k v, m' !! k = Some v -> 0 <= v) ->
  (forall k, ~ P k -> m' !! k = m !! k) ->
  getBiggestCandidate m' = getBiggestCandidate m \/ P (getBiggestCandidate m) \/ P (getBiggestCandidate m').
Proof.
  intros Hm Hm' H. destruct (decide (m = ∅)) as [-> |Hne], (decide (m' = ∅)) as [-> |Hne'].
  - left; reflexivity.
  - right; right. destruct (decide (P (getBiggestCandidate m'))) as [Hp|Hp]; [exact Hp|]. destruct (biggest_winner m' Hm' Hne') as (v & Hv & _). rewrite (H _ Hp), lookup_empty in Hv. discriminate.
  - right; left. destruct (decide (P (getBiggestCandidate m))) as [Hp|Hp]; [exact Hp|]. destruct (biggest_winner m Hm Hne) as (v & Hv & _). rewrite <- (H _ Hp), lookup_empty in Hv. discriminate.
  - destruct (decide (P (getBiggestCandidate m))) as [Hp|Hp]; [tauto|]. destruct (decide (P (getBiggestCandidate m'))) as [Hp'|Hp']; [tauto|]. left.
    destruct (biggest_winner m Hm Hne) as (v & Hv & Hx). destruct (biggest_winner m' Hm' Hne') as (v' & Hv' & Hx').
    rewrite (H _ Hp') in Hv'. rewrite <- (H _ Hp) in Hv. destruct (Hx _ _ Hv') as [K|[E K]], (Hx' _ _ Hv) as [K'|[E' K']]; try lia. apply str_le_antisym; assumption.
Qed.

(** Wisard: a call keeps the options. *)
Notation opts w := (with_discriminators w ∅).
Lemma at_label_opts f w l : opts (snd (at_label f w l)) = opts w.
Proof. unfold at_label. destruct (w_discriminators w !! l) as [d|]; [destruct (f d)|]; reflexivity. Qed.
Lemma make_opts lhs dr w l n : opts (snd (makeDiscriminator lhs dr w l n)) = opts w.
Proof. unfold makeDiscriminator. destruct (construct_discriminator dr w l n); cbn [snd]; try reflexivity. destruct lhs; reflexivity. Qed.
Lemma train1_opts lhs env w x l : opts (snd (wisard_train1 lhs env w x l)) = opts w.
Proof.
  unfold wisard_train1. destruct (w_discriminators w !! l); [apply at_label_opts|].
  apply (ebind_snd _ _ (fun s => opts s = opts w)); [apply make_opts|]. intros [] s E. rewrite at_label_opts. rewrite <- (make_opts lhs (env l) w l (s32 (im_size x))), E. reflexivity.
Qed.
Lemma train_loop_opts lhs env : forall xs ls w, opts (snd (wisard_train_loop lhs env w xs ls)) = opts w.
Proof.
  induction xs as [|x xs IH]; intros ls w; [destruct ls; reflexivity|]. destruct ls as [|l ls]; [reflexivity|]. cbn [wisard_train_loop].
  apply (ebind_snd _ _ (fun s => opts s = opts w)); [apply train1_opts|]. intros [] s E. rewrite IH. rewrite <- (train1_opts lhs env w x l), E. reflexivity.
Qed.
Lemma leave1_opts w x l : opts (snd (leaveOneOut w x l)) = opts w.
Proof. unfold leaveOneOut. destruct (w_discriminators w !! l); [apply at_label_opts|reflexivity]. Qed.
Lemma leave_loop_opts : forall xs ls w, opts (snd (leaveMoreOut_loop w xs ls)) = opts w.
Proof.
  induction xs as [|x xs IH]; intros ls w; [destruct ls; reflexivity|]. destruct ls as [|l ls]; [reflexivity|]. cbn [leaveMoreOut_loop].
  apply (ebind_snd _ _ (fun s => opts s = opts w)); [apply leave1_opts|]. intros [] s E. rewrite IH. rewrite <- (leave1_opts w x l), E. reflexivity.
Qed.
Lemma call_opts lhs w c : opts (snd (wcall_run lhs w c)) = opts w.
Proof.
  destruct c as [env xs ls|x l|xs ls]; cbn [wcall_run].
  - unfold wisard_train. destruct xs; [reflexivity|]. destruct (calculateNumberOfRams _ _ _); try reflexivity. destruct (checkConfidence _ _); try reflexivity. destruct (checkInputSizes _ _); try reflexivity. apply train_loop_opts.
  - apply leave1_opts.
  - unfold leaveMoreOut. destruct (checkInputSizes _ _); try reflexivity. apply leave_loop_opts.
Qed.
Lemma after_calls {S C : Type} (run : S -> C -> eff S unit) (R : S -> Prop) (Q : C -> Prop) : (forall s c, R s -> Q c -> R (snd (run s c))) ->
  forall cs s, R s -> Forall Q cs -> R (snd (outcomes run s cs)).
Proof.
  intros H. induction cs as [|c cs IH]; intros s Hs Hq; [exact Hs|]. apply Forall_cons in Hq as [Hc Hq]. cbn [outcomes]. specialize (H s c Hs Hc). destruct (run s c) as [o s']. cbn [snd] in H.
  destruct o as [u|e|u|]; cbn [snd]; try exact H; specialize (IH s' H Hq); destruct (outcomes run s' cs) as [os t]; exact IH.
Qed.
Lemma only_others L c k : only_about L c -> k <> L -> k ∉ call_labels c.
Proof.
  intros H Hk. destruct c as [env xs ls|x l|xs ls]; cbn in *.
  - intros Hin. rewrite Forall_forall in H. apply Hk, H, Hin.
  - intros Hin. apply elem_of_list_singleton in Hin. congruence.
  - intros Hin. rewrite Forall_forall in H. apply Hk, H, Hin.
Qed.

(** C161 is false with bleaching on: examples of a third label raise the threshold, and a second
    label takes answers from the first. *)
Definition trio_cfg : wisard := cfg.
Definition all_on := vec_image [1; 1; 1; 1].
Definition before3 : wisard := snd (outcomes (wcall_run true) trio_cfg [CTrain env0 [all_on; w1; w1] [cold; hot; hot]]).
Definition third : wcall := CTrain env0 [all_on] [lit "mild"].
Theorem C161_other_label_refuted : only_about (lit "mild") third /\ fst (wcall_run true before3 third) = Ok tt /\
  wisard_classify before3 [all_on] = Ok [cold] /\ wisard_classify (snd (wcall_run true before3 third)) [all_on] = Ok [hot].
Proof. split; [repeat constructor|]. split; [vm_compute; reflexivity|]. split; vm_compute; reflexivity. Qed.
Print Assumptions C161_other_label_refuted.

(** C161 with bleaching off, of any state of a Wisard and any further calls that name only the label
    L, failing ones included: an answer that changes was L before or is L afterwards. *)
Theorem C161_wisard_partial : forall lhs_first w more L x k k', w_bleachingActivated w = false -> Forall (only_about L) more ->
  wisard_classify w [x] = Ok [k] -> wisard_classify (snd (outcomes (wcall_run lhs_first) w more)) [x] = Ok [k'] ->
  k' = k \/ k = L \/ k' = L.
Proof.
  intros lhs w more L x k k' Hb Hm E E'.
  assert (HR : opts (snd (outcomes (wcall_run lhs) w more)) = opts w /\ forall B, B <> L -> w_discriminators (snd (outcomes (wcall_run lhs) w more)) !! B = w_discriminators w !! B).
  { apply (after_calls (wcall_run lhs) (fun s => opts s = opts w /\ forall B, B <> L -> w_discriminators s !! B = w_discriminators w !! B) (only_about L)); [|split; reflexivity|exact Hm].
    intros s c [Ho Hd] Hc. split; [rewrite call_opts; exact Ho|]. intros B HB. rewrite call_other by (eapply only_others; eassumption). apply Hd, HB. }
  set (w' := snd (outcomes (wcall_run lhs) w more)) in *. destruct HR as [Ho Hd]. assert (Hb' : w_bleachingActivated w' = false) by (apply (f_equal w_bleachingActivated) in Ho; cbn in Ho; congruence).
  unfold wisard_classify in E, E'. cbn [rmapM] in E, E'. unfold wisard_classify1, wisard_candidates in E, E'. rewrite Hb in E. rewrite Hb' in E'.
  destruct (all_votes (w_discriminators w) x) as [m| | |] eqn:Ev; try discriminate. destruct (all_votes (w_discriminators w') x) as [m'| | |] eqn:Ev'; try discriminate.
  cbn [rbind] in E, E'. rewrite bleach_off in E, E'. cbn [rbind] in E, E'. injection E as <-. injection E' as <-.
  destruct (winner_only (fun k => k = L) (tallies 1 m) (tallies 1 m') ltac:(apply tallies_nonneg) ltac:(apply tallies_nonneg)) as [H|[H|H]]; [|left; exact H|right; left; exact H|right; right; exact H].
  intros B HB. unfold tallies. rewrite !lookup_fmap. f_equal. unfold all_votes in Ev, Ev'. pose proof (keyed_inv (fun d => disc_classify d x) _ _ Ev B) as K. pose proof (keyed_inv (fun d => disc_classify d x) _ _ Ev' B) as K'. rewrite (Hd B HB) in K'.
  destruct (w_discriminators w !! B); [destruct K as (b & K1 & ->), K' as (b' & K1' & ->); congruence|congruence].
Qed.
Print Assumptions C161_wisard_partial.

(** The same for the labelled training calls of a ClusWisard, for a label L without colons. *)
Theorem C161_cluswisard_partial : forall lhs_first k0 more L x k k', k_bleachingActivated k0 = false -> plain_label L -> Forall (only_kabout L) more ->
  clus_classify k0 [x] = Ok [k] -> clus_classify (snd (outcomes (kcall_run lhs_first) k0 more)) [x] = Ok [k'] ->
  k' = k \/ k = L \/ k' = L.
Proof.
  intros lhs k0 more L x k k' Hb HL Hm E E'.
  assert (HR : k_bleachingActivated (snd (outcomes (kcall_run lhs) k0 more)) = false /\ forall B, B <> L -> k_clusters (snd (outcomes (kcall_run lhs) k0 more)) !! B = k_clusters k0 !! B).
  { apply (after_calls (kcall_run lhs) (fun s => k_bleachingActivated s = false /\ forall B, B <> L -> k_clusters s !! B = k_clusters k0 !! B) (only_kabout L)); [|split; [exact Hb|reflexivity]|exact Hm].
    intros s [env xs ls|env env2 xs ls|env xs] [Ho Hd] Hc; try contradiction. cbn [kcall_run]. split.
    - pose proof (ctrain_frame lhs env s xs ls) as F. unfold framed in F. rewrite F. exact Ho.
    - intros B HB. rewrite ctrain_other; [apply Hd, HB|]. intros Hin. cbn in Hc. rewrite Forall_forall in Hc. apply HB, Hc, Hin. }
  set (k1 := snd (outcomes (kcall_run lhs) k0 more)) in *. destruct HR as [Hb' Hd].
  unfold clus_classify in E, E'. cbn [rmapM] in E, E'. unfold clus_classify1, clus_candidates in E, E'. rewrite Hb in E. rewrite Hb' in E'.
  destruct (clus_votes (k_clusters k0) x) as [m| | |] eqn:Ev; try discriminate. destruct (clus_votes (k_clusters k1) x) as [m'| | |] eqn:Ev'; try discriminate.
  cbn [rbind] in E, E'. rewrite bleach_off in E, E'. cbn [rbind] in E, E'. injection E as <-. injection E' as <-.
  destruct (winner_only (fun k => before_colons k = L) (tallies 1 m) (tallies 1 m') ltac:(apply tallies_nonneg) ltac:(apply tallies_nonneg)) as [H|[H|H]]; [|left; congruence|right; left; exact H|right; right; exact H].
  intros key Hkey. unfold tallies. rewrite !lookup_fmap. f_equal. destruct (clus_votes_spec _ _ _ Ev) as [_ S]. destruct (clus_votes_spec _ _ _ Ev') as [_ S'].
  apply option_eq. intros v. rewrite S, S'. split; intros (l & c & vs & j & Hc & Hvs & Hj & ->); exists l, c, vs, j; (split; [|auto]); (destruct (decide (l = L)) as [-> |Hl]; [exfalso; apply Hkey; apply before_colons_key, HL|]); [rewrite <- (Hd l Hl)|rewrite (Hd l Hl)]; exact Hc.
Qed.
Print Assumptions C161_cluswisard_partial.
(** Not vacuous: with bleaching off a further example of hot takes an answer from cold (also in a ClusWisard); the first two calls fail or do nothing. *)
Definition calm : wisard := snd (outcomes (wcall_run true) (Wisard 2 false false ∅ [0; 1; 2; 3] false true 2 false false false false 1 ∅) [CTrain env0 [w1; w2] [hot; cold]]).
Definition more_hot : list wcall := [CTrain env0 [w2] []; CLeaveOne w2 hot; CTrain env0 [w2] [hot]].
Definition kcalm : cluswisard := snd (outcomes (kcall_run true) (ClusWisard 2 half 4 2 false false true false 2 false false false false 1 ∅ cluster_default) [KTrain envs [x1; x2] [kb; ka]]).
Example C161_witness : Forall (only_about hot) more_hot /\ wisard_classify calm [w1; w2] = Ok [hot; cold] /\
  wisard_classify (snd (outcomes (wcall_run true) calm more_hot)) [w1; w2] = Ok [hot; hot] /\
  clus_classify kcalm [x1; x2] = Ok [kb; ka] /\ clus_classify (snd (outcomes (kcall_run true) kcalm [KTrain envs [x2] [kb]])) [x1; x2] = Ok [kb; kb].
Proof. split; [repeat constructor|]. split; [vm_compute; reflexivity|]. split; [vm_compute; reflexivity|]. split; vm_compute; reflexivity. Qed.
