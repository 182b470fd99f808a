(** Property theorem C164: what the options bleachingActivated and confidence do: they select the votes
    that count and have no part in what is learned. *)
From Verif Require Import Prelude Bytes Utils Float32 BinInput Bleaching Ram Disc DataSet Wisard Cluster ClusWisard SpecDisc SpecBin SpecBleach SpecWisard SpecClus SpecOrder.
From Verif Require Import CtorFacts BleachProofs WisardProofs WisardFacts PropsWisard PropsBleach PropsOrder PropsCluster PropsClus PropsBleachWisard.

(** The same classifier with other values of the two options. *)
Definition asking (b : bool) (c : Z) (w : wisard) : wisard :=
  Wisard (w_addressSize w) b (w_verbose w) (w_mapping w) (w_indexes w) (w_ignoreZero w) (w_completeAddressing w)
    (w_base w) (w_searchBestConfidence w) (w_returnConfidence w) (w_returnActivationDegree w) (w_returnClassesDegrees w) c (w_discriminators w).
Definition kasking (b : bool) (c : Z) (k : cluswisard) : cluswisard :=
  ClusWisard (k_addressSize k) (k_minScore k) (k_threshold k) (k_limit k) b (k_verbose k) (k_completeAddressing k)
    (k_ignoreZero k) (k_base k) (k_searchBestConfidence k) (k_returnConfidence k) (k_returnActivationDegree k) (k_returnClassesDegrees k) c (k_clusters k) (k_unsupervised k).

(** ** The rule *)
Lemma tally_antitone b b' votes : b <= b' -> tally b' votes <= tally b votes.
Proof.
  intros H. unfold tally, count_if. induction votes as [|v vs IH]; [apply Z.le_refl|]. rewrite !filter_cons. repeat case_decide; unfold len in *; cbn [length] in *; try lia.
Qed.
Lemma settled_le c c' m : c <= c' -> settled c' m -> settled c m.
Proof. intros H [K|K]; [left|right; exact K]. intros (M & k & v & H1 & H2 & H3 & H4). apply K. exists M, k, v. repeat split; try assumption; try apply H1. lia. Qed.
Lemma bleached_le c c' votes out out' : c <= c' -> bleached c votes out -> bleached c' votes out' ->
  forall l n n', out !! l = Some n -> out' !! l = Some n' -> n' <= n.
Proof.
  intros Hc (b & Hb & -> & Hs & Hm) (b' & Hb' & -> & Hs' & Hm') l n n'. unfold tallies. rewrite !lookup_fmap. destruct (votes !! l) as [vs|]; cbn; [|discriminate]. intros [= <-] [= <-]. apply tally_antitone.
  destruct (Z.lt_ge_cases b' b) as [H|H]; [|lia]. exfalso. apply (Hm b'); [lia|]. eapply settled_le; eassumption.
Qed.
Lemma make_le votes s s' b c c' out out' : votes_below (INT_MAX - 1) votes -> b = true /\ c <= c' \/ b = false -> bleaching_make votes b s c = Ok out -> bleaching_make votes true s' c' = Ok out' ->
  forall l n n', out !! l = Some n -> out' !! l = Some n' -> n' <= n.
Proof.
  intros Hv Hbc E E'. destruct (bleach_terminates votes s' c' Hv) as (o' & Ho' & Hb'). rewrite E' in Ho'. injection Ho' as <-. destruct Hbc as [[-> Hc]| ->].
  - destruct (bleach_terminates votes s c Hv) as (o & Ho & Hb). rewrite E in Ho. injection Ho as <-. eapply bleached_le; eassumption.
  - rewrite bleach_off in E. injection E as <-. destruct Hb' as (b' & Hb1 & -> & _). intros l n n'. unfold tallies. rewrite !lookup_fmap. destruct (votes !! l) as [vs|]; cbn; [|discriminate]. intros [= <-] [= <-]. apply tally_antitone. exact Hb1.
Qed.
(** A clear winner: no other label comes within the margin. *)
Definition clear (c : Z) (m : gmap str Z) : Prop := exists k v, m !! k = Some v /\ forall k' v', m !! k' = Some v' -> k' <> k -> v' + c <= v.
Lemma clear_settled c m : 1 <= c -> (forall k v, m !! k = Some v -> 0 <= v) -> clear c m -> settled c m.
Proof.
  intros Hc Hn (k & v & Hk & Hx). assert (Hall : bounded_by m v). { intros k' v' H. destruct (decide (k' = k)) as [-> |Hne]; [assert (v' = v) by congruence; lia|pose proof (Hx _ _ H Hne); lia]. }
  destruct (Z.le_gt_cases v 1) as [Hv|Hv]; [right; intros k' v' H; pose proof (Hall _ _ H); lia|]. left. intros (M & k1 & v1 & (HM & Hb & Hmax) & H1 & H2 & H3). pose proof (Hb _ _ Hk) as Hle.
  assert (M = v) as ->. { destruct Hmax as [-> |(k2 & H)]; [lia|]. pose proof (Hall _ _ H). lia. }
  destruct H3 as [H3|(k0 & H0 & Hlt)]; [lia|]. destruct (decide (k0 = k)) as [-> |Hne]; [|pose proof (Hx _ _ H0 Hne); lia].
  destruct (decide (k1 = k)) as [-> |Hne]; [exact (str_lt_irrefl _ Hlt)|]. pose proof (Hx _ _ H1 Hne). lia.
Qed.
Lemma make_clear votes s s' c0 c : votes_below (INT_MAX - 1) votes -> 1 <= c -> forall out, bleaching_make votes false s c0 = Ok out -> clear c out -> bleaching_make votes true s' c = Ok out.
Proof.
  intros Hv Hc out E Hcl. rewrite bleach_off in E. injection E as <-. destruct (bleach_terminates votes s' c Hv) as (o & Ho & Hb). rewrite Ho. f_equal. eapply bleach_unique; [exact Hb|].
  exists 1. split; [lia|]. split; [reflexivity|]. split; [apply clear_settled; [exact Hc|apply tallies_nonneg|exact Hcl]|intros; lia].
Qed.

(** ** Neither option has a part in learning *)
Section Asking.
Context (b : bool) (c : Z).
Notation ask := (asking b c).
Notation kask := (kasking b c).
Definition alift {A} (r : eff wisard A) : eff wisard A := let '(o, w) := r in (o, ask w).
Lemma alift_bind {A B} (r : eff wisard A) (g : A -> wisard -> eff wisard B) : (forall a w, g a (ask w) = alift (g a w)) -> ebind (alift r) g = alift (ebind r g).
Proof. intros H. destruct r as [[a| | |] w]; cbn; auto. Qed.
Lemma at_label_ask g w l : at_label g (ask w) l = alift (at_label g w l).
Proof. unfold at_label. cbn [asking w_discriminators]. destruct (w_discriminators w !! l); [|reflexivity]. destruct (g d). reflexivity. Qed.
Lemma make_ask lhs dr w l e : makeDiscriminator lhs dr (ask w) l e = alift (makeDiscriminator lhs dr w l e).
Proof.
  unfold makeDiscriminator. change (construct_discriminator dr (ask w) l e) with (construct_discriminator dr w l e).
  destruct (construct_discriminator dr w l e); try reflexivity. destruct lhs; reflexivity.
Qed.
Lemma train1_ask lhs env w x l : wisard_train1 lhs env (ask w) x l = alift (wisard_train1 lhs env w x l).
Proof.
  unfold wisard_train1. cbn [asking w_discriminators]. destruct (w_discriminators w !! l); [apply at_label_ask|].
  change (Wisard _ _ _ _ _ _ _ _ _ _ _ _ _ _) with (ask w). rewrite make_ask. apply alift_bind. intros _ w'. apply at_label_ask.
Qed.
Lemma train_loop_ask lhs env : forall xs ls w, wisard_train_loop lhs env (ask w) xs ls = alift (wisard_train_loop lhs env w xs ls).
Proof. induction xs as [|x xs IH]; intros [|l ls] w; try reflexivity. cbn [wisard_train_loop]. rewrite train1_ask. apply alift_bind. intros _ w'. apply IH. Qed.
Lemma train_ask lhs env w xs ls w1 w2 : wisard_train lhs env w xs ls = (Ok tt, w1) -> wisard_train lhs env (ask w) xs ls = (Ok tt, w2) -> w2 = ask w1.
Proof.
  unfold wisard_train. destruct xs as [|x xs]; [discriminate|]. cbn [asking w_addressSize w_completeAddressing w_confidence]. change (Wisard _ _ _ _ _ _ _ _ _ _ _ _ _ _) with (ask w).
  destruct (calculateNumberOfRams _ _ _); try discriminate. destruct (checkConfidence (w_confidence w) _); try discriminate. destruct (checkConfidence c _); try discriminate. destruct (checkInputSizes _ _); try discriminate.
  rewrite train_loop_ask. intros ->. intros [= <-]. reflexivity.
Qed.
Lemma leave1_ask w x l : leaveOneOut (ask w) x l = alift (leaveOneOut w x l).
Proof. unfold leaveOneOut. cbn [asking w_discriminators]. destruct (w_discriminators w !! l); [apply at_label_ask|reflexivity]. Qed.
Lemma leave_loop_ask : forall xs ls w, leaveMoreOut_loop (ask w) xs ls = alift (leaveMoreOut_loop w xs ls).
Proof. induction xs as [|x xs IH]; intros [|l ls] w; try reflexivity. cbn [leaveMoreOut_loop]. rewrite leave1_ask. apply alift_bind. intros _ w'. apply IH. Qed.
Lemma leave_ask w xs ls : leaveMoreOut (ask w) xs ls = alift (leaveMoreOut w xs ls).
Proof. unfold leaveMoreOut. destruct (checkInputSizes _ _); try reflexivity. apply leave_loop_ask. Qed.
Lemma alift_ok {A} (r : eff wisard A) a w1 w2 : r = (a, w1) -> alift r = (a, w2) -> w2 = ask w1.
Proof. intros -> [= <-]. reflexivity. Qed.
Lemma wrun_ask lhs cs : forall w w1 w2, wrun lhs w cs = (Ok tt, w1) -> wrun lhs (ask w) cs = (Ok tt, w2) -> w2 = ask w1.
Proof.
  unfold wrun. induction cs as [|d cs IH]; intros w w1 w2; [intros [= <-] [= <-]; reflexivity|]. cbn [efor]. unfold ebind.
  destruct (wcall_run lhs w d) as [[u| | |] w'] eqn:E; try discriminate. destruct (wcall_run lhs (ask w) d) as [[u2| | |] w''] eqn:E2; try discriminate. destruct u, u2.
  assert (w'' = ask w') as ->; [|apply IH].
  destruct d; cbn [wcall_run] in *; [eapply train_ask; eassumption|rewrite leave1_ask in E2|rewrite leave_ask in E2]; eapply alift_ok; eassumption.
Qed.

Definition aklift {A} (r : eff cluswisard A) : eff cluswisard A := let '(o, k) := r in (o, kask k).
Lemma aklift_bind {A B} (r : eff cluswisard A) (g : A -> cluswisard -> eff cluswisard B) : (forall a k, g a (kask k) = aklift (g a k)) -> ebind (aklift r) g = aklift (ebind r g).
Proof. intros H. destruct r as [[a| | |] k]; cbn; auto. Qed.
Lemma at_cluster_ask g k l : at_cluster g (kask k) l = aklift (at_cluster g k l).
Proof. unfold at_cluster. cbn [kasking k_clusters]. destruct (g _) as [o d]. reflexivity. Qed.
Lemma ktrain1_ask lhs dr k x l : clus_train1 lhs dr (kask k) x l = aklift (clus_train1 lhs dr k x l).
Proof. unfold clus_train1. cbn [kasking k_clusters]. destruct (k_clusters k !! l); [apply at_cluster_ask|]. rewrite <- at_cluster_ask. reflexivity. Qed.
Lemma ktrain_loop_ask lhs env : forall xs ls i k, clus_train_loop lhs env i (kask k) xs ls = aklift (clus_train_loop lhs env i k xs ls).
Proof. induction xs as [|x xs IH]; intros [|l ls] i k; try reflexivity. cbn [clus_train_loop]. rewrite ktrain1_ask. apply aklift_bind. intros _ k'. apply IH. Qed.
Lemma ktrain_ask lhs env k xs ls k1 k2 : clus_train lhs env k xs ls = (Ok tt, k1) -> clus_train lhs env (kask k) xs ls = (Ok tt, k2) -> k2 = kask k1.
Proof.
  unfold clus_train. destruct xs as [|x xs]; [discriminate|]. destruct (clus_first_checks k x); try discriminate. destruct (clus_first_checks (kask k) x); try discriminate. cbn [rbind].
  destruct (checkInputSizes _ _); try discriminate. cbn [elift ebind]. rewrite ktrain_loop_ask. intros ->. intros [= <-]. reflexivity.
Qed.
Lemma unsup_ask lhs env k xs : trainUnsupervised lhs env (kask k) xs = aklift (trainUnsupervised lhs env k xs).
Proof.
  unfold trainUnsupervised. cbn [kasking k_clusters].
  destruct (Nat.eqb _ _); [destruct xs; [reflexivity|]|]; unfold at_unsupervised; cbn [with_unsupervised kasking k_unsupervised]; destruct (efor _ _ _) as [o d]; reflexivity.
Qed.
(** Calls in which no image is assigned to a label by the classifier itself. *)
Definition labels_given (d : kcall) : Prop := match d with KSemi _ _ _ _ => False | _ => True end.
Lemma krun_ask lhs cs : Forall labels_given cs -> forall k k1 k2, krun lhs k cs = (Ok tt, k1) -> krun lhs (kask k) cs = (Ok tt, k2) -> k2 = kask k1.
Proof.
  unfold krun. induction 1 as [|d cs Hd _ IH]; intros k k1 k2; [intros [= <-] [= <-]; reflexivity|]. cbn [efor]. unfold ebind.
  destruct (kcall_run lhs k d) as [[u| | |] k'] eqn:E; try discriminate. destruct (kcall_run lhs (kask k) d) as [[u2| | |] k''] eqn:E2; try discriminate. destruct u, u2.
  assert (k'' = kask k') as ->; [|apply IH].
  destruct d; cbn [kcall_run] in *; [eapply ktrain_ask; eassumption|destruct Hd|]. rewrite unsup_ask, E in E2. injection E2 as <-. reflexivity.
Qed.
End Asking.

(** Two classifiers that differ only in the two options, given the same calls, have learned the same. *)
Theorem C164_learning : forall b c lhs_first w0 cs w w', wrun lhs_first w0 cs = (Ok tt, w) -> wrun lhs_first (asking b c w0) cs = (Ok tt, w') ->
  w_discriminators w' = w_discriminators w /\ forall iter, wisard_mental iter w' = wisard_mental iter w.
Proof. intros b c lhs w0 cs w w' H H'. rewrite (wrun_ask b c lhs cs w0 w w' H H'). split; reflexivity. Qed.
Print Assumptions C164_learning.

(** Bleaching never raises a count, and neither does more confidence. *)
Theorem C164_counts : forall w x b c c' out out', (b = true /\ c <= c') \/ b = false -> (forall l vs, votes_of w x l vs -> Forall (fun v => v < INT_MAX - 1) vs) ->
  wisard_candidates (asking b c w) x = Ok out -> wisard_candidates (asking true c' w) x = Ok out' ->
  forall l n n', out !! l = Some n -> out' !! l = Some n' -> n' <= n.
Proof.
  intros w x b c c' out out' Hbc Hv E E'. destruct (candidates_votes _ _ _ E) as (votes & A & V & Em). destruct (candidates_votes _ _ _ E') as (votes' & A' & V' & Em'). cbn in A, A', Em, Em'. rewrite A in A'. injection A' as <-.
  eapply make_le; [|exact Hbc|exact Em|exact Em']. intros l vs Hl. apply (Hv l vs). apply V in Hl. exact Hl.
Qed.
Print Assumptions C164_counts.

(** If without bleaching one label leads every other by the confidence, bleaching changes nothing. *)
Theorem C164_clear_winner : forall w x c0 c out k v, 1 <= c -> (forall l vs, votes_of w x l vs -> Forall (fun v => v < INT_MAX - 1) vs) ->
  wisard_candidates (asking false c0 w) x = Ok out -> out !! k = Some v -> (forall l n, out !! l = Some n -> l <> k -> n + c <= v) ->
  wisard_candidates (asking true c w) x = Ok out /\ wisard_classify (asking true c w) [x] = Ok [k] /\ wisard_classify (asking false c0 w) [x] = Ok [k].
Proof.
  intros w x c0 c out k v Hc Hv E Hk Hx. destruct (candidates_votes _ _ _ E) as (votes & A & V & Em). cbn in A, Em.
  assert (E2 : wisard_candidates (asking true c w) x = Ok out).
  { unfold wisard_candidates. cbn [asking w_discriminators w_bleachingActivated w_searchBestConfidence w_confidence]. rewrite A. cbn [rbind]. eapply make_clear; [|exact Hc|exact Em|exists k, v; auto]. intros l vs Hl. apply (Hv l vs). apply V in Hl. exact Hl. }
  assert (Hnn : forall l n, out !! l = Some n -> 0 <= n) by (destruct (bleach_shape _ _ _ _ _ Em) as (t & ->); apply tallies_nonneg).
  assert (getBiggestCandidate out = k) as Hg.
  { eapply winner_unique; [apply biggest_winner; [exact Hnn|intros ->; rewrite lookup_empty in Hk; discriminate]|]. exists v. split; [exact Hk|]. intros k' v' H'. destruct (decide (k' = k)) as [-> |Hne]; [right; split; [congruence|apply str_le_refl]|left; pose proof (Hx _ _ H' Hne); lia]. }
  split; [exact E2|]. unfold wisard_classify. cbn [rmapM]. unfold wisard_classify1. rewrite E, E2. cbn [rbind]. rewrite Hg. split; reflexivity.
Qed.
Print Assumptions C164_clear_winner.

(** The same for a ClusWisard, whose candidates are its discriminators. Images the classifier labels
    itself (semi-supervised training) are excluded: there the options choose the label. *)
Theorem C164_cluswisard_learning : forall b c lhs_first k0 cs k k', Forall labels_given cs -> krun lhs_first k0 cs = (Ok tt, k) -> krun lhs_first (kasking b c k0) cs = (Ok tt, k') ->
  k_clusters k' = k_clusters k /\ k_unsupervised k' = k_unsupervised k /\ forall iter, clus_mental iter k' = clus_mental iter k.
Proof. intros b c lhs k0 cs k k' Hg H H'. rewrite (krun_ask b c lhs cs Hg k0 k k' H H'). repeat split; reflexivity. Qed.
Print Assumptions C164_cluswisard_learning.
Theorem C164_cluswisard : forall k x s s' b c c' votes out out', clus_votes (k_clusters k) x = Ok votes -> votes_below (INT_MAX - 1) votes ->
  clus_candidates (kasking b c k) x s = Ok out -> clus_candidates (kasking true c' k) x s' = Ok out' ->
  ((b = true /\ c <= c') \/ b = false -> forall l n n', out !! l = Some n -> out' !! l = Some n' -> n' <= n) /\
  (b = false -> 1 <= c' -> forall l v, out !! l = Some v -> (forall l' n, out !! l' = Some n -> l' <> l -> n + c' <= v) ->
    out' = out /\ clus_classify (kasking true c' k) [x] = clus_classify (kasking false c k) [x]).
Proof.
  intros k x s s' b c c' votes out out' Hvt Hv E E'. unfold clus_candidates in E, E'. cbn [kasking k_clusters k_bleachingActivated k_confidence] in E, E'. rewrite Hvt in E, E'. cbn [rbind] in E, E'. split.
  - intros Hbc. eapply make_le; eassumption.
  - intros -> Hc l v Hl Hx. pose proof (fun s2 => make_clear votes s s2 c c' Hv Hc out E (ex_intro _ l (ex_intro _ v (conj Hl Hx)))) as Hm. rewrite Hm in E'. injection E' as <-. split; [reflexivity|].
    unfold clus_classify. cbn [rmapM]. unfold clus_classify1, clus_candidates. cbn [kasking k_clusters k_bleachingActivated k_confidence k_searchBestConfidence]. rewrite Hvt. cbn [rbind]. rewrite Hm.
    rewrite (bleach_sbc _ _ (k_searchBestConfidence k) s), E. reflexivity.
Qed.
Print Assumptions C164_cluswisard.

(** Non-vacuity: after the calls of PropsWisard. *)
Example C164_learning_witness : fst (wrun true cfg calls) = Ok tt /\ fst (wrun true (asking false 2 cfg) calls) = Ok tt /\ asking false 2 cfg <> cfg.
Proof. split; [vm_compute; reflexivity|]. split; [vm_compute; reflexivity|]. intros H. apply (f_equal w_confidence) in H. vm_compute in H. discriminate. Qed.
(** A tie that bleaching breaks: the label seen twice keeps its count, the other loses its own. *)
Definition often : list wcall := [CTrain env0 [w1; w1; w1; w2] [cold; cold; hot; hot]].
Definition tied_w : wisard := snd (wrun true cfg often).
Example C164_counts_witness : rmap sorted_items (wisard_candidates (asking false 1 tied_w) w1) = Ok [(cold, 2); (hot, 2)] /\
  rmap sorted_items (wisard_candidates (asking true 1 tied_w) w1) = Ok [(cold, 2); (hot, 0)] /\
  wisard_classify (asking false 1 tied_w) [w1] = Ok [hot] /\ wisard_classify (asking true 1 tied_w) [w1] = Ok [cold].
Proof. split; [vm_compute; reflexivity|]. split; [vm_compute; reflexivity|]. split; vm_compute; reflexivity. Qed.
Example C164_clear_witness : rmap sorted_items (wisard_candidates (asking false 1 tied_w) w2) = Ok [(cold, 0); (hot, 2)] /\ wisard_classify (asking true 2 tied_w) [w2] = Ok [hot].
Proof. split; vm_compute; reflexivity. Qed.
Example C164_cluswisard_witness : rmap sorted_items (clus_candidates (kasking false 1 ktrained) x1 false) <> Ok [] /\
  fst (krun false (kasking true 2 (kfg 2)) [KTrain envs [x1] [ka]]) = Ok tt /\ fst (krun false (kasking false 1 (kfg 2)) [KTrain envs [x1] [ka]]) = Ok tt.
Proof. split; [vm_compute; discriminate|]. split; vm_compute; reflexivity. Qed.
