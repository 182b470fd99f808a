(** Lemmas for C159: a ClusWisard, and a Wisard, with moved wiring fed with moved images, in lock step. *)
From Verif Require Import Prelude Bytes Utils BinInput Float32 Bleaching Ram Disc Wisard Cluster ClusWisard SpecDisc SpecWisard SpecClus SpecValues SpecMove.
From Verif Require Import BytesProofs UtilsProofs TextProofs DiscCtorProofs CtorFacts ClusterProofs ClusOne ValueSim MoveSim.

Section clus.
Context (pi : Z -> Z) (n : Z) (Hn : 0 < n <= INT_MAX) (a : Z) (c0 : bool).
Notation ren := (moved pi n).
Notation drel := (mdisc pi n).
Notation dm := (dmatch pi n a c0).

Definition odisc (o o' : option disc) : Prop := match o, o' with Some d, Some d' => drel d d' | None, None => True | _, _ => False end.
Definition par_ok (o : option cparams) : Prop := match o with Some p => s32 (p_entrySize p) = n /\ s32 (p_addressSize p) = a /\ p_complete p = c0 | None => True end.
Record crel (c c' : cluster) : Prop := CRel { cr_params : c_params c' = c_params c; cr_ok : par_ok (c_params c); cr_discs : Forall2 odisc (c_discs c) (c_discs c') }.
Lemma make_rel lhs dr dr' c c' : dm dr dr' -> crel c c' -> eff_rel crel (cluster_make lhs dr c) (cluster_make lhs dr' c').
Proof.
  intros Hd HC. pose proof HC as [Ep Hp HD]. unfold cluster_make. rewrite Ep. destruct (c_params c) as [p|] eqn:Ec; [|split; [reflexivity|exact HC]]. pose proof Hp as (P1 & P2 & P3). rewrite P1, P2, P3.
  pose proof (Hd (p_ignoreZero p) (p_base p)) as H.
  destruct (setRAMShuffle dr n a (p_ignoreZero p) c0 (p_base p)) as [d|e|u|], (setRAMShuffle dr' n a (p_ignoreZero p) c0 (p_base p)) as [d'|e'|u'|]; cbn [lift_mrel] in H; try contradiction.
  - split; [reflexivity|]. cbn [snd]. constructor; cbn [with_discs c_params c_discs]; [rewrite Ec; exact Ep|rewrite Ec; exact Hp|]. apply Forall2_app; [exact HD|]. constructor; [exact H|constructor].
  - subst e'. split; [reflexivity|]. cbn [snd]. destruct lhs; [|exact HC]. constructor; cbn [with_discs c_params c_discs]; [rewrite Ec; exact Ep|rewrite Ec; exact Hp|]. apply Forall2_app; [exact HD|]. constructor; [exact I|constructor].
  - subst u'. split; [reflexivity|exact HC].
  - split; [reflexivity|exact HC].
Qed.
Lemma train_at_rel c c' i x x' : crel c c' -> ren x x' -> eff_rel crel (cluster_train_at c i x) (cluster_train_at c' i x').
Proof.
  intros HC Hx. pose proof HC as [Ep Hp HD]. unfold cluster_train_at. destruct (c_discs c !! i) as [o|] eqn:E.
  - destruct (Forall2_lookup_l _ _ _ i o HD E) as (o' & E' & Ho). rewrite E'. destruct o as [d|], o' as [d'|]; cbn in Ho; try contradiction; [|split; [reflexivity|exact HC]].
    pose proof (disc_train_mrel pi n d d' x x' Ho Hx) as H. destruct (disc_train d x) as [q e], (disc_train d' x') as [q' e']. destruct H as [Eq He]. cbn in Eq, He. subst q'. split; [reflexivity|]. cbn [snd].
    constructor; cbn [with_discs c_params c_discs]; [exact Ep|exact Hp|]. apply Forall2_insert; [exact HD|exact He].
  - assert (c_discs c' !! i = None) as E'. { apply lookup_ge_None. apply lookup_ge_None in E. rewrite <- (Forall2_length _ _ _ HD). exact E. } rewrite E'. split; [reflexivity|exact HC].
Qed.
Lemma scan_rel p x x' : ren x x' -> forall ds ds', Forall2 odisc ds ds' -> forall i best bi t, eff_rel (Forall2 odisc) (cluster_scan p x ds i best bi t) (cluster_scan p x' ds' i best bi t).
Proof.
  intros Hx. induction 1 as [|o o' ds ds' Ho Hds IH]; intros i best bi t; cbn [cluster_scan]; [split; [reflexivity|constructor]|].
  destruct o as [d|], o' as [d'|]; cbn in Ho; try contradiction; [|split; [reflexivity|]; cbn [snd]; constructor; [exact I|exact Hds]].
  rewrite (disc_classify_mrel pi n d d' x x' Ho Hx). destruct (disc_classify d x) as [votes| | |]; [|split; [reflexivity|]; cbn [snd]; constructor; [exact Ho|exact Hds]..]. cbv zeta.
  assert (train_limit p d' = train_limit p d) as -> by (unfold train_limit; rewrite (md_count _ _ _ _ Ho); reflexivity).
  destruct (f32_leb (train_limit p d) (getScore votes)).
  - pose proof (disc_train_mrel pi n d d' x x' Ho Hx) as H. destruct (disc_train d x) as [q e], (disc_train d' x') as [q' e']. destruct H as [Eq He]. cbn in Eq, He. subst q'.
    destruct q as [[]| | |]; [|split; [reflexivity|]; cbn [snd]; constructor; [exact He|exact Hds]..].
    specialize (IH (S i) (if f32_leb best (getScore votes) then getScore votes else best) (if f32_leb best (getScore votes) then Some i else bi) true).
    destruct (cluster_scan p x ds _ _ _ _) as [q qs], (cluster_scan p x' ds' _ _ _ _) as [q' qs']. destruct IH as [Eq Hq]. cbn in Eq, Hq. subst q'. split; [reflexivity|]. cbn [snd]. constructor; [exact He|exact Hq].
  - specialize (IH (S i) (if f32_leb best (getScore votes) then getScore votes else best) (if f32_leb best (getScore votes) then Some i else bi) t).
    destruct (cluster_scan p x ds _ _ _ _) as [q qs], (cluster_scan p x' ds' _ _ _ _) as [q' qs']. destruct IH as [Eq Hq]. cbn in Eq, Hq. subst q'. split; [reflexivity|]. cbn [snd]. constructor; [exact Ho|exact Hq].
Qed.
Lemma cluster_train_rel lhs dr dr' c c' x x' : dm dr dr' -> crel c c' -> ren x x' -> eff_rel crel (cluster_train lhs dr c x) (cluster_train lhs dr' c' x').
Proof.
  intros Hd HC Hx. pose proof HC as [Ep Hp HD]. unfold cluster_train. destruct HD as [|o o' ds ds' Ho Hds] eqn:ED; clear ED.
  - apply eff_bind; [apply make_rel; assumption|]. intros _ s s' HS. apply train_at_rel; assumption.
  - rewrite Ep. destruct (c_params c) as [p|] eqn:Ec; [|split; [reflexivity|exact HC]].
    pose proof (scan_rel p x x' Hx (o :: ds) (o' :: ds') ltac:(constructor; assumption) 0%nat f32_zero None false) as H.
    destruct (cluster_scan p x (o :: ds) 0 f32_zero None false) as [r es], (cluster_scan p x' (o' :: ds') 0 f32_zero None false) as [r' es']. destruct H as [Er He]. cbn in Er, He. subst r'. cbv zeta.
    assert (HC' : crel (with_discs c es) (with_discs c' es')) by (constructor; cbn [with_discs c_params c_discs]; [congruence|rewrite Ec; exact Hp|exact He]).
    assert (El : length es' = length es) by (symmetry; eapply Forall2_length; exact He). assert (El' : len es' = len es) by (unfold len; rewrite El; reflexivity). rewrite El, El'.
    destruct r as [[bi t]| | |]; [|split; [reflexivity|exact HC']..]. destruct t; [split; [reflexivity|exact HC']|]. destruct (_ <? _).
    + apply eff_bind; [apply make_rel; assumption|]. intros _ s s' HS. apply train_at_rel; assumption.
    + destruct bi as [i|]; [apply train_at_rel; assumption|split; [reflexivity|exact HC']].
Qed.
Lemma cluster_classify_rel c c' x x' : crel c c' -> ren x x' -> cluster_classify c' x' = cluster_classify c x.
Proof.
  intros [_ _ HD] Hx. unfold cluster_classify, on_discs. induction HD as [|o o' ds ds' Ho _ IH]; [reflexivity|]. cbn [rmapM]. rewrite IH.
  destruct o as [d|], o' as [d'|]; cbn in Ho; try contradiction; [|reflexivity]. rewrite (disc_classify_mrel pi n d d' x x' Ho Hx). reflexivity.
Qed.

(** ** The classifier *)
Record krel (k k' : cluswisard) : Prop := KRel {
  kr_options : with_unsupervised (with_clusters k' ∅) cluster_default = with_unsupervised (with_clusters k ∅) cluster_default;
  kr_addr : s32 (k_addressSize k) = a; kr_comp : k_completeAddressing k = c0;
  kr_clusters : forall l, match k_clusters k !! l, k_clusters k' !! l with Some c, Some c' => crel c c' | None, None => True | _, _ => False end;
  kr_unsup : crel (k_unsupervised k) (k_unsupervised k') }.
Lemma krel_field {A} (g : cluswisard -> A) k k' : krel k k' -> (forall k, g k = g (with_unsupervised (with_clusters k ∅) cluster_default)) -> g k' = g k.
Proof. intros HK Hg. rewrite (Hg k), (Hg k'), (kr_options _ _ HK). reflexivity. Qed.
Lemma default_rel : crel cluster_default cluster_default.
Proof. constructor; [reflexivity|exact I|constructor]. Qed.
Lemma insert_krel k k' l c c' : krel k k' -> crel c c' -> krel (with_clusters k (<[l := c]> (k_clusters k))) (with_clusters k' (<[l := c']> (k_clusters k'))).
Proof.
  intros [E Eb Ez HM HU] HC. constructor; cbn [with_clusters k_addressSize k_completeAddressing k_clusters k_unsupervised]; [exact E|exact Eb|exact Ez| |exact HU].
  intros m. destruct (decide (l = m)) as [<-|Hne]; [rewrite !lookup_insert; exact HC|rewrite !lookup_insert_ne by exact Hne; apply HM].
Qed.
Lemma new_rel k k' x base : krel k k' -> im_size x = n -> crel (new_cluster k (s32 (im_size x)) base) (new_cluster k' (s32 (im_size x)) base).
Proof.
  intros HK Hx. assert (new_cluster k' (s32 (im_size x)) base = new_cluster k (s32 (im_size x)) base) as -> by (exact (krel_field (fun k => new_cluster k (s32 (im_size x)) base) k k' HK ltac:(reflexivity))).
  constructor; [reflexivity| |constructor]. cbn [new_cluster cluster_new c_params par_ok p_entrySize p_addressSize p_complete]. rewrite !s32_u32, Hx. split; [|split; [apply (kr_addr _ _ HK)|apply (kr_comp _ _ HK)]].
  rewrite (s32_id n), s32_id by (unfold is_int, INT_MIN, INT_MAX in *; lia). reflexivity.
Qed.
Lemma at_rel (g g' : cluster -> eff cluster unit) k k' l : (forall c c', crel c c' -> eff_rel crel (g c) (g' c')) -> krel k k' -> eff_rel krel (at_cluster g k l) (at_cluster g' k' l).
Proof.
  intros Hg HK. unfold at_cluster.
  assert (HC : crel (default cluster_default (k_clusters k !! l)) (default cluster_default (k_clusters k' !! l))).
  { pose proof (kr_clusters _ _ HK l) as H. destruct (k_clusters k !! l), (k_clusters k' !! l); try contradiction; [exact H|apply default_rel]. }
  specialize (Hg _ _ HC). destruct (g _) as [o c], (g' _) as [o' c']. destruct Hg as [E H]. cbn in E, H. subst o'. split; [reflexivity|]. cbn [snd]. apply insert_krel; assumption.
Qed.
Lemma train1_krel lhs dr dr' k k' x x' l : dm dr dr' -> krel k k' -> ren x x' -> eff_rel krel (clus_train1 lhs dr k x l) (clus_train1 lhs dr' k' x' l).
Proof.
  intros Hd HK Hx. unfold clus_train1. apply at_rel; [intros c c' HC; apply cluster_train_rel; assumption|].
  pose proof (kr_clusters _ _ HK l) as H. destruct (k_clusters k !! l), (k_clusters k' !! l); try contradiction; [exact HK|]. unfold makeClusters. rewrite (size_rel pi n x x' Hx).
  rewrite (krel_field k_base k k' HK ltac:(reflexivity)). apply insert_krel; [exact HK|]. apply new_rel; [exact HK|apply Hx].
Qed.
Lemma loop_krel lhs env env' : (forall i, dm (env i) (env' i)) -> forall xs xs', Forall2 ren xs xs' -> forall ls i k k', krel k k' -> eff_rel krel (clus_train_loop lhs env i k xs ls) (clus_train_loop lhs env' i k' xs' ls).
Proof.
  intros Hd. induction 1 as [|x x' xs xs' Hx _ IH]; intros ls i k k' HK; cbn [clus_train_loop]; [split; [reflexivity|exact HK]|]. destruct ls as [|l ls]; [split; [reflexivity|exact HK]|].
  apply eff_bind; [apply train1_krel; auto|]. intros _ s s' HS. apply IH, HS.
Qed.
Lemma lift_krel {A} k k' (r : res A) : krel k k' -> eff_rel krel (elift k r) (elift k' r).
Proof. intros HK. split; [reflexivity|exact HK]. Qed.
Lemma checks_rel k k' x x' : krel k k' -> ren x x' -> clus_first_checks k' x' = clus_first_checks k x.
Proof. intros HK Hx. unfold clus_first_checks. rewrite (size_rel pi n x x' Hx). exact (krel_field (fun k => let* n := calculateNumberOfRams (s32 (im_size x)) (k_addressSize k) (k_completeAddressing k) in checkConfidence (k_confidence k) n) k k' HK ltac:(reflexivity)). Qed.
Lemma train_krel lhs env env' k k' xs xs' ls : (forall i, dm (env i) (env' i)) -> krel k k' -> Forall2 ren xs xs' -> eff_rel krel (clus_train lhs env k xs ls) (clus_train lhs env' k' xs' ls).
Proof.
  intros Hd HK HX. assert (El : len xs' = len xs) by (unfold len; rewrite (Forall2_length _ _ _ HX); reflexivity). unfold clus_train. pose proof HX as HX0. destruct HX as [|x x' xs xs' Hx HX]; [split; [reflexivity|exact HK]|].
  rewrite El, (checks_rel k k' x x' HK Hx). apply eff_bind; [apply lift_krel, HK|]. intros _ s s' HS. apply loop_krel; assumption.
Qed.
Lemma votes_krel k k' x x' : krel k k' -> ren x x' -> clus_votes (k_clusters k') x' = clus_votes (k_clusters k) x.
Proof.
  intros HK Hx. unfold clus_votes. pose proof (sorted_pairs crel _ _ (kr_clusters _ _ HK)) as H.
  assert (rmapM (fun kc : str * cluster => let* vs := cluster_classify kc.2 x' in Ok (imap (fun j v => (cluster_key kc.1 j, v)) vs)) (sorted_items (k_clusters k')) =
          rmapM (fun kc : str * cluster => let* vs := cluster_classify kc.2 x in Ok (imap (fun j v => (cluster_key kc.1 j, v)) vs)) (sorted_items (k_clusters k))) as ->; [|reflexivity].
  induction H as [|[l c] [l' c'] m m' [El HC] _ IH]; [reflexivity|]. cbn in El, HC. subst l'. cbn [rmapM fst snd]. rewrite (cluster_classify_rel c c' x x' HC Hx), IH. reflexivity.
Qed.
Lemma candidates_krel k k' x x' s : krel k k' -> ren x x' -> clus_candidates k' x' s = clus_candidates k x s.
Proof.
  intros HK Hx. unfold clus_candidates. rewrite (votes_krel k k' x x' HK Hx), (krel_field k_bleachingActivated k k' HK ltac:(reflexivity)), (krel_field k_confidence k k' HK ltac:(reflexivity)). reflexivity.
Qed.
Lemma unlabelled_krel lhs dr dr' k k' x x' : dm dr dr' -> krel k k' -> ren x x' -> eff_rel krel (clus_train_unlabelled lhs dr k x) (clus_train_unlabelled lhs dr' k' x').
Proof.
  intros Hd HK Hx. unfold clus_train_unlabelled. rewrite (candidates_krel k k' x x' false HK Hx). apply eff_bind; [apply lift_krel, HK|]. intros cand s s' HS. apply at_rel; [|exact HS]. intros c c' HC. apply cluster_train_rel; assumption.
Qed.
Lemma semi_loop_krel lhs env env' labels : (forall i, dm (env i) (env' i)) -> forall xs xs', Forall2 ren xs xs' -> forall i ls j k k', krel k k' ->
  eff_rel krel (semi_loop lhs env labels i ls j xs k) (semi_loop lhs env' labels i ls j xs' k').
Proof.
  intros Hd. induction 1 as [|x x' xs xs' Hx _ IH]; intros i ls j k k' HK; cbn [semi_loop]; [split; [reflexivity|exact HK]|]. destruct (labels !! s32 (Z.of_nat i)) as [l|].
  - apply eff_bind; [apply train1_krel; auto|]. intros _ s s' HS. apply IH, HS.
  - destruct (_ <? _); [apply IH, HK|]. destruct (_ <? _); [apply IH, HK|]. split; [reflexivity|exact HK].
Qed.
Lemma semi_krel lhs env env' env2 env2' k k' xs xs' labels : (forall i, dm (env i) (env' i)) -> (forall i, dm (env2 i) (env2' i)) -> krel k k' -> Forall2 ren xs xs' ->
  eff_rel krel (clus_train_semi lhs env env2 k xs labels) (clus_train_semi lhs env' env2' k' xs' labels).
Proof.
  intros Hd Hd2 HK HX. assert (El : len xs' = len xs) by (unfold len; rewrite (Forall2_length _ _ _ HX); reflexivity). unfold clus_train_semi. pose proof HX as HX0. destruct HX as [|x x' xs xs' Hx HX]; [split; [reflexivity|exact HK]|].
  rewrite El, (checks_rel k k' x x' HK Hx). apply eff_bind; [apply lift_krel, HK|]. intros _ s s' HS. apply eff_bind; [apply semi_loop_krel; assumption|]. intros ls t t' HT.
  destruct (_ =? _); [split; [reflexivity|exact HT]|]. unfold semi_unlabelled.
  apply (eff_for krel eq); [|apply Forall_Forall2_diag, Forall_forall; reflexivity|exact HT]. intros q q' i i' HQ <-.
  assert (Hv : (exists y y', vget (x :: xs) (Z.of_nat i) = Ok y /\ vget (x' :: xs') (Z.of_nat i) = Ok y' /\ ren y y') \/ (exists u, vget (x :: xs) (Z.of_nat i) = UB u /\ vget (x' :: xs') (Z.of_nat i) = UB u)).
  { unfold vget. destruct (Z.leb_spec 0 (Z.of_nat i)) as [_|H]; [|lia]. rewrite Nat2Z.id. destruct ((x :: xs) !! i) as [y|] eqn:Ey.
    - destruct (Forall2_lookup_l _ _ _ i y HX0 Ey) as (y' & Ey' & Hy). rewrite Ey'. left. eauto.
    - assert ((x' :: xs') !! i = None) as ->. { apply lookup_ge_None. apply lookup_ge_None in Ey. rewrite <- (Forall2_length _ _ _ HX0). exact Ey. } right. eauto. }
  destruct Hv as [(y & y' & -> & -> & Hy)|(u & -> & ->)]; [|split; [reflexivity|exact HQ]]. unfold elift. cbn [ebind]. apply unlabelled_krel; auto.
Qed.
Lemma at_unsup_rel (g g' : cluster -> eff cluster unit) k k' : (forall c c', crel c c' -> eff_rel crel (g c) (g' c')) -> krel k k' -> eff_rel krel (at_unsupervised g k) (at_unsupervised g' k').
Proof.
  intros Hg HK. unfold at_unsupervised. specialize (Hg _ _ (kr_unsup _ _ HK)). destruct (g _) as [o c], (g' _) as [o' c']. destruct Hg as [E H]. cbn in E, H. subst o'. split; [reflexivity|]. cbn [snd].
  destruct HK as [Eo Eb Ez HM _]. constructor; assumption.
Qed.
Lemma size_krel k k' : krel k k' -> size (k_clusters k') = size (k_clusters k).
Proof.
  intros HK. rewrite <- !size_dom. f_equal. apply set_eq. intros l. rewrite !elem_of_dom. pose proof (kr_clusters _ _ HK l) as H.
  destruct (k_clusters k !! l), (k_clusters k' !! l); try contradiction; split; intros [? ?]; eauto; discriminate.
Qed.
Lemma imap_rel (xs xs' : list image) : Forall2 ren xs xs' -> Forall2 (fun p p' : nat * image => p.1 = p'.1 /\ ren p.2 p'.2) (imap pair xs) (imap pair xs').
Proof.
  intros H. apply Forall2_same_length_lookup_2; [rewrite !imap_length; eapply Forall2_length; exact H|]. intros i [ia x] [ia' x'] E E'. rewrite list_lookup_imap in E, E'.
  destruct (xs !! i) as [y|] eqn:Ey; [|discriminate]. destruct (xs' !! i) as [y'|] eqn:Ey'; [|discriminate]. cbn in E, E'. injection E as <- <-. injection E' as <- <-. split; [reflexivity|]. eapply Forall2_lookup_lr; eassumption.
Qed.
Lemma unsup_krel lhs env env' k k' xs xs' : (forall i, dm (env i) (env' i)) -> krel k k' -> Forall2 ren xs xs' -> eff_rel krel (trainUnsupervised lhs env k xs) (trainUnsupervised lhs env' k' xs').
Proof.
  intros Hd HK HX. unfold trainUnsupervised. rewrite (size_krel k k' HK).
  assert (G : forall q q', krel q q' -> eff_rel krel (at_unsupervised (fun c => efor (fun c iim => cluster_train lhs (env iim.1) c iim.2) (imap pair xs) c) q)
                                              (at_unsupervised (fun c => efor (fun c iim => cluster_train lhs (env' iim.1) c iim.2) (imap pair xs') c) q')).
  { intros q q' HQ. apply at_unsup_rel; [|exact HQ]. intros c c' HC. apply (eff_for crel (fun p p' : nat * image => p.1 = p'.1 /\ ren p.2 p'.2)); [|apply imap_rel, HX|exact HC].
    intros s s' [i x] [i' x'] HS [Ei Hx]. cbn in Ei, Hx. subst i'. cbn [fst snd]. apply cluster_train_rel; auto. }
  destruct (Nat.eqb (size (k_clusters k)) 0); [|apply G, HK]. clear Hd. destruct HX as [|x x' xs xs' Hx HX]; [split; [reflexivity|exact HK]|]. apply G. rewrite (size_rel pi n x x' Hx).
  pose proof (new_rel k k' x 2 HK (proj1 Hx)) as Hnew. destruct HK as [Eo Eb Ez HM _]. constructor; assumption.
Qed.
Inductive moved_kcall : kcall -> kcall -> Prop :=
| moved_ktrain env env' xs xs' ls : (forall i, dm (env i) (env' i)) -> Forall2 ren xs xs' -> moved_kcall (KTrain env xs ls) (KTrain env' xs' ls)
| moved_ksemi env env' env2 env2' xs xs' ls : (forall i, dm (env i) (env' i)) -> (forall i, dm (env2 i) (env2' i)) -> Forall2 ren xs xs' -> moved_kcall (KSemi env env2 xs ls) (KSemi env' env2' xs' ls)
| moved_kunsup env env' xs xs' : (forall i, dm (env i) (env' i)) -> Forall2 ren xs xs' -> moved_kcall (KUnsupervised env xs) (KUnsupervised env' xs').
Lemma kcall_rel lhs c c' k k' : moved_kcall c c' -> krel k k' -> eff_rel krel (kcall_run lhs k c) (kcall_run lhs k' c').
Proof. intros [env env' xs xs' ls Hd H|env env' env2 env2' xs xs' ls Hd Hd2 H|env env' xs xs' Hd H] HK; cbn [kcall_run]; [apply train_krel|apply semi_krel|apply unsup_krel]; assumption. Qed.
Lemma krun_rel lhs cs cs' : Forall2 moved_kcall cs cs' -> forall k k', krel k k' -> fst (outcomes (kcall_run lhs) k' cs') = fst (outcomes (kcall_run lhs) k cs) /\ krel (snd (outcomes (kcall_run lhs) k cs)) (snd (outcomes (kcall_run lhs) k' cs')).
Proof. intros H k k' HK. apply (outcomes_rel krel moved_kcall); [|exact H|exact HK]. intros s s' c c' HS HC. apply kcall_rel; assumption. Qed.
Lemma classify_krel k k' xs xs' : krel k k' -> Forall2 ren xs xs' -> clus_classify k' xs' = clus_classify k xs.
Proof.
  intros HK HX. unfold clus_classify. induction HX as [|x x' xs xs' Hx _ IH]; [reflexivity|]. cbn [rmapM]. rewrite IH. unfold clus_classify1. rewrite (krel_field k_searchBestConfidence k k' HK ltac:(reflexivity)), (candidates_krel k k' x x' _ HK Hx). reflexivity.
Qed.
Lemma classify_unsup_krel k k' xs xs' : krel k k' -> Forall2 ren xs xs' -> clus_classifyUnsupervised k' xs' = clus_classifyUnsupervised k xs.
Proof.
  intros HK HX. unfold clus_classifyUnsupervised. induction HX as [|x x' xs xs' Hx _ IH]; [reflexivity|]. cbn [rmapM]. rewrite IH. unfold clus_classifyUnsupervised1.
  rewrite (krel_field k_bleachingActivated k k' HK ltac:(reflexivity)), (cluster_classify_rel _ _ x x' (kr_unsup _ _ HK) Hx). reflexivity.
Qed.
Lemma start_rel k : s32 (k_addressSize k) = a -> k_completeAddressing k = c0 -> k_clusters k = ∅ -> k_unsupervised k = cluster_default -> krel k k.
Proof. intros Ea Ec EM EU. constructor; [reflexivity|exact Ea|exact Ec|intros l; rewrite EM, lookup_empty; exact I|rewrite EU; apply default_rel]. Qed.
End clus.

Section wis.
Context (pi : Z -> Z) (n : Z) (Hn : 0 < n <= INT_MAX) (w0 : wisard) (Hm0 : w_mapping w0 = ∅) (Hi0 : w_indexes w0 = []).
Notation ren := (moved pi n).
Notation drel := (mdisc pi n).
Notation dm := (dmatch pi n (w_addressSize w0) (w_completeAddressing w0)).

Lemma construct_rel dr dr' l : dm dr dr' -> lift_mrel pi n (construct_discriminator dr w0 l n) (construct_discriminator dr' w0 l n).
Proof. intros Hd. unfold construct_discriminator. rewrite Hm0, lookup_empty, Hi0. cbn [length Nat.eqb negb]. apply Hd. Qed.
Lemma empty_rel : drel disc_default disc_default.
Proof. constructor; [reflexivity|reflexivity|constructor]. Qed.
Record wrel (w w' : wisard) : Prop := WRel {
  wr_opts : with_discriminators w ∅ = with_discriminators w0 ∅; wr_opts' : with_discriminators w' ∅ = with_discriminators w0 ∅;
  wr_discs : forall l, match w_discriminators w !! l, w_discriminators w' !! l with Some d, Some d' => drel d d' | None, None => True | _, _ => False end }.
Lemma wrel_field {A} (g : wisard -> A) w w' : wrel w w' -> (forall v, g v = g (with_discriminators v ∅)) -> g w = g w0 /\ g w' = g w0.
Proof. intros [E E' _] H. rewrite (H w), (H w'), (H w0), E, E'. auto. Qed.
Lemma insert_wrel w w' l d d' : wrel w w' -> drel d d' -> wrel (with_discriminators w (<[l := d]> (w_discriminators w))) (with_discriminators w' (<[l := d']> (w_discriminators w'))).
Proof.
  intros [E E' H] Hd. constructor; [exact E|exact E'|]. intros q. cbn [with_discriminators w_discriminators]. destruct (decide (l = q)) as [->|Hne]; [rewrite !lookup_insert; exact Hd|rewrite !lookup_insert_ne by exact Hne; apply H].
Qed.
Lemma make_wrel lhs dr dr' w w' l : dm dr dr' -> wrel w w' -> eff_rel wrel (makeDiscriminator lhs dr w l n) (makeDiscriminator lhs dr' w' l n).
Proof.
  intros Hd HW. unfold makeDiscriminator. destruct (wrel_field (fun w => construct_discriminator dr w l n) w w' HW ltac:(reflexivity)) as [E _]. destruct (wrel_field (fun w => construct_discriminator dr' w l n) w w' HW ltac:(reflexivity)) as [_ E']. cbv beta in E, E'. rewrite E, E'.
  pose proof (construct_rel dr dr' l Hd) as H.
  destruct (construct_discriminator dr w0 l n) as [d|e|u|], (construct_discriminator dr' w0 l n) as [d'|e'|u'|]; cbn [lift_mrel] in H; try contradiction; [| |subst; split; [reflexivity|exact HW]|split; [reflexivity|exact HW]].
  - split; [reflexivity|]. cbn [snd]. apply insert_wrel; [exact HW|exact H].
  - subst e'. split; [reflexivity|]. cbn [snd]. destruct lhs; [|exact HW]. apply insert_wrel; [exact HW|apply empty_rel].
Qed.
Lemma at_wrel (g g' : disc -> eff disc unit) w w' l : (forall d d', drel d d' -> eff_rel drel (g d) (g' d')) -> wrel w w' -> eff_rel wrel (at_label g w l) (at_label g' w' l).
Proof.
  intros Hg HW. unfold at_label. pose proof (wr_discs _ _ HW l) as H. destruct (w_discriminators w !! l) as [d|], (w_discriminators w' !! l) as [d'|]; try contradiction; [|split; [reflexivity|exact HW]].
  specialize (Hg _ _ H). destruct (g d) as [o e], (g' d') as [o' e']. destruct Hg as [E He]. cbn in E, He. subst o'. split; [reflexivity|]. cbn [snd]. apply insert_wrel; assumption.
Qed.
Lemma train1_wrel lhs env env' w w' x x' l : (forall l, dm (env l) (env' l)) -> wrel w w' -> ren x x' -> eff_rel wrel (wisard_train1 lhs env w x l) (wisard_train1 lhs env' w' x' l).
Proof.
  intros Hd HW Hx. unfold wisard_train1. pose proof (wr_discs _ _ HW l) as H. rewrite (proj1 Hx), (proj1 (proj2 Hx)), (s32_id n) by (unfold is_int, INT_MIN, INT_MAX in *; lia).
  assert (G : forall v v', wrel v v' -> eff_rel wrel (at_label (fun d => disc_train d x) v l) (at_label (fun d => disc_train d x') v' l)).
  { intros v v' HV. apply at_wrel; [|exact HV]. intros d d' HD. apply disc_train_mrel; assumption. }
  destruct (w_discriminators w !! l) as [d|], (w_discriminators w' !! l) as [d'|]; try contradiction; [apply G, HW|].
  apply eff_bind; [apply make_wrel; [apply Hd|exact HW]|]. intros _ s s' HS. apply G, HS.
Qed.
Lemma loop_wrel lhs env env' : (forall l, dm (env l) (env' l)) -> forall xs xs', Forall2 ren xs xs' -> forall ls w w', wrel w w' -> eff_rel wrel (wisard_train_loop lhs env w xs ls) (wisard_train_loop lhs env' w' xs' ls).
Proof.
  intros Hd. induction 1 as [|x x' xs xs' Hx _ IH]; intros ls w w' HW; cbn [wisard_train_loop]; [split; [reflexivity|exact HW]|]. destruct ls as [|l ls]; [split; [reflexivity|exact HW]|].
  apply eff_bind; [apply train1_wrel; auto|]. intros _ s s' HS. apply IH, HS.
Qed.
Lemma train_wrel lhs env env' w w' xs xs' ls : (forall l, dm (env l) (env' l)) -> wrel w w' -> Forall2 ren xs xs' -> eff_rel wrel (wisard_train lhs env w xs ls) (wisard_train lhs env' w' xs' ls).
Proof.
  intros Hd HW HX. assert (El : len xs' = len xs) by (unfold len; rewrite (Forall2_length _ _ _ HX); reflexivity). unfold wisard_train. pose proof HX as HX0. destruct HX as [|x x' xs xs' Hx HX]; [split; [reflexivity|exact HW]|].
  rewrite El, (size_rel pi n x x' Hx). destruct (wrel_field w_addressSize w w' HW ltac:(reflexivity)) as [-> ->]. destruct (wrel_field w_completeAddressing w w' HW ltac:(reflexivity)) as [-> ->]. destruct (wrel_field w_confidence w w' HW ltac:(reflexivity)) as [-> ->].
  destruct (calculateNumberOfRams _ _ _); [|split; [reflexivity|exact HW]..]. destruct (checkConfidence _ _); [|split; [reflexivity|exact HW]..]. destruct (checkInputSizes _ _); [|split; [reflexivity|exact HW]..]. apply loop_wrel; assumption.
Qed.
Lemma leave_wrel w w' x x' l : wrel w w' -> ren x x' -> eff_rel wrel (leaveOneOut w x l) (leaveOneOut w' x' l).
Proof.
  intros HW Hx. unfold leaveOneOut. pose proof (wr_discs _ _ HW l) as H. destruct (w_discriminators w !! l) as [d|], (w_discriminators w' !! l) as [d'|]; try contradiction; [|split; [reflexivity|exact HW]].
  apply at_wrel; [|exact HW]. intros e e' HE. apply disc_untrain_mrel; assumption.
Qed.
Lemma more_wrel w w' xs xs' ls : wrel w w' -> Forall2 ren xs xs' -> eff_rel wrel (leaveMoreOut w xs ls) (leaveMoreOut w' xs' ls).
Proof.
  intros HW HX. unfold leaveMoreOut. assert (len xs' = len xs) as -> by (unfold len; rewrite (Forall2_length _ _ _ HX); reflexivity). destruct (checkInputSizes _ _); [|split; [reflexivity|exact HW]..].
  revert ls w w' HW. induction HX as [|x x' xs xs' Hx _ IH]; intros ls w w' HW; cbn [leaveMoreOut_loop]; [split; [reflexivity|exact HW]|]. destruct ls as [|l ls]; [split; [reflexivity|exact HW]|].
  apply eff_bind; [apply leave_wrel; assumption|]. intros _ s s' HS. apply IH, HS.
Qed.
Inductive moved_wcall : wcall -> wcall -> Prop :=
| moved_wtrain env env' xs xs' ls : (forall l, dm (env l) (env' l)) -> Forall2 ren xs xs' -> moved_wcall (CTrain env xs ls) (CTrain env' xs' ls)
| moved_wone x x' l : ren x x' -> moved_wcall (CLeaveOne x l) (CLeaveOne x' l)
| moved_wmore xs xs' ls : Forall2 ren xs xs' -> moved_wcall (CLeaveMore xs ls) (CLeaveMore xs' ls).
Lemma wrun_wrel lhs cs cs' : Forall2 moved_wcall cs cs' -> forall w w', wrel w w' -> fst (outcomes (wcall_run lhs) w' cs') = fst (outcomes (wcall_run lhs) w cs) /\ wrel (snd (outcomes (wcall_run lhs) w cs)) (snd (outcomes (wcall_run lhs) w' cs')).
Proof.
  intros H w w' HW. apply (outcomes_rel wrel moved_wcall); [|exact H|exact HW]. intros s s' c c' HS [env env' xs xs' ls Hd HX|x x' l Hx|xs xs' ls HX]; cbn [wcall_run]; [apply train_wrel|apply leave_wrel|apply more_wrel]; assumption.
Qed.
Lemma candidates_wrel w w' x x' : wrel w w' -> ren x x' -> wisard_candidates w' x' = wisard_candidates w x.
Proof.
  intros HW Hx. unfold wisard_candidates. destruct (wrel_field w_bleachingActivated w w' HW ltac:(reflexivity)) as [-> ->]. destruct (wrel_field w_searchBestConfidence w w' HW ltac:(reflexivity)) as [-> ->]. destruct (wrel_field w_confidence w w' HW ltac:(reflexivity)) as [-> ->].
  assert (all_votes (w_discriminators w') x' = all_votes (w_discriminators w) x) as ->; [|reflexivity]. unfold all_votes. pose proof (sorted_pairs drel _ _ (wr_discs _ _ HW)) as H.
  assert (rmapM (fun kd : str * disc => let* v := disc_classify kd.2 x' in Ok (kd.1, v)) (sorted_items (w_discriminators w')) = rmapM (fun kd : str * disc => let* v := disc_classify kd.2 x in Ok (kd.1, v)) (sorted_items (w_discriminators w))) as ->; [|reflexivity].
  induction H as [|[l d] [l' d'] m m' [El HD] _ IH]; [reflexivity|]. cbn in El, HD. subst l'. cbn [rmapM fst snd]. rewrite (disc_classify_mrel pi n d d' x x' HD Hx), IH. reflexivity.
Qed.
Lemma classify_wrel w w' xs xs' : wrel w w' -> Forall2 ren xs xs' -> wisard_classify w' xs' = wisard_classify w xs.
Proof. intros HW HX. unfold wisard_classify. induction HX as [|x x' xs xs' Hx _ IH]; [reflexivity|]. cbn [rmapM]. rewrite IH. unfold wisard_classify1. rewrite (candidates_wrel w w' x x' HW Hx). reflexivity. Qed.
Lemma start_wrel : w_discriminators w0 = ∅ -> wrel w0 w0.
Proof. intros E. constructor; [reflexivity|reflexivity|]. intros l. rewrite E, lookup_empty. exact I. Qed.
End wis.
