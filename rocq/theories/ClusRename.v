(** Lemmas for C152: a ClusWisard, and a Wisard, fed with renamed images, in lock step. *)
From Verif Require Import Prelude Bytes Utils BinInput Float32 Bleaching Ram Disc Wisard Cluster ClusWisard SpecDisc SpecWisard SpecClus SpecValues.
From Verif Require Import BytesProofs UtilsProofs TextProofs DiscCtorProofs CtorFacts RamProofs DiscProofs DiscFacts ClusOne ValueSim.

Lemma new_pars {A} (g : A -> list Z) (l : list A) z base rs : rmapM (fun a => ram_new (g a) z base) l = Ok rs -> Forall (fun r => r_base r = base /\ r_ignoreZero r = z) rs.
Proof.
  revert rs. induction l as [|a l IH]; intros rs H; cbn [rmapM] in H; [injection H as <-; constructor|].
  unfold ram_new in H at 1. destruct (checkLimitAddressSize (s32 (len (g a))) base); try discriminate. cbn [rbind] in *.
  destruct (rmapM (fun a => ram_new (g a) z base) l) as [qs| | |]; try discriminate. cbn [rbind] in *. injection H as <-. constructor; [split; reflexivity|apply IH; reflexivity].
Qed.
Lemma disc_new_pars dr a e z c idx m base d : disc_new dr a e z c idx m base = Ok d -> Forall (fun r => r_base r = base /\ r_ignoreZero r = z) (d_rams d).
Proof.
  unfold disc_new. destruct (negb (Nat.eqb (length m) 0)); [|destruct (negb _)].
  - unfold setRAMByMapping. destruct (checkBase _); try discriminate. cbn [rbind].
    destruct (rmapM (fun addrs => ram_new addrs z base) m) as [rs| | |] eqn:E; try discriminate. intros [= <-]. exact (new_pars (fun a => a) m _ _ rs E).
  - unfold setRAMByIndex. destruct (checkAddressSize _ _); try discriminate. destruct (checkBase _); try discriminate. cbn [rbind]. destruct (checkListOfIndexes _ _); try discriminate. cbn [rbind]. unfold make_rams.
    match goal with |- rbind ?a _ = _ -> _ => destruct a as [rs| | |] eqn:E; try discriminate end. intros [= <-]. cbn [d_rams]. eapply new_pars; eassumption.
  - unfold setRAMShuffle. destruct (checkAddressSize _ _); try discriminate. destruct (checkBase _); try discriminate. cbn [rbind].
    destruct (int_of _); try discriminate. cbn [rbind]. destruct (rmapM _ _) as [fl| | |]; try discriminate. cbn [rbind]. unfold make_rams.
    match goal with |- rbind ?a _ = _ -> _ => destruct a as [rs| | |] eqn:E; try discriminate end. intros [= <-]. cbn [d_rams]. eapply new_pars; eassumption.
Qed.

Section clus.
Context (f : Z -> Z -> Z) (b : Z) (iz : bool) (Hf : renaming f b iz) (Hb : is_int b).
Notation ren := (renamed_image f b).
Notation drel := (disc_rel f b iz).

Lemma shuffle_rel dr e a c d : valid_draw dr -> is_int e -> is_int a -> setRAMShuffle dr e a iz c b = Ok d -> drel d d.
Proof using Hb.
  intros Hd He Ha E. assert (E' : disc_new dr a e iz c [] [] b = Ok d) by exact E. apply fresh_rel; [|eapply disc_new_pars; exact E'].
  apply constructed_fresh. exists dr, a, e, iz, c, [], [], b. unfold INT_MAX. split; [exact Hd|]. split; [exact Ha|]. split; [exact He|]. split; [exact Hb|]. split; [vm_compute; discriminate|]. split; [constructor|exact E'].
Qed.
Definition odisc (o o' : option disc) : Prop := match o, o' with Some d, Some d' => drel d d' | None, None => True | _, _ => False end.
Definition par_ok (o : option cparams) : Prop := match o with Some p => p_base p = b /\ p_ignoreZero p = iz | None => True end.
Record crel (c c' : cluster) : Prop := CRel { cr_params : c_params c' = c_params c; cr_ok : par_ok (c_params c); cr_discs : Forall2 odisc (c_discs c) (c_discs c') }.
Lemma make_rel lhs dr c c' : valid_draw dr -> crel c c' -> eff_rel crel (cluster_make lhs dr c) (cluster_make lhs dr c').
Proof using Hb.
  intros Hd HC. pose proof HC as [Ep Hp HD]. unfold cluster_make. rewrite Ep. destruct (c_params c) as [p|] eqn:Ec; [|split; [reflexivity|exact HC]]. destruct Hp as [Pb Pz]. rewrite Pb, Pz.
  destruct (setRAMShuffle dr (s32 (p_entrySize p)) (s32 (p_addressSize p)) iz (p_complete p) b) as [d|e|u|] eqn:E.
  - split; [reflexivity|]. cbn [snd]. constructor; cbn [with_discs c_params c_discs]; [rewrite Ec; exact Ep|rewrite Ec; split; assumption|]. apply Forall2_app; [exact HD|]. constructor; [|constructor]. cbn.
    eapply shuffle_rel; [exact Hd| | |exact E]; apply s32_range.
  - split; [reflexivity|]. cbn [snd]. destruct lhs; [|exact HC]. constructor; cbn [with_discs c_params c_discs]; [rewrite Ec; exact Ep|rewrite Ec; split; assumption|]. apply Forall2_app; [exact HD|]. constructor; [exact I|constructor].
  - split; [reflexivity|exact HC].
  - split; [reflexivity|exact HC].
Qed.
Lemma train_at_rel c c' i x x' : crel c c' -> ren x x' -> eff_rel crel (cluster_train_at c i x) (cluster_train_at c' i x').
Proof using Hf.
  intros HC Hx. pose proof HC as [Ep Hp HD]. unfold cluster_train_at. destruct (c_discs c !! i) as [o|] eqn:E.
  - destruct (Forall2_lookup_l _ _ _ i o HD E) as (o' & E' & Ho). rewrite E'. destruct o as [d|], o' as [d'|]; cbn in Ho; try contradiction; [|split; [reflexivity|exact HC]].
    pose proof (disc_train_rel f b iz Hf d d' x x' Ho Hx) as H. destruct (disc_train d x) as [q e], (disc_train d' x') as [q' e']. destruct H as [Eq He]. cbn in Eq, He. subst q'. split; [reflexivity|]. cbn [snd].
    constructor; cbn [with_discs c_params c_discs]; [exact Ep|exact Hp|]. apply Forall2_insert; [exact HD|exact He].
  - assert (c_discs c' !! i = None) as E'. { apply lookup_ge_None. apply lookup_ge_None in E. rewrite <- (Forall2_length _ _ _ HD). exact E. } rewrite E'. split; [reflexivity|exact HC].
Qed.
Lemma scan_rel p x x' : ren x x' -> forall ds ds', Forall2 odisc ds ds' -> forall i best bi t, eff_rel (Forall2 odisc) (cluster_scan p x ds i best bi t) (cluster_scan p x' ds' i best bi t).
Proof using Hf.
  intros Hx. induction 1 as [|o o' ds ds' Ho Hds IH]; intros i best bi t; cbn [cluster_scan]; [split; [reflexivity|constructor]|].
  destruct o as [d|], o' as [d'|]; cbn in Ho; try contradiction; [|split; [reflexivity|]; cbn [snd]; constructor; [exact I|exact Hds]].
  rewrite (disc_classify_rel f b iz Hf d d' x x' Ho Hx). destruct (disc_classify d x) as [votes| | |]; [|split; [reflexivity|]; cbn [snd]; constructor; [exact Ho|exact Hds]..]. cbv zeta.
  assert (train_limit p d' = train_limit p d) as -> by (unfold train_limit; rewrite (dd_count _ _ _ _ _ Ho); reflexivity).
  destruct (f32_leb (train_limit p d) (getScore votes)).
  - pose proof (disc_train_rel f b iz Hf d d' x x' Ho Hx) as H. destruct (disc_train d x) as [q e], (disc_train d' x') as [q' e']. destruct H as [Eq He]. cbn in Eq, He. subst q'.
    destruct q as [[]| | |]; [|split; [reflexivity|]; cbn [snd]; constructor; [exact He|exact Hds]..].
    specialize (IH (S i) (if f32_leb best (getScore votes) then getScore votes else best) (if f32_leb best (getScore votes) then Some i else bi) true).
    destruct (cluster_scan p x ds _ _ _ _) as [q qs], (cluster_scan p x' ds' _ _ _ _) as [q' qs']. destruct IH as [Eq Hq]. cbn in Eq, Hq. subst q'. split; [reflexivity|]. cbn [snd]. constructor; [exact He|exact Hq].
  - specialize (IH (S i) (if f32_leb best (getScore votes) then getScore votes else best) (if f32_leb best (getScore votes) then Some i else bi) t).
    destruct (cluster_scan p x ds _ _ _ _) as [q qs], (cluster_scan p x' ds' _ _ _ _) as [q' qs']. destruct IH as [Eq Hq]. cbn in Eq, Hq. subst q'. split; [reflexivity|]. cbn [snd]. constructor; [exact Ho|exact Hq].
Qed.
Lemma cluster_train_rel lhs dr c c' x x' : valid_draw dr -> crel c c' -> ren x x' -> eff_rel crel (cluster_train lhs dr c x) (cluster_train lhs dr c' x').
Proof using Hf Hb.
  intros Hd HC Hx. pose proof HC as [Ep Hp HD]. unfold cluster_train. destruct HD as [|o o' ds ds' Ho Hds] eqn:ED; clear ED.
  - apply eff_bind; [apply make_rel; assumption|]. intros _ s s' HS. apply train_at_rel; assumption.
  - rewrite Ep. destruct (c_params c) as [p|] eqn:Ec; [|split; [reflexivity|exact HC]].
    pose proof (scan_rel p x x' Hx (o :: ds) (o' :: ds') ltac:(constructor; assumption) 0%nat f32_zero None false) as H.
    destruct (cluster_scan p x (o :: ds) 0 f32_zero None false) as [r es], (cluster_scan p x' (o' :: ds') 0 f32_zero None false) as [r' es']. destruct H as [Er He]. cbn in Er, He. subst r'. cbv zeta.
    assert (HC' : crel (with_discs c es) (with_discs c' es')) by (constructor; cbn [with_discs c_params c_discs]; [congruence|rewrite Ec; exact Hp|exact He]).
    assert (El : length es' = length es) by (symmetry; eapply Forall2_length; exact He). assert (El' : len es' = len es) by (unfold len; rewrite El; reflexivity). rewrite El, El'.
    destruct r as [[bi t]| | |]; [|split; [reflexivity|exact HC']..]. destruct t; [split; [reflexivity|exact HC']|]. destruct (_ <? _).
    + apply eff_bind; [apply make_rel; assumption|]. intros _ s s' HS. apply train_at_rel; assumption.
    + destruct bi as [i|]; [apply train_at_rel; assumption|split; [reflexivity|exact HC']].
Qed.
Lemma cluster_classify_rel c c' x x' : crel c c' -> ren x x' -> cluster_classify c' x' = cluster_classify c x.
Proof using Hf.
  intros [_ _ HD] Hx. unfold cluster_classify, on_discs. induction HD as [|o o' ds ds' Ho _ IH]; [reflexivity|]. cbn [rmapM]. rewrite IH.
  destruct o as [d|], o' as [d'|]; cbn in Ho; try contradiction; [|reflexivity]. rewrite (disc_classify_rel f b iz Hf d d' x x' Ho Hx). reflexivity.
Qed.

(** ** The classifier *)
Record krel (k k' : cluswisard) : Prop := KRel {
  kr_options : with_unsupervised (with_clusters k' ∅) cluster_default = with_unsupervised (with_clusters k ∅) cluster_default;
  kr_base : k_base k = b; kr_iz : k_ignoreZero k = iz; 
  kr_clusters : forall l, match k_clusters k !! l, k_clusters k' !! l with Some c, Some c' => crel c c' | None, None => True | _, _ => False end;
  kr_unsup : crel (k_unsupervised k) (k_unsupervised k') }.
Lemma krel_field {A} (g : cluswisard -> A) k k' : krel k k' -> (forall k, g k = g (with_unsupervised (with_clusters k ∅) cluster_default)) -> g k' = g k.
Proof. intros HK Hg. rewrite (Hg k), (Hg k'), (kr_options _ _ HK). reflexivity. Qed.
Lemma default_rel : crel cluster_default cluster_default.
Proof. constructor; [reflexivity|exact I|constructor]. Qed.
Lemma insert_krel k k' l c c' : krel k k' -> crel c c' -> krel (with_clusters k (<[l := c]> (k_clusters k))) (with_clusters k' (<[l := c']> (k_clusters k'))).
Proof.
  intros [E Eb Ez HM HU] HC. constructor; cbn [with_clusters k_base k_ignoreZero k_clusters k_unsupervised]; [exact E|exact Eb|exact Ez| |exact HU].
  intros m. destruct (decide (l = m)) as [<-|Hn]; [rewrite !lookup_insert; exact HC|rewrite !lookup_insert_ne by exact Hn; apply HM].
Qed.
Lemma new_rel k k' e base : krel k k' -> base = b -> crel (new_cluster k e base) (new_cluster k' e base).
Proof.
  intros HK ->. assert (new_cluster k' e b = new_cluster k e b) as -> by (exact (krel_field (fun k => new_cluster k e b) k k' HK ltac:(reflexivity))).
  constructor; [reflexivity| |constructor]. cbn. split; [reflexivity|apply (kr_iz _ _ HK)].
Qed.
Lemma at_rel (g g' : cluster -> eff cluster unit) k k' l : (forall c c', crel c c' -> eff_rel crel (g c) (g' c')) -> krel k k' -> eff_rel krel (at_cluster g k l) (at_cluster g' k' l).
Proof.
  intros Hg HK. unfold at_cluster.
  assert (HC : crel (default cluster_default (k_clusters k !! l)) (default cluster_default (k_clusters k' !! l))).
  { pose proof (kr_clusters _ _ HK l) as H. destruct (k_clusters k !! l), (k_clusters k' !! l); try contradiction; [exact H|apply default_rel]. }
  specialize (Hg _ _ HC). destruct (g _) as [o c], (g' _) as [o' c']. destruct Hg as [E H]. cbn in E, H. subst o'. split; [reflexivity|]. cbn [snd]. apply insert_krel; assumption.
Qed.
Lemma train1_krel lhs dr k k' x x' l : valid_draw dr -> krel k k' -> ren x x' -> eff_rel krel (clus_train1 lhs dr k x l) (clus_train1 lhs dr k' x' l).
Proof using Hf Hb.
  intros Hd HK Hx. unfold clus_train1. apply at_rel; [intros c c' HC; apply cluster_train_rel; assumption|].
  pose proof (kr_clusters _ _ HK l) as H. destruct (k_clusters k !! l), (k_clusters k' !! l); try contradiction; [exact HK|]. unfold makeClusters. rewrite (proj1 Hx).
  rewrite (krel_field k_base k k' HK ltac:(reflexivity)). apply insert_krel; [exact HK|]. apply new_rel; [exact HK|apply (kr_base _ _ HK)].
Qed.
Lemma loop_krel lhs env : (forall i, valid_draw (env i)) -> forall xs xs', Forall2 ren xs xs' -> forall ls i k k', krel k k' -> eff_rel krel (clus_train_loop lhs env i k xs ls) (clus_train_loop lhs env i k' xs' ls).
Proof using Hf Hb.
  intros Hd. induction 1 as [|x x' xs xs' Hx _ IH]; intros ls i k k' HK; cbn [clus_train_loop]; [split; [reflexivity|exact HK]|]. destruct ls as [|l ls]; [split; [reflexivity|exact HK]|].
  apply eff_bind; [apply train1_krel; auto|]. intros _ s s' HS. apply IH, HS.
Qed.
Lemma lift_krel {A} k k' (r : res A) : krel k k' -> eff_rel krel (elift k r) (elift k' r).
Proof. intros HK. split; [reflexivity|exact HK]. Qed.
Lemma checks_rel k k' x x' : krel k k' -> ren x x' -> clus_first_checks k' x' = clus_first_checks k x.
Proof. intros HK Hx. unfold clus_first_checks. rewrite (proj1 Hx). exact (krel_field (fun k => let* n := calculateNumberOfRams (s32 (im_size x)) (k_addressSize k) (k_completeAddressing k) in checkConfidence (k_confidence k) n) k k' HK ltac:(reflexivity)). Qed.
Lemma train_krel lhs env k k' xs xs' ls : (forall i, valid_draw (env i)) -> krel k k' -> Forall2 ren xs xs' -> eff_rel krel (clus_train lhs env k xs ls) (clus_train lhs env k' xs' ls).
Proof using Hf Hb.
  intros Hd HK HX. assert (El : len xs' = len xs) by (unfold len; rewrite (Forall2_length _ _ _ HX); reflexivity). unfold clus_train. pose proof HX as HX0. destruct HX as [|x x' xs xs' Hx HX]; [split; [reflexivity|exact HK]|].
  rewrite El, (checks_rel k k' x x' HK Hx). apply eff_bind; [apply lift_krel, HK|]. intros _ s s' HS. apply loop_krel; assumption.
Qed.
Lemma votes_krel k k' x x' : krel k k' -> ren x x' -> clus_votes (k_clusters k') x' = clus_votes (k_clusters k) x.
Proof using Hf.
  intros HK Hx. unfold clus_votes. pose proof (sorted_pairs crel _ _ (kr_clusters _ _ HK)) as H.
  assert (rmapM (fun kc : str * cluster => let* vs := cluster_classify kc.2 x' in Ok (imap (fun j v => (cluster_key kc.1 j, v)) vs)) (sorted_items (k_clusters k')) =
          rmapM (fun kc : str * cluster => let* vs := cluster_classify kc.2 x in Ok (imap (fun j v => (cluster_key kc.1 j, v)) vs)) (sorted_items (k_clusters k))) as ->; [|reflexivity].
  induction H as [|[l c] [l' c'] m m' [El HC] _ IH]; [reflexivity|]. cbn in El, HC. subst l'. cbn [rmapM fst snd]. rewrite (cluster_classify_rel c c' x x' HC Hx), IH. reflexivity.
Qed.
Lemma candidates_krel k k' x x' s : krel k k' -> ren x x' -> clus_candidates k' x' s = clus_candidates k x s.
Proof using Hf.
  intros HK Hx. unfold clus_candidates. rewrite (votes_krel k k' x x' HK Hx), (krel_field k_bleachingActivated k k' HK ltac:(reflexivity)), (krel_field k_confidence k k' HK ltac:(reflexivity)). reflexivity.
Qed.
Lemma unlabelled_krel lhs dr k k' x x' : valid_draw dr -> krel k k' -> ren x x' -> eff_rel krel (clus_train_unlabelled lhs dr k x) (clus_train_unlabelled lhs dr k' x').
Proof using Hf Hb.
  intros Hd HK Hx. unfold clus_train_unlabelled. rewrite (candidates_krel k k' x x' false HK Hx). apply eff_bind; [apply lift_krel, HK|]. intros cand s s' HS. apply at_rel; [|exact HS]. intros c c' HC. apply cluster_train_rel; assumption.
Qed.
Lemma semi_loop_krel lhs env labels : (forall i, valid_draw (env i)) -> forall xs xs', Forall2 ren xs xs' -> forall i ls j k k', krel k k' ->
  eff_rel krel (semi_loop lhs env labels i ls j xs k) (semi_loop lhs env labels i ls j xs' k').
Proof using Hf Hb.
  intros Hd. induction 1 as [|x x' xs xs' Hx _ IH]; intros i ls j k k' HK; cbn [semi_loop]; [split; [reflexivity|exact HK]|]. destruct (labels !! s32 (Z.of_nat i)) as [l|].
  - apply eff_bind; [apply train1_krel; auto|]. intros _ s s' HS. apply IH, HS.
  - destruct (_ <? _); [apply IH, HK|]. destruct (_ <? _); [apply IH, HK|]. split; [reflexivity|exact HK].
Qed.
Lemma semi_krel lhs env env2 k k' xs xs' labels : (forall i, valid_draw (env i)) -> (forall i, valid_draw (env2 i)) -> krel k k' -> Forall2 ren xs xs' ->
  eff_rel krel (clus_train_semi lhs env env2 k xs labels) (clus_train_semi lhs env env2 k' xs' labels).
Proof using Hf Hb.
  intros Hd Hd2 HK HX. assert (El : len xs' = len xs) by (unfold len; rewrite (Forall2_length _ _ _ HX); reflexivity). unfold clus_train_semi. pose proof HX as HX0. destruct HX as [|x x' xs xs' Hx HX]; [split; [reflexivity|exact HK]|].
  rewrite El, (checks_rel k k' x x' HK Hx). apply eff_bind; [apply lift_krel, HK|]. intros _ s s' HS. apply eff_bind; [apply semi_loop_krel; assumption|]. intros ls t t' HT.
  destruct (_ =? _); [split; [reflexivity|exact HT]|]. unfold semi_unlabelled.
  apply (eff_for krel eq); [|apply Forall_Forall2_diag, Forall_forall; reflexivity|exact HT]. intros q q' i i' HQ <-.
  assert (Hv : (exists y y', vget (x :: xs) (Z.of_nat i) = Ok y /\ vget (x' :: xs') (Z.of_nat i) = Ok y' /\ ren y y') \/ (exists u, vget (x :: xs) (Z.of_nat i) = UB u /\ vget (x' :: xs') (Z.of_nat i) = UB u)).
  { unfold vget. destruct (Z.leb_spec 0 (Z.of_nat i)) as [_|H]; [|lia]. rewrite Nat2Z.id. destruct ((x :: xs) !! i) as [y|] eqn:Ey.
    - destruct (Forall2_lookup_l _ _ _ i y HX0 Ey) as (y' & Ey' & Hy). rewrite Ey'. left. eauto.
    - assert ((x' :: xs') !! i = None) as ->. { apply lookup_ge_None. apply lookup_ge_None in Ey. rewrite <- (Forall2_length _ _ _ HX0). exact Ey. } right. eauto. }
  destruct Hv as [(y & y' & -> & -> & Hy)|(u & -> & ->)]; [|split; [reflexivity|exact HQ]]. unfold elift. cbn [ebind]. apply unlabelled_krel; auto.
Qed.
Lemma at_unsup_rel (g g' : cluster -> eff cluster unit) k k' : (forall c c', crel c c' -> eff_rel crel (g c) (g' c')) -> krel k k' -> eff_rel krel (at_unsupervised g k) (at_unsupervised g' k').
Proof.
  intros Hg HK. unfold at_unsupervised. specialize (Hg _ _ (kr_unsup _ _ HK)). destruct (g _) as [o c], (g' _) as [o' c']. destruct Hg as [E H]. cbn in E, H. subst o'. split; [reflexivity|]. cbn [snd].
  destruct HK as [Eo Eb Ez HM _]. constructor; assumption.
Qed.
Lemma size_krel k k' : krel k k' -> size (k_clusters k') = size (k_clusters k).
Proof.
  intros HK. rewrite <- !size_dom. f_equal. apply set_eq. intros l. rewrite !elem_of_dom. pose proof (kr_clusters _ _ HK l) as H.
  destruct (k_clusters k !! l), (k_clusters k' !! l); try contradiction; split; intros [? ?]; eauto; discriminate.
Qed.
Lemma imap_rel (xs xs' : list image) : Forall2 ren xs xs' -> Forall2 (fun p p' : nat * image => p.1 = p'.1 /\ ren p.2 p'.2) (imap pair xs) (imap pair xs').
Proof.
  intros H. apply Forall2_same_length_lookup_2; [rewrite !imap_length; eapply Forall2_length; exact H|]. intros i [a x] [a' x'] E E'. rewrite list_lookup_imap in E, E'.
  destruct (xs !! i) as [y|] eqn:Ey; [|discriminate]. destruct (xs' !! i) as [y'|] eqn:Ey'; [|discriminate]. cbn in E, E'. injection E as <- <-. injection E' as <- <-. split; [reflexivity|]. eapply Forall2_lookup_lr; eassumption.
Qed.
Lemma unsup_krel lhs env k k' xs xs' : b = 2 -> (forall i, valid_draw (env i)) -> krel k k' -> Forall2 ren xs xs' -> eff_rel krel (trainUnsupervised lhs env k xs) (trainUnsupervised lhs env k' xs').
Proof using Hf Hb.
  intros H2 Hd HK HX. unfold trainUnsupervised. rewrite (size_krel k k' HK).
  assert (G : forall q q', krel q q' -> eff_rel krel (at_unsupervised (fun c => efor (fun c iim => cluster_train lhs (env iim.1) c iim.2) (imap pair xs) c) q)
                                              (at_unsupervised (fun c => efor (fun c iim => cluster_train lhs (env iim.1) c iim.2) (imap pair xs') c) q')).
  { intros q q' HQ. apply at_unsup_rel; [|exact HQ]. intros c c' HC. apply (eff_for crel (fun p p' : nat * image => p.1 = p'.1 /\ ren p.2 p'.2)); [|apply imap_rel, HX|exact HC].
    intros s s' [i x] [i' x'] HS [Ei Hx]. cbn in Ei, Hx. subst i'. cbn [fst snd]. apply cluster_train_rel; auto. }
  destruct (Nat.eqb (size (k_clusters k)) 0); [|apply G, HK]. clear Hd. destruct HX as [|x x' xs xs' Hx HX]; [split; [reflexivity|exact HK]|]. apply G. rewrite (proj1 Hx).
  pose proof (new_rel k k' (s32 (im_size x)) 2 HK (eq_sym H2)) as Hn. destruct HK as [Eo Eb Ez HM _]. constructor; assumption.
Qed.
Lemma kcall_rel lhs c c' k k' : renamed_kcall f b c c' -> krel k k' -> eff_rel krel (kcall_run lhs k c) (kcall_run lhs k' c').
Proof using Hf Hb. intros [env xs xs' ls Hd H|env env2 xs xs' ls Hd Hd2 H|env xs xs' H2 Hd H] HK; cbn [kcall_run]; [apply train_krel|apply semi_krel|apply unsup_krel]; assumption. Qed.
Lemma krun_rel lhs cs cs' : Forall2 (renamed_kcall f b) cs cs' -> forall k k', krel k k' -> fst (outcomes (kcall_run lhs) k' cs') = fst (outcomes (kcall_run lhs) k cs) /\ krel (snd (outcomes (kcall_run lhs) k cs)) (snd (outcomes (kcall_run lhs) k' cs')).
Proof using Hf Hb. intros H k k' HK. apply (outcomes_rel krel (renamed_kcall f b)); [|exact H|exact HK]. intros s s' c c' HS HC. apply kcall_rel; assumption. Qed.
Lemma classify_krel k k' xs xs' : krel k k' -> Forall2 ren xs xs' -> clus_classify k' xs' = clus_classify k xs.
Proof using Hf.
  intros HK HX. unfold clus_classify. induction HX as [|x x' xs xs' Hx _ IH]; [reflexivity|]. cbn [rmapM]. rewrite IH. unfold clus_classify1. rewrite (krel_field k_searchBestConfidence k k' HK ltac:(reflexivity)), (candidates_krel k k' x x' _ HK Hx). reflexivity.
Qed.
Lemma classify_unsup_krel k k' xs xs' : krel k k' -> Forall2 ren xs xs' -> clus_classifyUnsupervised k' xs' = clus_classifyUnsupervised k xs.
Proof using Hf.
  intros HK HX. unfold clus_classifyUnsupervised. induction HX as [|x x' xs xs' Hx _ IH]; [reflexivity|]. cbn [rmapM]. rewrite IH. unfold clus_classifyUnsupervised1.
  rewrite (krel_field k_bleachingActivated k k' HK ltac:(reflexivity)), (cluster_classify_rel _ _ x x' (kr_unsup _ _ HK) Hx). reflexivity.
Qed.
Lemma start_rel k : k_base k = b -> k_ignoreZero k = iz -> k_clusters k = ∅ -> k_unsupervised k = cluster_default -> krel k k.
Proof. intros Eb Ez EM EU. constructor; [reflexivity|exact Eb|exact Ez|intros l; rewrite EM, lookup_empty; exact I|rewrite EU; apply default_rel]. Qed.
End clus.
