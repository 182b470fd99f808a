(** Lemmas for C151: a Wisard fed with renamed images, in lock step. *)
From Verif Require Import Prelude Bytes Utils BinInput Float32 Bleaching Ram Disc Wisard SpecDisc SpecWisard SpecValues.
From Verif Require Import BytesProofs UtilsProofs TextProofs DiscCtorProofs CtorFacts RamProofs DiscProofs DiscFacts ClusOne ValueSim ClusRename.

Section wis.
Context (f : Z -> Z -> Z) (w0 : wisard) (Hf : renaming f (w_base w0) (w_ignoreZero w0)) (Hi : int_options w0).
Notation ren := (renamed_image f (w_base w0)).
Notation drel := (disc_rel f (w_base w0) (w_ignoreZero w0)).

Lemma construct_rel dr l n d : valid_draw dr -> is_int n -> construct_discriminator dr w0 l n = Ok d -> drel d d.
Proof using Hi.
  intros Hd Hn E. destruct Hi as (Ha & Hb & Hx & Hm). unfold construct_discriminator in E. destruct (w_mapping w0 !! l) as [m|] eqn:Em.
  - destruct m as [|p m].
    + cbn in E. unfold setRAMByMapping in E. destruct (checkBase _); try discriminate. cbn in E. injection E as <-. apply fresh_rel; [split; [reflexivity|constructor]|constructor].
    + assert (E' : disc_new dr 0 n (w_ignoreZero w0) true [] (p :: m) (w_base w0) = Ok d) by exact E. apply fresh_rel; [|eapply disc_new_pars; exact E'].
      apply constructed_fresh. exists dr, 0, n, (w_ignoreZero w0), true, [], (p :: m), (w_base w0). split; [exact Hd|]. split; [vm_compute; split; discriminate|]. split; [exact Hn|]. split; [exact Hb|]. split; [vm_compute; discriminate|]. split; [exact (Hm l _ Em)|exact E'].
  - assert (E' : disc_new dr (w_addressSize w0) n (w_ignoreZero w0) (w_completeAddressing w0) (w_indexes w0) [] (w_base w0) = Ok d) by exact E. apply fresh_rel; [|eapply disc_new_pars; exact E'].
    apply constructed_fresh. exists dr, (w_addressSize w0), n, (w_ignoreZero w0), (w_completeAddressing w0), (w_indexes w0), [], (w_base w0). do 5 (split; [assumption|]). split; [constructor|exact E'].
Qed.
Lemma empty_rel : drel disc_default disc_default.
Proof. apply fresh_rel; [split; [reflexivity|constructor]|constructor]. Qed.
Record wrel (w w' : wisard) : Prop := WRel {
  wr_opts : with_discriminators w ∅ = with_discriminators w0 ∅; wr_opts' : with_discriminators w' ∅ = with_discriminators w0 ∅;
  wr_discs : forall l, match w_discriminators w !! l, w_discriminators w' !! l with Some d, Some d' => drel d d' | None, None => True | _, _ => False end }.
Lemma wrel_field {A} (g : wisard -> A) w w' : wrel w w' -> (forall v, g v = g (with_discriminators v ∅)) -> g w = g w0 /\ g w' = g w0.
Proof. intros [E E' _] H. rewrite (H w), (H w'), (H w0), E, E'. auto. Qed.
Lemma insert_wrel w w' l d d' : wrel w w' -> drel d d' -> wrel (with_discriminators w (<[l := d]> (w_discriminators w))) (with_discriminators w' (<[l := d']> (w_discriminators w'))).
Proof.
  intros [E E' H] Hd. constructor; [exact E|exact E'|]. intros q. cbn [with_discriminators w_discriminators]. destruct (decide (l = q)) as [->|Hn]; [rewrite !lookup_insert; exact Hd|rewrite !lookup_insert_ne by exact Hn; apply H].
Qed.
Lemma make_wrel lhs dr w w' l n : valid_draw dr -> is_int n -> wrel w w' -> eff_rel wrel (makeDiscriminator lhs dr w l n) (makeDiscriminator lhs dr w' l n).
Proof using Hi.
  intros Hd Hn HW. unfold makeDiscriminator. destruct (wrel_field (fun w => construct_discriminator dr w l n) w w' HW ltac:(reflexivity)) as [E E']. cbv beta in E, E'. rewrite E, E'.
  destruct (construct_discriminator dr w0 l n) as [d|e|u|] eqn:C; [| |split; [reflexivity|exact HW]..].
  - split; [reflexivity|]. cbn [snd]. apply insert_wrel; [exact HW|]. eapply construct_rel; eassumption.
  - split; [reflexivity|]. cbn [snd]. destruct lhs; [|exact HW]. apply insert_wrel; [exact HW|apply empty_rel].
Qed.
Lemma at_wrel (g g' : disc -> eff disc unit) w w' l : (forall d d', drel d d' -> eff_rel drel (g d) (g' d')) -> wrel w w' -> eff_rel wrel (at_label g w l) (at_label g' w' l).
Proof.
  intros Hg HW. unfold at_label. pose proof (wr_discs _ _ HW l) as H. destruct (w_discriminators w !! l) as [d|], (w_discriminators w' !! l) as [d'|]; try contradiction; [|split; [reflexivity|exact HW]].
  specialize (Hg _ _ H). destruct (g d) as [o e], (g' d') as [o' e']. destruct Hg as [E He]. cbn in E, He. subst o'. split; [reflexivity|]. cbn [snd]. apply insert_wrel; assumption.
Qed.
Lemma train1_wrel lhs env w w' x x' l : (forall l, valid_draw (env l)) -> wrel w w' -> ren x x' -> eff_rel wrel (wisard_train1 lhs env w x l) (wisard_train1 lhs env w' x' l).
Proof using Hf Hi.
  intros Hd HW Hx. unfold wisard_train1. pose proof (wr_discs _ _ HW l) as H. rewrite (proj1 Hx).
  assert (G : forall v v', wrel v v' -> eff_rel wrel (at_label (fun d => disc_train d x) v l) (at_label (fun d => disc_train d x') v' l)).
  { intros v v' HV. apply at_wrel; [|exact HV]. intros d d' HD. apply disc_train_rel; assumption. }
  destruct (w_discriminators w !! l) as [d|], (w_discriminators w' !! l) as [d'|]; try contradiction; [apply G, HW|].
  apply eff_bind; [apply make_wrel; [apply Hd|apply s32_range|exact HW]|]. intros _ s s' HS. apply G, HS.
Qed.
Lemma loop_wrel lhs env : (forall l, valid_draw (env l)) -> forall xs xs', Forall2 ren xs xs' -> forall ls w w', wrel w w' -> eff_rel wrel (wisard_train_loop lhs env w xs ls) (wisard_train_loop lhs env w' xs' ls).
Proof using Hf Hi.
  intros Hd. induction 1 as [|x x' xs xs' Hx _ IH]; intros ls w w' HW; cbn [wisard_train_loop]; [split; [reflexivity|exact HW]|]. destruct ls as [|l ls]; [split; [reflexivity|exact HW]|].
  apply eff_bind; [apply train1_wrel; auto|]. intros _ s s' HS. apply IH, HS.
Qed.
Lemma train_wrel lhs env w w' xs xs' ls : (forall l, valid_draw (env l)) -> wrel w w' -> Forall2 ren xs xs' -> eff_rel wrel (wisard_train lhs env w xs ls) (wisard_train lhs env w' xs' ls).
Proof using Hf Hi.
  intros Hd HW HX. assert (El : len xs' = len xs) by (unfold len; rewrite (Forall2_length _ _ _ HX); reflexivity). unfold wisard_train. pose proof HX as HX0. destruct HX as [|x x' xs xs' Hx HX]; [split; [reflexivity|exact HW]|].
  rewrite El, (proj1 Hx). destruct (wrel_field w_addressSize w w' HW ltac:(reflexivity)) as [-> ->]. destruct (wrel_field w_completeAddressing w w' HW ltac:(reflexivity)) as [-> ->]. destruct (wrel_field w_confidence w w' HW ltac:(reflexivity)) as [-> ->].
  destruct (calculateNumberOfRams _ _ _); [|split; [reflexivity|exact HW]..]. destruct (checkConfidence _ _); [|split; [reflexivity|exact HW]..]. destruct (checkInputSizes _ _); [|split; [reflexivity|exact HW]..]. apply loop_wrel; assumption.
Qed.
Lemma leave_wrel w w' x x' l : wrel w w' -> ren x x' -> eff_rel wrel (leaveOneOut w x l) (leaveOneOut w' x' l).
Proof using Hf.
  intros HW Hx. unfold leaveOneOut. pose proof (wr_discs _ _ HW l) as H. destruct (w_discriminators w !! l) as [d|], (w_discriminators w' !! l) as [d'|]; try contradiction; [|split; [reflexivity|exact HW]].
  apply at_wrel; [|exact HW]. intros e e' HE. apply disc_untrain_rel; assumption.
Qed.
Lemma more_wrel w w' xs xs' ls : wrel w w' -> Forall2 ren xs xs' -> eff_rel wrel (leaveMoreOut w xs ls) (leaveMoreOut w' xs' ls).
Proof using Hf.
  intros HW HX. unfold leaveMoreOut. assert (len xs' = len xs) as -> by (unfold len; rewrite (Forall2_length _ _ _ HX); reflexivity). destruct (checkInputSizes _ _); [|split; [reflexivity|exact HW]..].
  revert ls w w' HW. induction HX as [|x x' xs xs' Hx _ IH]; intros ls w w' HW; cbn [leaveMoreOut_loop]; [split; [reflexivity|exact HW]|]. destruct ls as [|l ls]; [split; [reflexivity|exact HW]|].
  apply eff_bind; [apply leave_wrel; assumption|]. intros _ s s' HS. apply IH, HS.
Qed.
Lemma wrun_wrel lhs cs cs' : Forall2 (renamed_wcall f (w_base w0)) cs cs' -> forall w w', wrel w w' -> fst (outcomes (wcall_run lhs) w' cs') = fst (outcomes (wcall_run lhs) w cs) /\ wrel (snd (outcomes (wcall_run lhs) w cs)) (snd (outcomes (wcall_run lhs) w' cs')).
Proof using Hf Hi.
  intros H w w' HW. apply (outcomes_rel wrel (renamed_wcall f (w_base w0))); [|exact H|exact HW]. intros s s' c c' HS [env xs xs' ls Hd HX|x x' l Hx|xs xs' ls HX]; cbn [wcall_run]; [apply train_wrel|apply leave_wrel|apply more_wrel]; assumption.
Qed.
Lemma candidates_wrel w w' x x' : wrel w w' -> ren x x' -> wisard_candidates w' x' = wisard_candidates w x.
Proof using Hf.
  intros HW Hx. unfold wisard_candidates. destruct (wrel_field w_bleachingActivated w w' HW ltac:(reflexivity)) as [-> ->]. destruct (wrel_field w_searchBestConfidence w w' HW ltac:(reflexivity)) as [-> ->]. destruct (wrel_field w_confidence w w' HW ltac:(reflexivity)) as [-> ->].
  assert (all_votes (w_discriminators w') x' = all_votes (w_discriminators w) x) as ->; [|reflexivity]. unfold all_votes. pose proof (sorted_pairs drel _ _ (wr_discs _ _ HW)) as H.
  assert (rmapM (fun kd : str * disc => let* v := disc_classify kd.2 x' in Ok (kd.1, v)) (sorted_items (w_discriminators w')) = rmapM (fun kd : str * disc => let* v := disc_classify kd.2 x in Ok (kd.1, v)) (sorted_items (w_discriminators w))) as ->; [|reflexivity].
  induction H as [|[l d] [l' d'] m m' [El HD] _ IH]; [reflexivity|]. cbn in El, HD. subst l'. cbn [rmapM fst snd]. rewrite (disc_classify_rel f _ _ Hf d d' x x' HD Hx), IH. reflexivity.
Qed.
Lemma classify_wrel w w' xs xs' : wrel w w' -> Forall2 ren xs xs' -> wisard_classify w' xs' = wisard_classify w xs.
Proof using Hf. intros HW HX. unfold wisard_classify. induction HX as [|x x' xs xs' Hx _ IH]; [reflexivity|]. cbn [rmapM]. rewrite IH. unfold wisard_classify1. rewrite (candidates_wrel w w' x x' HW Hx). reflexivity. Qed.
Lemma start_wrel : w_discriminators w0 = ∅ -> wrel w0 w0.
Proof. intros E. constructor; [reflexivity|reflexivity|]. intros l. rewrite E, lookup_empty. exact I. Qed.
End wis.
