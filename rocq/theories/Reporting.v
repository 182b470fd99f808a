(** Reporting options do not influence learning and answers (for C145). *)
From Verif Require Import Prelude Bytes Utils Float32 BinInput Bleaching DataSet Disc Wisard Cluster ClusWisard Wrapper SpecWisard SpecClus SpecReporting.

Section Flags.
Context (v rc ra rd : bool).
Notation rep := (set_reporting v rc ra rd).
Notation krep := (set_clus_reporting v rc ra rd).

Definition lift {A} (r : eff wisard A) : eff wisard A := let '(o, w) := r in (o, rep w).
Lemma lift_bind {A B} (r : eff wisard A) (g : A -> wisard -> eff wisard B) :
  (forall a w, g a (rep w) = lift (g a w)) -> ebind (lift r) g = lift (ebind r g).
Proof. intros H. destruct r as [[a| | |] w]; cbn; auto. Qed.
Lemma at_label_rep g w l : at_label g (rep w) l = lift (at_label g w l).
Proof. unfold at_label. cbn [set_reporting w_discriminators]. destruct (w_discriminators w !! l); [|reflexivity]. destruct (g d). reflexivity. Qed.
Lemma make_rep lhs dr w l e : makeDiscriminator lhs dr (rep w) l e = lift (makeDiscriminator lhs dr w l e).
Proof.
  unfold makeDiscriminator. change (construct_discriminator dr (rep w) l e) with (construct_discriminator dr w l e).
  destruct (construct_discriminator dr w l e); try reflexivity. destruct lhs; reflexivity.
Qed.
Lemma train1_rep lhs env w x l : wisard_train1 lhs env (rep w) x l = lift (wisard_train1 lhs env w x l).
Proof.
  unfold wisard_train1. cbn [set_reporting w_discriminators]. destruct (w_discriminators w !! l); [apply at_label_rep|].
  change (Wisard _ _ _ _ _ _ _ _ _ _ _ _ _ _) with (rep w). rewrite make_rep. apply lift_bind. intros _ w'. apply at_label_rep.
Qed.
Lemma train_loop_rep lhs env : forall xs ls w, wisard_train_loop lhs env (rep w) xs ls = lift (wisard_train_loop lhs env w xs ls).
Proof. induction xs as [|x xs IH]; intros [|l ls] w; try reflexivity. cbn [wisard_train_loop]. rewrite train1_rep. apply lift_bind. intros _ w'. apply IH. Qed.
Lemma train_rep lhs env w xs ls : wisard_train lhs env (rep w) xs ls = lift (wisard_train lhs env w xs ls).
Proof.
  unfold wisard_train. destruct xs as [|x xs]; [reflexivity|]. cbn [set_reporting w_addressSize w_completeAddressing w_confidence]. change (Wisard _ _ _ _ _ _ _ _ _ _ _ _ _ _) with (rep w).
  destruct (calculateNumberOfRams _ _ _); try reflexivity. destruct (checkConfidence _ _); try reflexivity. destruct (checkInputSizes _ _); try reflexivity. apply train_loop_rep.
Qed.
Lemma train_ds_loop_rep lhs env ds : forall data i w, wisard_train_ds_loop lhs env ds data i (rep w) = lift (wisard_train_ds_loop lhs env ds data i w).
Proof.
  induction data as [|b data IH]; intros i w; [reflexivity|]. cbn [wisard_train_ds_loop]. destruct (ds_getLabel ds i); try reflexivity. rewrite train1_rep. apply lift_bind. intros _ w'. apply IH.
Qed.
Lemma train_ds_rep lhs env w ds : wisard_train_ds lhs env (rep w) ds = lift (wisard_train_ds lhs env w ds).
Proof.
  unfold wisard_train_ds. destruct (ds_data ds) as [|b data]; [reflexivity|]. cbn [set_reporting w_addressSize w_completeAddressing w_confidence]. change (Wisard _ _ _ _ _ _ _ _ _ _ _ _ _ _) with (rep w).
  destruct (calculateNumberOfRams _ _ _); try reflexivity. destruct (checkConfidence _ _); try reflexivity. apply train_ds_loop_rep.
Qed.
Lemma leave1_rep w x l : leaveOneOut (rep w) x l = lift (leaveOneOut w x l).
Proof. unfold leaveOneOut. cbn [set_reporting w_discriminators]. destruct (w_discriminators w !! l); [apply at_label_rep|reflexivity]. Qed.
Lemma leave_loop_rep : forall xs ls w, leaveMoreOut_loop (rep w) xs ls = lift (leaveMoreOut_loop w xs ls).
Proof. induction xs as [|x xs IH]; intros [|l ls] w; try reflexivity. cbn [leaveMoreOut_loop]. rewrite leave1_rep. apply lift_bind. intros _ w'. apply IH. Qed.
Lemma leave_rep w xs ls : leaveMoreOut (rep w) xs ls = lift (leaveMoreOut w xs ls).
Proof. unfold leaveMoreOut. destruct (checkInputSizes _ _); try reflexivity. apply leave_loop_rep. Qed.
Lemma wrun_rep lhs cs : forall w, wrun lhs (rep w) cs = lift (wrun lhs w cs).
Proof.
  unfold wrun. induction cs as [|c cs IH]; intros w; [reflexivity|]. cbn [efor].
  assert (wcall_run lhs (rep w) c = lift (wcall_run lhs w c)) as ->.
  { destruct c; cbn [wcall_run]; [apply train_rep|apply leave1_rep|apply leave_rep]. }
  apply lift_bind. intros _ w'. apply IH.
Qed.
Lemma rmapM_classes {B} (f g : B -> res pyout) : (forall x, (let* o := f x in Ok (class_of o)) = (let* o := g x in Ok (class_of o))) ->
  forall xs, classes_of (rmapM f xs) = classes_of (rmapM g xs).
Proof.
  intros H. induction xs as [|x xs IH]; [reflexivity|]. cbn [rmapM]. specialize (H x). unfold classes_of in *.
  destruct (f x), (g x); cbn [rbind] in *; try congruence. destruct (rmapM f xs), (rmapM g xs); cbn [rbind] in *; try congruence. rewrite !fmap_cons. congruence.
Qed.
Lemma class_same a1 b1 c1 a2 b2 c2 name n l cand : class_of (classify_output a1 b1 c1 name n l cand) = class_of (classify_output a2 b2 c2 name n l cand).
Proof.
  assert (G : forall a b c, class_of (classify_output a b c name n l cand) = name l); [|rewrite !G; reflexivity].
  intros a b c. unfold classify_output. destruct (negb a && negb b && negb c); [reflexivity|]. destruct a; [destruct (cand_get cand l) as [z cd]|]; (destruct b; [destruct (cand_get _ l)|]; reflexivity).
Qed.
Lemma py_rep w xs : classes_of (py_classify (rep w) xs) = classes_of (py_classify w xs).
Proof.
  unfold py_classify. destruct xs as [|x xs]; [reflexivity|]. cbn [set_reporting w_addressSize w_completeAddressing]. destruct (calculateNumberOfRams _ _ _); cbn [rbind]; try reflexivity.
  apply rmapM_classes. intros y. change (Wisard _ _ _ _ _ _ _ _ _ _ _ _ _ _) with (rep w). change (wisard_candidates (rep w) y) with (wisard_candidates w y). destruct (wisard_candidates w y); cbn [rbind]; try reflexivity. f_equal. apply class_same.
Qed.

Definition klift {A} (r : eff cluswisard A) : eff cluswisard A := let '(o, k) := r in (o, krep k).
Lemma klift_bind {A B} (r : eff cluswisard A) (g : A -> cluswisard -> eff cluswisard B) :
  (forall a k, g a (krep k) = klift (g a k)) -> ebind (klift r) g = klift (ebind r g).
Proof. intros H. destruct r as [[a| | |] k]; cbn; auto. Qed.
Lemma at_cluster_rep g k l : at_cluster g (krep k) l = klift (at_cluster g k l).
Proof. unfold at_cluster. cbn [set_clus_reporting k_clusters]. destruct (g _) as [o c]. reflexivity. Qed.
Lemma ktrain1_rep lhs dr k x l : clus_train1 lhs dr (krep k) x l = klift (clus_train1 lhs dr k x l).
Proof.
  unfold clus_train1. cbn [set_clus_reporting k_clusters]. destruct (k_clusters k !! l).
  - apply at_cluster_rep.
  - rewrite <- at_cluster_rep. reflexivity.
Qed.
Lemma elift_rep {A} k (r : res A) : elift (krep k) r = klift (elift k r). Proof. reflexivity. Qed.
Lemma ktrain_loop_rep lhs env : forall xs ls i k, clus_train_loop lhs env i (krep k) xs ls = klift (clus_train_loop lhs env i k xs ls).
Proof.
  induction xs as [|x xs IH]; intros [|l ls] i k; try reflexivity. cbn [clus_train_loop]. rewrite ktrain1_rep. apply klift_bind. intros _ k'. apply IH.
Qed.
Lemma ktrain_rep lhs env k xs ls : clus_train lhs env (krep k) xs ls = klift (clus_train lhs env k xs ls).
Proof.
  unfold clus_train. destruct xs as [|x xs]; [reflexivity|]. change (clus_first_checks (krep k) x) with (clus_first_checks k x).
  rewrite elift_rep. apply klift_bind. intros _ k'. apply ktrain_loop_rep.
Qed.
Lemma unlabelled_rep lhs dr k x : clus_train_unlabelled lhs dr (krep k) x = klift (clus_train_unlabelled lhs dr k x).
Proof.
  unfold clus_train_unlabelled. change (clus_candidates (krep k) x false) with (clus_candidates k x false). rewrite elift_rep. apply klift_bind. intros c k'. apply at_cluster_rep.
Qed.
Lemma semi_loop_rep lhs env (labels : gmap Z str) : forall xs i ls j k, semi_loop lhs env labels i ls j xs (krep k) = klift (semi_loop lhs env labels i ls j xs k).
Proof.
  induction xs as [|x xs IH]; intros i ls j k; [reflexivity|]. cbn [semi_loop]. destruct (labels !! s32 (Z.of_nat i)).
  - rewrite ktrain1_rep. apply klift_bind. intros _ k'. apply IH.
  - destruct (u64 (ls - 1) <? j); [apply IH|]. destruct (j <? ls); [apply IH|reflexivity].
Qed.
Lemma efor_rep {A} (g : cluswisard -> A -> eff cluswisard unit) : (forall k a, g (krep k) a = klift (g k a)) ->
  forall l k, efor g l (krep k) = klift (efor g l k).
Proof. intros H. induction l as [|a l IH]; intros k; [reflexivity|]. cbn [efor]. rewrite H. apply klift_bind. intros _ k'. apply IH. Qed.
Lemma semi_rep lhs env env2 k xs (labels : gmap Z str) : clus_train_semi lhs env env2 (krep k) xs labels = klift (clus_train_semi lhs env env2 k xs labels).
Proof.
  unfold clus_train_semi. destruct xs as [|x xs]; [reflexivity|]. change (clus_first_checks (krep k) x) with (clus_first_checks k x).
  rewrite elift_rep. apply klift_bind. intros _ k'. rewrite semi_loop_rep. apply klift_bind. intros ls k2. destruct (_ =? _); [reflexivity|].
  unfold semi_unlabelled. apply efor_rep. intros k3 i. rewrite elift_rep. apply klift_bind. intros y k4. apply unlabelled_rep.
Qed.
Lemma unsup_rep lhs env k xs : trainUnsupervised lhs env (krep k) xs = klift (trainUnsupervised lhs env k xs).
Proof.
  unfold trainUnsupervised. cbn [set_clus_reporting k_clusters].
  destruct (Nat.eqb _ _); [destruct xs; [reflexivity|]|]; unfold at_unsupervised; cbn [with_unsupervised set_clus_reporting k_unsupervised]; destruct (efor _ _ _) as [o c]; reflexivity.
Qed.
Lemma krun_rep lhs cs k : krun lhs (krep k) cs = klift (krun lhs k cs).
Proof.
  unfold krun. apply efor_rep. intros k' [env xs ls|env env2 xs ls|env xs]; cbn [kcall_run]; [apply ktrain_rep|apply semi_rep|apply unsup_rep].
Qed.
Lemma py_clus_rep k xs : classes_of (py_clus_classify (krep k) xs) = classes_of (py_clus_classify k xs).
Proof.
  unfold py_clus_classify. destruct xs as [|x xs]; [reflexivity|]. cbn [set_clus_reporting k_addressSize k_completeAddressing]. destruct (calculateNumberOfRams _ _ _); cbn [rbind]; try reflexivity.
  apply rmapM_classes. intros y. change (clus_candidates (krep k) y (k_searchBestConfidence (krep k))) with (clus_candidates k y (k_searchBestConfidence k)). destruct (clus_candidates k y _); cbn [rbind]; try reflexivity. f_equal. apply class_same.
Qed.
End Flags.
