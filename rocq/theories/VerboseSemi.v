(** Progress output of semi-supervised training (for C144). *)
From Verif Require Import Prelude Bytes Utils Float32 BinInput Bleaching DataSet Disc Wisard Cluster ClusWisard Wrapper Verbose SpecVerbose SpecClus.
From Verif Require Import ClusMore VerboseProofs.

Lemma semi_loop_i lhs env labels : forall images i ls j k,
  semi_loop lhs env labels i ls j images k =
  (let '(o, (k', ls', _)) := iloop (semi_step lhs env labels) i images (k, ls, j) in (let* _ := o in Ok ls', k')).
Proof.
  induction images as [|im images IH]; intros i ls j k; [reflexivity|]. cbn [semi_loop iloop semi_step]. destruct (labels !! s32 (Z.of_nat i)) as [l|].
  - destruct (clus_train1 lhs (env i) k im l) as [[[]| | |] k']; cbn [ebind]; try reflexivity. apply IH.
  - destruct (u64 (ls - 1) <? j); cbn [ebind]; [apply IH|]. destruct (j <? ls); cbn [ebind]; [apply IH|reflexivity].
Qed.
Lemma semi_unlabelled_i lhs env images : forall m i k,
  efor (fun k i => ebind (elift k (vget images (Z.of_nat i))) (fun im k => clus_train_unlabelled lhs (env i) k im)) (seq i m) k =
  iloop (fun k i (_ : nat) => ebind (elift k (vget images (Z.of_nat i))) (fun im k => clus_train_unlabelled lhs (env i) k im)) i (seq i m) k.
Proof.
  induction m as [|m IH]; intros i k; [reflexivity|]. cbn [seq efor iloop]. match goal with |- context [ebind (elift k ?r) ?f] => destruct (ebind (elift k r) f) as [[[]| | |] k'] end; cbn [ebind]; try reflexivity. apply IH.
Qed.
Lemma semi_quiet lhs env env2 k images labels : fst (clus_train_semi_say lhs env env2 k images labels) = clus_train_semi lhs env env2 k images labels.
Proof.
  unfold clus_train_semi_say, clus_train_semi. destruct images as [|im0 images]; [reflexivity|]. set (xs := im0 :: images).
  rewrite elift_bind_k. destruct (let* _ := clus_first_checks k im0 in _) as [[]| | |]; cbn [checked fst]; try reflexivity.
  rewrite semi_loop_i. pose proof (loud_quiet (k_verbose k) (lit "training supervised") (len xs) (semi_step lhs env labels) xs 0 (k, u32 (len xs - Z.of_nat (size labels)), 0)) as E. rewrite <- (then_end_quiet (k_verbose k)) in E.
  destruct (then_end _ _) as [[o [[k1 ls] j]] t1]. cbn [fst] in E. rewrite <- E. destruct o as [[]| | |]; cbn [rbind ebind fst]; try reflexivity.
  destruct (s32 ls =? s32 (len xs)); [reflexivity|]. unfold semi_unlabelled. rewrite semi_unlabelled_i.
  set (step2 := fun (k : cluswisard) (i : nat) (_ : nat) => ebind (elift k (vget xs (Z.of_nat i))) (fun im k => clus_train_unlabelled lhs (env2 i) k im)).
  pose proof (loud_quiet (k_verbose k) (lit "training unsupervised") ls step2 (seq 0 (Z.to_nat ls)) 0 k1) as Q. rewrite <- (then_end_quiet (k_verbose k)) in Q. rewrite <- Q. destruct (then_end (k_verbose k) (loud (k_verbose k) (lit "training unsupervised") ls step2 0 (seq 0 (Z.to_nat ls)) k1)) as [r t2]. reflexivity.
Qed.

(** What may be written: nothing, the reports of the first loop so far, or also the end of the line and
    the reports of the second. *)
Lemma semi_off lhs env env2 k images labels : k_verbose k = false -> snd (clus_train_semi_say lhs env env2 k images labels) = [].
Proof.
  intros V. unfold clus_train_semi_say. destruct images as [|im0 images]; [reflexivity|]. set (xs := im0 :: images).
  destruct (let* _ := clus_first_checks k im0 in _) as [[]| | |]; cbn [checked snd]; try reflexivity. rewrite V.
  assert (G : forall S X what n (step : S -> nat -> X -> eff S unit) ys s, snd (then_end false (loud false what n step 0 ys s)) = []).
  { intros S X what n step ys s. pose proof (loud_off what n step ys 0 s) as H. destruct (loud _ _ _ _ _ _ _) as [[[[]| | |] s'] t]; cbn in *; subst; reflexivity. }
  match goal with |- context [then_end false ?p] => pose proof (G _ _ (lit "training supervised") (len xs) (semi_step lhs env labels) xs (k, u32 (len xs - Z.of_nat (size labels)), 0)) as E; destruct (then_end false p) as [[o [[k1 ls] j]] t1] end. cbn [snd] in E. subst t1.
  destruct o as [[]| | |]; try reflexivity. destruct (s32 ls =? s32 (len xs)); [reflexivity|].
  match goal with |- context [then_end false ?p] => pose proof (G _ _ (lit "training unsupervised") ls (fun k i (_ : nat) => ebind (elift k (vget xs (Z.of_nat i))) (fun im k => clus_train_unlabelled lhs (env2 i) k im)) (seq 0 (Z.to_nat ls)) k1) as E; destruct (then_end false p) as [r t2] end. exact E.
Qed.
Lemma semi_on lhs env env2 k im0 rest labels : let images := im0 :: rest in
  len images <= INT_MAX -> Z.of_nat (size labels) <= len images ->
  (Z.of_nat (size labels) < len images \/ forall i l, labels !! i = Some l -> 0 <= i < len images) -> k_verbose k = true ->
  let n := length images in let u := length (unlabelled labels images) in
  let first := reports (lit "training supervised") (Z.of_nat n) in let second := reports (lit "training unsupervised") (Z.of_nat u) in
  let t := snd (clus_train_semi_say lhs env env2 k images labels) in
  match fst (clus_train_semi lhs env env2 k images labels) with
  | Ok _ => t = first n ++ line_end ++ second u ++ line_end
  | _ => (exists m, (m <= n)%nat /\ t = first m) \/ (exists m, (m <= u)%nat /\ t = first n ++ line_end ++ second m)
  end.
Proof.
  intros images Hlen Hsz Hc V n u first second. rewrite <- semi_quiet. cbv zeta. remember (clus_train_semi_say lhs env env2 k images labels) as p eqn:Hp.
  unfold clus_train_semi_say in Hp. unfold images at 1 in Hp. cbv iota in Hp. revert Hp.
  destruct (let* _ := clus_first_checks k im0 in _) as [[]| | |] eqn:Eck; cbn [checked snd fst]; [|intros ->; left; exists 0%nat; split; [lia|reflexivity]..].
  rewrite V. intros Hp. set (s0 := (k, u32 (len images - Z.of_nat (size labels)), 0)) in *.
  pose proof (loud_on (lit "training supervised") (len images) (semi_step lhs env labels) images 0 s0) as H1.
  pose proof (loud_quiet true (lit "training supervised") (len images) (semi_step lhs env labels) images 0 s0) as Q1.
  pose proof (semi_loop_i lhs env labels images 0 (u32 (len images - Z.of_nat (size labels))) 0 k) as L1. fold s0 in L1.
  assert (Hs : 0 <= Z.of_nat (size labels)) by lia.
  assert (Hu32 : u32 (len images - Z.of_nat (size labels)) = len images - Z.of_nat (size labels)).
  { unfold u32. apply Z.mod_small. unfold INT_MAX in *. unfold W32. lia. }
  rewrite Hu32 in L1. pose proof (unlabelled_len labels images) as Hu. pose proof (labelled_le labels images) as Hl.
  assert (0 <= len (labelled labels images)) by (unfold len; lia). assert (0 <= len (unlabelled labels images)) by (unfold len; lia).
  rewrite semi_loop_spec in L1; [|cbn; lia|lia|unfold W64, INT_MAX in *; lia|].
  2: { rewrite enum0. fold (unlabelled labels images). destruct Hc as [Hc|Hc]; [left; lia|right]. apply labelled_size in Hc. lia. }
  rewrite !enum0 in L1. fold (labelled labels images) in L1. fold (unlabelled labels images) in L1. rewrite Z.add_0_l, Z.max_r in L1 by lia.
  destruct (iloop (semi_step lhs env labels) 0 images s0) as [o1 [[k1 ls] j1]]. destruct (loud true (lit "training supervised") (len images) (semi_step lhs env labels) 0 images s0) as [r1 t1]. cbn [fst snd] in *. subst r1.
  change (reports_from (lit "training supervised") (len images) 0) with first in H1.
  destruct o1 as [[]| | |]; cbn [then_end fst snd] in *.
  2-4: subst p; destruct H1 as (m & Hm & -> & _ & _); left; exists (Datatypes.S m); split; [unfold n; lia|reflexivity].
  assert (ls = Z.of_nat u) as ->.
  { destruct (efor _ (labelled labels images) k) as [[[]| | |] k2]; cbn [ebind rbind] in L1; try discriminate. injection L1 as <- _. reflexivity. }
  subst t1. destruct (s32 (Z.of_nat u) =? s32 (len images)); cbn [fst snd] in *; [subst p; right; exists 0%nat; split; [lia|]; change (second 0%nat) with (@nil ascii); rewrite app_nil_r; reflexivity|].
  rewrite Nat2Z.id in Hp. set (step2 := fun (k : cluswisard) (i : nat) (_ : nat) => ebind (elift k (vget images (Z.of_nat i))) (fun im k => clus_train_unlabelled lhs (env2 i) k im)) in *.
  pose proof (loud_on (lit "training unsupervised") (Z.of_nat u) step2 (seq 0 u) 0 k1) as H2.
  pose proof (loud_quiet true (lit "training unsupervised") (Z.of_nat u) step2 (seq 0 u) 0 k1) as Q2. rewrite seq_length in H2.
  destruct (loud true (lit "training unsupervised") (Z.of_nat u) step2 0 (seq 0 u) k1) as [[o2 k2] t2]. cbn [fst snd] in *. rewrite <- Q2 in H2. cbn [fst] in H2.
  change (reports_from (lit "training unsupervised") (Z.of_nat u) 0) with second in H2.
  destruct o2 as [[]| | |]; cbn [then_end fst snd say_end] in *; subst p; cbn [fst snd].
  - rewrite H2. unfold line_end. rewrite <- !app_assoc. reflexivity.
  - destruct H2 as (m & Hm & -> & _ & _). right. exists (Datatypes.S m). split; [lia|]. unfold line_end. rewrite <- !app_assoc. reflexivity.
  - destruct H2 as (m & Hm & -> & _ & _). right. exists (Datatypes.S m). split; [lia|]. unfold line_end. rewrite <- !app_assoc. reflexivity.
  - destruct H2 as (m & Hm & -> & _ & _). right. exists (Datatypes.S m). split; [lia|]. unfold line_end. rewrite <- !app_assoc. reflexivity.
Qed.
