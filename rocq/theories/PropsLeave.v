(** Property theorems C129-C130: leaving examples out (cross-validation). Vocabulary in
    SpecWisard.v (calls and their labelled examples) and SpecDisc.v (histories of one
    discriminator). *)
From Verif Require Import Prelude Bytes Utils BinInput Bleaching Ram Disc Wisard SpecBin SpecDisc SpecBleach SpecWisard.
From Verif Require Import CtorFacts DiscFacts PropsDisc WisardProofs WisardFacts PropsWisard LeaveOut.

(** The labelled images of a fold, as training examples. *)
Definition training_pairs (labels : list str) (images : list image) : list (str * dop) := zip labels (Train <$> images).

Lemma training_pairs_elem l x labels : forall images, (l, x) ∈ zip labels images -> (l, Train x) ∈ training_pairs labels images.
Proof.
  unfold training_pairs. induction labels as [|k labels IH]; intros [|y images] H; try (inversion H; fail).
  cbn [zip zip_with] in H. rewrite fmap_cons. cbn [zip zip_with]. apply elem_of_cons in H as [[= -> ->]|H]; [left|right; apply IH, H].
Qed.

(** C129: in any state reached by valid calls, leaving out images that were trained before
    under their labels and then training them again, in whatever order, restores the
    classifier exactly; in between it classifies every well-formed image. No random choice is
    made ([env] is arbitrary). *)
Theorem C129_leave_then_train_restores : forall lhs lhs' env w0 n cs w images labels images' labels',
  w_discriminators w0 = ∅ -> configured w0 n -> Forall (proper_call w0 n) cs -> wrun lhs w0 cs = (Ok tt, w) ->
  images <> [] -> len images = len labels -> training_pairs labels images ⊆ all_examples cs ->
  len images' = len labels' -> zip labels' images' ≡ₚ zip labels images ->
  len (all_examples cs) + 2 * len images <= INT_MAX - 2 ->
  exists w1, leaveMoreOut w images labels = (Ok tt, w1) /\
    (forall zs, Forall (plain_image (w_base w0) n) zs -> exists ks, wisard_classify w1 zs = Ok ks /\ len ks = len zs) /\
    wisard_train lhs' env w1 images' labels' = (Ok tt, w).
Proof.
  intros lhs lhs' env w0 n cs w images labels images' labels' H0 Hc Hp Hw Hne Hl Hsub Hl' Hperm Hmax.
  assert (Htr : forall l x, (l, x) ∈ zip labels images -> (l, Train x) ∈ all_examples cs).
  { intros l x H. apply Hsub, training_pairs_elem, H. }
  pose proof (TextProofs.len_nonneg images).
  destruct (restored lhs w0 n cs w images labels H0 Hc Hp Hw Hl Htr images' labels' lhs' env ltac:(lia) Hne Hl' Hperm) as (w1 & E1 & E2).
  destruct (left_classifies lhs w0 n cs w images labels H0 Hc Hp Hw Hl Htr ltac:(lia)) as (w1' & E1' & Hk).
  rewrite E1 in E1'. injection E1' as <-. exists w1. auto.
Qed.
Print Assumptions C129_leave_then_train_restores.

(** One round of a cross-validation: leave the fold out, classify it, train it back. *)
Definition fold_round (lhs : bool) (w : wisard) (f : (str -> draw) * list image * list str) : eff wisard unit :=
  let '(env, images, labels) := f in
  ebind (leaveMoreOut w images labels) (fun _ w1 =>
  ebind (wisard_classify w1 images, w1) (fun _ w2 => wisard_train lhs env w2 images labels)).
(** A whole cross-validation over folds of trained examples leaves the classifier as it was. *)
Theorem C129_cross_validation : forall lhs lhs' w0 n cs w folds,
  w_discriminators w0 = ∅ -> configured w0 n -> Forall (proper_call w0 n) cs -> wrun lhs w0 cs = (Ok tt, w) ->
  Forall (fun f : (str -> draw) * list image * list str => let '(env, images, labels) := f in
    images <> [] /\ len images = len labels /\ training_pairs labels images ⊆ all_examples cs /\
    len (all_examples cs) + 2 * len images <= INT_MAX - 2) folds ->
  efor (fold_round lhs') folds w = (Ok tt, w).
Proof.
  intros lhs lhs' w0 n cs w folds H0 Hc Hp Hw Hf.
  induction Hf as [|[[env images] labels] folds (Hne & Hl & Hsub & Hmax) Hf IH]; [reflexivity|]. cbn [efor].
  destruct (C129_leave_then_train_restores lhs lhs' env w0 n cs w images labels images labels H0 Hc Hp Hw Hne Hl Hsub Hl (Permutation_refl _) Hmax)
    as (w1 & E1 & Hk & E2).
  assert (Hpl : Forall (plain_image (w_base w0) n) images).
  { apply Forall_forall. intros x Hx. apply len_length in Hl. destruct (zip_elem_r labels images x Hl Hx) as (l & Hlx).
    apply (trained_proper w0 n cs l x Hp). apply Hsub, training_pairs_elem, Hlx. }
  destruct (Hk images Hpl) as (ks & Ek & _). cbn [fold_round]. rewrite E1. cbn [ebind]. rewrite Ek. cbn [ebind]. rewrite E2. cbn [ebind]. exact IH.
Qed.
Print Assumptions C129_cross_validation.

(** One example with leaveOneOut. *)
Theorem C129_leave_one_out : forall lhs lhs' env w0 n cs w x l,
  w_discriminators w0 = ∅ -> configured w0 n -> Forall (proper_call w0 n) cs -> wrun lhs w0 cs = (Ok tt, w) ->
  (l, Train x) ∈ all_examples cs -> len (all_examples cs) <= INT_MAX - 4 ->
  exists w1, leaveOneOut w x l = (Ok tt, w1) /\ wisard_train lhs' env w1 [x] [l] = (Ok tt, w).
Proof.
  intros lhs lhs' env w0 n cs w x l H0 Hc Hp Hw Hx Hmax.
  destruct (C129_leave_then_train_restores lhs lhs' env w0 n cs w [x] [l] [x] [l] H0 Hc Hp Hw) as (w1 & E1 & _ & E2).
  - discriminate.
  - reflexivity.
  - intros e He. apply elem_of_list_singleton in He. subst e. exact Hx.
  - reflexivity.
  - reflexivity.
  - change (len [x]) with 1. lia.
  - exists w1. split; [|exact E2]. unfold leaveMoreOut in E1. change (len [x]) with 1 in E1. change (len [l]) with 1 in E1.
    unfold checkInputSizes in E1. rewrite Z.eqb_refl in E1. cbn [leaveMoreOut_loop] in E1.
    destruct (leaveOneOut w x l) as [[[]|e|u|] w']; cbn [ebind] in E1; try discriminate. injection E1 as <-. reflexivity.
Qed.
Print Assumptions C129_leave_one_out.

(** The same for one discriminator: untrain trained images, train them back in any order. *)
Theorem C129_discriminator : forall d0 h d ys zs,
  constructed d0 -> all_valid d0 h -> run d0 h = (Ok tt, d) -> (Train <$> ys) ⊆ h -> zs ≡ₚ ys -> len h + 2 * len ys <= INT_MAX ->
  exists d1, run d (Untrain <$> ys) = (Ok tt, d1) /\ run d1 (Train <$> zs) = (Ok tt, d).
Proof.
  intros d0 h d ys zs Hc Hv E Hy Hp Hl. apply (disc_restored d0 h d ys zs Hc Hv); auto.
  apply Forall_forall. intros y H. apply Hy. apply elem_of_list_fmap. exists y. auto.
Qed.
Print Assumptions C129_discriminator.

Definition trained4 : list wcall := [ CTrain env0 [w1; w2; w3] [hot; cold; hot]; CTrain env0 [w2; w1] [cold; hot] ].
Example C129_witness :
  w_discriminators cfg = ∅ /\ configured cfg 4 /\ Forall (proper_call cfg 4) trained4 /\
  training_pairs [hot; cold] [w3; w2] ⊆ all_examples trained4 /\
  training_pairs [hot; hot] [w1; w1] ⊆ all_examples trained4 /\
  zip [cold; hot] [w2; w3] ≡ₚ zip [hot; cold] [w3; w2] /\
  wisard_classify (snd (leaveMoreOut (snd (wrun true cfg trained4)) [w1; w1] [hot; hot])) [w1; w3; w2] = Ok [hot; hot; cold] /\
  getNumberOfTrainings (default demo (w_discriminators (snd (leaveMoreOut (snd (wrun true cfg trained4)) [w1; w1] [hot; hot])) !! hot)) = 1.
Proof.
  split; [reflexivity|]. split; [exact cfg_configured|]. split; [|split; [|split; [|split; [apply perm_swap|split; vm_compute; reflexivity]]]].
  - destruct w_plain as (H1 & H2 & H3). pose proof cfg_learns as Hl. assert (Hd : forall l, valid_draw (env0 l)) by (intros; apply some_draw_valid). unfold trained4.
    repeat (apply Forall_cons; split; [split; [cbn; repeat (apply Forall_cons; split; [cbn; assumption|]); apply Forall_nil; exact I|]|]); try apply Forall_nil; try exact I.
    + split; [discriminate|]. split; [reflexivity|]. split; [|exact Hd]. repeat (apply Forall_cons; split; [apply Hl|]). apply Forall_nil. exact I.
    + split; [discriminate|]. split; [reflexivity|]. split; [|exact Hd]. repeat (apply Forall_cons; split; [apply Hl|]). apply Forall_nil. exact I.
  - intros e He. cbn in He. rewrite !elem_of_cons in He. cbn. rewrite !elem_of_cons. destruct He as [-> | [-> | He]]; [tauto|tauto|inversion He].
  - intros e He. cbn in He. rewrite !elem_of_cons in He. cbn. rewrite !elem_of_cons. destruct He as [-> | [-> | He]]; [tauto|tauto|inversion He].
Qed.

(** C130, as one would state it: after leaving an example out, classification is that of a
    classifier that never saw it. False: when it was the only example of its label, the label
    stays a candidate, and wins ties against the labels before it. *)
Definition early := lit "early".
Definition late := lit "late".
Theorem C130_left_out_refuted : exists lhs w0 n x y l k z wa wb wl,
  w_discriminators w0 = ∅ /\ configured w0 n /\
  Forall (proper_call w0 n) [CTrain env0 [y; x] [k; l]] /\ Forall (proper_call w0 n) [CTrain env0 [y] [k]] /\
  plain_image (w_base w0) n z /\
  wrun lhs w0 [CTrain env0 [y; x] [k; l]] = (Ok tt, wa) /\ wrun lhs w0 [CTrain env0 [y] [k]] = (Ok tt, wb) /\
  leaveOneOut wa x l = (Ok tt, wl) /\
  wisard_classify wl [z] = Ok [l] /\ wisard_classify wb [z] = Ok [k].
Proof.
  exists true, cfg, 4, w1, w2, late, early, (vec_image [0; 1; 0; 1]),
    (snd (wrun true cfg [CTrain env0 [w2; w1] [early; late]])), (snd (wrun true cfg [CTrain env0 [w2] [early]])),
    (snd (leaveOneOut (snd (wrun true cfg [CTrain env0 [w2; w1] [early; late]])) w1 late)).
  split; [reflexivity|]. split; [exact cfg_configured|].
  destruct w_plain as (H1 & H2 & H3). pose proof cfg_learns as Hl. assert (Hd : forall l, valid_draw (env0 l)) by (intros; apply some_draw_valid).
  split; [|split; [|split; [apply plain4; unfold is_bit; auto|]]].
  - apply Forall_cons; split; [|apply Forall_nil; exact I]. split; [cbn; repeat (apply Forall_cons; split; [cbn; assumption|]); apply Forall_nil; exact I|].
    split; [discriminate|]. split; [reflexivity|]. split; [|exact Hd]. repeat (apply Forall_cons; split; [apply Hl|]). apply Forall_nil. exact I.
  - apply Forall_cons; split; [|apply Forall_nil; exact I]. split; [cbn; repeat (apply Forall_cons; split; [cbn; assumption|]); apply Forall_nil; exact I|].
    split; [discriminate|]. split; [reflexivity|]. split; [|exact Hd]. repeat (apply Forall_cons; split; [apply Hl|]). apply Forall_nil. exact I.
  - vm_compute. auto 10.
Qed.
Print Assumptions C130_left_out_refuted.

(** What holds: train any examples in any batches, leave a fold out, and compare with a
    classifier trained on the remaining examples only (in any order and batches), the wiring
    being configured and every label of the fold keeping at least one example: the votes of
    every label, the counts and the class are the same for every image. *)
Theorem C130_left_out_partial : forall lhs lhs' w0 n cs cs' w w' images labels,
  w_discriminators w0 = ∅ -> configured w0 n -> Forall (proper_call w0 n) cs -> Forall (proper_call w0 n) cs' ->
  training_only cs -> training_only cs' -> (forall l, wiring_fixed w0 l) ->
  len images = len labels ->
  all_examples cs ≡ₚ training_pairs labels images ++ all_examples cs' ->
  Forall (fun l => trained l (all_examples cs')) labels ->
  len (all_examples cs) + len images <= INT_MAX - 2 ->
  wrun lhs w0 cs = (Ok tt, w) -> wrun lhs' w0 cs' = (Ok tt, w') ->
  exists w1, leaveMoreOut w images labels = (Ok tt, w1) /\
    forall zs, Forall (plain_image (w_base w0) n) zs ->
      Forall (fun z => all_votes (w_discriminators w1) z = all_votes (w_discriminators w') z /\
                       wisard_candidates w1 z = wisard_candidates w' z) zs /\
      wisard_classify w1 zs = wisard_classify w' zs.
Proof.
  intros lhs lhs' w0 n cs cs' w w' images labels H0 Hc Hp Hp' Ht Ht' Hf Hl Hperm Hlab Hmax E E'.
  assert (Epairs : training_pairs labels images = trains_of (zip labels images)).
  { clear. unfold training_pairs, trains_of. revert images. induction labels as [|k labels IH]; intros [|y images]; try reflexivity.
    rewrite fmap_cons. cbn [zip zip_with]. rewrite fmap_cons. f_equal. apply IH. }
  rewrite Epairs in Hperm.
  destruct (left_as_never lhs lhs' w0 n cs cs' w w' images labels H0 Hc Hp Hp' Ht Ht' Hf Hl Hperm Hlab Hmax E E') as (w1 & E1 & H).
  exists w1. split; [exact E1|]. intros zs Hzs. split.
  - eapply Forall_impl; [exact Hzs|]. intros z Hz. destruct (H z Hz) as (A & B & _). auto.
  - unfold wisard_classify. induction Hzs as [|z zs Hz Hzs IH]; [reflexivity|]. cbn [rmapM]. destruct (H z Hz) as (_ & _ & ->). rewrite IH. reflexivity.
Qed.
Print Assumptions C130_left_out_partial.
(** For one discriminator no condition on the remaining examples is needed. *)
Theorem C130_discriminator_partial : forall d0 xs ys zs z,
  constructed d0 -> Forall (valid_image d0) xs -> xs ≡ₚ ys ++ zs -> valid_image d0 z -> 2 * len xs <= INT_MAX ->
  exists d d', run d0 ((Train <$> xs) ++ (Untrain <$> ys)) = (Ok tt, d) /\ run d0 (Train <$> zs) = (Ok tt, d') /\
    disc_classify d z = disc_classify d' z /\ getNumberOfTrainings d = getNumberOfTrainings d'.
Proof. exact disc_left. Qed.
Print Assumptions C130_discriminator_partial.
Example C130_witness : training_only trained4 /\ training_only [CTrain env0 [w2; w1; w3] [cold; hot; hot]] /\
  (forall l, wiring_fixed cfg l) /\
  all_examples trained4 ≡ₚ training_pairs [hot; cold] [w1; w2] ++ all_examples [CTrain env0 [w2; w1; w3] [cold; hot; hot]] /\
  wisard_classify (snd (leaveMoreOut (snd (wrun true cfg trained4)) [w1; w2] [hot; cold])) [w1; w3; w2] = Ok [hot; hot; cold] /\
  wisard_classify (snd (wrun true cfg [CTrain env0 [w2; w1; w3] [cold; hot; hot]])) [w1; w3; w2] = Ok [hot; hot; cold].
Proof.
  split; [repeat constructor|]. split; [repeat constructor|]. split; [intros l; right; discriminate|].
  split; [|split; vm_compute; reflexivity]. cbn.
  apply perm_skip, perm_skip. 
  etransitivity; [apply perm_swap|]. apply perm_skip. apply perm_swap.
Qed.
