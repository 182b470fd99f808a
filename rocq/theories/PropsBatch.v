(** Property theorem C135: the images of a batch are answered independently. *)
From Verif Require Import Prelude Bytes Utils Float32 BinInput Bleaching Ram Disc DataSet Wisard Cluster ClusWisard Wrapper SpecDisc SpecWisard.
From Verif Require Import WisardFacts WisardProofs JsonOptionsProofs PropsWisard PropsCluster PropsClus.

(** Each answer is the one its image gets alone. *)
Definition one_by_one {A B} (f : list A -> res (list B)) (xs : list A) (ys : list B) : Prop :=
  Forall2 (fun x y => f [x] = Ok [y]) xs ys.

Lemma alone {A B} (g : A -> res B) x y : rmapM g [x] = Ok [y] <-> g x = Ok y.
Proof. cbn [rmapM]. destruct (g x); cbn [rbind]; split; congruence. Qed.
Lemma map_one_by_one {A B} (g : A -> res B) xs ys : rmapM g xs = Ok ys <-> one_by_one (rmapM g) xs ys.
Proof. rewrite rmapM_iff. unfold one_by_one. split; intros H; (eapply Forall2_impl; [exact H|]); intros x y; apply alone. Qed.

(** C135: classify(images) succeeds with answers ys exactly when each image alone succeeds with
    its own answer, for Wisard and for both classify functions of ClusWisard. *)
Theorem C135_batch : forall w k xs ys,
  (wisard_classify w xs = Ok ys <-> one_by_one (wisard_classify w) xs ys) /\
  (clus_classify k xs = Ok ys <-> one_by_one (clus_classify k) xs ys) /\
  (clus_classifyUnsupervised k xs = Ok ys <-> one_by_one (clus_classifyUnsupervised k) xs ys).
Proof. intros w k xs ys. split; [apply map_one_by_one|split; apply map_one_by_one]. Qed.
Print Assumptions C135_batch.
(** Otherwise the call fails as its first failing image does alone. *)
Definition fails_as_first {A B} (f : list A -> res (list B)) (xs : list A) (o : res (list B)) : Prop :=
  exists xs1 x xs2, xs = xs1 ++ x :: xs2 /\ (exists ys, f xs1 = Ok ys) /\ f [x] = o.
Lemma map_fails {A B} (g : A -> res B) xs : (forall ys, rmapM g xs <> Ok ys) -> fails_as_first (rmapM g) xs (rmapM g xs).
Proof.
  intros Hn. unfold fails_as_first. induction xs as [|x xs IH]; [exfalso; eapply Hn; reflexivity|].
  destruct (g x) as [y| | |] eqn:Ex.
  - destruct IH as (xs1 & x' & xs2 & -> & (ys & Ey) & E').
    { intros ys Hy. apply (Hn (y :: ys)). cbn [rmapM]. rewrite Ex. cbn [rbind]. rewrite Hy. reflexivity. }
    exists (x :: xs1), x', xs2. split; [reflexivity|]. split; [exists (y :: ys); cbn [rmapM]; rewrite Ex; cbn [rbind]; rewrite Ey; reflexivity|].
    rewrite E'. cbn [rmapM]. rewrite Ex. cbn [rbind]. destruct (rmapM _ (xs1 ++ x' :: xs2)) as [zs| | |] eqn:Ez; try reflexivity.
    exfalso. apply (Hn (y :: zs)). cbn [app rmapM]. rewrite Ex. cbn [rbind]. rewrite Ez. reflexivity.
  - exists [], x, xs. split; [reflexivity|]. split; [exists []; reflexivity|]. cbn [rmapM]. rewrite Ex. reflexivity.
  - exists [], x, xs. split; [reflexivity|]. split; [exists []; reflexivity|]. cbn [rmapM]. rewrite Ex. reflexivity.
  - exists [], x, xs. split; [reflexivity|]. split; [exists []; reflexivity|]. cbn [rmapM]. rewrite Ex. reflexivity.
Qed.
Theorem C135_batch_failure : forall w k xs o, (forall ys, o <> Ok ys) ->
  (wisard_classify w xs = o -> fails_as_first (wisard_classify w) xs o) /\
  (clus_classify k xs = o -> fails_as_first (clus_classify k) xs o) /\
  (clus_classifyUnsupervised k xs = o -> fails_as_first (clus_classifyUnsupervised k) xs o).
Proof. intros w k xs o Hn. split; [|split]; intros <-; apply map_fails; exact Hn. Qed.
Print Assumptions C135_batch_failure.
(** The same in Python, with degrees and confidences, for images of one size. *)
Theorem C135_python_batch : forall w k xs ys n, xs <> [] -> Forall (fun x => im_size x = n) xs ->
  (py_classify w xs = Ok ys <-> one_by_one (py_classify w) xs ys) /\
  (py_clus_classify k xs = Ok ys <-> one_by_one (py_clus_classify k) xs ys).
Proof.
  intros w k xs ys n Hne HF. split.
  - unfold py_classify at 1. destruct xs as [|x0 xs]; [congruence|]. assert (H0 : im_size x0 = n) by (apply Forall_cons in HF as [? _]; assumption). rewrite H0.
    assert (E : forall x y, x ∈ x0 :: xs -> py_classify w [x] = Ok [y] <-> (let* m := calculateNumberOfRams (s32 n) (w_addressSize w) (w_completeAddressing w) in
      let* candidates := wisard_candidates w x in Ok (classify_output (w_returnActivationDegree w) (w_returnConfidence w) (w_returnClassesDegrees w)
              (fun k => k) (f32_of_Z m) (getBiggestCandidate candidates) candidates)) = Ok y).
    { intros x y Hx. unfold py_classify. rewrite Forall_forall in HF. rewrite (HF x Hx). destruct (calculateNumberOfRams _ _ _); cbn [rbind]; [cbn [rmapM]; destruct (wisard_candidates w x); cbn [rbind]; split; congruence|split; discriminate..]. }
    destruct (calculateNumberOfRams (s32 n) (w_addressSize w) (w_completeAddressing w)) as [m| | |]; cbn [rbind] in *.
    { rewrite rmapM_iff. unfold one_by_one. clear - E. split; intros H; (apply Forall2_same_length_lookup_2; [eapply Forall2_length; exact H|]); intros i x y Hx Hy;
        pose proof (Forall2_lookup_lr _ _ _ _ _ _ H Hx Hy) as Hxy; apply (E x y ltac:(eapply elem_of_list_lookup_2; exact Hx)); exact Hxy. }
    all: split; [discriminate|]; intros H; inversion H as [|? y ? ? Hy _]; subst; apply (E x0 y ltac:(left)) in Hy; discriminate.
  - unfold py_clus_classify at 1. destruct xs as [|x0 xs]; [congruence|]. assert (H0 : im_size x0 = n) by (apply Forall_cons in HF as [? _]; assumption). rewrite H0.
    assert (E : forall x y, x ∈ x0 :: xs -> py_clus_classify k [x] = Ok [y] <-> (let* m := calculateNumberOfRams (s32 n) (k_addressSize k) (k_completeAddressing k) in
      let* candidates := clus_candidates k x (k_searchBestConfidence k) in Ok (classify_output (k_returnActivationDegree k) (k_returnConfidence k) (k_returnClassesDegrees k)
              before_colons (f32_of_Z m) (getBiggestCandidate candidates) candidates)) = Ok y).
    { intros x y Hx. unfold py_clus_classify. rewrite Forall_forall in HF. rewrite (HF x Hx). destruct (calculateNumberOfRams _ _ _); cbn [rbind]; [cbn [rmapM]; destruct (clus_candidates k x _); cbn [rbind]; split; congruence|split; discriminate..]. }
    destruct (calculateNumberOfRams (s32 n) (k_addressSize k) (k_completeAddressing k)) as [m| | |]; cbn [rbind] in *.
    { rewrite rmapM_iff. unfold one_by_one. clear - E. split; intros H; (apply Forall2_same_length_lookup_2; [eapply Forall2_length; exact H|]); intros i x y Hx Hy;
        pose proof (Forall2_lookup_lr _ _ _ _ _ _ H Hx Hy) as Hxy; apply (E x y ltac:(eapply elem_of_list_lookup_2; exact Hx)); exact Hxy. }
    all: split; [discriminate|]; intros H; inversion H as [|? y ? ? Hy _]; subst; apply (E x0 y ltac:(left)) in Hy; discriminate.
Qed.
Print Assumptions C135_python_batch.
(** Not vacuous: a trained Wisard, three images, one order and another. *)
Example C135_witness : wisard_classify (snd (wrun false cfg calls)) [w1; w2; w3] = Ok [hot; cold; hot] /\
  wisard_classify (snd (wrun false cfg calls)) [w2] = Ok [cold] /\ wisard_classify (snd (wrun false cfg calls)) [w3; w2] = Ok [hot; cold] /\
  (exists ys, py_classify (snd (wrun false cfg calls)) [w1; w2; w3] = Ok ys /\ length ys = 3%nat) /\ Forall (fun x => im_size x = 4) [w1; w2; w3].
Proof.
  split; [vm_compute; reflexivity|]. split; [vm_compute; reflexivity|]. split; [vm_compute; reflexivity|]. split; [eexists; split; [vm_compute; reflexivity|reflexivity]|].
  repeat constructor.
Qed.
