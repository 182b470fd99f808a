(** Property theorem C158: the labels of a ClusWisard are only names. Vocabulary in SpecClusRename.v. *)
From Verif Require Import Prelude Bytes Utils BinInput Float32 Bleaching Ram Disc DataSet Wisard Cluster ClusWisard SpecDisc SpecBleach SpecWisard SpecClus SpecClusRename.
From Verif Require Import ClusProofs ClusOne ClusLabels PropsCluster PropsClus.

(** C158: false: a tie goes to the label that is last in the alphabet. *)
Definition ktie : list kcall := [KTrain envs [x1; x1] [ka; kb]].
Definition swapped (l : str) : str := if bool_decide (l = ka) then kb else if bool_decide (l = kb) then ka else l.
Lemma swapped_twice l : swapped (swapped l) = l.
Proof.
  unfold swapped. destruct (decide (l = ka)) as [->|H1]; [reflexivity|]. destruct (decide (l = kb)) as [->|H2]; [reflexivity|].
  rewrite (bool_decide_eq_false_2 _ H1), (bool_decide_eq_false_2 _ H2), (bool_decide_eq_false_2 _ H1), (bool_decide_eq_false_2 _ H2). reflexivity.
Qed.
Theorem C158_renaming_refuted : Inj (=) (=) swapped /\ swapped kb = ka /\
  fst (krun false (kfg 2) ktie) = Ok tt /\ fst (krun false (kfg 2) (krename_call swapped <$> ktie)) = Ok tt /\
  clus_classify (snd (krun false (kfg 2) ktie)) [x1] = Ok [kb] /\
  clus_classify (snd (krun false (kfg 2) (krename_call swapped <$> ktie))) [x1] = Ok [kb].
Proof.
  split; [intros a b E; rewrite <- (swapped_twice a), <- (swapped_twice b), E; reflexivity|]. vm_compute. auto 10.
Qed.
Print Assumptions C158_renaming_refuted.

(** What holds of every renaming, from every ClusWisard: calls that give a label to every image,
    or to none, have the same outcomes under the new names and lead to the renamed ClusWisard,
    which counts the same votes and has the same mental images. *)
Theorem C158_renamed_calls_partial : forall f lhs_first k cs, Inj (=) (=) f -> Forall decided cs ->
  forall o k', krun lhs_first k cs = (o, k') ->
    krun lhs_first (krename f k) (krename_call f <$> cs) = (o, krename f k') /\
    (forall x v, clus_votes (k_clusters k') x = Ok v -> exists v', clus_votes (k_clusters (krename f k')) x = Ok v' /\
       forall l j, v' !! cluster_key (f l) j = v !! cluster_key l j) /\
    (forall iter M, clus_mental iter k' = Ok M -> clus_mental iter (krename f k') = Ok (kmap f M)).
Proof.
  intros f lhs k cs Hf Hd o k' E. split; [rewrite run_ren by assumption; rewrite E; reflexivity|]. split; [|intros iter M; apply to_mental, _].
  intros x v Hv. exists (kmap (F f) v). split; [apply (votes_ren f), Hv|]. intros l j. rewrite <- F_key. apply (lookup_kmap (F f)).
Qed.
Print Assumptions C158_renamed_calls_partial.

(** What holds of the renamings that keep the order: every history, with unlabelled images too,
    gives the renamed ClusWisard, and the renamed ClusWisard gives the renamed answers. *)
Theorem C158_renamed_answers_partial : forall f D lhs_first k cs k', Inj (=) (=) f -> same_order D f -> k_clusters k = ∅ ->
  Forall (fun c => match c with KTrain _ _ ls => forall l, l ∈ ls -> D l | KSemi _ _ _ m => forall i l, m !! i = Some l -> D l | KUnsupervised _ _ => True end) cs ->
  krun lhs_first k cs = (Ok tt, k') ->
  krun lhs_first k (krename_call f <$> cs) = (Ok tt, krename f k') /\
  (k_clusters k' <> ∅ -> forall xs answers, clus_classify k' xs = Ok answers -> clus_classify (krename f k') xs = Ok (f <$> answers)).
Proof.
  intros f D lhs k cs k' Hf HD H0 Hl E.
  assert (Ek : krename f k = k) by (unfold krename; rewrite H0, kmap_empty; destruct k; cbn in *; subst; reflexivity).
  destruct (sim_run f D HD lhs cs Hl k k' tt) as [Ha E']; [intros l c; rewrite H0, lookup_empty; discriminate|exact E|]. rewrite Ek in E'. split; [exact E'|].
  intros Hne xs. induction xs as [|x xs IH]; intros answers; unfold clus_classify in *; cbn [rmapM]; [intros [= <-]; reflexivity|].
  unfold clus_classify1 at 1 3. destruct (clus_candidates k' x (k_searchBestConfidence k')) as [cand| | |] eqn:Ec; cbn [rbind]; try discriminate.
  change (k_searchBestConfidence (krename f k')) with (k_searchBestConfidence k'). rewrite (candidates_ren f D HD _ _ _ _ Ha Ec). cbn [rbind].
  destruct (answer_ren f D HD _ _ _ _ Ha Ec Hne) as (_ & _ & ->). destruct (rmapM (clus_classify1 k') xs) as [ans| | |] eqn:Er; cbn [rbind]; try discriminate. intros [= <-].
  rewrite (IH ans eq_refl). reflexivity.
Qed.
Print Assumptions C158_renamed_answers_partial.

(** Not vacuous: putting the same words before every label keeps the order. *)
Definition called (l : str) : str := lit "class " ++ l.
Definition kcalls : list kcall := [KTrain envs [x1; x2] [ka; kb]; KSemi envs envs [x2; x1] {[ 1 := ka ]}].
Example C158_witness : Inj (=) (=) called /\ same_order (fun l => l = ka \/ l = kb) called /\
  Forall (fun c => match c with KTrain _ _ ls => forall l, l ∈ ls -> l = ka \/ l = kb | KSemi _ _ _ m => forall i l, m !! i = Some l -> l = ka \/ l = kb | KUnsupervised _ _ => True end) kcalls /\
  fst (krun false (kfg 2) kcalls) = Ok tt /\ clus_classify (snd (krun false (kfg 2) kcalls)) [x1; x2] = Ok [ka; kb] /\
  clus_classify (snd (krun false (kfg 2) (krename_call called <$> kcalls))) [x1; x2] = Ok [lit "class a"; lit "class b"].
Proof.
  split; [intros a b E; unfold called in E; apply app_inv_head in E; exact E|]. split; [|split].
  - split.
    + assert (G : forall l : str, ":"%char ∉ l -> plain_label l).
      { intros l H. split; intros a; [intros b|]; intros ->; apply H; apply elem_of_app; right; left. }
      intros l [-> | ->]; split; apply G; vm_compute; intros H; repeat (apply elem_of_cons in H as [H|H]; [discriminate|]); inversion H.
    + intros a b i j _ _ _ H. unfold called, cluster_key in *. rewrite <- !app_assoc. apply str_lt_prefix. exact H.
  - apply Forall_cons_2; [|apply Forall_cons_2; [|apply Forall_nil_2]].
    + intros l H. repeat (apply elem_of_cons in H as [->|H]; [auto|]). inversion H.
    + intros i l H. apply lookup_singleton_Some in H as [_ <-]. auto.
  - vm_compute. auto.
Qed.
