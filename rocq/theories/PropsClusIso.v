(** C131: training a ClusWisard on some labels leaves the others alone, and the supervised and
    unsupervised parts do not interfere. *)
From Verif Require Import Prelude Bytes Utils Float32 BinInput Bleaching Ram Disc Wisard Cluster ClusWisard SpecDisc SpecBleach SpecCluster SpecClus.
From Verif Require Import BleachProofs ClusProofs ClusIso PropsCluster PropsClus.

(** C131: a labelled train call, whatever its outcome, does not change what is answered about a
    label it does not name: its mental images, and with bleaching off the number of RAMs of each
    of its discriminators that answer an image. *)
Theorem C131_labels_isolated : forall lhs_first env k images labels o k' B,
  clus_train lhs_first env k images labels = (o, k') -> B ∉ labels ->
  (forall iter, fst (clus_mental1 iter k' B) = fst (clus_mental1 iter k B)) /\
  (forall iter M M', clus_mental iter k = Ok M -> clus_mental iter k' = Ok M' -> M' !! B = M !! B) /\
  (forall best x C C' j, k_bleachingActivated k = false -> clus_candidates k x best = Ok C -> clus_candidates k' x best = Ok C' ->
     C' !! (B ++ lit "::" ++ to_string j) = C !! (B ++ lit "::" ++ to_string j)) /\
  k' = with_clusters k (k_clusters k') /\ k_clusters k' !! B = k_clusters k !! B.
Proof.
  intros lhs env k images labels o k' B E HB. pose proof (ctrain_other lhs env k images labels B HB) as H. pose proof (ctrain_frame lhs env k images labels) as F.
  rewrite E in H, F. cbn [snd] in H, F. split; [|split; [|split; [|split]]].
  - intros iter. unfold clus_mental1. cbn [fst]. rewrite H. reflexivity.
  - intros iter M M'. apply cmental_other, H.
  - intros best x C C' j Hb EC EC'. unfold clus_candidates in *. assert (Hb' : k_bleachingActivated k' = false) by (rewrite F; exact Hb). rewrite Hb in EC. rewrite Hb' in EC'.
    destruct (clus_votes (k_clusters k) x) as [v| | |] eqn:Ev; try discriminate. destruct (clus_votes (k_clusters k') x) as [v'| | |] eqn:Ev'; try discriminate.
    cbn [rbind] in *. rewrite bleach_off in EC, EC'. injection EC as <-. injection EC' as <-. unfold tallies. rewrite !lookup_fmap.
    pose proof (cvotes_other _ _ x v v' B j H Ev Ev') as Hv. unfold cluster_key in Hv. rewrite Hv. reflexivity.
  - exact F.
  - exact H.
Qed.
Print Assumptions C131_labels_isolated.
(** Not vacuous: training on label kb leaves the mental images of ka; both labels are trained. *)
Definition k_ab : cluswisard := snd (clus_train false envs (kfg 2) [x1; x2] [ka; kb]).
Example C131_witness : let '(o, k') := clus_train false envs k_ab [x4; x1] [kb; kb] in
  o = Ok tt /\ ka ∉ [kb; kb] /\ fst (clus_mental1 map_to_list k' ka) = fst (clus_mental1 map_to_list k_ab ka) /\
  bool_decide (fst (clus_mental1 map_to_list k' kb) = fst (clus_mental1 map_to_list k_ab kb)) = false.
Proof.
  destruct (clus_train false envs k_ab [x4; x1] [kb; kb]) as [o k'] eqn:E. assert (Ho : fst (clus_train false envs k_ab [x4; x1] [kb; kb]) = Ok tt) by (vm_compute; reflexivity).
  assert (Hk : snd (clus_train false envs k_ab [x4; x1] [kb; kb]) = k') by (rewrite E; reflexivity).
  split; [rewrite E in Ho; exact Ho|]. rewrite <- Hk. split; [|split].
  - rewrite !not_elem_of_cons. split; [discriminate|]. split; [discriminate|apply not_elem_of_nil].
  - vm_compute. reflexivity.
  - vm_compute. reflexivity.
Qed.

(** C131, the two parts: a labelled or semi-supervised call does not change the unsupervised
    answers and an unsupervised call does not change the supervised ones. *)
Theorem C131_parts_apart : forall lhs_first k c o k', kcall_run lhs_first k c = (o, k') ->
  match c with
  | KUnsupervised _ _ => clus_classify k' = clus_classify k /\ (forall iter, clus_mental iter k' = clus_mental iter k) /\
      (forall iter l, fst (clus_mental1 iter k' l) = fst (clus_mental1 iter k l))
  | _ => clus_classifyUnsupervised k' = clus_classifyUnsupervised k
  end.
Proof.
  intros lhs k c o k' E.
  assert (W : forall k', framed k k' -> clus_classifyUnsupervised k' = clus_classifyUnsupervised k) by (intros k1 ->; reflexivity).
  destruct c as [env images labels|env env2 images labels|env images]; cbn [kcall_run] in E.
  - apply W. pose proof (ctrain_frame lhs env k images labels) as F. rewrite E in F. exact F.
  - apply W. pose proof (semi_frame lhs env env2 k images labels) as F. rewrite E in F. exact F.
  - destruct (unsup_frame lhs env k images) as [_ F]. rewrite E in F. cbn [snd] in F. rewrite F.
    split; [reflexivity|]. split; [reflexivity|reflexivity].
Qed.
Print Assumptions C131_parts_apart.
(** Not vacuous: an unsupervised call that succeeds on a ClusWisard with a trained unsupervised part
    and trained labels. *)
Example C131_parts_witness : fst (kcall_run false mixed (KUnsupervised envs [x1; x4])) = Ok tt /\ clus_classify mixed [x1; x2] = clus_classify (snd (kcall_run false mixed (KUnsupervised envs [x1; x4]))) [x1; x2] /\
  (exists ls, clus_classify mixed [x1; x2] = Ok ls /\ ls <> []).
Proof.
  split; [vm_compute; reflexivity|]. split; [vm_compute; reflexivity|]. eexists. split; [vm_compute; reflexivity|discriminate].
Qed.
