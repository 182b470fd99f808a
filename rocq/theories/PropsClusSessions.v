(** Property theorems C178: saving and loading a ClusWisard between sessions. *)
From Verif Require Import Prelude Bytes Utils Float32 BinInput Bleaching Ram Json Fs RamData Disc Wisard Cluster ClusWisard.
From Verif Require Import SpecBin SpecDisc SpecBleach SpecWisard SpecSaved SpecCluster SpecClus SpecLaw SpecClusSaved SpecUtf8 Utf8Proofs.
From Verif Require Import TextProofs TextProofs CtorFacts DiscProofs ClusSaved PropsDisc PropsWisard PropsCluster PropsClus PropsJson PropsClusJson.

(** Sessions: the calls of each, then the text of the model is made in memory and a model built from it. *)
Fixpoint ksessions (lhs : bool) (iter : iteration) (rnd : str -> nat -> str) (urnd : nat -> str) (f : fs) (path : str) (k : cluswisard) (css : list (list kcall)) : res cluswisard :=
  match css with
  | [] => Ok k
  | cs :: css => let '(o, v) := krun lhs k cs in
      let* _ := o in
      let* j := fst (clus_json iter rnd urnd f v false path) in
      let* k' := clus_of_json f j in ksessions lhs iter rnd urnd f path k' css
  end.
(** C178: sessions that end with a save and begin with a load end with the model of the uninterrupted program. *)
Theorem C178_sessions : forall iter rnd urnd lhs_first k0 n css k f path,
  good_iter iter -> k_clusters k0 = ∅ -> k_unsupervised k0 = cluster_default -> configured_for k0 n -> int_koptions k0 -> k_searchBestConfidence k0 = false ->
  Forall (proper_kcall k0 n) (List.concat css) -> len (all_events (List.concat css)) <= INT_MAX - 2 -> krun lhs_first k0 (List.concat css) = (Ok tt, k) ->
  (forall before after, css = before ++ after -> before <> [] -> forall l c, k_clusters (snd (krun lhs_first k0 (List.concat before))) !! l = Some c -> is_utf8 l /\ small_cluster c) ->
  ksessions lhs_first iter rnd urnd f path k0 css = Ok k.
Proof.
  intros iter rnd urnd lhs k0 n css k f path Hi H0 Hu Hcf Hio Hsb Hp Hl Hr Hlab.
  assert (Hws : forall cs, without_search (snd (krun lhs k0 cs)) = snd (krun lhs k0 cs)).
  { intros cs. assert (without_search k0 = k0) as E0 by (destruct k0; cbn in *; subst; reflexivity). pose proof (krun_ws lhs cs k0) as E. rewrite E0 in E. destruct (krun lhs k0 cs) as [o v]. cbn in E. injection E as E. symmetry. exact E. }
  assert (Hgo : forall after before v, css = before ++ after -> krun lhs k0 (List.concat before) = (Ok tt, v) -> ksessions lhs iter rnd urnd f path v after = Ok k).
  { induction after as [|cs after IH]; intros before v E Ev; [rewrite app_nil_r in E; cbn [ksessions]; rewrite E in Hr; congruence|]. cbn [ksessions].
    assert (E' : css = (before ++ [cs]) ++ after) by (rewrite <- app_assoc; exact E).
    assert (Econc : List.concat css = List.concat (before ++ [cs]) ++ List.concat after) by (rewrite E', List.concat_app; reflexivity).
    assert (Econc2 : List.concat (before ++ [cs]) = List.concat before ++ cs) by (rewrite List.concat_app; cbn; rewrite app_nil_r; reflexivity).
    assert (Erun : krun lhs k0 (List.concat (before ++ [cs])) = krun lhs v cs) by (rewrite Econc2; unfold krun in *; rewrite efor_app, Ev; reflexivity).
    assert (Hok : fst (krun lhs k0 (List.concat (before ++ [cs]))) = Ok tt).
    { rewrite Econc in Hr. unfold krun in Hr |- *. rewrite efor_app in Hr. destruct (efor (kcall_run lhs) (List.concat (before ++ [cs])) k0) as [[[]| | |] u]; cbn in *; congruence. }
    pose proof (Hlab (before ++ [cs]) after E' ltac:(destruct before; discriminate)) as Ht. pose proof (Hws (List.concat (before ++ [cs]))) as Hw.
    assert (Hrun : krun lhs k0 (List.concat (before ++ [cs])) = (Ok tt, snd (krun lhs k0 (List.concat (before ++ [cs]))))) by (rewrite <- Hok; apply surjective_pairing).
    assert (Hp' : Forall (proper_kcall k0 n) (List.concat (before ++ [cs]))) by (rewrite Econc in Hp; apply Forall_app in Hp; exact (proj1 Hp)).
    assert (Hl' : len (all_events (List.concat (before ++ [cs]))) <= INT_MAX - 2).
    { rewrite Econc in Hl. unfold all_events in Hl |- *. rewrite fmap_app, List.concat_app, len_app in Hl. fold (all_events (List.concat (before ++ [cs]))) in *. fold (all_events (List.concat after)) in *. pose proof (len_nonneg (all_events (List.concat after))). lia. }
    destruct (C75_roundtrip_partial iter rnd urnd lhs k0 n _ _ f path Hi H0 Hu Hcf Hio Hp' Hl' Hrun Ht) as (j & E1 & E2).
    rewrite <- Erun, Hrun. cbn [rbind]. rewrite E1. cbn [fst rbind]. rewrite E2. cbn [rbind]. rewrite Hw. exact (IH (before ++ [cs]) _ E' Hrun). }
  apply (Hgo css [] k0 eq_refl). reflexivity.
Qed.
Print Assumptions C178_sessions.
(** The hypotheses are met by three sessions, the last without calls; clusters of two discriminators are among
    what is saved. *)
Definition kthree : list (list kcall) := [[KTrain envs [x1; x2] [ka; kb]]; [KSemi envs envs [x4; x1; x2] {[ 2 := kb ]}]; []].
Example C178_witness : configured_for (kfg 2) 4 /\ int_koptions (kfg 2) /\ k_searchBestConfidence (kfg 2) = false /\ Forall (proper_kcall (kfg 2) 4) (List.concat kthree) /\
  fst (krun false (kfg 2) (List.concat kthree)) = Ok tt /\ kcounters (snd (krun false (kfg 2) (List.concat kthree))) = [(ka, [2]); (kb, [2; 1])] /\
  (forall before after, kthree = before ++ after -> before <> [] -> forall l c, k_clusters (snd (krun false (kfg 2) (List.concat before))) !! l = Some c -> is_utf8 l /\ small_cluster c).
Proof.
  split; [apply kfg_configured|]. split; [apply kfg_ints|]. split; [reflexivity|]. split; [exact kcalls_proper|]. split; [vm_compute; reflexivity|]. split; [vm_compute; reflexivity|].
  intros before after E Hne. unfold kthree in E. apply labels_check. destruct before as [|a [|b [|c [|d r]]]]; cbn [app] in E; [congruence|..|discriminate].
  - assert (a = [KTrain envs [x1; x2] [ka; kb]]) as -> by congruence. vm_compute. reflexivity.
  - assert (a = [KTrain envs [x1; x2] [ka; kb]]) as -> by congruence. assert (b = [KSemi envs envs [x4; x1; x2] {[ 2 := kb ]}]) as -> by congruence. vm_compute. reflexivity.
  - assert (a = [KTrain envs [x1; x2] [ka; kb]]) as -> by congruence. assert (b = [KSemi envs envs [x4; x1; x2] {[ 2 := kb ]}]) as -> by congruence. assert (c = []) as -> by congruence. vm_compute. reflexivity.
Qed.
