(** Property theorems C163 for a ClusWisard: the data files of json(true,path), one per discriminator,
    after something happened to some of them. *)
From Verif Require Import Prelude Bytes Utils Float32 BinInput Bleaching Ram Json Fs RamData Disc Wisard Cluster ClusWisard.
From Verif Require Import SpecBin SpecDisc SpecBleach SpecWisard SpecSaved SpecCluster SpecClus SpecLaw SpecClusSaved SpecUtf8.
From Verif Require Import CtorFacts BleachProofs PropsDisc PropsWisard PropsCluster PropsClus PropsJson ClusSaved PropsClusJson Utf8Proofs ClusDamage.

(** ** The small specification *)
(** The files of a ClusWisard saved under [path]: one per discriminator of each label and of the unsupervised cluster. *)
Definition own_file (rnd : str -> nat -> str) (urnd : nat -> str) (path : str) (k : cluswisard) (name : str) : Prop :=
  (exists l c j, k_clusters k !! l = Some c /\ (j < length (c_discs c))%nat /\ name = file_of (rnd l) path l j) \/
  (exists j, (j < length (c_discs (k_unsupervised k)))%nat /\ name = file_of urnd path (lit "unsupervised_cluster") j).
(** The same options, number of discriminators, and discriminators at the places whose file is intact. *)
Definition preserved (intact : nat -> Prop) (c c2 : cluster) : Prop :=
  c_params c2 = c_params c /\ length (c_discs c2) = length (c_discs c) /\ forall j, intact j -> c_discs c2 !! j = c_discs c !! j.
(** What loading gives back of the ClusWisard k saved in f', when the file system has become f2. *)
Definition given_back (rnd : str -> nat -> str) (urnd : nat -> str) (path : str) (k : cluswisard) (f' f2 : fs) (loaded : res cluswisard) : Prop :=
  let intact name := fs_read f2 name = fs_read f' name in
  match loaded with
  | Ok k2 => with_unsupervised (with_clusters k2 ∅) cluster_default = with_unsupervised (with_clusters (without_search k) ∅) cluster_default /\
      (forall l, match k_clusters k !! l with
         | None => k_clusters k2 !! l = None
         | Some c => exists c2, k_clusters k2 !! l = Some c2 /\ preserved (fun j => intact (file_of (rnd l) path l j)) c c2
         end) /\
      preserved (fun j => intact (file_of urnd path (lit "unsupervised_cluster") j)) (k_unsupervised k) (k_unsupervised k2)
  | _ => exists name, own_file rnd urnd path k name /\ ~ intact name /\ fs_read f2 name <> None
  end.

(** C163 for a ClusWisard after supervised and semi-supervised training: if the text can be loaded,
    the options are those saved, the labels too, each with as many discriminators as before, and every
    discriminator whose own file is unchanged is exactly the one saved. It can fail to load only if
    the file of some discriminator exists and was changed. *)
Theorem C163_cluswisard : forall iter rnd urnd lhs_first k0 n cs k f path,
  good_iter iter -> k_clusters k0 = ∅ -> k_unsupervised k0 = cluster_default -> configured_for k0 n -> int_koptions k0 ->
  Forall (proper_kcall k0 n) cs -> len (all_events cs) <= INT_MAX - 2 -> krun lhs_first k0 cs = (Ok tt, k) ->
  (forall l c, k_clusters k !! l = Some c -> is_utf8 l /\ small_cluster c) ->
  (forall l j, length (rnd l j) = 10%nat) -> (forall j, length (urnd j) = 10%nat) ->
  (forall name, own_file rnd urnd path k name -> is_utf8 name /\ len name < W64 /\ fs_writable f name = true /\ fs_read f name = None) ->
  exists j f', clus_json iter rnd urnd f k true path = (Ok j, f') /\ forall f2, given_back rnd urnd path k f' f2 (clus_of_json f2 j).
Proof.
  setoid_rewrite <- utf8_ok_iff. intros iter rnd urnd lhs k0 n cs k f path Hi H0 Hu Hcf Hio Hp Hl Hr Hlab Hrnd Hur Hf.
  assert (Hs : saved_state iter k n) by (eapply reach_saved; eauto; intros l c Hc; apply (Hlab l c Hc)).
  assert (Hk : k_unsupervised k = cluster_default).
  { destruct (ClusterLaw.clus_reach lhs k0 n cs H0 Hcf Hp Hl) as (k' & m & E & [[Hk _] _] & _). rewrite Hr in E. injection E as <-. rewrite Hk. exact Hu. }
  apply (clus_damage iter rnd urnd f k n path Hi Hs Hrnd Hur); [left; exact Hk|intros l c Hc; apply (Hlab l c Hc)|exact Hf].
Qed.
Print Assumptions C163_cluswisard.
(** The same after trainUnsupervised and further calls. *)
Theorem C163_unsupervised : forall iter rnd urnd lhs_first env k0 n xs cs k f path,
  good_iter iter -> k_clusters k0 = ∅ -> k_base k0 = 2 -> configured_for k0 n -> int_koptions k0 ->
  (forall i : nat, valid_draw (env i)) -> xs <> [] -> Forall (plain_image 2 n) xs -> len xs <= INT_MAX - 2 ->
  Forall (proper_kcall k0 n) cs -> len (all_events cs) <= INT_MAX - 2 ->
  krun lhs_first k0 (KUnsupervised env xs :: cs) = (Ok tt, k) ->
  (forall l c, k_clusters k !! l = Some c -> is_utf8 l /\ small_cluster c) -> small_cluster (k_unsupervised k) ->
  (forall l j, length (rnd l j) = 10%nat) -> (forall j, length (urnd j) = 10%nat) -> k_clusters k !! lit "unsupervised_cluster" = None ->
  (forall name, own_file rnd urnd path k name -> is_utf8 name /\ len name < W64 /\ fs_writable f name = true /\ fs_read f name = None) ->
  exists j f', clus_json iter rnd urnd f k true path = (Ok j, f') /\ forall f2, given_back rnd urnd path k f' f2 (clus_of_json f2 j).
Proof.
  setoid_rewrite <- utf8_ok_iff.
  intros iter rnd urnd lhs env k0 n xs cs k f path Hi H0 Hb Hcf Hio Henv Hne HF Hlx Hp Hl Hr Hlab Hsu Hrnd Hur Hno Hf.
  unfold krun in Hr. cbn [efor kcall_run] in Hr. destruct (trainUnsupervised lhs env k0 xs) as [[[]| | |] k1] eqn:Et; cbn [ebind] in Hr; try discriminate.
  apply (clus_damage iter rnd urnd f k n path Hi); auto.
  - eapply reach_saved_unsup; eauto. intros l c Hc. apply (Hlab l c Hc).
  - intros l c Hc. apply (Hlab l c Hc).
Qed.
Print Assumptions C163_unsupervised.
(** Losing the file of the second discriminator of label kb, damaging it, or losing the file of an unsupervised one. *)
Definition clus_after (g : gmap str str -> gmap str str) : res (list (str * list (option Z)) * list (option Z)) :=
  let '(r, f') := clus_json it0 (fun _ _ => rnd10) (fun _ => rnd10) disk kboth true (lit "d/") in
  let rams c := (fun o => match o with Some d => Some (len (d_rams d)) | None => None end) <$> c_discs c in
  let* j := r in let* k2 := clus_of_json (Fs (g (fs_files f')) (fun _ => true)) j in
  Ok ((fun lc => (lc.1, rams lc.2)) <$> sorted_items (k_clusters k2), rams (k_unsupervised k2)).
Example C163_clus_witness : configured_for (kfg 2) 4 /\ int_koptions (kfg 2) /\ Forall (proper_kcall (kfg 2) 4) kcalls /\ krun false (kfg 2) (KUnsupervised envs [x1; x4] :: kcalls) = (Ok tt, kboth) /\
  k_clusters kboth !! lit "unsupervised_cluster" = None /\ fs_writable disk (file_of (fun _ => rnd10) (lit "d/") kb 1) = true /\
  clus_after (fun m => m) = Ok ([(ka, [Some 2]); (kb, [Some 2; Some 2])], [Some 2; Some 2]) /\
  clus_after (delete (file_of (fun _ => rnd10) (lit "d/") kb 1)) = Ok ([(ka, [Some 2]); (kb, [Some 2; Some 0])], [Some 2; Some 2]) /\
  clus_after (insert (file_of (fun _ => rnd10) (lit "d/") kb 1) (lit "?")) = Throw EOutOfRange /\
  clus_after (delete (file_of (fun _ => rnd10) (lit "d/") (lit "unsupervised_cluster") 0)) = Ok ([(ka, [Some 2]); (kb, [Some 2; Some 2])], [Some 0; Some 2]).
Proof.
  destruct C75_witness as (H1 & H2 & H3 & H4 & _). do 4 (split; [assumption|]). split; [vm_compute; reflexivity|]. split; [vm_compute; reflexivity|].
  split; [vm_compute; reflexivity|]. split; [vm_compute; reflexivity|]. split; vm_compute; reflexivity.
Qed.
