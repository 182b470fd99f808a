(** The text and the files of ClusWisard::json(true,path), and loading that text when something
    happened to some of the files (for C163). *)
From stdpp Require Import pretty.
From Verif Require Import Prelude Bytes Base64 Utils Float32 BinInput Bleaching Ram Json Fs RamData Disc Wisard Cluster ClusWisard SpecBin SpecDisc SpecBleach SpecWisard SpecSaved SpecCluster SpecClus SpecLaw SpecClusSaved.
From Verif Require Import TextProofs RamDataProofs DiscCtorProofs CtorFacts JsonNF DiscProofs DiscFacts BleachProofs WisardProofs WisardFacts JsonProofs JsonFacts WisardJson ClusterProofs ClusProofs ClusMore ClusterLaw ClusUnsup ClusJson ClusSaved FloatConv.

Definition entries_of (m : gmap str cluster) (es : list centry) : Prop := sorted_items m = (fun e => (e.1, centry_cluster e.2)) <$> es.
Definition clusters_value iter rnd path (k : cluswisard) (es : list centry) : option json :=
  if Nat.eqb (size (k_clusters k)) 0 then None else Some (obj (label_members iter rnd true path es)).
Definition unsup_value iter urnd path (n : Z) (uds : list disc) : option json :=
  match uds with [] => None | _ => Some (cluster_value n (slot_values iter urnd true (path ++ lit "unsupervised_cluster__") 0 uds)) end.

Lemma names_text_ok iter rnd path ds : (forall j d, ds !! j = Some d -> utf8_ok (slot_file rnd path j) = true) -> Forall text_ok (slot_values iter rnd true path 0 ds).
Proof.
  intros H. unfold slot_values, number. apply Forall_fmap. apply Forall_forall. intros [i d] Hin. apply elem_of_lookup_imap in Hin as (j & d' & E & Hj). injection E as -> ->.
  unfold compose. cbn [fst snd]. apply text_ok_class. apply (H j d' Hj).
Qed.
(** The text that is written. *)
Lemma clus_text iter rnd urnd f k n path es uds : int_koptions k -> entries_of (k_clusters k) es ->
  Forall (fun e : centry => utf8_ok e.1 = true /\ e.2.1 = params_for k n /\ forall j d, e.2.2 !! j = Some d -> utf8_ok (slot_file (rnd e.1) (label_path path e.1) j) = true) es ->
  k_unsupervised k = (match uds with [] => cluster_default | _ => centry_cluster (params_for k n, uds) end) ->
  (forall j d, uds !! j = Some d -> utf8_ok (slot_file urnd (path ++ lit "unsupervised_cluster__") j) = true) ->
  clus_json iter rnd urnd f k true path = (Ok (clus_value k (clusters_value iter rnd path k es) (unsup_value iter urnd path n uds)), foldl put f (clus_writes iter rnd urnd path k)).
Proof.
  intros Hio Hes Hall Hun Hur. unfold entries_of in Hes.
  assert (Hsort : StronglySorted entry_lt es).
  { pose proof (sorted_items_strict (k_clusters k)) as H. rewrite Hes in H. apply strong_fmap in H. exact H. }
  assert (Hcs : forall c, clusters_value iter rnd path k es = Some c -> text_ok c).
  { unfold clusters_value. destruct (Nat.eqb _ _); [discriminate|]. intros c E. injection E as <-.
    assert (text_ok (JObj (label_members iter rnd true path es))) as Ho; [|unfold obj; destruct (label_members iter rnd true path es); [reflexivity|exact Ho]].
    apply text_ok_obj. unfold label_members. apply Forall_fmap. eapply Forall_impl; [exact Hall|]. intros [l e] (Hu & E0 & Hr). cbn [fst snd] in *. split; [exact Hu|].
    unfold label_value. cbn [fst snd]. apply text_ok_cluster. apply names_text_ok, Hr. }
  set (W := List.concat ((fun kc => cluster_writes iter (rnd kc.1) (label_path path kc.1) kc.2) <$> sorted_items (k_clusters k))).
  assert (Hj1 : (if Nat.eqb (size (k_clusters k)) 0 then (Ok (clus_config k), f)
      else let '(r, f1) := clusters_json iter rnd true path (sorted_items (k_clusters k)) JNull f in
         (let* cs := r in jset (clus_config k) (lit "clusters") cs, f1)) =
     (Ok (clus_value k (clusters_value iter rnd path k es) None), foldl put f W)).
  { unfold clusters_value. destruct (Nat.eqb_spec (size (k_clusters k)) 0) as [E|E].
    - rewrite clus_value_nf. unfold W. apply map_size_empty_inv in E. rewrite E. reflexivity.
    - unfold W. rewrite Hes. change JNull with (obj []). rewrite clusters_json_nf; [|exact Hsort|constructor]. cbn [rbind app]. rewrite clus_value_nf, clus_value_set.
      rewrite foldl_label. reflexivity. }
  unfold clus_json. rewrite Hj1. clear Hj1. destruct uds as [|d uds].
  - rewrite Hun. cbn [cluster_default c_discs length Nat.eqb]. unfold unsup_value. rewrite text_ok_clus; [|rewrite widen_finite; apply Hio|exact Hcs|discriminate].
    unfold clus_writes. rewrite Hun. fold W. unfold cluster_writes at 1. cbn [cluster_default c_discs imap List.concat]. rewrite app_nil_r. reflexivity.
  - unfold unsup_value. set (uv := cluster_value n (slot_values iter urnd true (path ++ lit "unsupervised_cluster__") 0 (d :: uds))).
    rewrite Hun. unfold centry_cluster. cbn [c_discs snd fst]. destruct (Nat.eqb_spec (length (Some <$> (d :: uds))) 0) as [E|_]; [discriminate|].
    rewrite cluster_getJson_nf. cbn [rbind params_for p_entrySize]. fold uv. rewrite clus_value_setu. cbn [rbind].
    rewrite text_ok_clus; [|rewrite widen_finite; apply Hio|exact Hcs|intros u Eu; injection Eu as <-; apply text_ok_cluster; apply names_text_ok, Hur].
    f_equal. rewrite (foldl_slot _ _ _ _ (Some (params_for k n))). unfold clus_writes. fold W. rewrite foldl_app, Hun. unfold centry_cluster. cbn [fst snd]. reflexivity.
Qed.

(** Loading, whatever each discriminator gives: L j d is what the saved discriminator d at place j loads to. *)
Definition slot_load iter rnd path f iz base (j : nat) (d : disc) : res disc :=
  disc_of_json f (merge_patch (class_value d (slot_data iter rnd true path j d)) (rbase_of iz base)).
Lemma load_slots iter rnd path f iz base : forall ds i,
  match load_discs f (rbase_of iz base) (slot_values iter rnd true path i ds) with
  | Ok ds' => exists out, ds' = Some <$> out /\ length out = length ds /\ forall j d, ds !! j = Some d -> exists d', slot_load iter rnd path f iz base (i + j) d = Ok d' /\ out !! j = Some d'
  | _ => exists j d, ds !! j = Some d /\ forall d', slot_load iter rnd path f iz base (i + j) d <> Ok d'
  end.
Proof.
  induction ds as [|d ds IH]; intros i; [exists []; split; [reflexivity|]; split; [reflexivity|]; intros j d H; rewrite lookup_nil in H; discriminate|].
  unfold slot_values. rewrite number_cons, fmap_cons. cbn [load_discs fst snd]. change (disc_of_json _ _) with (slot_load iter rnd path f iz base i d).
  destruct (slot_load iter rnd path f iz base i d) as [d'|e|u|] eqn:E; cbn [rbind]; try (exists 0%nat, d; split; [reflexivity|]; rewrite Nat.add_0_r, E; congruence).
  change (_ <$> number (S i) ds) with (slot_values iter rnd true path (S i) ds). specialize (IH (S i)). destruct (load_discs _ _ _) as [ds'|e|u|]; cbn [rbind].
  - destruct IH as (out & -> & Hl & H). exists (d' :: out). split; [reflexivity|]. split; [cbn; congruence|]. intros [|j] d0 Hj.
    + injection Hj as <-. exists d'. rewrite Nat.add_0_r. auto.
    + destruct (H j d0 Hj) as (d2 & H1 & H2). exists d2. rewrite <- Nat.add_succ_comm. auto.
  - destruct IH as (j & d0 & Hj & H). exists (S j), d0. rewrite <- Nat.add_succ_comm. auto.
  - destruct IH as (j & d0 & Hj & H). exists (S j), d0. rewrite <- Nat.add_succ_comm. auto.
  - destruct IH as (j & d0 & Hj & H). exists (S j), d0. rewrite <- Nat.add_succ_comm. auto.
Qed.
Definition dc_of (k : cluswisard) : json := kconfig (k_addressSize k) (k_minScore k) (k_threshold k) (k_limit k) (k_completeAddressing k) (k_ignoreZero k) (k_base k).
Lemma load_cluster iter rnd path f k n ds : int_koptions k -> good_config k n ->
  let L := slot_load iter rnd path f (k_ignoreZero k) (k_base k) in
  match cluster_of_json f (merge_patch (cluster_value n (slot_values iter rnd true path 0 ds)) (dc_of k)) with
  | Ok c => exists out, c = centry_cluster (params_for k n, out) /\ length out = length ds /\ forall j d, ds !! j = Some d -> exists d', L j d = Ok d' /\ out !! j = Some d'
  | _ => exists j d, ds !! j = Some d /\ forall d', L j d <> Ok d'
  end.
Proof.
  cbv zeta. intros (Ha & Ht & Hl & Hb & Hc & Hms & _) (Hn & Ha' & Ht'). unfold dc_of. rewrite cluster_of_value; auto; [|unfold is_int, INT_MIN, INT_MAX in *; lia].
  pose proof (load_slots iter rnd path f (k_ignoreZero k) (k_base k) ds 0) as H. destruct (load_discs _ _ _) as [ds'|e|u|]; cbn [rbind]; try exact H.
  destruct H as (out & -> & Hlen & H). exists out. split; [|split; [exact Hlen|exact H]]. rewrite !u32_small by assumption. reflexivity.
Qed.
Lemma load_labels iter (rnd : str -> nat -> str) path f k n : int_koptions k -> good_config k n -> forall (es : list centry) (m : gmap str cluster), NoDup es.*1 ->
  Forall (fun e : centry => e.2.1 = params_for k n) es ->
  let L (e : centry) := slot_load iter (rnd e.1) (label_path path e.1) f (k_ignoreZero k) (k_base k) in
  match load_clusters f (dc_of k) (label_members iter rnd true path es) m with
  | Ok m' => (forall e : centry, e ∈ es -> exists out, m' !! e.1 = Some (centry_cluster (params_for k n, out)) /\ length out = length e.2.2 /\
                 forall j d, e.2.2 !! j = Some d -> exists d', L e j d = Ok d' /\ out !! j = Some d') /\
             (forall l : str, l ∉ es.*1 -> m' !! l = m !! l)
  | _ => exists (e : centry) j d, e ∈ es /\ e.2.2 !! j = Some d /\ forall d', L e j d <> Ok d'
  end.
Proof.
  intros Hio Hgc. cbv zeta. unfold label_members. induction es as [|[l [p ds]] es IH]; intros m Hn Hp; [split; [intros e H; apply elem_of_nil in H; contradiction|reflexivity]|].
  rewrite fmap_cons in *. apply NoDup_cons in Hn as [Hk Hn]. apply Forall_cons in Hp as [Hp0 Hp]. cbn [fst snd] in *. cbn [load_clusters].
  change (label_value iter rnd true path (l, (p, ds))) with (cluster_value (p_entrySize p) (slot_values iter (rnd l) true (label_path path l) 0 ds)).
  replace (p_entrySize p) with n by (rewrite Hp0; reflexivity).
  pose proof (load_cluster iter (rnd l) (label_path path l) f k n ds Hio Hgc) as Hl. cbv zeta in Hl.
  destruct (cluster_of_json _ _) as [c|e|u|]; cbn [rbind]; try (destruct Hl as (j & d & Hj & Hno); exists (l, (p, ds)), j, d; split; [left|auto]).
  destruct Hl as (out & -> & Hlen & Hl). specialize (IH (<[l := centry_cluster (params_for k n, out)]> m) Hn Hp). destruct (load_clusters _ _ _ _) as [m'|e|u|].
  - destruct IH as [A B]. split.
    + intros e H. apply elem_of_cons in H as [-> |H]; [|apply A, H]. exists out. split; [|auto]. cbn [fst]. rewrite (B l Hk). apply lookup_insert.
    + intros l' H. apply not_elem_of_cons in H as [H1 H2]. rewrite (B l' H2). apply lookup_insert_ne. cbn in H1. congruence.
  - destruct IH as (e0 & j & d & H & E'). exists e0, j, d. split; [right; exact H|exact E'].
  - destruct IH as (e0 & j & d & H & E'). exists e0, j, d. split; [right; exact H|exact E'].
  - destruct IH as (e0 & j & d & H & E'). exists e0, j, d. split; [right; exact H|exact E'].
Qed.
(** The files afterwards. *)
Lemma saved_reads iter rnd urnd f k n path : saved_state iter k n ->
  (forall l j, length (rnd l j) = 10%nat) -> (forall j, length (urnd j) = 10%nat) ->
  (k_unsupervised k = cluster_default \/ k_clusters k !! lit "unsupervised_cluster" = None) ->
  (forall name, (exists l c j, k_clusters k !! l = Some c /\ (j < length (c_discs c))%nat /\ name = disc_file (rnd l) path l j) \/
                (exists j, (j < length (c_discs (k_unsupervised k)))%nat /\ name = disc_file urnd path (lit "unsupervised_cluster") j) ->
     utf8_ok name = true /\ len name < W64 /\ fs_writable f name = true /\ fs_read f name = None) ->
  forall nc, nc ∈ clus_writes iter rnd urnd path k -> utf8_ok nc.1 = true /\ len nc.1 < W64 /\ fs_read (foldl put f (clus_writes iter rnd urnd path k)) nc.1 = Some nc.2.
Proof.
  intros (Hgc & Hio & Hcl & Hun) Hr Hur Hdis Hnames.
  set (W := clus_writes iter rnd urnd path k). set (f2 := foldl put f W).
  assert (Hf : forall l c, k_clusters k !! l = Some c -> exists ds, c = Cluster (Some (params_for k n)) (Some <$> ds)) by (intros l c Hc; destruct (Hcl l c Hc) as (ds & -> & _); exists ds; reflexivity).
  assert (Hun' : exists uds, k_unsupervised k = Cluster (c_params (k_unsupervised k)) (Some <$> uds)).
  { destruct Hun as [->|(ds & _ & -> & _)]; [exists []|exists ds]; reflexivity. }
  destruct Hun' as (uds & Hud).
  assert (Hnd : NoDup W.*1).
  { unfold W, clus_writes. rewrite fmap_app. apply NoDup_app. split; [|split].
    - rewrite fmap_concat, <- list_fmap_compose. apply (nodup_concat fst).
      + apply sorted_items_nodup.
      + intros [l c] Hin. apply sorted_items_elem in Hin. destruct (Hf l c Hin) as (ds & ->). unfold compose. cbn [fst snd]. apply nodup_writes. apply Hr.
      + intros [l c] [l' c'] b Hx Hy. apply sorted_items_elem in Hx, Hy. destruct (Hf l c Hx) as (ds & ->). destruct (Hf l' c' Hy) as (ds' & ->). unfold compose. cbn [fst snd].
        rewrite !elem_of_list_fmap. intros (nc & -> & H1) (nc' & E & H2). apply elem_writes in H1 as (j & d & _ & ->). apply elem_writes in H2 as (j' & d' & _ & ->). cbn [fst] in E.
        rewrite !slot_file_eq in E. apply disc_file_inj in E as [E _]; [exact E|]. rewrite !Hr. reflexivity.
    - intros b H1 H2. rewrite fmap_concat, <- list_fmap_compose in H1. apply elem_concat in H1 as ([l c] & Hin & H1). apply sorted_items_elem in Hin. destruct (Hf l c Hin) as (ds & ->).
      unfold compose in H1. cbn [fst snd] in H1. apply elem_of_list_fmap in H1 as (nc & -> & H1). apply elem_writes in H1 as (j & d & _ & ->). cbn [fst] in H2. rewrite slot_file_eq in H2.
      rewrite Hud in H2. apply elem_of_list_fmap in H2 as (nc' & E & H2). apply elem_writes in H2 as (j' & d' & Hj' & ->). cbn [fst] in E. rewrite slot_file_unsup in E.
      apply disc_file_inj in E as [E _]; [|rewrite Hr, Hur; reflexivity]. subst l. destruct Hdis as [Hdis|Hdis]; [|congruence].
      rewrite Hdis in Hud. injection Hud as Hud. destruct uds; [|discriminate Hud]. rewrite lookup_nil in Hj'. discriminate.
    - rewrite Hud. change (path ++ lit "unsupervised_cluster__") with (path ++ lit "unsupervised_cluster" ++ lit "__"). apply (nodup_writes iter urnd path (lit "unsupervised_cluster")). exact Hur. }
  assert (Hnew : Forall (fun nc => utf8_ok nc.1 = true /\ len nc.1 < W64 /\ fs_writable f nc.1 = true /\ fs_read f nc.1 = None) W).
  { apply Forall_forall. intros nc Hin. apply Hnames. unfold W, clus_writes in Hin. apply elem_of_app in Hin as [Hin|Hin].
    - left. apply elem_concat in Hin as ([l c] & Hin & H). apply sorted_items_elem in Hin. cbn [fst snd] in H. exists l, c. destruct (Hf l c Hin) as (ds & E). rewrite E in H.
      apply elem_writes in H as (j & d & Hj & ->). exists j. split; [exact Hin|]. rewrite E. cbn [c_discs fst]. rewrite fmap_length, slot_file_eq. split; [eapply lookup_lt_Some, Hj|reflexivity].
    - right. rewrite Hud in Hin. apply elem_writes in Hin as (j & d & Hj & ->). exists j. rewrite Hud. cbn [c_discs fst]. rewrite fmap_length, slot_file_unsup. split; [eapply lookup_lt_Some, Hj|reflexivity]. }
  assert (Hread : forall nc, nc ∈ W -> utf8_ok nc.1 = true /\ len nc.1 < W64 /\ fs_read f2 nc.1 = Some nc.2).
  { intros nc Hin. assert (H := Hnew). rewrite Forall_forall in H. destruct (H nc Hin) as (H1 & H2 & _). split; [exact H1|]. split; [exact H2|]. apply put_read; [exact Hnd| |exact Hin].
    eapply Forall_impl; [exact Hnew|]. intros x (_ & _ & Hx). exact Hx. }
  exact Hread.
Qed.

(** Same parameters and number of discriminators, and the same discriminator at every place j with [intact j]. *)
Definition kept (intact : nat -> Prop) (c c2 : cluster) : Prop :=
  c_params c2 = c_params c /\ length (c_discs c2) = length (c_discs c) /\ forall j, intact j -> c_discs c2 !! j = c_discs c !! j.

(** Loading one saved discriminator from its file. *)
Lemma slot_intact iter rnd path f iz base j d : valid_iter iter -> savable_disc iter iz base d -> utf8_ok (slot_file rnd path j) = true -> len (slot_file rnd path j) < W64 ->
  (fs_read f (slot_file rnd path j) = Some (ramsdata_file iter (d_rams d)) -> slot_load iter rnd path f iz base j d = Ok d) /\
  (fs_read f (slot_file rnd path j) = None -> exists d', slot_load iter rnd path f iz base j d = Ok d').
Proof.
  intros Hi [Hst Hall] Hu Hn. unfold slot_load, slot_data. destruct Hst as (He & Hc & Hne & _ & Hl). rewrite class_of_value by assumption. unfold disc_mapping.
  assert (En : slot_file rnd path j = (path ++ to_string j ++ lit "__" ++ rnd j) ++ ramdata_sufix) by (unfold slot_file; rewrite <- !app_assoc; reflexivity).
  rewrite En in *. split; intros Hread.
  - rewrite (setRAMs_file iter); auto; [cbn [rbind]; rewrite disc_eta; reflexivity|rewrite <- file_join; exact Hread].
  - unfold setRAMsData. rewrite has_suffix_app by exact Hn. cbn [rbind]. rewrite Hread. cbn [rbind]. eexists. reflexivity.
Qed.

Lemma clus_damage iter rnd urnd f k n path : valid_iter iter -> saved_state iter k n ->
  (forall l j, length (rnd l j) = 10%nat) -> (forall j, length (urnd j) = 10%nat) ->
  (k_unsupervised k = cluster_default \/ k_clusters k !! lit "unsupervised_cluster" = None) ->
  (forall l c, k_clusters k !! l = Some c -> utf8_ok l = true) ->
  let ours name := (exists l c j, k_clusters k !! l = Some c /\ (j < length (c_discs c))%nat /\ name = disc_file (rnd l) path l j) \/
                   (exists j, (j < length (c_discs (k_unsupervised k)))%nat /\ name = disc_file urnd path (lit "unsupervised_cluster") j) in
  (forall name, ours name -> utf8_ok name = true /\ len name < W64 /\ fs_writable f name = true /\ fs_read f name = None) ->
  exists j f', clus_json iter rnd urnd f k true path = (Ok j, f') /\
    forall f2, let intact name := fs_read f2 name = fs_read f' name in
    match clus_of_json f2 j with
    | Ok k2 => with_unsupervised (with_clusters k2 ∅) cluster_default = with_unsupervised (with_clusters (without_search k) ∅) cluster_default /\
        (forall l, match k_clusters k !! l with
           | None => k_clusters k2 !! l = None
           | Some c => exists c2, k_clusters k2 !! l = Some c2 /\ kept (fun j => intact (disc_file (rnd l) path l j)) c c2
           end) /\
        kept (fun j => intact (disc_file urnd path (lit "unsupervised_cluster") j)) (k_unsupervised k) (k_unsupervised k2)
    | _ => exists name, ours name /\ ~ intact name /\ fs_read f2 name <> None
    end.
Proof.
  intros Hi Hst Hr Hur Hdis Hu ours Hnames. pose proof (saved_reads iter rnd urnd f k n path Hst Hr Hur Hdis Hnames) as Hread.
  destruct Hst as (Hgc & Hio & Hcl & Hun).
  assert (He : exists es, entries_of (k_clusters k) es /\ Forall (fun e : centry => k_clusters k !! e.1 = Some (centry_cluster e.2) /\ e.2.1 = params_for k n /\ Forall (savable_disc iter (k_ignoreZero k) (k_base k)) e.2.2) es).
  { unfold entries_of. assert (Hs : Forall (fun kc => k_clusters k !! kc.1 = Some kc.2) (sorted_items (k_clusters k))) by (apply Forall_forall; intros [l c] H; apply sorted_items_elem in H; exact H).
    induction Hs as [|[l c] xs Hx _ (es & -> & IH)]; [exists []; split; [reflexivity|constructor]|]. cbn [fst snd] in Hx. destruct (Hcl l c Hx) as (ds & -> & Hsv).
    exists ((l, (params_for k n, ds)) :: es). split; [reflexivity|]. constructor; [|exact IH]. cbn [fst snd]. auto. }
  destruct He as (es & Hes & Hall).
  assert (Hund : exists uds, k_unsupervised k = (match uds with [] => cluster_default | _ => centry_cluster (params_for k n, uds) end) /\ Forall (savable_disc iter (k_ignoreZero k) (k_base k)) uds).
  { destruct Hun as [E|(ds & Hne & E & HF)]; [exists []; auto|]. exists ds. split; [|exact HF]. rewrite E. destruct ds; [congruence|reflexivity]. }
  destruct Hund as (uds & Eu & Husv).
  set (f' := foldl put f (clus_writes iter rnd urnd path k)) in *.
  (* files of one label *)
  assert (Hlf : forall (e : centry) j d, e ∈ es -> e.2.2 !! j = Some d -> utf8_ok (slot_file (rnd e.1) (label_path path e.1) j) = true /\ len (slot_file (rnd e.1) (label_path path e.1) j) < W64 /\
     fs_read f' (slot_file (rnd e.1) (label_path path e.1) j) = Some (ramsdata_file iter (d_rams d))).
  { intros e j d Hin Hj. apply (Hread (slot_file (rnd e.1) (label_path path e.1) j, ramsdata_file iter (d_rams d))). unfold clus_writes. apply elem_of_app. left.
    apply elem_concat. exists (e.1, centry_cluster e.2). rewrite Hes. split; [apply elem_of_list_fmap; exists e; auto|]. cbn [fst snd]. unfold centry_cluster. apply elem_writes. eauto. }
  assert (Huf : forall j d, uds !! j = Some d -> utf8_ok (slot_file urnd (path ++ lit "unsupervised_cluster__") j) = true /\ len (slot_file urnd (path ++ lit "unsupervised_cluster__") j) < W64 /\
     fs_read f' (slot_file urnd (path ++ lit "unsupervised_cluster__") j) = Some (ramsdata_file iter (d_rams d))).
  { intros j d Hj. apply (Hread (slot_file urnd (path ++ lit "unsupervised_cluster__") j, ramsdata_file iter (d_rams d))). unfold clus_writes. apply elem_of_app. right.
    rewrite Eu. destruct uds as [|d0 uds]; [rewrite lookup_nil in Hj; discriminate|]. unfold centry_cluster. cbn [fst snd]. apply elem_writes. eauto. }
  assert (Hsave : forall (e : centry) j d, e ∈ es -> e.2.2 !! j = Some d -> savable_disc iter (k_ignoreZero k) (k_base k) d).
  { intros e j d Hin Hj. rewrite Forall_forall in Hall. destruct (Hall e Hin) as (_ & _ & HF). exact (Forall_lookup_1 _ _ _ _ HF Hj). }
  eexists _, f'. split.
  { unfold f'. apply (clus_text iter rnd urnd f k n path es uds Hio Hes); [| exact Eu|intros j d Hj; apply (Huf j d Hj)].
    apply Forall_forall. intros e Hin. rewrite Forall_forall in Hall. destruct (Hall e Hin) as (H1 & H2 & _). split; [eapply Hu, H1|]. split; [exact H2|]. intros j d Hj. apply (Hlf e j d Hin Hj). }
  intros f2. cbv zeta. rewrite clus_of_value by exact Hio. cbv zeta. fold (dc_of k).
  assert (Hnd : NoDup es.*1).
  { pose proof (sorted_items_nodup (k_clusters k)) as H. unfold entries_of in Hes. rewrite Hes, <- list_fmap_compose in H. exact H. }
  assert (Hlbad : forall (e : centry) j d, e ∈ es -> e.2.2 !! j = Some d -> (forall d', slot_load iter (rnd e.1) (label_path path e.1) f2 (k_ignoreZero k) (k_base k) j d <> Ok d') ->
     exists name, ours name /\ fs_read f2 name <> fs_read f' name /\ fs_read f2 name <> None).
  { intros e j d Hin Hj Hno. destruct (Hlf e j d Hin Hj) as (H1 & H2 & H3). destruct (slot_intact iter (rnd e.1) (label_path path e.1) f2 (k_ignoreZero k) (k_base k) j d Hi (Hsave e j d Hin Hj) H1 H2) as [A B].
    exists (disc_file (rnd e.1) path e.1 j). rewrite <- slot_file_eq. split; [|split].
    - left. rewrite Forall_forall in Hall. destruct (Hall e Hin) as (He & _ & _). exists e.1, (centry_cluster e.2), j. split; [exact He|]. split; [unfold centry_cluster; cbn [c_discs]; rewrite fmap_length; eapply lookup_lt_Some, Hj|apply slot_file_eq].
    - intros K. rewrite H3 in K. apply (Hno d), A, K.
    - intros K. destruct (B K) as (d' & E). exact (Hno d' E). }
  assert (Hc2 : match match default JNull (clusters_value iter rnd path k es) with JNull => Ok ∅ | _ => let* ms := jmembers (default JNull (clusters_value iter rnd path k es)) in load_clusters f2 (dc_of k) ms ∅ end with
    | Ok m' => forall l, match k_clusters k !! l with
           | None => m' !! l = None
           | Some c => exists c2, m' !! l = Some c2 /\ kept (fun j => fs_read f2 (disc_file (rnd l) path l j) = fs_read f' (disc_file (rnd l) path l j)) c c2
           end
    | _ => exists name, ours name /\ fs_read f2 name <> fs_read f' name /\ fs_read f2 name <> None end).
  { unfold clusters_value. destruct (Nat.eqb_spec (size (k_clusters k)) 0) as [E|E].
    - cbn [from_option id]. apply map_size_empty_inv in E. rewrite E. intros l. rewrite lookup_empty. reflexivity.
    - cbn [from_option id]. assert (Hne : es <> []).
      { intros ->. apply E. apply map_size_empty_iff. unfold entries_of in Hes. rewrite <- (sorted_items_map (k_clusters k)), Hes. reflexivity. }
      assert (Ho : obj (label_members iter rnd true path es) = JObj (label_members iter rnd true path es)) by (destruct es; [congruence|reflexivity]).
      rewrite Ho. cbn [jmembers rbind]. assert (Hpar : Forall (fun e : centry => e.2.1 = params_for k n) es) by (eapply Forall_impl; [exact Hall|]; intros e (_ & H & _); exact H).
      pose proof (load_labels iter rnd path f2 k n Hio Hgc es ∅ Hnd Hpar) as HL. cbv zeta in HL.
      destruct (load_clusters _ _ _ _) as [m'|e|u|]; try (destruct HL as (e0 & j & d & H1 & H2 & H3); exact (Hlbad e0 j d H1 H2 H3)).
      destruct HL as [A B]. intros l. destruct (k_clusters k !! l) as [c|] eqn:El.
      + assert (Hin : (l, c) ∈ sorted_items (k_clusters k)) by (apply sorted_items_elem; exact El). rewrite Hes in Hin. apply elem_of_list_fmap in Hin as (e & Ee & Hin). injection Ee as -> ->.
        destruct (A e Hin) as (out & Em & Hlen & HL). exists (centry_cluster (params_for k n, out)). split; [exact Em|]. unfold kept, centry_cluster. cbn [c_params c_discs fst snd].
        split; [rewrite Forall_forall in Hall; destruct (Hall e Hin) as (_ & -> & _); reflexivity|]. rewrite !fmap_length. split; [exact Hlen|]. intros j K. rewrite !list_lookup_fmap.
        destruct (e.2.2 !! j) as [d|] eqn:Ej.
        * destruct (HL j d Ej) as (d' & H1 & ->). destruct (Hlf e j d Hin Ej) as (G1 & G2 & G3). rewrite <- !slot_file_eq, G3 in K.
          destruct (slot_intact iter (rnd e.1) (label_path path e.1) f2 (k_ignoreZero k) (k_base k) j d Hi (Hsave e j d Hin Ej) G1 G2) as [G _]. rewrite (G K) in H1. congruence.
        * apply lookup_ge_None in Ej. rewrite (lookup_ge_None_2 out) by lia. reflexivity.
      + rewrite B; [apply lookup_empty|]. intros Hin. apply elem_of_list_fmap in Hin as (e & -> & Hin). rewrite Forall_forall in Hall. destruct (Hall e Hin) as (He & _). congruence. }
  match goal with |- match rbind ?x _ with Ok _ => _ | _ => _ end => destruct x as [m'|e|u|] eqn:Ex end; cbn [rbind]; rewrite ?Ex in Hc2; try exact Hc2.
  assert (Hu2 : match match default JNull (unsup_value iter urnd path n uds) with JNull => Ok cluster_default | _ => cluster_of_json f2 (merge_patch (default JNull (unsup_value iter urnd path n uds)) (dc_of k)) end with
    | Ok c2 => kept (fun j => fs_read f2 (disc_file urnd path (lit "unsupervised_cluster") j) = fs_read f' (disc_file urnd path (lit "unsupervised_cluster") j)) (k_unsupervised k) c2
    | _ => exists name, ours name /\ fs_read f2 name <> fs_read f' name /\ fs_read f2 name <> None end).
  { rewrite Eu. destruct uds as [|d0 uds']; [cbn; unfold kept; auto|]. remember (d0 :: uds') as uds eqn:Eds. replace (match uds with [] => cluster_default | _ :: _ => centry_cluster (params_for k n, uds) end) with (centry_cluster (params_for k n, uds)) by (rewrite Eds; reflexivity).
    replace (unsup_value iter urnd path n uds) with (Some (cluster_value n (slot_values iter urnd true (path ++ lit "unsupervised_cluster__") 0 uds))) by (rewrite Eds; reflexivity). cbn [from_option id].
    pose proof (load_cluster iter urnd (path ++ lit "unsupervised_cluster__") f2 k n uds Hio Hgc) as HL. cbv zeta in HL. unfold cluster_value at 1. cbv match. change (JObj _) with (cluster_value n (slot_values iter urnd true (path ++ lit "unsupervised_cluster__") 0 uds)).
    assert (Hbad : forall j d, uds !! j = Some d -> (forall d', slot_load iter urnd (path ++ lit "unsupervised_cluster__") f2 (k_ignoreZero k) (k_base k) j d <> Ok d') -> exists name, ours name /\ fs_read f2 name <> fs_read f' name /\ fs_read f2 name <> None).
    { intros j d Hj Hno. destruct (Huf j d Hj) as (H1 & H2 & H3). destruct (slot_intact iter urnd (path ++ lit "unsupervised_cluster__") f2 (k_ignoreZero k) (k_base k) j d Hi (Forall_lookup_1 _ _ _ _ Husv Hj) H1 H2) as [A B].
      exists (disc_file urnd path (lit "unsupervised_cluster") j). rewrite <- slot_file_unsup. split; [|split].
      - right. exists j. rewrite Eu, Eds. split; [unfold centry_cluster; cbn [c_discs snd]; rewrite fmap_length, <- Eds; eapply lookup_lt_Some, Hj|apply slot_file_unsup].
      - intros K. rewrite H3 in K. apply (Hno d), A, K.
      - intros K. destruct (B K) as (d' & E). exact (Hno d' E). }
    destruct (cluster_of_json _ _) as [c|e|u|]; try (destruct HL as (j & d & H1 & H2); exact (Hbad j d H1 H2)).
    destruct HL as (out & -> & Hlen & HL). unfold kept, centry_cluster. cbn [c_params c_discs fst snd]. rewrite !fmap_length. split; [reflexivity|]. split; [exact Hlen|]. intros j K. rewrite !list_lookup_fmap.
    destruct (uds !! j) as [d|] eqn:Ej.
    - destruct (HL j d Ej) as (d' & H1 & ->). destruct (Huf j d Ej) as (G1 & G2 & G3). rewrite <- !slot_file_unsup, G3 in K.
      destruct (slot_intact iter urnd (path ++ lit "unsupervised_cluster__") f2 (k_ignoreZero k) (k_base k) j d Hi (Forall_lookup_1 _ _ _ _ Husv Ej) G1 G2) as [G _]. rewrite (G K) in H1. congruence.
    - apply lookup_ge_None in Ej. rewrite (lookup_ge_None_2 out) by lia. reflexivity. }
  match goal with |- match rbind ?x _ with Ok _ => _ | _ => _ end => destruct x as [c2|e|u|] eqn:Ey end; cbn [rbind]; rewrite ?Ey in Hu2; try exact Hu2.
  split; [reflexivity|]. split; [exact Hc2|exact Hu2].
Qed.
