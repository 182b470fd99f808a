(** Reachable ClusWisards survive a save; behaviour after reloading (C75). *)
From stdpp Require Import pretty.
From Verif Require Import Prelude Bytes Base64 Utils Float32 BinInput Bleaching Ram Json Fs RamData Disc Wisard Cluster ClusWisard SpecBin SpecDisc SpecBleach SpecWisard SpecSaved SpecCluster SpecClus SpecLaw SpecClusSaved.
From Verif Require Import TextProofs RamDataProofs DiscCtorProofs CtorFacts JsonNF DiscProofs DiscFacts BleachProofs WisardProofs WisardFacts JsonProofs JsonFacts WisardJson ClusterProofs ClusProofs ClusMore ClusterLaw ClusUnsup ClusJson.

(** ** What a history leaves *)
Definition saved_state (iter : iteration) (k : cluswisard) (n : Z) : Prop :=
  good_config k n /\ int_koptions k /\
  (forall l c, k_clusters k !! l = Some c -> exists ds, c = centry_cluster (params_for k n, ds) /\ Forall (savable_disc iter (k_ignoreZero k) (k_base k)) ds) /\
  (k_unsupervised k = cluster_default \/
   exists ds, ds <> [] /\ k_unsupervised k = centry_cluster (params_for k n, ds) /\ Forall (savable_disc iter (k_ignoreZero k) (k_base k)) ds).

Lemma reach_saved iter lhs k0 n cs k : valid_iter iter -> k_clusters k0 = ∅ -> configured_for k0 n -> int_koptions k0 ->
  Forall (proper_kcall k0 n) cs -> len (all_events cs) <= INT_MAX - 2 -> krun lhs k0 cs = (Ok tt, k) ->
  (forall l c, k_clusters k !! l = Some c -> small_cluster c) ->
  (k_unsupervised k0 = cluster_default \/
   exists ds, ds <> [] /\ k_unsupervised k0 = centry_cluster (params_for k0 n, ds) /\ Forall (savable_disc iter (k_ignoreZero k0) (k_base k0)) ds) ->
  saved_state iter k n.
Proof.
  intros Hi H0 Hcf Hio Hp Hl Hr Hsm Hun. destruct (clus_reach lhs k0 n cs H0 Hcf Hp Hl) as (k' & m & E & [[Hk H2] Hlaw] & _).
  rewrite Hr in E. injection E as <-. assert (Hcf' := Hcf). destruct Hcf' as ((_ & Ha & Hn & Hb & _) & Ht & _). cbn [params_for p_addressSize p_entrySize p_base] in *.
  assert (Hgc : good_config k0 n) by (unfold good_config; lia).
  rewrite Hk. unfold saved_state, good_config, int_koptions, params_for. cbn [with_clusters k_addressSize k_minScore k_threshold k_limit k_completeAddressing k_ignoreZero k_base k_confidence k_clusters k_unsupervised].
  fold (params_for k0 n). split; [exact Hgc|]. split; [exact Hio|]. split; [|exact Hun].
  intros l c Hc. specialize (H2 l). rewrite Hc in H2. destruct (m !! l) as [ss|] eqn:Em; [|contradiction]. destruct H2 as (Hok & _).
  destruct (cluster_savable iter (params_for k0 n) n (len (all_events cs)) ss c Hi ltac:(lia) ltac:(apply Hio) eq_refl ltac:(lia) Hok (clus_law_fed _ _ _ _ Hlaw l ss Em) (Hsm l c Hc)) as (ds & -> & HF & _).
  exists ds. split; [reflexivity|exact HF].
Qed.

(** Unsupervised training of an untrained ClusWisard. *)
Lemma unsup_start lhs env k n xs k1 : k_clusters k = ∅ -> good_params (unsupervised_params k n) n -> 1 <= k_threshold k <= INT_MAX ->
  (forall i : nat, valid_draw (env i)) -> xs <> [] -> Forall (plain_image 2 n) xs -> len xs <= INT_MAX - 2 ->
  trainUnsupervised lhs env k xs = (Ok tt, k1) ->
  exists c ss, k1 = with_unsupervised k c /\ cl_ok (unsupervised_params k n) n (len xs) ss c /\ cluster_law (unsupervised_params k n) xs ss.
Proof.
  intros H0 Hg Hth Henv Hne HF Hl Ht. destruct xs as [|x0 xs]; [congruence|].
  unfold trainUnsupervised in Ht. rewrite H0, map_size_empty in Ht. cbn [Nat.eqb] in Ht.
  assert (Hx0 : im_size x0 = n) by (apply Forall_cons in HF as [[H _] _]; exact H). assert (Hg' := Hg). destruct Hg' as (He' & Ha & Hn & _). cbn [unsupervised_params p_addressSize p_entrySize] in *.
  rewrite Hx0, s32_small in Ht by lia.
  assert (Hnew : new_cluster k n 2 = Cluster (Some (unsupervised_params k n)) []).
  { unfold new_cluster, cluster_new, unsupervised_params. rewrite !u32_small by lia. reflexivity. }
  rewrite Hnew in Ht. destruct (cluster_run lhs env _ n Hg Henv (x0 :: xs) 0 [] [] (Cluster (Some (unsupervised_params k n)) [])) as (c & ss & E & Hok & Hlaw).
  { split; [reflexivity|constructor|constructor|]. rewrite len_nil. lia. }
  { constructor. }
  { exact HF. }
  { rewrite len_nil. lia. }
  unfold at_unsupervised in Ht. cbn [with_unsupervised k_unsupervised] in Ht. rewrite <- enum0 in Ht. rewrite E in Ht. injection Ht as <-.
  exists c, ss. auto.
Qed.
Lemma law_nonempty p xs ss : cluster_law p xs ss -> xs <> [] -> ss <> [].
Proof. intros H Hne. inversion H as [|xs' x ss0 ss' _ HL]; subst; [congruence|]. eapply learn_nonempty, HL. Qed.
Lemma reach_saved_unsup iter lhs env k0 n xs k1 cs k : valid_iter iter -> k_clusters k0 = ∅ -> k_base k0 = 2 -> configured_for k0 n -> int_koptions k0 ->
  (forall i : nat, valid_draw (env i)) -> xs <> [] -> Forall (plain_image 2 n) xs -> len xs <= INT_MAX - 2 -> trainUnsupervised lhs env k0 xs = (Ok tt, k1) ->
  Forall (proper_kcall k0 n) cs -> len (all_events cs) <= INT_MAX - 2 -> krun lhs k1 cs = (Ok tt, k) ->
  (forall l c, k_clusters k !! l = Some c -> small_cluster c) -> small_cluster (k_unsupervised k) ->
  saved_state iter k n.
Proof.
  intros Hi H0 Hb Hcf Hio Henv Hne HF Hlx Ht Hp Hl Hr Hsm Hsu.
  assert (Hpar : unsupervised_params k0 n = params_for k0 n) by (unfold unsupervised_params, params_for; rewrite Hb; reflexivity).
  assert (Hcf' := Hcf). destruct Hcf' as (Hg & Hth & _).
  destruct (unsup_start lhs env k0 n xs k1 H0 ltac:(rewrite Hpar; exact Hg) Hth Henv Hne HF Hlx Ht) as (c & ss & -> & Hok & Hlaw). rewrite Hpar in *.
  assert (Hu : k_unsupervised k = c).
  { destruct (clus_reach lhs (with_unsupervised k0 c) n cs H0 Hcf Hp Hl) as (k' & m & E & [[Hk _] _] & _). rewrite Hr in E. injection E as <-. rewrite Hk. reflexivity. }
  assert (Hg' := Hg). destruct Hg' as (_ & Ha & Hn & _). cbn [params_for p_addressSize] in *.
  apply (reach_saved iter lhs (with_unsupervised k0 c) n cs k); auto. right.
  destruct (cluster_savable iter (params_for k0 n) n (len xs) ss c Hi ltac:(lia) ltac:(apply Hio) eq_refl ltac:(lia) Hok (cluster_law_fed _ _ _ Hlaw) ltac:(rewrite <- Hu; exact Hsu)) as (ds & -> & HFs & Hlen).
  exists ds. split; [|split; [reflexivity|exact HFs]]. intros ->. apply (law_nonempty _ _ _ Hlaw Hne). destruct ss; [reflexivity|discriminate].
Qed.

(** ** In memory *)
Lemma saved_mem iter rnd urnd f k n path : valid_iter iter -> saved_state iter k n -> (forall l, is_Some (k_clusters k !! l) -> utf8_ok l = true) ->
  exists j, clus_json iter rnd urnd f k false path = (Ok j, f) /\ forall f', clus_of_json f' j = Ok (without_search k).
Proof.
  intros Hi (Hgc & Hio & Hcl & Hun) Hu.
  assert (G : forall f', exists j, clus_json iter rnd urnd f k false path = (Ok j, f) /\ clus_of_json f' j = Ok (without_search k)).
  { intros f'. apply (clus_saved_gen iter rnd urnd f f' k n false path Hio Hgc).
    - intros l c Hc. split; [apply Hu; eauto|]. destruct (Hcl l c Hc) as (ds & -> & HF). exists ds. split; [reflexivity|]. apply reload_mem; assumption.
    - destruct Hun as [?|(ds & Hne & E & HF)]; [left; assumption|]. right. exists ds. split; [exact Hne|]. split; [exact E|]. apply reload_mem; assumption. }
  destruct (G f) as (j & E & _). exists j. split; [exact E|]. intros f'. destruct (G f') as (j' & E' & H). rewrite E in E'. injection E' as <-. exact H.
Qed.

(** ** In files *)
Definition no_bar (s : str) : Prop := "_"%char ∉ s.
Lemma char_no_bar n : pretty_N_char n <> "_"%char.
Proof. destruct n as [|[[[|[]|]|[[]|[]|]|]|[[|[]|]|[[]|[]|]|]|]]; cbn; discriminate. Qed.
Lemma go_no_bar : forall x s, no_bar (list_ascii_of_string s) -> no_bar (list_ascii_of_string (pretty_N_go x s)).
Proof.
  intros x. induction (N.lt_wf_0 x) as [x _ IH]. intros s Hs. destruct (decide (x = 0%N)) as [->|Hx].
  - rewrite pretty_N_go_0. assumption.
  - rewrite pretty_N_go_step by lia. apply IH; [apply N.div_lt; lia|]. cbn. intros H. apply elem_of_cons in H as [H|H]; [exact (char_no_bar _ (eq_sym H))|exact (Hs H)].
Qed.
Lemma to_string_no_bar j : no_bar (to_string j).
Proof.
  unfold to_string, pretty, pretty_N. destruct (decide _).
  - intros H. cbn in H. repeat (apply elem_of_cons in H as [H|H]; [discriminate|]). inversion H.
  - apply go_no_bar. intros H. inversion H.
Qed.
Lemma bar_split (l l' s s' : str) : no_bar s -> no_bar s' -> s ++ "_"%char :: l = s' ++ "_"%char :: l' -> s = s' /\ l = l'.
Proof.
  unfold no_bar. revert s'. induction s as [|c s IH]; intros [|c' s'] Hs Hs' E; cbn in E.
  - injection E as ->. auto.
  - injection E as E _. exfalso. apply Hs'. rewrite <- E. left.
  - injection E as E _. exfalso. apply Hs. rewrite E. left.
  - injection E as -> E. destruct (IH s') as [-> ->]; auto; intros H; [apply Hs|apply Hs']; right; exact H.
Qed.
Lemma name_inj (a a' r r' : str) i i' : length r = length r' ->
  a ++ lit "__" ++ to_string i ++ lit "__" ++ r ++ ramdata_sufix = a' ++ lit "__" ++ to_string i' ++ lit "__" ++ r' ++ ramdata_sufix -> a = a' /\ i = i'.
Proof.
  intros Hlen E. apply (f_equal (@rev ascii)) in E. rewrite !rev_app_distr, <- !app_assoc in E. apply app_inv_head in E.
  assert (Hl : length (rev r) = length (rev r')) by (rewrite !rev_length; exact Hlen). 
  assert (E2 : rev (lit "__") ++ rev (to_string i) ++ rev (lit "__") ++ rev a = rev (lit "__") ++ rev (to_string i') ++ rev (lit "__") ++ rev a').
  { apply (f_equal (drop (length (rev r)))) in E. rewrite drop_app in E. rewrite Hl, drop_app in E. exact E. }
  apply app_inv_head in E2. cbn [rev app list_ascii_of_string lit] in E2.
  change (rev (lit "__")) with ["_"%char; "_"%char] in E2. cbn [app] in E2.
  apply bar_split in E2 as [E3 E4].
  - apply (f_equal (@rev ascii)) in E3. rewrite !rev_involutive in E3. apply to_string_inj in E3. injection E4 as E4. apply (f_equal (@rev ascii)) in E4. rewrite !rev_involutive in E4. auto.
  - intros H. apply (to_string_no_bar i). apply elem_of_list_In. apply in_rev. apply elem_of_list_In. exact H.
  - intros H. apply (to_string_no_bar i'). apply elem_of_list_In. apply in_rev. apply elem_of_list_In. exact H.
Qed.
Lemma nodup_concat {A B K} (key : A -> K) (g : A -> list B) l : NoDup (key <$> l) -> (forall x, x ∈ l -> NoDup (g x)) ->
  (forall x y b, x ∈ l -> y ∈ l -> b ∈ g x -> b ∈ g y -> key x = key y) -> NoDup (List.concat (g <$> l)).
Proof.
  induction l as [|x l IH]; intros Hn Hg Hd; [constructor|]. rewrite fmap_cons in *. apply NoDup_cons in Hn as [Hx Hn]. cbn [List.concat]. apply NoDup_app. split; [apply Hg; left|]. split.
  - intros b Hb Hin. apply elem_of_list_In, in_concat in Hin as (gl & Hgl & Hbl). apply elem_of_list_In in Hgl. apply elem_of_list_fmap in Hgl as (y & -> & Hy). apply elem_of_list_In in Hbl.
    apply Hx. rewrite (Hd x y b); [|left|right; exact Hy|exact Hb|exact Hbl]. apply elem_of_list_fmap_1, Hy.
  - apply IH; [exact Hn|intros y Hy; apply Hg; right; exact Hy|]. intros y z b Hy Hz. apply Hd; right; assumption.
Qed.
Definition disc_file (rnd : nat -> str) (path l : str) (j : nat) : str := path ++ l ++ lit "__" ++ to_string j ++ lit "__" ++ rnd j ++ lit ".wdpkg".
Lemma slot_file_eq rnd path l j : slot_file rnd (label_path path l) j = disc_file rnd path l j.
Proof. unfold slot_file, disc_file, label_path. rewrite <- !app_assoc. reflexivity. Qed.
Lemma slot_file_unsup rnd path j : slot_file rnd (path ++ lit "unsupervised_cluster__") j = disc_file rnd path (lit "unsupervised_cluster") j.
Proof. unfold slot_file, disc_file. rewrite <- !app_assoc. reflexivity. Qed.
Lemma disc_file_inj rnd rnd' path l l' j j' : length (rnd j) = length (rnd' j') -> disc_file rnd path l j = disc_file rnd' path l' j' -> l = l' /\ j = j'.
Proof. intros H E. unfold disc_file in E. apply app_inv_head in E. exact (name_inj l l' _ _ j j' H E). Qed.
Lemma elem_writes iter rnd path p ds nc : nc ∈ cluster_writes iter rnd path (Cluster p (Some <$> ds)) <->
  exists j d, ds !! j = Some d /\ nc = (slot_file rnd path j, ramsdata_file iter (d_rams d)).
Proof.
  rewrite writes_nf, elem_of_list_fmap. unfold number. split.
  - intros ([i d] & -> & H). apply elem_of_lookup_imap in H as (j & d' & E & Hj). injection E as -> ->. cbn [fst snd]. eauto.
  - intros (j & d & Hj & ->). exists (j, d). split; [reflexivity|]. apply elem_of_lookup_imap. exists j, d. auto.
Qed.
Lemma nodup_writes iter rnd path l p ds : (forall j, length (rnd j) = 10%nat) ->
  NoDup (cluster_writes iter rnd (label_path path l) (Cluster p (Some <$> ds))).*1.
Proof.
  intros Hr. rewrite writes_nf, <- list_fmap_compose. unfold number. rewrite fmap_imap.
  assert (E : imap (fun (n : nat) (x : disc) => ((fst : str * str -> str) ∘ (fun id : nat * disc => (slot_file rnd (label_path path l) id.1, ramsdata_file iter (d_rams id.2)))) ((0 + n)%nat, x)) ds =
     (fun j => disc_file rnd path l j) <$> seq 0 (length ds)).
  { apply list_eq. intros i. rewrite list_lookup_imap, list_lookup_fmap. unfold compose. cbn [fst snd].
    destruct (ds !! i) as [d|] eqn:Ed; cbn.
    - rewrite lookup_seq_lt by (eapply lookup_lt_Some, Ed). cbn. rewrite slot_file_eq. reflexivity.
    - rewrite lookup_seq_ge by (apply lookup_ge_None_1, Ed). reflexivity. }
  rewrite (imap_ext _ (fun (n : nat) (x : disc) => ((fst : str * str -> str) ∘ (fun id : nat * disc => (slot_file rnd (label_path path l) id.1, ramsdata_file iter (d_rams id.2)))) ((0 + n)%nat, x))) by (intros; reflexivity).
  rewrite E. apply NoDup_fmap_2_strong; [|apply NoDup_seq]. intros i j _ _ H. apply disc_file_inj in H as [_ H]; [exact H|]. rewrite !Hr. reflexivity.
Qed.
Lemma fmap_concat {A B} (g : A -> B) (l : list (list A)) : (g <$> List.concat l : list B) = List.concat ((fun x : list A => (g <$> x : list B)) <$> l).
Proof. induction l as [|x l IH]; [reflexivity|]. rewrite fmap_cons. cbn [List.concat]. rewrite fmap_app, IH. reflexivity. Qed.
Lemma elem_concat {A B} (g : A -> list B) l b : b ∈ List.concat (g <$> l) <-> exists x, x ∈ l /\ b ∈ g x.
Proof.
  rewrite elem_of_list_In, in_concat. split.
  - intros (gl & H & Hb). apply elem_of_list_In in H. apply elem_of_list_fmap in H as (x & -> & Hx). exists x. split; [exact Hx|]. apply elem_of_list_In, Hb.
  - intros (x & Hx & Hb). exists (g x). rewrite <- !elem_of_list_In. split; [apply elem_of_list_fmap_1, Hx|exact Hb].
Qed.
Lemma saved_file iter rnd urnd f k n path : valid_iter iter -> saved_state iter k n ->
  (forall l j, length (rnd l j) = 10%nat) -> (forall j, length (urnd j) = 10%nat) ->
  (k_unsupervised k = cluster_default \/ k_clusters k !! lit "unsupervised_cluster" = None) ->
  (forall l c, k_clusters k !! l = Some c -> utf8_ok l = true) ->
  (forall name, (exists l c j, k_clusters k !! l = Some c /\ (j < length (c_discs c))%nat /\ name = disc_file (rnd l) path l j) \/
                (exists j, (j < length (c_discs (k_unsupervised k)))%nat /\ name = disc_file urnd path (lit "unsupervised_cluster") j) ->
     utf8_ok name = true /\ len name < W64 /\ fs_writable f name = true /\ fs_read f name = None) ->
  exists j f', clus_json iter rnd urnd f k true path = (Ok j, f') /\ clus_of_json f' j = Ok (without_search k).
Proof.
  intros Hi (Hgc & Hio & Hcl & Hun) Hr Hur Hdis Hu Hnames.
  set (W := clus_writes iter rnd urnd path k). set (f2 := foldl put f W).
  assert (Hf : forall l c, k_clusters k !! l = Some c -> exists ds, c = Cluster (Some (params_for k n)) (Some <$> ds)) by (intros l c Hc; destruct (Hcl l c Hc) as (ds & -> & _); exists ds; reflexivity).
  assert (Hun' : exists uds, k_unsupervised k = Cluster (c_params (k_unsupervised k)) (Some <$> uds)).
  { destruct Hun as [->|(ds & _ & -> & _)]; [exists []|exists ds]; reflexivity. }
  destruct Hun' as (uds & Hud).
  assert (Hnd : NoDup W.*1).
  { unfold W, clus_writes. rewrite fmap_app. apply NoDup_app. split; [|split].
    - rewrite fmap_concat, <- list_fmap_compose. apply (nodup_concat fst).
      + apply sorted_items_nodup.
      + intros [l c] Hin. apply sorted_items_elem in Hin. destruct (Hf l c Hin) as (ds & ->). unfold compose. cbn [fst snd]. apply nodup_writes. apply Hr.
      + intros [l c] [l' c'] b Hx Hy. apply sorted_items_elem in Hx, Hy. destruct (Hf l c Hx) as (ds & ->). destruct (Hf l' c' Hy) as (ds' & ->). unfold compose. cbn [fst snd].
        rewrite !elem_of_list_fmap. intros (nc & -> & H1) (nc' & E & H2). apply elem_writes in H1 as (j & d & _ & ->). apply elem_writes in H2 as (j' & d' & _ & ->). cbn [fst] in E.
        rewrite !slot_file_eq in E. apply disc_file_inj in E as [E _]; [exact E|]. rewrite !Hr. reflexivity.
    - intros b H1 H2. rewrite fmap_concat, <- list_fmap_compose in H1. apply elem_concat in H1 as ([l c] & Hin & H1). apply sorted_items_elem in Hin. destruct (Hf l c Hin) as (ds & ->).
      unfold compose in H1. cbn [fst snd] in H1. apply elem_of_list_fmap in H1 as (nc & -> & H1). apply elem_writes in H1 as (j & d & _ & ->). cbn [fst] in H2. rewrite slot_file_eq in H2.
      rewrite Hud in H2. apply elem_of_list_fmap in H2 as (nc' & E & H2). apply elem_writes in H2 as (j' & d' & Hj' & ->). cbn [fst] in E. rewrite slot_file_unsup in E.
      apply disc_file_inj in E as [E _]; [|rewrite Hr, Hur; reflexivity]. subst l. destruct Hdis as [Hdis|Hdis]; [|congruence].
      rewrite Hdis in Hud. injection Hud as Hud. destruct uds; [|discriminate Hud]. rewrite lookup_nil in Hj'. discriminate.
    - rewrite Hud. change (path ++ lit "unsupervised_cluster__") with (path ++ lit "unsupervised_cluster" ++ lit "__"). apply (nodup_writes iter urnd path (lit "unsupervised_cluster")). exact Hur. }
  assert (Hnew : Forall (fun nc => utf8_ok nc.1 = true /\ len nc.1 < W64 /\ fs_writable f nc.1 = true /\ fs_read f nc.1 = None) W).
  { apply Forall_forall. intros nc Hin. apply Hnames. unfold W, clus_writes in Hin. apply elem_of_app in Hin as [Hin|Hin].
    - left. apply elem_concat in Hin as ([l c] & Hin & H). apply sorted_items_elem in Hin. cbn [fst snd] in H. exists l, c. destruct (Hf l c Hin) as (ds & E). rewrite E in H.
      apply elem_writes in H as (j & d & Hj & ->). exists j. split; [exact Hin|]. rewrite E. cbn [c_discs fst]. rewrite fmap_length, slot_file_eq. split; [eapply lookup_lt_Some, Hj|reflexivity].
    - right. rewrite Hud in Hin. apply elem_writes in Hin as (j & d & Hj & ->). exists j. rewrite Hud. cbn [c_discs fst]. rewrite fmap_length, slot_file_unsup. split; [eapply lookup_lt_Some, Hj|reflexivity]. }
  assert (Hread : forall nc, nc ∈ W -> utf8_ok nc.1 = true /\ len nc.1 < W64 /\ fs_read f2 nc.1 = Some nc.2).
  { intros nc Hin. assert (H := Hnew). rewrite Forall_forall in H. destruct (H nc Hin) as (H1 & H2 & _). split; [exact H1|]. split; [exact H2|]. apply put_read; [exact Hnd| |exact Hin].
    eapply Forall_impl; [exact Hnew|]. intros x (_ & _ & Hx). exact Hx. }
  destruct (clus_saved_gen iter rnd urnd f f2 k n true path Hio Hgc) as (j & E & E').
  - intros l c Hc. split; [eapply Hu, Hc|]. destruct (Hcl l c Hc) as (ds & -> & HF). exists ds. split; [reflexivity|]. apply reload_file; [exact Hi|exact HF|].
    intros j d Hj. apply (Hread (slot_file (rnd l) (label_path path l) j, ramsdata_file iter (d_rams d))). unfold W, clus_writes. apply elem_of_app. left.
    apply elem_concat. exists (l, centry_cluster (params_for k n, ds)). split; [apply sorted_items_elem, Hc|]. cbn [fst snd]. apply elem_writes. eauto.
  - destruct Hun as [?|(ds & Hne & Eu & HF)]; [left; assumption|]. right. exists ds. split; [exact Hne|]. split; [exact Eu|]. apply reload_file; [exact Hi|exact HF|].
    intros j d Hj. apply (Hread (slot_file urnd (path ++ lit "unsupervised_cluster__") j, ramsdata_file iter (d_rams d))). unfold W, clus_writes. apply elem_of_app. right.
    rewrite Eu. apply elem_writes. eauto.
  - exists j, f2. split; [exact E|exact E'].
Qed.

(** ** Afterwards *)
Definition klift {A} (r : eff cluswisard A) : eff cluswisard A := let '(o, k) := r in (o, without_search k).
Lemma klift_bind {A B} (r : eff cluswisard A) (g : A -> cluswisard -> eff cluswisard B) :
  (forall a k, g a (without_search k) = klift (g a k)) -> ebind (klift r) g = klift (ebind r g).
Proof. intros H. destruct r as [[a| | |] k]; cbn; auto. Qed.
Lemma at_cluster_ws g k l : at_cluster g (without_search k) l = klift (at_cluster g k l).
Proof. unfold at_cluster. cbn [without_search k_clusters]. destruct (g _) as [o c]. reflexivity. Qed.
Lemma train1_ws lhs dr k x l : clus_train1 lhs dr (without_search k) x l = klift (clus_train1 lhs dr k x l).
Proof.
  unfold clus_train1. cbn [without_search k_clusters]. destruct (k_clusters k !! l).
  - apply at_cluster_ws.
  - rewrite <- at_cluster_ws. reflexivity.
Qed.
Lemma elift_ws {A} k (r : res A) : elift (without_search k) r = klift (elift k r). Proof. reflexivity. Qed.
Lemma train_loop_ws lhs env : forall xs ls i k, clus_train_loop lhs env i (without_search k) xs ls = klift (clus_train_loop lhs env i k xs ls).
Proof.
  induction xs as [|x xs IH]; intros [|l ls] i k; try reflexivity. cbn [clus_train_loop]. rewrite train1_ws. apply klift_bind. intros _ k'. apply IH.
Qed.
Lemma train_ws lhs env k xs ls : clus_train lhs env (without_search k) xs ls = klift (clus_train lhs env k xs ls).
Proof.
  unfold clus_train. destruct xs as [|x xs]; [reflexivity|]. change (clus_first_checks (without_search k) x) with (clus_first_checks k x).
  rewrite elift_ws. apply klift_bind. intros _ k'. apply train_loop_ws.
Qed.
Lemma unlabelled_ws lhs dr k x : clus_train_unlabelled lhs dr (without_search k) x = klift (clus_train_unlabelled lhs dr k x).
Proof.
  unfold clus_train_unlabelled. change (clus_candidates (without_search k) x false) with (clus_candidates k x false). rewrite elift_ws. apply klift_bind. intros c k'. apply at_cluster_ws.
Qed.
Lemma semi_loop_ws lhs env (labels : gmap Z str) : forall xs i ls j k, semi_loop lhs env labels i ls j xs (without_search k) = klift (semi_loop lhs env labels i ls j xs k).
Proof.
  induction xs as [|x xs IH]; intros i ls j k; [reflexivity|]. cbn [semi_loop]. destruct (labels !! s32 (Z.of_nat i)).
  - rewrite train1_ws. apply klift_bind. intros _ k'. apply IH.
  - destruct (u64 (ls - 1) <? j); [apply IH|]. destruct (j <? ls); [apply IH|reflexivity].
Qed.
Lemma efor_ws {A} (g : cluswisard -> A -> eff cluswisard unit) : (forall k a, g (without_search k) a = klift (g k a)) ->
  forall l k, efor g l (without_search k) = klift (efor g l k).
Proof. intros H. induction l as [|a l IH]; intros k; [reflexivity|]. cbn [efor]. rewrite H. apply klift_bind. intros _ k'. apply IH. Qed.
Lemma semi_ws lhs env env2 k xs (labels : gmap Z str) : clus_train_semi lhs env env2 (without_search k) xs labels = klift (clus_train_semi lhs env env2 k xs labels).
Proof.
  unfold clus_train_semi. destruct xs as [|x xs]; [reflexivity|]. change (clus_first_checks (without_search k) x) with (clus_first_checks k x).
  rewrite elift_ws. apply klift_bind. intros _ k'. rewrite semi_loop_ws. apply klift_bind. intros ls k2. destruct (_ =? _); [reflexivity|].
  unfold semi_unlabelled. apply efor_ws. intros k3 i. rewrite elift_ws. apply klift_bind. intros y k4. apply unlabelled_ws.
Qed.
Lemma unsup_ws lhs env k xs : trainUnsupervised lhs env (without_search k) xs = klift (trainUnsupervised lhs env k xs).
Proof.
  unfold trainUnsupervised. cbn [without_search k_clusters].
  destruct (Nat.eqb _ _); [destruct xs; [reflexivity|]|]; unfold at_unsupervised; cbn [with_unsupervised without_search k_unsupervised]; destruct (efor _ _ _) as [o c]; reflexivity.
Qed.
Lemma krun_ws lhs cs k : krun lhs (without_search k) cs = klift (krun lhs k cs).
Proof.
  unfold krun. apply efor_ws. intros k' [env xs ls|env env2 xs ls|env xs]; cbn [kcall_run]; [apply train_ws|apply semi_ws|apply unsup_ws].
Qed.
Lemma classify_ws k xs : clus_classify (without_search k) xs = clus_classify k xs.
Proof.
  unfold clus_classify. induction xs as [|x xs IH]; [reflexivity|]. cbn [rmapM]. rewrite IH. unfold clus_classify1, clus_candidates.
  cbn [without_search k_clusters k_bleachingActivated k_confidence k_searchBestConfidence].
  destruct (clus_votes (k_clusters k) x); cbn [rbind]; try reflexivity. rewrite (bleach_sbc _ _ false (k_searchBestConfidence k)). reflexivity.
Qed.
