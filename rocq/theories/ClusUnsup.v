(** Unsupervised training and classification; mental images; failures. *)
From Verif Require Import Prelude Bytes Utils Float32 BinInput Bleaching Ram Disc Wisard Cluster ClusWisard SpecDisc SpecBleach SpecWisard SpecCluster SpecClus SpecLaw.
From Verif Require Import BytesProofs UtilsProofs TextProofs CtorFacts RamProofs DiscProofs DiscFacts FloatSign DiscCtorProofs ClusterProofs WisardProofs BleachProofs ClusProofs ClusMore ClusterLaw.

Lemma before_colons_none s : no_colon s -> before_colons s = s.
Proof.
  induction s as [|c s IH]; [reflexivity|]. intros H. assert (Hs : no_colon s) by (intros Hi; apply H; right; exact Hi).
  destruct s as [|c' s]; [reflexivity|]. rewrite before_colons_cons. destruct (decide _) as [[-> _]|_]; [exfalso; apply H; left|]. f_equal. apply IH, Hs.
Qed.

Lemma numbers_spec (vs : list (list Z)) key v : (list_to_map (rev (imap (fun j v => (to_string j, v)) vs)) : gmap str (list Z)) !! key = Some v <->
  exists j, vs !! j = Some v /\ key = to_string j.
Proof.
  rewrite list_to_map_rev.
  - rewrite elem_of_lookup_imap. split; [intros (j & w & E & Hj); injection E as -> ->; eauto|intros (j & Hj & ->); exists j, v; auto].
  - apply NoDup_alt. intros i j x Hi Hj. rewrite list_lookup_fmap, list_lookup_imap in Hi, Hj.
    destruct (vs !! i), (vs !! j); cbn in Hi, Hj; try discriminate. injection Hi as <-. injection Hj as Hj. apply to_string_inj in Hj. auto.
Qed.

Lemma unsup_classify1 k p n N ss x : good_params p n -> 0 <= N < INT_MAX - 1 -> cl_ok p n N ss (k_unsupervised k) -> ss <> [] -> plain_image (p_base p) n x ->
  exists r, clus_classifyUnsupervised1 k x = Ok r /\ number_due k ss x r.
Proof.
  intros Hg HN Hok Hne Hx. unfold clus_classifyUnsupervised1. rewrite (cl_classify p n N ss _ x Hg ltac:(lia) Hok Hx). cbn [rbind].
  set (votes := (list_to_map _ : gmap str (list Z))).
  assert (Ho : forall key v, votes !! key = Some v <-> exists j s, ss !! j = Some s /\ key = to_string j /\ v = slot_votes s x).
  { intros key v. unfold votes. rewrite numbers_spec. split.
    - intros (j & Hj & ->). rewrite list_lookup_fmap in Hj. destruct (ss !! j) as [s|] eqn:Es; [|discriminate]. cbn in Hj. injection Hj as <-. eauto.
    - intros (j & s & Hj & -> & ->). exists j. rewrite list_lookup_fmap, Hj. auto. }
  assert (Hvb : votes_below (INT_MAX - 1) votes).
  { intros key vs Hv. apply Ho in Hv as (j & s & Hj & _ & ->). destruct Hok as [_ _ Hs _]. destruct (Forall2_lookup_l _ _ _ _ _ Hs Hj) as (o & _ & d & _ & _ & _ & Hlen & _).
    unfold slot_votes. apply Forall_fmap, Forall_true. intros r. unfold compose, vote_due. destruct (_ && _); [lia|].
    pose proof (due_range (r_addresses r) x (Train <$> s_seen s)) as Hd. rewrite len_fmap in Hd. lia. }
  assert (Hb : exists cand, bleaching_make votes (k_bleachingActivated k) false 1 = Ok cand /\ (if k_bleachingActivated k then bleached 1 votes cand else cand = tallies 1 votes)).
  { destruct (k_bleachingActivated k); [apply bleach_terminates, Hvb|eexists; split; [apply bleach_off|reflexivity]]. }
  destruct Hb as (cand & Hb & Hd). rewrite Hb. cbn [rbind]. eexists. split; [reflexivity|].
  assert (Hv0 : votes <> ∅).
  { intros E. destruct ss as [|s ss]; [congruence|]. specialize (Ho (to_string 0) (slot_votes s x)). rewrite E, lookup_empty in Ho. destruct Ho as [_ Ho]. discriminate Ho. exists O, s. auto. }
  destruct (candidates_keys _ _ _ _ _ Hb) as [b Hcand].
  assert (Hw : winner cand (getBiggestCandidate cand)).
  { apply biggest_winner; [rewrite Hcand; intros ? ?; apply tallies_nonneg|]. rewrite Hcand. unfold tallies. intros E. apply fmap_empty_inv in E. contradiction. }
  destruct (biggest_key _ _ _ _ _ Hb Hv0) as [v Hbk]. apply Ho in Hbk as (j & s & Hj & Hkey & _).
  exists votes, cand, j. split; [eapply lookup_lt_Some, Hj|]. split; [rewrite Hkey; apply before_colons_none, to_string_no_colon|]. split; [exact Ho|]. split; [exact Hd|]. rewrite <- Hkey. exact Hw.
Qed.

Theorem unsupervised_law lhs env k n xs : k_clusters k = ∅ -> good_params (unsupervised_params k n) n -> 1 <= k_threshold k <= INT_MAX ->
  (forall i : nat, valid_draw (env i)) -> xs <> [] -> Forall (plain_image 2 n) xs -> len xs <= INT_MAX - 2 ->
  exists k' ss, trainUnsupervised lhs env k xs = (Ok tt, k') /\ k' = with_unsupervised k (k_unsupervised k') /\
    cluster_law (unsupervised_params k n) xs ss /\ holds ss (k_unsupervised k') /\
    forall ys, Forall (plain_image 2 n) ys -> exists rs, clus_classifyUnsupervised k' ys = Ok rs /\ Forall2 (number_due k ss) ys rs.
Proof.
  intros H0 Hg Ht Henv Hne HF Hl. destruct xs as [|x0 xs]; [congruence|]. unfold trainUnsupervised. rewrite H0, map_size_empty. cbn [Nat.eqb].
  assert (Hx0 : im_size x0 = n) by (apply Forall_cons in HF as [[H _] _]; exact H). assert (Hg' := Hg). destruct Hg' as (He & Ha & Hn & _). cbn [unsupervised_params p_addressSize p_entrySize] in *.
  rewrite Hx0, s32_small by lia.
  assert (Hnew : new_cluster k n 2 = Cluster (Some (unsupervised_params k n)) []).
  { unfold new_cluster, cluster_new, unsupervised_params. rewrite !u32_small by lia. reflexivity. }
  rewrite Hnew. destruct (cluster_run lhs env _ n Hg Henv (x0 :: xs) 0 [] [] (Cluster (Some (unsupervised_params k n)) [])) as (c & ss & E & Hok & Hlaw).
  { split; [reflexivity|constructor|constructor|]. rewrite len_nil. lia. }
  { constructor. }
  { exact HF. }
  { rewrite len_nil. lia. }
  unfold at_unsupervised. cbn [with_unsupervised k_unsupervised]. rewrite <- enum0. rewrite E. eexists _, ss. split; [reflexivity|]. split; [destruct k; reflexivity|]. cbn [app] in *.
  split; [exact Hlaw|]. cbn [with_unsupervised k_unsupervised]. split; [eapply cl_holds, Hok|].
  pose proof (len_nonneg (x0 :: xs)).
  assert (Hss : ss <> []). { revert Hlaw. generalize (eq_refl (x0 :: xs)). generalize (x0 :: xs) at 1 3. intros l El Hlaw. destruct Hlaw as [|? ? ? ? _ HL]; [discriminate|eapply learn_nonempty, HL]. }
  induction 1 as [|y ys Hy _ (rs & Er & IH)]; [exists []; auto|].
  match goal with |- context [clus_classifyUnsupervised ?k1 _] => destruct (unsup_classify1 k1 _ n (len (x0 :: xs)) ss y Hg ltac:(lia) Hok Hss Hy) as (r & E1 & Hd) end.
  exists (r :: rs). unfold clus_classifyUnsupervised in *. cbn [rmapM]. rewrite E1. cbn [rbind]. rewrite Er. cbn [rbind]. split; [reflexivity|]. constructor; [exact Hd|exact IH].
Qed.

(** C72 *)
Lemma unsup_accumulates lhs env k xs ys k1 : k_clusters k <> ∅ -> trainUnsupervised lhs env k xs = (Ok tt, k1) ->
  trainUnsupervised lhs (fun i => env (length xs + i)%nat) k1 ys = trainUnsupervised lhs env k (xs ++ ys).
Proof.
  intros Hne H. assert (Hs : Nat.eqb (size (k_clusters k)) 0 = false) by (apply Nat.eqb_neq; intros E; apply map_size_empty_inv in E; contradiction).
  unfold trainUnsupervised in *. rewrite Hs in *. unfold at_unsupervised in *. destruct (efor _ _ (k_unsupervised k)) as [o c] eqn:E. injection H as -> <-.
  cbn [with_unsupervised k_clusters k_unsupervised]. rewrite Hs. rewrite imap_app, efor_app, E. cbn [ebind].
  assert (He : forall ys c (n m : nat), efor (fun c iim => cluster_train lhs (env (n + iim.1)%nat) c iim.2) (enum m ys) c =
     efor (fun c iim => cluster_train lhs (env iim.1) c iim.2) (enum (n + m) ys) c).
  { clear. induction ys as [|y ys IH]; intros c n m; [reflexivity|]. rewrite !enum_cons. cbn [efor fst snd]. rewrite <- Nat.add_succ_r. destruct (cluster_train _ _ _ _) as [[[]| | |] c']; cbn [ebind]; try reflexivity. apply IH. }
  rewrite <- enum0. rewrite He. rewrite Nat.add_0_r. change (imap (fun n : nat => pair (length xs + n)%nat) ys) with (enum (length xs) ys).
  destruct (efor _ (enum (length xs) ys) c) as [o2 c2]. reflexivity.
Qed.
Lemma unsup_replaces lhs env k u xs : k_clusters k = ∅ -> xs <> [] -> trainUnsupervised lhs env (with_unsupervised k u) xs = trainUnsupervised lhs env k xs.
Proof. intros H Hx. destruct xs; [congruence|]. unfold trainUnsupervised. cbn [with_unsupervised k_clusters]. rewrite H, map_size_empty. reflexivity. Qed.
(** C73 *)
Lemma unsup_configured lhs env k n xs : k_clusters k <> ∅ -> good_params (unsupervised_params k n) n -> (forall i : nat, valid_draw (env i)) ->
  Forall (plain_image 2 n) xs -> forall xs0 ss0, cl_ok (unsupervised_params k n) n (len xs0) ss0 (k_unsupervised k) -> cluster_law (unsupervised_params k n) xs0 ss0 -> len xs0 + len xs <= INT_MAX ->
  exists k' ss, trainUnsupervised lhs env k xs = (Ok tt, k') /\ k' = with_unsupervised k (k_unsupervised k') /\
    cluster_law (unsupervised_params k n) (xs0 ++ xs) ss /\ cl_ok (unsupervised_params k n) n (len (xs0 ++ xs)) ss (k_unsupervised k').
Proof.
  intros Hne Hg Henv HF xs0 ss0 Hok Hlaw Hl. assert (Hs : Nat.eqb (size (k_clusters k)) 0 = false) by (apply Nat.eqb_neq; intros E; apply map_size_empty_inv in E; contradiction).
  unfold trainUnsupervised. rewrite Hs. unfold at_unsupervised. rewrite <- enum0.
  destruct (cluster_run lhs env _ n Hg Henv xs 0 xs0 ss0 (k_unsupervised k) Hok Hlaw HF Hl) as (c & ss & -> & Hok' & Hlaw').
  eexists _, ss. split; [reflexivity|]. split; [destruct k; reflexivity|]. split; [exact Hlaw'|exact Hok'].
Qed.

(** C76 *)
Lemma mental_known iter k l : is_Some (k_clusters k !! l) -> snd (clus_mental1 iter k l) = k.
Proof. intros [c H]. unfold clus_mental1. cbn [snd]. rewrite H. cbn [from_option id]. rewrite insert_id by exact H. destruct k; reflexivity. Qed.
Lemma mental_unknown iter k l ims out : k_clusters k !! l = None -> clus_classify k ims = Ok out ->
  clus_mental1 iter k l = (Ok [], with_clusters k (<[l := cluster_default]> (k_clusters k))) /\
  clus_classify (snd (clus_mental1 iter k l)) ims = Ok out.
Proof.
  intros Hl Hc. assert (E : clus_mental1 iter k l = (Ok [], with_clusters k (<[l := cluster_default]> (k_clusters k)))) by (unfold clus_mental1; rewrite Hl; reflexivity).
  split; [exact E|]. rewrite E. cbn [snd]. unfold clus_classify in *. apply DiscCtorProofs.rmapM_ok in Hc. apply DiscCtorProofs.rmapM_ok. eapply Forall2_impl; [exact Hc|].
  intros im r H. cbn beta in *. unfold clus_classify1, clus_candidates in *. cbn [with_clusters k_clusters k_searchBestConfidence k_bleachingActivated k_confidence].
  destruct (clus_votes (k_clusters k) im) as [vts| | |] eqn:Hv; cbn [rbind] in H; [|discriminate..].
  assert (Hv' : clus_votes (<[l := cluster_default]> (k_clusters k)) im = Ok vts); [|rewrite Hv'; exact H].
  destruct (clus_votes_spec _ _ _ Hv) as [Hcl Hsp].
  assert (Hex : exists vts', clus_votes (<[l := cluster_default]> (k_clusters k)) im = Ok vts').
  { unfold clus_votes. match goal with |- exists v, rbind (rmapM ?f ?l0) _ = _ => destruct (rmapM_total f l0) as [ys ->]; [|cbn [rbind]; eauto] end.
    apply Forall_forall. intros [l' c'] Hin. apply sorted_items_elem in Hin. cbn [fst snd]. destruct (decide (l = l')) as [<-|Hn].
    - rewrite lookup_insert in Hin. injection Hin as <-. cbn. eauto.
    - rewrite lookup_insert_ne in Hin by assumption. destruct (Hcl _ _ Hin) as [vs ->]. cbn [rbind]. eauto. }
  destruct Hex as [vts' Hv']. rewrite Hv'. f_equal. destruct (clus_votes_spec _ _ _ Hv') as [_ Hsp']. apply map_eq. intros key. apply option_eq. intros v. rewrite Hsp, Hsp'. split.
  - intros (l' & c' & vs & j & H1 & H2 & H3). destruct (decide (l = l')) as [<-|Hn].
    + rewrite lookup_insert in H1. injection H1 as <-. cbn in H2. injection H2 as <-. destruct H3 as [H3 _]. destruct j; discriminate H3.
    + rewrite lookup_insert_ne in H1 by assumption. exists l', c', vs, j. auto.
  - intros (l' & c' & vs & j & H1 & H2 & H3). exists l', c', vs, j. rewrite lookup_insert_ne by congruence. auto.
Qed.

(** Failed calls: without a null entry left behind, every slot stays usable. *)
Lemma train_no_null dr c im o c' : cluster_train false dr c im = (o, c') -> Forall is_Some (c_discs c) -> Forall is_Some (c_discs c').
Proof.
  intros H HF. unfold cluster_train in H.
  assert (Hat : forall c i o c', cluster_train_at c i im = (o, c') -> Forall is_Some (c_discs c) -> Forall is_Some (c_discs c')).
  { clear. intros c i o c' H HF. unfold cluster_train_at in H. destruct (c_discs c !! i) as [[d|]|]; [|injection H as _ <-; exact HF..].
    destruct (disc_train d im) as [o1 d1]. injection H as _ <-. cbn [with_discs c_discs]. apply Forall_insert; [exact HF|eauto]. }
  assert (Hmk : forall c i o c', ebind (cluster_make false dr c) (fun _ c => cluster_train_at c i im) = (o, c') -> Forall is_Some (c_discs c) -> Forall is_Some (c_discs c')).
  { clear - Hat. intros c i o c' H HF. unfold cluster_make in H. destruct (c_params c) as [p|]; [|injection H as _ <-; exact HF].
    destruct (setRAMShuffle _ _ _ _ _ _) as [d| | |]; cbn [ebind] in H; [|injection H as _ <-; exact HF..].
    apply Hat in H; [exact H|]. cbn [with_discs c_discs]. apply Forall_app. split; [exact HF|repeat constructor; eauto]. }
  destruct (c_discs c) as [|o0 ds0] eqn:Hds; [apply Hmk in H; [exact H|rewrite Hds; constructor]|]. rewrite <- Hds in *.
  destruct (c_params c) as [p|]; [|injection H as _ <-; exact HF].
  destruct (cluster_scan p im (c_discs c) 0 f32_zero None false) as [r ds'] eqn:Hsc. destruct (scan_keeps _ _ _ _ _ _ _ _ _ Hsc) as (K1 & _).
  assert (HF' : Forall is_Some ds').
  { clear - K1 HF. induction K1 as [|a b ds ds' Hab K1 IH]; [constructor|]. apply Forall_cons in HF as [[d ->] HF]. constructor; [|apply IH, HF]. destruct b; [eauto|contradiction]. }
  destruct r as [[bi t]| | |]; [|injection H as _ <-; exact HF'..]. destruct t; [injection H as _ <-; exact HF'|].
  destruct (_ <? _); [apply Hmk in H; [exact H|exact HF']|]. destruct bi; [apply Hat in H; [exact H|exact HF']|injection H as _ <-; exact HF'].
Qed.

(** C73: unsupervised training before and after supervised training. *)
Lemma unsup_between lhs env env2 k n xs k1 cs k2 ys :
  k_clusters k = ∅ -> good_params (unsupervised_params k n) n -> configured_for k n ->
  (forall i : nat, valid_draw (env i)) -> (forall i : nat, valid_draw (env2 i)) ->
  xs <> [] -> Forall (plain_image 2 n) xs -> Forall (plain_image 2 n) ys -> len xs + len ys <= INT_MAX - 2 ->
  trainUnsupervised lhs env k xs = (Ok tt, k1) ->
  Forall (proper_kcall k n) cs -> len (all_events cs) <= INT_MAX - 2 -> krun lhs k1 cs = (Ok tt, k2) -> k_clusters k2 <> ∅ ->
  exists k3 ss, trainUnsupervised lhs env2 k2 ys = (Ok tt, k3) /\
    cluster_law (unsupervised_params k n) (xs ++ ys) ss /\ holds ss (k_unsupervised k3).
Proof.
  intros H0 Hg Hcf Henv Henv2 Hne HF HFy Hl Ht Hp He Hr Hk2. destruct xs as [|x0 xs]; [congruence|].
  unfold trainUnsupervised in Ht. rewrite H0, map_size_empty in Ht. cbn [Nat.eqb] in Ht.
  assert (Hx0 : im_size x0 = n) by (apply Forall_cons in HF as [[H _] _]; exact H). assert (Hg' := Hg). destruct Hg' as (He' & Ha & Hn & _). cbn [unsupervised_params p_addressSize p_entrySize] in *.
  assert (Hth : 1 <= k_threshold k <= INT_MAX) by apply Hcf.
  rewrite Hx0, s32_small in Ht by lia.
  assert (Hnew : new_cluster k n 2 = Cluster (Some (unsupervised_params k n)) []).
  { unfold new_cluster, cluster_new, unsupervised_params. rewrite !u32_small by lia. reflexivity. }
  pose proof (len_nonneg ys).
  rewrite Hnew in Ht. destruct (cluster_run lhs env _ n Hg Henv (x0 :: xs) 0 [] [] (Cluster (Some (unsupervised_params k n)) [])) as (c & ss & E & Hok & Hlaw).
  { split; [reflexivity|constructor|constructor|]. rewrite len_nil. lia. }
  { constructor. }
  { exact HF. }
  { rewrite len_nil. lia. }
  unfold at_unsupervised in Ht. cbn [with_unsupervised k_unsupervised] in Ht. rewrite <- enum0 in Ht. rewrite E in Ht. injection Ht as <-.
  change (with_unsupervised (with_unsupervised k ?a) ?b) with (with_unsupervised k b) in Hr. cbn [app] in *.
  destruct (clus_learning lhs (with_unsupervised k c) n cs) as (k2' & m & E2 & _ & Hk2' & _); [exact H0|exact Hcf|exact Hp|exact He|].
  rewrite Hr in E2. injection E2 as <-.
  assert (Hu : k_unsupervised k2 = c) by (rewrite Hk2'; reflexivity).
  assert (Hup : unsupervised_params k2 n = unsupervised_params k n) by (rewrite Hk2'; reflexivity).
  destruct (unsup_configured lhs env2 k2 n ys Hk2) with (xs0 := x0 :: xs) (ss0 := ss) as (k3 & ss3 & E3 & _ & HL & Hok3).
  - rewrite Hup. exact Hg.
  - exact Henv2.
  - exact HFy.
  - rewrite Hup, Hu. exact Hok.
  - rewrite Hup. exact Hlaw.
  - lia.
  - exists k3, ss3. rewrite Hup in *. split; [exact E3|]. split; [exact HL|]. eapply cl_holds, Hok3.
Qed.
