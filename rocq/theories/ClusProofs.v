From stdpp Require Import pretty.
From Verif Require Import Prelude Bytes Utils Float32 BinInput Bleaching Ram Json Fs RamData Disc Wisard Cluster ClusWisard.
From Verif Require Import SpecDisc SpecBleach SpecCluster SpecClus BleachProofs DiscCtorProofs ClusterProofs WisardFacts.

(** ** Label texts *)
Lemma before_colons_cons c c' s : before_colons (c :: c' :: s) = if decide (c = ":"%char /\ c' = ":"%char) then [] else c :: before_colons (c' :: s).
Proof. reflexivity. Qed.
Lemma plain_tail c l : plain_label (c :: l) -> plain_label l \/ l = [].
Proof.
  intros [H1 H2]. destruct l as [|c' l]; [auto|]. left. split.
  - intros a b E. apply (H1 (c :: a) b). rewrite E. reflexivity.
  - intros a E. apply (H2 (c :: a)). rewrite E. reflexivity.
Qed.
Lemma before_colons_key l s : plain_label l -> before_colons (l ++ lit "::" ++ s) = l.
Proof.
  induction l as [|c l IH]; intros H; [reflexivity|]. cbn [app].
  destruct l as [|c' l].
  - cbn [app lit String.list_ascii_of_string]. rewrite before_colons_cons.
    destruct (decide _) as [[-> _]|_]; [exfalso; apply (proj2 H []); reflexivity|]. reflexivity.
  - cbn [app]. rewrite before_colons_cons. destruct (decide _) as [[-> ->]|_].
    + exfalso. apply (proj1 H [] l). reflexivity.
    + f_equal. apply IH. destruct (plain_tail _ _ H) as [?|?]; [assumption|discriminate].
Qed.
Lemma to_string_inj i j : to_string i = to_string j -> i = j.
Proof.
  unfold to_string. intros H. apply (f_equal string_of_list_ascii) in H. rewrite !string_of_list_ascii_of_string in H.
  apply pretty_N_inj in H. lia.
Qed.
Definition no_colon (s : str) : Prop := ":"%char ∉ s.
Lemma char_no_colon n : pretty_N_char n <> ":"%char.
Proof. destruct n as [|[[[|[]|]|[[]|[]|]|]|[[|[]|]|[[]|[]|]|]|]]; cbn; discriminate. Qed.
Lemma go_no_colon : forall x s, no_colon (list_ascii_of_string s) -> no_colon (list_ascii_of_string (pretty_N_go x s)).
Proof.
  intros x. induction (N.lt_wf_0 x) as [x _ IH]. intros s Hs. destruct (decide (x = 0%N)) as [->|Hx].
  - rewrite pretty_N_go_0. assumption.
  - rewrite pretty_N_go_step by lia. apply IH; [apply N.div_lt; lia|].
    cbn [list_ascii_of_string]. unfold no_colon. rewrite not_elem_of_cons. split; [|assumption]. intros H. symmetry in H. revert H. apply char_no_colon.
Qed.
Lemma to_string_no_colon j : no_colon (to_string j).
Proof.
  unfold to_string, pretty, pretty_N. destruct (decide _).
  - intros H. cbn in H. repeat (apply elem_of_cons in H as [H|H]; [discriminate|]). inversion H.
  - apply go_no_colon. intros H. inversion H.
Qed.
Lemma colon_split (l l' s s' : str) : no_colon s -> no_colon s' -> s ++ ":"%char :: l = s' ++ ":"%char :: l' -> s = s' /\ l = l'.
Proof.
  unfold no_colon. revert s'. induction s as [|c s IH]; intros [|c' s'] Hs Hs' E; cbn in E.
  - injection E as ->. auto.
  - injection E as <- _. exfalso. apply Hs'. left.
  - injection E as -> _. exfalso. apply Hs. left.
  - injection E as -> E. rewrite not_elem_of_cons in Hs, Hs'. destruct (IH s') as [-> ->]; [apply Hs|apply Hs'|exact E|]. auto.
Qed.
Lemma cluster_key_inj l l' i i' : cluster_key l i = cluster_key l' i' -> l = l' /\ i = i'.
Proof.
  unfold cluster_key. intros E. apply (f_equal (@rev ascii)) in E. rewrite !rev_app_distr in E. cbn [lit String.list_ascii_of_string rev app] in E.
  rewrite <- !app_assoc in E. cbn [app] in E. apply colon_split in E as [E1 E2].
  2-3: unfold no_colon; intros H; apply elem_of_list_In, in_rev, elem_of_list_In in H; revert H; apply to_string_no_colon.
  apply (f_equal (@rev ascii)) in E1. rewrite !rev_involutive in E1. split; [|apply to_string_inj; assumption].
  injection E2 as E2. apply (f_equal (@rev ascii)) in E2. rewrite !rev_involutive in E2. assumption.
Qed.

(** ** The vote table *)
Lemma list_to_map_rev {A} (l : list (str * A)) k v : NoDup (l.*1) -> (list_to_map (rev l) : gmap str A) !! k = Some v <-> (k, v) ∈ l.
Proof.
  intros H. assert (Hp : rev l ≡ₚ l) by (symmetry; apply Permutation_rev).
  rewrite <- (elem_of_list_to_map (M := gmap str)).
  - rewrite Hp. reflexivity.
  - rewrite Hp. assumption.
Qed.
Lemma clus_votes_spec m im vts : clus_votes m im = Ok vts ->
  (forall l c, m !! l = Some c -> exists vs, cluster_classify c im = Ok vs) /\
  forall key v, vts !! key = Some v <->
    exists l c vs j, m !! l = Some c /\ cluster_classify c im = Ok vs /\ vs !! j = Some v /\ key = cluster_key l j.
Proof.
  unfold clus_votes. destruct (rmapM _ (sorted_items m)) as [vss| | |] eqn:E; cbn [rbind]; [|discriminate..]. intros [= <-].
  apply rmapM_ok in E.
  assert (Hin : forall l c, (l, c) ∈ sorted_items m -> exists vs, cluster_classify c im = Ok vs /\ imap (fun j v => (cluster_key l j, v)) vs ∈ vss).
  { intros l c Hi. apply elem_of_list_lookup in Hi as [n Hn]. destruct (Forall2_lookup_l _ _ _ _ _ E Hn) as (ys & Hy & Hq). cbn in Hq.
    destruct (cluster_classify c im) as [vs| | |]; cbn in Hq; [|discriminate..]. injection Hq as <-. exists vs. split; [reflexivity|]. eapply elem_of_list_lookup_2, Hy. }
  split; [intros l c Hl; apply sorted_items_elem in Hl; destruct (Hin _ _ Hl) as (vs & H & _); eauto|].
  assert (Hnd : NoDup ((List.concat vss).*1)).
  { pose proof (sorted_items_nodup m) as Hnd. clear Hin. revert E Hnd. generalize (sorted_items m). intros its E. induction E as [|[l c] ys its vss Hq E IH]; cbn; intros Hnd; [constructor|].
    apply NoDup_cons in Hnd as [Hn Hnd]. cbn in Hq. destruct (cluster_classify c im) as [vs| | |]; cbn in Hq; [|discriminate..]. injection Hq as <-.
    rewrite fmap_app. apply NoDup_app. split; [|split; [|apply IH, Hnd]].
    - clear. apply NoDup_alt. intros i j x Hi Hj. rewrite list_lookup_fmap, list_lookup_imap in Hi, Hj.
      destruct (vs !! i), (vs !! j); cbn in Hi, Hj; try discriminate. injection Hi as <-. injection Hj as Hj. apply cluster_key_inj in Hj. symmetry. apply Hj.
    - intros x Hx Hx'. apply Hn. apply elem_of_list_fmap in Hx as ([k1 v1] & -> & Hx). apply elem_of_lookup_imap in Hx as (j & v & Hv & _).
      injection Hv as -> ->. cbn in Hx'. apply elem_of_list_fmap in Hx' as ([k2 v2] & Hk & Hx'). cbn in Hk. subst k2.
      apply elem_of_list_In, in_concat in Hx' as (ys & Hys & Hx'). apply elem_of_list_In in Hys, Hx'. apply elem_of_list_lookup in Hys as [n Hn'].
      destruct (Forall2_lookup_r _ _ _ _ _ E Hn') as ([l' c'] & Hl' & Hq). cbn in Hq. destruct (cluster_classify c' im) as [vs'| | |]; cbn in Hq; [|discriminate..]. injection Hq as <-.
      apply elem_of_lookup_imap in Hx' as (j' & v' & Hv' & _). injection Hv' as Hk _. apply cluster_key_inj in Hk as [-> _].
      apply elem_of_list_fmap. exists (l', c'). split; [reflexivity|]. eapply elem_of_list_lookup_2, Hl'. }
  intros key v. rewrite list_to_map_rev by assumption. rewrite elem_of_list_In, in_concat. split.
  - intros (ys & Hys & Hx). apply elem_of_list_In in Hys, Hx. apply elem_of_list_lookup in Hys as [n Hn].
    destruct (Forall2_lookup_r _ _ _ _ _ E Hn) as ([l c] & Hl & Hq). cbn in Hq. destruct (cluster_classify c im) as [vs| | |] eqn:Ec; cbn in Hq; [|discriminate..]. injection Hq as <-.
    apply elem_of_lookup_imap in Hx as (j & v' & Hv & Hj). injection Hv as -> ->. exists l, c, vs, j. split; [apply sorted_items_elem; eapply elem_of_list_lookup_2, Hl|]. auto.
  - intros (l & c & vs & j & Hl & Hc & Hv & ->). apply sorted_items_elem in Hl. destruct (Hin _ _ Hl) as (vs' & Hc' & Hy). assert (vs' = vs) as -> by congruence.
    eexists. split; [apply elem_of_list_In, Hy|]. apply elem_of_list_In, elem_of_lookup_imap. exists j, v. auto.
Qed.

(** ** Candidates *)
Lemma bleach_loop_keys fuel vts act c : forall b cand, bleach_loop fuel vts act c b = Ok cand -> exists b', cand = tallies b' vts.
Proof.
  induction fuel as [|fuel IH]; intros b cand H; cbn [bleach_loop] in H; [discriminate|].
  destruct (negb act); [injection H as <-; exists b; apply counts_at_tallies|].
  destruct (int_of (b + 1)); cbn [rbind] in H; [|discriminate..].
  destruct (_ && _); [eapply IH; eassumption|]. injection H as <-. exists b. apply counts_at_tallies.
Qed.
Lemma candidates_keys vts act sb c cand : bleaching_make vts act sb c = Ok cand -> exists b, cand = tallies b vts.
Proof. unfold bleaching_make, makeWithConfidence, makeConfidenceless. destruct sb; apply bleach_loop_keys. Qed.
(** The biggest candidate of a non-empty vote table is one of its keys. *)
Lemma biggest_key vts act sb c cand : bleaching_make vts act sb c = Ok cand -> vts <> ∅ -> is_Some (vts !! getBiggestCandidate cand).
Proof.
  intros H Hne. destruct (candidates_keys _ _ _ _ _ H) as [b ->].
  destruct (biggest_winner (tallies b vts)) as (v & Hv & _).
  - intros k v. apply tallies_nonneg.
  - unfold tallies. intros E. apply fmap_empty_inv in E. contradiction.
  - revert Hv. generalize (getBiggestCandidate (tallies b vts)). intros kk Hv. unfold tallies in Hv. rewrite lookup_fmap in Hv. destruct (vts !! kk); [eauto|discriminate].
Qed.
Lemma biggest_empty act sb c cand : bleaching_make ∅ act sb c = Ok cand -> getBiggestCandidate cand = [].
Proof. intros H. destruct (candidates_keys _ _ _ _ _ H) as [b ->]. unfold tallies. rewrite fmap_empty. reflexivity. Qed.

(** The label given by the package to an image. *)
Lemma clus_label k im sb cand : clus_candidates k im sb = Ok cand -> k_clusters k <> ∅ ->
  (forall l c, k_clusters k !! l = Some c -> plain_label l /\ c_discs c <> []) ->
  exists c, k_clusters k !! before_colons (getBiggestCandidate cand) = Some c.
Proof.
  unfold clus_candidates. destruct (clus_votes (k_clusters k) im) as [vts| | |] eqn:Hv; cbn [rbind]; [|discriminate..].
  intros H Hne Hpl. destruct (clus_votes_spec _ _ _ Hv) as [Hc Hs].
  assert (vts <> ∅).
  { intros ->. apply map_choose in Hne as (l & c & Hl). destruct (Hc _ _ Hl) as [vs Hvs]. destruct (Hpl _ _ Hl) as [_ Hd].
    destruct vs as [|v vs].
    - unfold cluster_classify, on_discs in Hvs. apply rmapM_ok in Hvs. inversion Hvs. congruence.
    - specialize (Hs (cluster_key l O) v). rewrite lookup_empty in Hs. destruct Hs as [_ Hs]. discriminate Hs. exists l, c, (v :: vs), O. auto. }
  destruct (biggest_key _ _ _ _ _ H ltac:(assumption)) as [v Hbk]. apply Hs in Hbk as (l & c & vs & j & Hl & _ & _ & Hk).
  destruct (Hpl _ _ Hl) as [Hp _]. rewrite Hk. unfold cluster_key. rewrite before_colons_key by assumption. eauto.
Qed.

(** ** Histories of calls *)
Definition kinv (k : cluswisard) (T : str -> Prop) : Prop :=
  (forall l c, k_clusters k !! l = Some c -> T l /\ c_discs c <> []) /\ (forall l, T l -> is_Some (k_clusters k !! l)).
Lemma kinv_iff k T T' : (forall l, T l <-> T' l) -> kinv k T -> kinv k T'.
Proof. intros H [H1 H2]. split; [intros l c Hl; rewrite <- H; eauto|intros l; rewrite <- H; eauto]. Qed.

Lemma train_nonempty lhs dr c im c' : cluster_train lhs dr c im = (Ok tt, c') -> c_discs c' <> [].
Proof.
  intros H. destruct (c_discs c) as [|o ds] eqn:Hd.
  - unfold cluster_train in H. rewrite Hd in H. destruct (cluster_make lhs dr c) as [o1 c1] eqn:Hm.
    destruct (make_keeps _ _ _ _ _ Hm) as (_ & [(d & -> & Hd1 & _)|[Ho _]]).
    + cbn [ebind] in H. destruct (train_at_keeps _ _ _ _ _ H) as (_ & Hk & _). rewrite Hd1 in Hk. intros E. rewrite E in Hk. apply Forall2_length in Hk. rewrite app_length in Hk. cbn in Hk. lia.
    + exfalso. destruct o1 as [[]| | |]; cbn in H; congruence.
  - destruct (train_keeps _ _ _ _ _ _ H) as (_ & (l1 & l2 & E & Hk) & _). rewrite Hd in Hk. intros E'. rewrite E in E'. apply app_eq_nil in E' as [-> _]. inversion Hk.
Qed.
Lemma at_cluster_clusters f k l o k' : at_cluster f k l = (o, k') ->
  exists c', f (default cluster_default (k_clusters k !! l)) = (o, c') /\ k' = with_clusters k (<[l := c']> (k_clusters k)).
Proof. unfold at_cluster. destruct (f _) as [o1 c1]. intros [= <- <-]. eauto. Qed.

Lemma train1_inv lhs dr k im l k' T : kinv k T -> clus_train1 lhs dr k im l = (Ok tt, k') -> kinv k' (fun l' => T l' \/ l' = l).
Proof.
  intros [H1 H2] H. unfold clus_train1 in H. apply at_cluster_clusters in H as (c' & Hc & ->). apply train_nonempty in Hc.
  assert (Hk : forall l', l' <> l -> k_clusters (match k_clusters k !! l with None => makeClusters k l (s32 (im_size im)) | Some _ => k end) !! l' = k_clusters k !! l').
  { intros l' Hne. destruct (k_clusters k !! l); [reflexivity|]. cbn. apply lookup_insert_ne. congruence. }
  split; cbn [with_clusters k_clusters].
  - intros l' c Hl. apply lookup_insert_Some in Hl as [[<- <-]|[Hne Hl]]; [auto|]. rewrite Hk in Hl by congruence. destruct (H1 _ _ Hl). auto.
  - intros l' [Hl| ->].
    + destruct (decide (l' = l)) as [->|Hne]; [rewrite lookup_insert; eauto|]. rewrite lookup_insert_ne, Hk by congruence. auto.
    + rewrite lookup_insert. eauto.
Qed.
Lemma unlabelled_inv lhs dr k im k' T : kinv k T -> (forall l, T l -> plain_label l) -> clus_train_unlabelled lhs dr k im = (Ok tt, k') -> kinv k' T.
Proof.
  intros [H1 H2] Hp H. unfold clus_train_unlabelled, elift in H. destruct (clus_candidates k im false) as [cand| | |] eqn:Hc; cbn [ebind] in H; [|discriminate..].
  apply at_cluster_clusters in H as (c' & Ht & ->).
  destruct (decide (k_clusters k = ∅)) as [He|He].
  - exfalso. rewrite He, lookup_empty in Ht. cbn in Ht. discriminate.
  - destruct (clus_label _ _ _ _ Hc He) as (c & Hl).
    { intros l c Hl. destruct (H1 _ _ Hl). auto. }
    set (l := before_colons _) in *. destruct (H1 _ _ Hl) as [HT _]. apply train_nonempty in Ht. split; cbn [with_clusters k_clusters].
    + intros l' c1 Hl'. apply lookup_insert_Some in Hl' as [[<- <-]|[_ Hl']]; auto.
    + intros l' HT'. destruct (decide (l' = l)) as [->|Hne]; [rewrite lookup_insert; eauto|]. rewrite lookup_insert_ne by congruence. auto.
Qed.
Lemma ebind_ok {S A B} (m : eff S A) (f : A -> S -> eff S B) b s : ebind m f = (Ok b, s) -> exists a s1, m = (Ok a, s1) /\ f a s1 = (Ok b, s).
Proof. destruct m as [[a| | |] s1]; cbn; intros H; [eauto|discriminate..]. Qed.

Lemma train_loop_kinv lhs env : forall images labels i k k' T, kinv k T -> clus_train_loop lhs env i k images labels = (Ok tt, k') ->
  kinv k' (fun l => T l \/ exists j im, images !! j = Some im /\ labels !! j = Some l).
Proof.
  induction images as [|im images IH]; intros labels i k k' T HI H; cbn [clus_train_loop] in H.
  - injection H as <-. eapply kinv_iff; [|exact HI]. intros l. split; [auto|]. intros [?|(j & im & [=] & _)]. assumption.
  - destruct labels as [|l labels]; [discriminate|]. apply ebind_ok in H as ([] & k1 & H1 & H2).
    apply (train1_inv _ _ _ _ _ _ T HI) in H1. apply (IH _ _ _ _ _ H1) in H2. eapply kinv_iff; [|exact H2].
    intros l'. cbn beta. split.
    + intros [[?| ->]|(j & x & Hj & Hl)]; [auto|right; exists O, im; auto|right; exists (S j), x; auto].
    + intros [?|([|j] & x & Hj & Hl)]; [auto| |right; exists j, x; auto]. cbn in Hl. injection Hl as ->. auto.
Qed.
Lemma efor_inv {S X} (P : S -> Prop) (body : S -> X -> eff S unit) l : (forall s x s', x ∈ l -> P s -> body s x = (Ok tt, s') -> P s') ->
  forall s s', P s -> efor body l s = (Ok tt, s') -> P s'.
Proof.
  intros Hb. induction l as [|x l IH]; intros s s' Hs H; cbn [efor] in H; [injection H as <-; assumption|].
  apply ebind_ok in H as ([] & s1 & H1 & H2). eapply IH; [intros; eapply Hb; [right; eassumption|..]; eassumption| |exact H2].
  eapply Hb; [left|exact Hs|exact H1].
Qed.
Lemma semi_loop_kinv lhs env labels : forall images i ls j k ls' k' T, kinv k T ->
  semi_loop lhs env labels i ls j images k = (Ok ls', k') ->
  kinv k' (fun l => T l \/ exists n im, images !! n = Some im /\ labels !! s32 (Z.of_nat (i + n)) = Some l).
Proof.
  induction images as [|im images IH]; intros i ls j k ls' k' T HI H; cbn [semi_loop] in H.
  - injection H as _ <-. eapply kinv_iff; [|exact HI]. intros l. split; [auto|]. intros [?|(n & im & [=] & _)]. assumption.
  - assert (Hshift : forall l, (exists n x, images !! n = Some x /\ labels !! s32 (Z.of_nat (S i + n)) = Some l) -> exists n x, (im :: images) !! n = Some x /\ labels !! s32 (Z.of_nat (i + n)) = Some l).
    { intros l (n & x & Hn & Hl). exists (S n), x. split; [assumption|]. rewrite <- Hl. do 2 f_equal. lia. }
    assert (Hback : forall l, (exists n x, (im :: images) !! n = Some x /\ labels !! s32 (Z.of_nat (i + n)) = Some l) -> labels !! s32 (Z.of_nat i) = Some l \/ exists n x, images !! n = Some x /\ labels !! s32 (Z.of_nat (S i + n)) = Some l).
    { intros l ([|n] & x & Hn & Hl); [left; rewrite Nat.add_0_r in Hl; assumption|right]. exists n, x. split; [assumption|]. rewrite <- Hl. do 2 f_equal. lia. }
    destruct (labels !! s32 (Z.of_nat i)) as [l0|] eqn:El.
    + apply ebind_ok in H as ([] & k1 & H1 & H2). apply (train1_inv _ _ _ _ _ _ T HI) in H1. apply (IH _ _ _ _ _ _ _ H1) in H2.
      eapply kinv_iff; [|exact H2]. intros l. cbn beta. split.
      * intros [[?| ->]|Hx]; [auto| |right; apply Hshift, Hx]. right. exists O, im. rewrite Nat.add_0_r. auto.
      * intros [?|Hx]; [auto|]. apply Hback in Hx as [Hx|Hx]; [|auto]. left. right. congruence.
    + assert (exists ls1, semi_loop lhs env labels (S i) ls1 (j + 1) images k = (Ok ls', k')) as (ls1 & H1).
      { destruct (_ <? j); [eauto|]. destruct (j <? ls); [eauto|discriminate]. }
      apply (IH _ _ _ _ _ _ _ HI) in H1. eapply kinv_iff; [|exact H1]. intros l. cbn beta. split.
      * intros [?|Hx]; [auto|right; apply Hshift, Hx].
      * intros [?|Hx]; [auto|]. apply Hback in Hx as [Hx|Hx]; [congruence|auto].
Qed.
Lemma kcall_kinv lhs k c k' T : kinv k T -> (forall l, T l \/ names c l -> plain_label l) -> kcall_run lhs k c = (Ok tt, k') -> kinv k' (fun l => T l \/ names c l).
Proof.
  intros HI Hp H. destruct c as [env images labels|env env2 images labels|env images]; cbn [kcall_run names] in *.
  - unfold clus_train in H. destruct images as [|im0 images]; [discriminate|]. apply ebind_ok in H as (u & k1 & H1 & H2).
    injection H1 as _ <-. apply (train_loop_kinv _ _ _ _ _ _ _ _ HI) in H2. exact H2.
  - unfold clus_train_semi in H. destruct images as [|im0 images]; [discriminate|]. apply ebind_ok in H as (u & k1 & H1 & H2).
    injection H1 as _ <-. apply ebind_ok in H2 as (ls & k2 & H2 & H3). apply (semi_loop_kinv _ _ _ _ _ _ _ _ _ _ _ HI) in H2. cbn [Nat.add] in H2.
    destruct (_ =? _); [discriminate|]. unfold semi_unlabelled in H3. revert H3. apply (efor_inv (fun k => kinv k _)); [|exact H2].
    intros s x s' _ Hs Hb. unfold elift in Hb. apply ebind_ok in Hb as (im & s1 & Hb1 & Hb2). injection Hb1 as _ <-. eapply unlabelled_inv; eassumption.
  - assert (Hk : k_clusters k' = k_clusters k).
    { unfold trainUnsupervised in H. destruct (Nat.eqb _ _).
      - destruct images as [|im0 images]; [discriminate|]. unfold at_unsupervised in H. destruct (efor _ _ _) as [o c']. injection H as _ <-. reflexivity.
      - unfold at_unsupervised in H. destruct (efor _ _ _) as [o c']. injection H as _ <-. reflexivity. }
    destruct HI as [H1 H2]. split; rewrite Hk; [intros l c Hl; destruct (H1 _ _ Hl); auto|intros l [?|[]]; auto].
Qed.
Lemma krun_kinv lhs cs : forall k k' T, kinv k T -> (forall l, T l \/ named cs l -> plain_label l) -> krun lhs k cs = (Ok tt, k') -> kinv k' (fun l => T l \/ named cs l).
Proof.
  induction cs as [|c cs IH]; intros k k' T HI Hp H; unfold krun in H; cbn [efor] in H.
  - injection H as <-. eapply kinv_iff; [|exact HI]. intros l. split; [auto|]. intros [?|(c & Hc & _)]; [assumption|inversion Hc].
  - apply ebind_ok in H as ([] & k1 & H1 & H2).
    apply (kcall_kinv lhs k c k1 T HI) in H1; [|intros l [?|?]; apply Hp; [auto|right; exists c; split; [left|assumption]]].
    apply (IH _ _ _ H1) in H2.
    + eapply kinv_iff; [|exact H2]. intros l. cbn beta. unfold named. split.
      * intros [[?|?]|(c' & Hc & ?)]; [auto|right; exists c; split; [left|assumption]|right; exists c'; split; [right; assumption|assumption]].
      * intros [?|(c' & Hc & ?)]; [auto|]. apply elem_of_cons in Hc as [->|Hc]; [auto|right; exists c'; auto].
    + intros l [[?|?]|(c' & Hc & ?)]; apply Hp; [auto|right; exists c; split; [left|assumption]|right; exists c'; split; [right; assumption|assumption]].
Qed.

(** C68 *)
Lemma classify_named lhs k0 cs k ims out : k_clusters k0 = ∅ -> krun lhs k0 cs = (Ok tt, k) -> (forall l, named cs l -> plain_label l) ->
  (exists l, named cs l) -> clus_classify k ims = Ok out -> Forall2 (fun _ l => named cs l) ims out.
Proof.
  intros H0 Hr Hp (l0 & Hl0) Hc.
  assert (HI : kinv k0 (fun _ => False)). { split; [rewrite H0; intros l c; rewrite lookup_empty; discriminate|intros l []]. }
  apply (krun_kinv _ _ _ _ _ HI) in Hr as [H1 H2]; [|intros l [[]|?]; auto].
  unfold clus_classify in Hc. apply rmapM_ok in Hc. eapply Forall2_impl; [exact Hc|]. intros im l Hl. cbn beta in *.
  unfold clus_classify1 in Hl. destruct (clus_candidates k im _) as [cand| | |] eqn:Hcand; cbn in Hl; [|discriminate..]. injection Hl as <-.
  destruct (clus_label _ _ _ _ Hcand) as (c & Hlc).
  - destruct (H2 l0) as [c Hc0]; [auto|]. intros E. rewrite E, lookup_empty in Hc0. discriminate.
  - intros l c Hl. destruct (H1 _ _ Hl) as [[[]|?] ?]. auto.
  - destruct (H1 _ _ Hlc) as [[[]|?] _]. assumption.
Qed.
