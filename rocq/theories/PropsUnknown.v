(** Property theorems C171: an image nobody knows is answered with the last label. *)
From Verif Require Import Prelude Bytes Float32 Utils BinInput Bleaching Ram Disc Wisard Cluster ClusWisard.
From Verif Require Import SpecDisc SpecBleach SpecWisard SpecCluster SpecClus SpecLaw.
From Verif Require Import TextProofs BleachProofs CtorFacts DiscProofs WisardProofs Recall ClusProofs ClusterLaw ClusRecall SpecBin Repeat PropsDisc PropsWisard PropsCluster PropsClus PropsClusRecall.

Lemma no_vote r h x : (forall y, Train y ∈ h -> ~ agree (r_addresses r) x y) -> vote_due r h x = 0.
Proof.
  intros H. unfold vote_due. destruct (_ && _); [reflexivity|].
  assert (E1 : trainings (r_addresses r) x h = 0).
  { unfold trainings. apply count_if_false. intros [y|y] Hy; [|reflexivity]. apply bool_decide_eq_false. exact (H y Hy). }
  assert (E2 : effective_untrainings (r_addresses r) x h = 0); [|lia].
  induction h as [|[y|y] h IH]; [reflexivity| |]; cbn [effective_untrainings].
  - rewrite decide_False by (apply H; left). apply IH; [intros z Hz; apply H; right; exact Hz|].
    unfold trainings. apply count_if_false. intros [z|z] Hz; [|reflexivity]. apply bool_decide_eq_false. apply H. right. exact Hz.
  - apply IH; [intros z Hz; apply H; right; exact Hz|]. unfold trainings. apply count_if_false. intros [z|z] Hz; [|reflexivity]. apply bool_decide_eq_false. apply H. right. exact Hz.
Qed.
Lemma zero_tally b vs : 1 <= b -> Forall (fun v => v = 0) vs -> tally b vs = 0.
Proof. intros Hb H. unfold tally. apply count_if_false. intros v Hv. rewrite Forall_forall in H. rewrite (H v Hv). apply Z.leb_gt. lia. Qed.

(** C171: in a trained Wisard, if no training image of a label shows at the positions of one of its RAMs
    what x shows there, every count is 0 and the answer is the label last in the alphabet. *)
Theorem C171_last_label : forall lhs_first w0 n cs,
  w_discriminators w0 = ∅ -> configured w0 n -> Forall (proper_call w0 n) cs -> len (all_examples cs) <= INT_MAX - 2 ->
  (exists l, trained l (all_examples cs)) ->
  exists w, wrun lhs_first w0 cs = (Ok tt, w) /\ forall x, plain_image (w_base w0) n x ->
    (forall l d addrs y, w_discriminators w !! l = Some d -> addrs ∈ disc_mapping d -> (l, Train y) ∈ all_examples cs -> ~ agree addrs x y) ->
    exists cand k, wisard_candidates w x = Ok cand /\ (forall l v, cand !! l = Some v <-> trained l (all_examples cs) /\ v = 0) /\
      wisard_classify w [x] = Ok [k] /\ trained k (all_examples cs) /\ forall l, trained l (all_examples cs) -> str_le l k.
Proof.
  intros lhs w0 n cs H0 Hc Hp Hl Htr. destruct (wrun_inv lhs w0 n cs H0 Hc Hp ltac:(lia)) as (w & d0 & E & Hi). exists w. split; [exact E|]. intros x Hx Hno.
  destruct Hc as (Hn & _). set (es := all_examples cs) in *.
  assert (Hd : forall l, is_Some (d0 !! l) <-> trained l es).
  { intros l. rewrite <- history_trained. destruct Hi as [_ Hi]. specialize (Hi l). unfold label_inv in Hi.
    destruct (d0 !! l), (w_discriminators w !! l); try contradiction; [split; [intros _; apply Hi|intros _; eauto]|split; [intros [? ?]; discriminate|congruence]]. }
  assert (Hz : forall l vs, votes_owed d0 es x !! l = Some vs -> Forall (fun v => v = 0) vs).
  { intros l vs Hv. rewrite owed_lookup in Hv. destruct (d0 !! l) as [d|] eqn:Ed; [|discriminate]. injection Hv as <-. destruct Hi as [_ Hi]. specialize (Hi l). rewrite Ed in Hi. unfold label_inv in Hi.
    destruct (w_discriminators w !! l) as [d'|] eqn:Ew; [|destruct Hi]. destruct Hi as (_ & _ & _ & Ha). apply Forall_fmap, Forall_forall. intros r Hr. unfold compose. apply no_vote.
    intros y Hy. apply history_elem in Hy. apply (Hno l d' (r_addresses r) y Ew); [|exact Hy].
    apply elem_of_list_lookup in Hr as (i & Hr). destruct (Forall2_lookup_l _ _ _ _ _ (af_rams _ _ _ Ha) Hr) as (r' & Hr' & (Hsame & _)).
    unfold disc_mapping. apply elem_of_list_fmap. exists r'. split; [|eapply elem_of_list_lookup_2, Hr']. destruct Hsame as [Hs _ _]. congruence. }
  assert (Hb : exists cand, wisard_candidates w x = Ok cand /\ degrees_owed w0 (votes_owed d0 es x) cand).
  { unfold wisard_candidates. rewrite (all_votes_inv w0 n d0 es w x Hn Hi Hx). cbn [rbind].
    destruct (candidates_owed w (votes_owed d0 es x)) as (cand & -> & Hdg); [intros _; apply votes_owed_below; lia|]. exists cand. split; [reflexivity|]. destruct Hi as [Hw _]. rewrite Hw in Hdg. exact Hdg. }
  destruct Hb as (cand & Ec & Hdg).
  assert (Hcand : forall l v, cand !! l = Some v <-> trained l es /\ v = 0).
  { assert (Hb : exists b, 1 <= b /\ cand = tallies b (votes_owed d0 es x)).
    { unfold degrees_owed in Hdg. destruct (w_bleachingActivated w0); [destruct Hdg as (b & Hb & -> & _); eauto|exists 1; split; [lia|exact Hdg]]. }
    destruct Hb as (b & Hb & ->). intros l v. unfold tallies. rewrite lookup_fmap, <- Hd. destruct (votes_owed d0 es x !! l) as [vs|] eqn:Ev.
    - cbn [fmap option_fmap option_map]. rewrite (zero_tally b vs Hb (Hz l vs Ev)). rewrite owed_lookup in Ev. destruct (d0 !! l); [|discriminate]. split; [intros [= <-]; eauto|intros [_ ->]; reflexivity].
    - rewrite owed_lookup in Ev. destruct (d0 !! l); [discriminate|]. split; [discriminate|intros [[? ?] _]; discriminate]. }
  destruct (class_of_degrees w0 _ _ Hdg) as (cand' & Hdg' & Hk). set (k := getBiggestCandidate cand) in *.
  assert (cand' = cand) as -> by (eapply Repeat.degrees_unique; eassumption). exists cand, k. split; [exact Ec|]. split; [exact Hcand|].
  split; [unfold wisard_classify; cbn [rmapM]; unfold wisard_classify1; rewrite Ec; reflexivity|].
  destruct Hk as [[He _]|(v & Hv & Hmax)].
  - exfalso. destruct Htr as (l & Hl'). apply Hd in Hl' as (d & Ed). assert (Hn' : votes_owed d0 es x !! l = None) by (rewrite He; apply lookup_empty). rewrite owed_lookup, Ed in Hn'. discriminate.
  - apply Hcand in Hv as (Hkt & ->). split; [exact Hkt|]. intros l Hlt. destruct (Hmax l 0) as [?|[_ H]]; [apply Hcand; auto|lia|exact H].
Qed.
Print Assumptions C171_last_label.
(** In a trained ClusWisard, if every image it was given differs from x in every pixel, the answer is that
    of the discriminator whose name "label::number" comes last: no discriminator of another label has a
    later name. *)
Theorem C171_cluswisard : forall lhs_first k0 n cs,
  k_clusters k0 = ∅ -> configured_for k0 n -> Forall (proper_kcall k0 n) cs -> len (all_events cs) <= INT_MAX - 2 -> cs <> [] ->
  exists k, krun lhs_first k0 cs = (Ok tt, k) /\ forall x, plain_image (k_base k0) n x ->
    (forall e, e ∈ all_events cs -> forall q, 0 <= q < n -> im_get (event_image e) q <> im_get x q) ->
    exists l c j, clus_classify k [x] = Ok [l] /\ k_clusters k !! l = Some c /\ (j < length (c_discs c))%nat /\
      forall l' c' j', k_clusters k !! l' = Some c' -> (j' < length (c_discs c'))%nat -> str_le (l' ++ lit "::" ++ to_string j') (l ++ lit "::" ++ to_string j).
Proof.
  intros lhs k0 n cs H0 Hc Hp Hl Hne. destruct (clus_learning lhs k0 n cs H0 Hc Hp Hl) as (k & m & E & Hlaw & _ & Hm & Hcl). exists k. split; [exact E|]. intros x Hx Hno.
  destruct (Hcl Hne [x]) as (ls & El & HF); [apply Forall_cons_2; [exact Hx|apply Forall_nil_2]|]. inversion HF as [|? l ? ls' Hd Hn]; subst. inversion Hn; subst.
  destruct Hd as (votes & cand & ss & j & Ho & Hcand & Hss & (v & Hv & Hmax)).
  assert (Hb : exists b, 1 <= b /\ cand = tallies b votes) by (destruct (k_bleachingActivated k0); [destruct Hcand as (b & Hb & -> & _); eauto|exists 1; split; [lia|exact Hcand]]).
  destruct Hb as (b & Hb & ->). destruct (law_slots _ _ _ _ Hlaw) as (I1 & _).
  assert (Hz : forall l ss s, m !! l = Some ss -> s ∈ ss -> Forall (fun v => v = 0) (slot_votes s x)).
  { intros l1 ss1 s Hm1 Hs. destruct (I1 l1 ss1 Hm1) as (HF1 & _). rewrite Forall_forall in HF1. destruct (HF1 s Hs) as (Hw & Hseen). unfold slot_votes. apply Forall_fmap.
    destruct Hw as (dr & Hdr & Ed). destruct Hc as ((He & Ha & Hn' & Hb' & Hf & _) & _). rewrite He in Ed.
    destruct (shuffle_layout dr _ n (p_ignoreZero (params_for k0 n)) (p_complete (params_for k0 n)) _ Hdr Ha Hb' Hn' Hf) as (d' & Hd' & _ & _ & _ & Hr & _).
    assert (d' = s_first s) as -> by congruence. eapply Forall_impl; [exact Hr|]. intros r (Hla & Hin & _). unfold compose. apply no_vote. intros y Hy Hag.
    apply elem_of_list_fmap in Hy as (z & [= ->] & Hzs).
    destruct (r_addresses r) as [|q qs] eqn:Eq; [change (len []) with 0 in Hla; lia|]. apply Forall_cons in Hin as [Hq _]. unfold agree in Hag. apply Forall_cons in Hag as [Hag _].
    destruct (Hseen z Hzs) as [Hg|Hg]; apply (Hno _ Hg q Hq); cbn [event_image]; congruence. }
  assert (Hval : forall l' ss' j', m !! l' = Some ss' -> (j' < length ss')%nat -> tallies b votes !! (l' ++ lit "::" ++ to_string j') = Some 0).
  { intros l' ss' j' Hm1 Hj. apply lookup_lt_is_Some_2 in Hj as (s & Hj). unfold tallies. rewrite lookup_fmap.
    assert (Ev : votes !! (l' ++ lit "::" ++ to_string j') = Some (slot_votes s x)) by (apply Ho; exists l', ss', j', s; auto). rewrite Ev. cbn. f_equal. apply zero_tally; [exact Hb|].
    apply (Hz l' ss' s Hm1). eapply elem_of_list_lookup_2, Hj. }
  assert (Hj : (j < length ss)%nat).
  { unfold tallies in Hv. rewrite lookup_fmap in Hv. destruct (votes !! _) as [vs|] eqn:Ev; [|discriminate]. apply Ho in Ev as (l2 & ss2 & j2 & s2 & Hm2 & Hj2 & Hk & _).
    change (cluster_key l j = cluster_key l2 j2) in Hk. apply cluster_key_inj in Hk as [-> ->]. assert (ss2 = ss) as -> by congruence. apply lookup_lt_Some in Hj2. exact Hj2. }
  assert (v = 0) as -> by (rewrite (Hval l ss j Hss Hj) in Hv; congruence).
  assert (Hlen : forall l' c', k_clusters k !! l' = Some c' -> exists ss', m !! l' = Some ss' /\ length ss' = length (c_discs c')).
  { intros l' c' Hk. specialize (Hm l'). rewrite Hk in Hm. destruct (m !! l') as [ss'|]; [|destruct Hm]. exists ss'. split; [reflexivity|]. eapply Forall2_length, Hm. }
  assert (Hc' := Hm l). rewrite Hss in Hc'. destruct (k_clusters k !! l) as [c|] eqn:Ek; [|destruct Hc'].
  exists l, c, j. split; [exact El|]. split; [exact Ek|]. split; [rewrite <- (Forall2_length _ _ _ Hc'); exact Hj|].
  intros l' c' j' Hk Hj'. destruct (Hlen l' c' Hk) as (ss' & Hm' & Hll). destruct (Hmax _ _ (Hval l' ss' j' Hm' ltac:(lia))) as [?|[_ H]]; [lia|exact H].
Qed.
Print Assumptions C171_cluswisard.

(** Both apply: "hot" comes last for an image no RAM has seen, however often "cold" was trained. *)
Definition chilled : list wcall := [CTrain env0 [vec_image [1; 1; 0; 0]; vec_image [1; 1; 0; 0]; vec_image [1; 0; 0; 0]] [cold; cold; hot]].
Definition stranger : image := vec_image [0; 0; 1; 1].
Example C171_witness : Forall (proper_call cfg 4) chilled /\ trained cold (all_examples chilled) /\ plain_image (w_base cfg) 4 stranger /\
  (forall l d addrs y, w_discriminators (snd (wrun false cfg chilled)) !! l = Some d -> addrs ∈ disc_mapping d -> (l, Train y) ∈ all_examples chilled -> ~ agree addrs stranger y) /\
  wisard_classify (snd (wrun false cfg chilled)) [stranger] = Ok [hot].
Proof.
  assert (Hi : forall a b c d, is_bit a -> is_bit b -> is_bit c -> is_bit d -> plain_image 2 4 (vec_image [a; b; c; d])) by (intros; apply plain4; assumption).
  assert (B0 : is_bit 0) by (left; reflexivity). assert (B1 : is_bit 1) by (right; reflexivity).
  split; [|split; [exists (vec_image [1; 1; 0; 0]); left|split; [apply Hi; assumption|split; [|vm_compute; reflexivity]]]].
  - apply Forall_cons_2; [|apply Forall_nil_2]. split; [cbn; repeat (apply Forall_cons_2; [apply Hi; assumption|]); apply Forall_nil_2|]. split; [discriminate|]. split; [reflexivity|]. split; [|intros; apply some_draw_valid].
    repeat (apply Forall_cons_2; [apply cfg_learns|]); apply Forall_nil_2.
  - intros l d addrs y Hd Ha Hy Hag.
    assert (HM : map_Forall (fun _ d => disc_mapping d = [[0; 1]; [2; 3]]) (w_discriminators (snd (wrun false cfg chilled)))) by (refine (bool_decide_unpack _ _); vm_compute; exact I).
    specialize (HM l d Hd). cbn beta in HM. rewrite HM in Ha. unfold chilled, all_examples in Hy. cbn in Hy.
    assert (Hy' : y = vec_image [1; 1; 0; 0] \/ y = vec_image [1; 0; 0; 0]) by (repeat (apply elem_of_cons in Hy as [Hy|Hy]; [injection Hy; intros; subst; auto|]); inversion Hy).
    clear Hy. unfold agree in Hag. rewrite Forall_forall in Hag. apply elem_of_cons in Ha as [->|Ha]; [|apply elem_of_cons in Ha as [->|Ha]; [|inversion Ha]].
    + specialize (Hag 0 ltac:(left)). destruct Hy' as [-> | ->]; vm_compute in Hag; discriminate.
    + specialize (Hag 2 ltac:(left)). destruct Hy' as [-> | ->]; vm_compute in Hag; discriminate.
Qed.
(** A ClusWisard with labels "a" and "a!": "a::0" comes after "a!::0". *)
Example C171_clus_witness : configured_for (kre 1 true) 4 /\
  fst (krun false (kre 1 true) [KTrain envs [im4 1 1 0 0; im4 1 1 0 0] [ka; lit "a!"]]) = Ok tt /\
  clus_classify (snd (krun false (kre 1 true) [KTrain envs [im4 1 1 0 0; im4 1 1 0 0] [ka; lit "a!"]])) [im4 0 0 1 1] = Ok [ka] /\
  clus_classify (snd (krun false (kre 1 true) [KTrain envs [im4 1 1 0 0; im4 1 1 0 0] [ka; kb]])) [im4 0 0 1 1] = Ok [kb].
Proof. split; [apply kre_configured|]. split; [vm_compute; reflexivity|]. split; vm_compute; reflexivity. Qed.
