(** Property theorem C170: training copies of one image keeps its label in one discriminator. *)
From Coq Require Import SpecFloat.
From Verif Require Import Prelude Bytes Float32 Utils BinInput Bleaching Ram Disc Cluster ClusWisard.
From Verif Require Import SpecDisc SpecBleach SpecWisard SpecCluster SpecClus SpecLaw.
From Verif Require Import TextProofs FloatSign KernelFloat BleachProofs CtorFacts DiscProofs Recall ClusProofs SpecBin ScoreProofs ClusterProofs ClusterLaw ClusRecall PropsDisc PropsCluster PropsWisard PropsClus PropsClusRecall.

(** How often label l was given. *)
Definition times (l : str) (es : list event) : Z := count_if (fun e => match e with Given l' _ => bool_decide (l' = l) | Guessed _ => false end) es.
(** x and y show the same n pixels. *)
Definition copy (n : Z) (x y : image) : Prop := forall q, 0 <= q < n -> im_get y q = im_get x q.

Lemma cmp_finite m1 e1 m2 e2 : SFcompare (S754_finite false m1 e1) (S754_finite false m2 e2) = Some (match e1 ?= e2 with Eq => (m1 ?= m2)%positive | c => c end).
Proof. cbn [SFcompare]. destruct (e1 ?= e2); reflexivity. Qed.
Lemma one_form : f32_one = S754_finite false 8388608 (-23). Proof. vm_compute. reflexivity. Qed.
Lemma one_eq f : f32_eqb f f32_one = true -> f = f32_one.
Proof.
  rewrite one_form. generalize 8388608%positive (-23). intros m0 e0. unfold f32_eqb, SFeqb. destruct f as [s|[]| |[] m e]; try discriminate.
  rewrite cmp_finite. destruct (e ?= e0) eqn:Ee; try discriminate. apply Z.compare_eq in Ee as ->. destruct (m ?= m0)%positive eqn:Em; try discriminate. apply Pos.compare_eq in Em as ->. reflexivity.
Qed.
Lemma add_number x y : finite x -> fpos y -> f32_add x y <> S754_nan.
Proof.
  intros (s & [->|(m & e & ->)]) Hy; unfold f32_add, SFadd; destruct y as [sy|sy| |sy my ey]; try destruct Hy; try discriminate.
  - destruct (Bool.eqb _ _); discriminate.
  - apply norm_not_nan.
Qed.
Lemma bar_one p c : finite (p_minScore p) -> 0 <= c -> 1 <= p_threshold p <= INT_MAX -> f32_leb (bar p c) f32_one = true.
Proof.
  intros Hf Hc Ht. unfold bar. set (b := f32_add _ _).
  assert (Hn : b <> S754_nan). { apply add_number; [exact Hf|]. apply div_pos; [apply of_Z_pos, Hc|apply of_Z_strict; unfold INT_MAX in Ht; lia]. }
  destruct (f32_ltb f32_one b) eqn:E; [reflexivity|]. clearbody b. revert E Hn. rewrite one_form. generalize 8388608%positive (-23). intros m0 e0. unfold f32_ltb, f32_leb, SFltb, SFleb.
  destruct b as [s|[]| |[] m e]; intros E Hn; try reflexivity; try discriminate; try congruence.
  rewrite cmp_finite in *. rewrite (Z.compare_antisym e e0) in E. rewrite (Pos.compare_antisym m m0) in E. destruct (e ?= e0); cbn in E; try congruence. destruct (m ?= m0)%positive; cbn in E; congruence.
Qed.

Lemma count_if_all {A} (l : list A) : count_if (fun _ => true) l = len l.
Proof. induction l as [|y l IH]; [reflexivity|]. rewrite DiscProofs.count_if_cons, len_cons. lia. Qed.
Lemma copy_votes p n s x : good_params p n -> p_ignoreZero p = false -> wired_by p (s_first s) -> Forall (copy n x) (s_seen s) ->
  slot_votes s x = replicate (Z.to_nat (ram_count n (p_addressSize p) (p_complete p))) (len (s_seen s)).
Proof.
  intros Hg Hz Hw Hs. destruct (wired_layout p n Hg Hz _ Hw) as (Hk & Hr & _).
  assert (Hin : Forall (fun r => Forall (fun q => 0 <= q < n) (r_addresses r)) (d_rams (s_first s))).
  { destruct Hw as (dr & Hdr & E). destruct Hg as (He & Ha & Hn & Hb & Hf & _). rewrite He in E.
    destruct (shuffle_layout dr (p_addressSize p) n (p_ignoreZero p) (p_complete p) (p_base p) Hdr Ha Hb Hn Hf) as (d' & Hd & _ & _ & _ & HF & _).
    assert (d' = s_first s) as -> by congruence. eapply Forall_impl; [exact HF|]. cbn. intros r (_ & H & _). exact H. }
  rewrite <- Hk. unfold len at 1. rewrite Nat2Z.id. unfold slot_votes. clear Hk. induction (d_rams (s_first s)) as [|r rs IH]; [reflexivity|].
  apply Forall_cons in Hr as [Hr Hrs], Hin as [Hi Hin]. rewrite fmap_cons. cbn [length replicate]. f_equal; [|apply IH; assumption].
  unfold vote_due. rewrite Hr. cbn [andb]. rewrite trains_vote.
  rewrite (count_if_ext _ (fun _ => true)); [apply count_if_all|]. intros y Hy. apply bool_decide_eq_true. rewrite Forall_forall in Hs. specialize (Hs y Hy). unfold agree. eapply Forall_impl; [exact Hi|]. intros q Hq. symmetry. apply Hs, Hq.
Qed.
Lemma zsum_replicate k v : zsum (replicate k v) = Z.of_nat k * v.
Proof. induction k as [|k IH]; [reflexivity|]. unfold zsum in *. cbn [replicate foldr]. rewrite IH. lia. Qed.
Lemma copy_taken p n s x : good_params p n -> p_ignoreZero p = false -> wired_by p (s_first s) -> Forall (copy n x) (s_seen s) -> s_seen s <> [] ->
  finite (p_minScore p) -> 1 <= p_threshold p <= INT_MAX -> ram_count n (p_addressSize p) (p_complete p) * len (s_seen s) < 2 ^ 24 -> takes p x s = true.
Proof.
  intros Hg Hz Hw Hs Hne Hm Ht Hl. unfold takes, slot_score. rewrite (copy_votes p n s x Hg Hz Hw Hs). set (N := ram_count _ _ _) in *.
  assert (HN : 1 <= N <= INT_MAX). { destruct Hg as (_ & Ha & Hn & _). unfold N, ram_count. assert (1 <= n / p_addressSize p) by (apply Z.div_le_lower_bound; lia).
    assert (n / p_addressSize p <= n) by (apply Z.div_le_upper_bound; nia). destruct (p_complete p && _); lia. }
  assert (1 <= len (s_seen s)) by (destruct (s_seen s); [congruence|rewrite len_cons; pose proof (len_nonneg l); lia]).
  assert (E : f32_eqb (getScore (replicate (Z.to_nat N) (len (s_seen s)))) f32_one = true).
  { apply score_law.
    - apply Forall_replicate. lia.
    - rewrite zsum_replicate. lia.
    - unfold len at 1. rewrite replicate_length. lia.
    - split; [destruct (Z.to_nat N) eqn:EN; [lia|discriminate]|]. exists (len (s_seen s)). split; [lia|]. apply Forall_replicate. reflexivity. }
  apply one_eq in E. rewrite E. apply bar_one; [exact Hm|lia|exact Ht].
Qed.

Lemma copies_law k p n l x es m : good_params p n -> p_ignoreZero p = false -> finite (p_minScore p) -> 1 <= p_threshold p <= INT_MAX -> clus_law k p es m ->
  (forall y, Guessed y ∉ es) -> (forall y, Given l y ∈ es -> copy n x y) -> ram_count n (p_addressSize p) (p_complete p) * times l es < 2 ^ 24 ->
  match m !! l with None => times l es = 0 | Some ss => exists s, ss = [s] /\ wired_by p (s_first s) /\ Forall (copy n x) (s_seen s) /\ len (s_seen s) = times l es /\ s_seen s <> [] end.
Proof.
  intros Hg Hz Hf Ht H. induction H as [|es m l' y ss Hlaw IH Hle|es m l' y ss ss' Hlaw IH Hdue Hss Hle]; intros Hnog Hcp Hlen.
  - rewrite lookup_empty. reflexivity.
  - assert (Hsub : forall e, e ∈ es -> e ∈ es ++ [Given l' y]) by (intros e He; apply elem_of_app; auto).
    assert (HN : 0 <= ram_count n (p_addressSize p) (p_complete p)). { destruct Hg as (_ & Ha & Hn & _). unfold ram_count. assert (0 <= n / p_addressSize p) by (apply Z.div_pos; lia). destruct (p_complete p && _); lia. }
    assert (Et : times l (es ++ [Given l' y]) = times l es + (if decide (l' = l) then 1 else 0)).
    { unfold times. rewrite count_if_app. f_equal. unfold count_if. rewrite filter_cons. case_bool_decide; repeat case_decide; try congruence; reflexivity. }
    rewrite Et in *. assert (Ht0 : 0 <= times l es) by apply count_if_range.
    assert (IH' : ram_count n (p_addressSize p) (p_complete p) * times l es < 2 ^ 24) by (destruct (decide (l' = l)); nia).
    specialize (IH (fun z Hz' => Hnog z (Hsub _ Hz')) (fun z Hz' => Hcp z (Hsub _ Hz')) IH'). destruct (decide (l' = l)) as [->|Hne].
    + rewrite lookup_insert. assert (Hy : copy n x y) by (apply Hcp, elem_of_app; right; left). destruct (m !! l) as [ss0|] eqn:E; cbn [default] in Hle.
      * destruct IH as (s & -> & Hw & HF & Hls & Hsn).
        assert (Htk : takes p y s = true). { apply (copy_taken p n s y Hg Hz Hw); try assumption; [|rewrite Hls; exact IH']. eapply Forall_impl; [exact HF|]. intros z Hzc q Hq. rewrite (Hzc q Hq), (Hy q Hq). reflexivity. }
        inversion Hle as [HE|d HF' Hl Hwd|i s' HF' Hl Hb Hi]; subst.
        -- cbn. rewrite Htk. exists (feed y s). split; [reflexivity|]. split; [exact Hw|]. cbn [feed s_seen]. split; [apply Forall_app; split; [exact HF|apply Forall_singleton; exact Hy]|].
           split; [rewrite len_app, Hls; reflexivity|]. destruct (s_seen s); discriminate.
        -- apply Forall_cons in HF' as [K _]. congruence.
        -- apply Forall_cons in HF' as [K _]. congruence.
      * inversion Hle as [HE|d HF' Hl Hwd|i s' HF' Hl Hb Hi]; subst; [inversion HE| |destruct i; discriminate].
        exists (Slot d [y]). split; [reflexivity|]. split; [exact Hwd|]. cbn [s_seen]. split; [apply Forall_singleton; exact Hy|]. split; [rewrite IH; reflexivity|discriminate].
    + rewrite lookup_insert_ne by exact Hne. rewrite Z.add_0_r. exact IH.
  - exfalso. apply (Hnog y). apply elem_of_app. right. left.
Qed.

(** C170: when every image given with label l shows the same pixels, l has one discriminator, which
    counts all of them, whatever the other labels learn in between; as long as there are fewer than
    2^24 votes in all, without ignoreZero, and for a finite minScore. *)
Theorem C170_copies : forall lhs_first k0 n cs l x,
  k_clusters k0 = ∅ -> configured_for k0 n -> Forall (proper_kcall k0 n) cs -> len (all_events cs) <= INT_MAX - 2 ->
  k_ignoreZero k0 = false -> finite (k_minScore k0) ->
  (forall y, Guessed y ∉ all_events cs) -> Given l x ∈ all_events cs -> (forall y, Given l y ∈ all_events cs -> copy n x y) ->
  ram_count n (k_addressSize k0) (k_completeAddressing k0) * times l (all_events cs) < 2 ^ 24 ->
  exists k c d, krun lhs_first k0 cs = (Ok tt, k) /\ k_clusters k !! l = Some c /\ c_discs c = [Some d] /\ d_count d = times l (all_events cs).
Proof.
  intros lhs k0 n cs l x H0 Hc Hp Hl Hz Hm Hng Hx Hcp Hb. destruct (clus_reach lhs k0 n cs H0 Hc Hp Hl) as (k & m & E & (Hks & Hlaw) & _).
  assert (Hc' := Hc). destruct Hc' as (Hg & Ht & _).
  pose proof (copies_law k0 (params_for k0 n) n l x _ m Hg Hz Hm Ht Hlaw Hng Hcp Hb) as HL. destruct Hks as [_ Hk]. specialize (Hk l).
  destruct (law_slots _ _ _ _ Hlaw) as (_ & Hin & _). destruct (Hin l x Hx) as (ss & Ess & _). rewrite Ess in HL, Hk. destruct HL as (s & -> & _ & _ & Hls & _).
  destruct (k_clusters k !! l) as [c|] eqn:Ec; [|destruct Hk]. destruct Hk as ([_ _ Hsl _] & _). inversion Hsl as [|? o ? os Hs Hn E1 E2]; subst. inversion Hn; subst.
  destruct Hs as (d & -> & _ & _ & _ & _ & Ha & _). exists k, c, d. split; [exact E|]. split; [exact Ec|]. split; [symmetry; exact E2|]. rewrite (af_count _ _ _ Ha), signed_train. exact Hls.
Qed.
Print Assumptions C170_copies.

(** Not vacuous: label "a" gets one image three times, in two calls, "b" learns others in between. *)
Definition copies : list kcall := [KTrain envs [im4 1 1 0 0; im4 0 0 1 1; im4 1 1 1 1] [ka; kb; kb]; KTrain envs [im4 1 1 0 0; im4 1 0 1 0; im4 1 1 0 0] [ka; kb; ka]].
Definition kcp (minScore : f32) (threshold : Z) (ignoreZero : bool) : cluswisard := ClusWisard 2 minScore threshold 5 true false true ignoreZero 2 false false false false 1 ∅ cluster_default.
Lemma kcp_configured ms t iz : 1 <= t <= INT_MAX -> configured_for (kcp ms t iz) 4.
Proof. intros Ht. split; [|cbn; split; [exact Ht|]; split; [lia|]; vm_compute; congruence].
  unfold good_params, INT_MAX. cbn. split; [reflexivity|]. split; [lia|]. split; [lia|]. split; [lia|]. split; [split; [intros _; lia|congruence]|lia]. Qed.
Lemma copies_proper ms t iz : Forall (proper_kcall (kcp ms t iz) 4) copies.
Proof.
  assert (Hi : forall a b c d, is_bit a -> is_bit b -> is_bit c -> is_bit d -> plain_image 2 4 (im4 a b c d)) by (intros; apply plain4; assumption).
  assert (Hd : forall i, valid_draw (envs i)) by (intros; apply some_draw_valid).
  assert (H0 : is_bit 0) by (left; reflexivity). assert (H1 : is_bit 1) by (right; reflexivity).
  apply Forall_cons_2; [|apply Forall_cons_2; [|apply Forall_nil_2]]; (split; [|split; [discriminate|]; split; [reflexivity|exact Hd]]); cbn [events zip_with];
    repeat (apply Forall_cons_2; [split; [apply Hi; assumption|apply plain_a; auto]|]); apply Forall_nil_2.
Qed.
Definition counts (o : option cluster) : list Z := match o with Some c => counters c | None => [] end.
Example C170_witness : configured_for (kcp half 4 false) 4 /\ Forall (proper_kcall (kcp half 4 false) 4) copies /\ finite (k_minScore (kcp half 4 false)) /\
  (forall y, Guessed y ∉ all_events copies) /\ Given ka (im4 1 1 0 0) ∈ all_events copies /\ (forall y, Given ka y ∈ all_events copies -> copy 4 (im4 1 1 0 0) y) /\
  times ka (all_events copies) = 3 /\ ram_count 4 2 true * 3 < 2 ^ 24 /\
  counts (k_clusters (snd (krun false (kcp half 4 false) copies)) !! ka) = [3].
Proof.
  split; [apply kcp_configured; unfold INT_MAX; lia|]. split; [apply copies_proper|]. split; [exists false; right; eexists _, _; vm_compute; reflexivity|]. split.
  { intros y H. unfold copies, all_events in H. cbn in H. repeat (apply elem_of_cons in H as [H|H]; [discriminate|]). inversion H. }
  split; [left|]. split.
  { intros y H. unfold copies, all_events in H. cbn in H. repeat (apply elem_of_cons in H as [H|H]; [injection H; intros; subst; try (intros ? ?; reflexivity); discriminate|]). inversion H. }
  split; [vm_compute; reflexivity|]. split; vm_compute; reflexivity.
Qed.
(** The conditions matter. An image that joined another one in a discriminator may open its own when it
    comes back; and with ignoreZero an image given twice opens a second discriminator if some RAM
    reads only zeros. *)
Definition joined : list kcall := [KTrain envs [im4 1 1 0 0; im4 1 1 1 0; im4 1 1 1 0] [ka; ka; ka]].
Example C170_other_images : fst (krun false (kcp f32_zero 2 false) joined) = Ok tt /\ counts (k_clusters (snd (krun false (kcp f32_zero 2 false) joined)) !! ka) = [2; 1].
Proof. split; vm_compute; reflexivity. Qed.
Definition again : list kcall := [KTrain envs [im4 1 1 0 0; im4 1 1 0 0] [ka; ka]].
Example C170_ignore_zero : fst (krun false (kcp half 4 true) again) = Ok tt /\ counts (k_clusters (snd (krun false (kcp half 4 true) again)) !! ka) = [1; 1] /\
  counts (k_clusters (snd (krun false (kcp half 4 false) again)) !! ka) = [2].
Proof. split; [vm_compute; reflexivity|]. split; vm_compute; reflexivity. Qed.
