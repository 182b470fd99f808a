(** The learning law of a cluster. *)
From Verif Require Import Prelude Bytes Utils Float32 BinInput Bleaching Ram Disc Wisard Cluster ClusWisard SpecDisc SpecBleach SpecWisard SpecCluster SpecClus SpecLaw.
From Verif Require Import BytesProofs UtilsProofs TextProofs CtorFacts RamProofs DiscProofs DiscFacts FloatSign DiscCtorProofs ClusterProofs WisardProofs BleachProofs ClusProofs ClusMore.

Lemma scan_total p im : forall ds i best bi trained,
  Forall (fun o => exists d votes d', o = Some d /\ disc_classify d im = Ok votes /\ disc_train d im = (Ok tt, d')) ds ->
  exists bi' t ds', cluster_scan p im ds i best bi trained = (Ok (bi', t), ds') /\ (t = false -> ds' = ds) /\ (trained = true -> t = true) /\
    (bi' = bi \/ exists j, bi' = Some (i + j)%nat /\ (j < length ds)%nat).
Proof.
  induction ds as [|o ds IH]; intros i best bi trained HF; cbn [cluster_scan]; [exists bi, trained, []; auto|].
  apply Forall_cons in HF as [(d & votes & d' & -> & Hc & Ht) HF]. rewrite Hc, Ht.
  assert (G : forall b bi1 t, (bi1 = bi \/ bi1 = Some i) -> exists bi' t' ds', cluster_scan p im ds (S i) b bi1 t = (Ok (bi', t'), ds') /\ (t' = false -> ds' = ds) /\ (t = true -> t' = true) /\
     (bi' = bi \/ exists j, bi' = Some (i + j)%nat /\ (j < length (Some d :: ds))%nat)).
  { intros b bi1 t Hb. destruct (IH (S i) b bi1 t HF) as (bi' & t' & ds' & E & E1 & E3 & E2). exists bi', t', ds'. split; [exact E|]. split; [exact E1|]. split; [exact E3|].
    destruct E2 as [->|(j & -> & Hj)].
    - destruct Hb as [->| ->]; [auto|]. right. exists 0%nat. split; [f_equal; lia|cbn; lia].
    - right. exists (S j). split; [f_equal; lia|cbn [length]; lia]. }
  assert (Hb1 : forall b : bool, (if b then Some i else bi) = bi \/ (if b then Some i else bi) = Some i) by (intros []; auto).
  destruct (f32_leb (train_limit p d) (getScore votes)).
  - destruct (G (if f32_leb best (getScore votes) then getScore votes else best) (if f32_leb best (getScore votes) then Some i else bi) true (Hb1 _)) as (bi' & t & ds' & -> & E1 & E3 & E2).
    exists bi', t, (Some d' :: ds'). split; [reflexivity|]. rewrite (E3 eq_refl). split; [discriminate|]. split; [reflexivity|exact E2].
  - destruct (G (if f32_leb best (getScore votes) then getScore votes else best) (if f32_leb best (getScore votes) then Some i else bi) trained (Hb1 _)) as (bi' & t & ds' & -> & E1 & E3 & E2).
    exists bi', t, (Some d :: ds'). split; [reflexivity|]. split; [intros Ht0; rewrite (E1 Ht0); reflexivity|]. split; [exact E3|exact E2].
Qed.

Lemma wired_shaped p n dr : good_params p n -> valid_draw dr ->
  exists d, setRAMShuffle dr (s32 (p_entrySize p)) (s32 (p_addressSize p)) (p_ignoreZero p) (p_complete p) (p_base p) = Ok d /\
    wired_by p d /\ shaped (p_base p) n d.
Proof.
  intros (He & Ha & Hn & Hb & Hf & _) Hdr. destruct (shuffle_layout dr (p_addressSize p) n (p_ignoreZero p) (p_complete p) (p_base p) Hdr Ha Hb Hn Hf) as (d & H & He' & Hc & _ & HF & _).
  exists d. rewrite !s32_small by lia. rewrite He. split; [exact H|]. split; [exists dr; split; [exact Hdr|]; rewrite He; exact H|].
  unfold shaped, fresh, wired_inside. rewrite He'. split; [split; [exact Hc|]|split; [reflexivity|split]].
  - eapply Forall_impl; [exact HF|]. intros r (Hl & _ & Hbr & _ & Hp). cbn beta. unfold ram_shape. rewrite Hbr, Hl. split; [|exact Hp]. split; [assumption|]. apply fits_width. exact Hf.
  - eapply Forall_impl; [exact HF|]. intros r (_ & H1 & _). exact H1.
  - eapply Forall_impl; [exact HF|]. intros r (_ & _ & H1 & _). exact H1.
Qed.

Definition slot_ok (p : cparams) (n : Z) (N : Z) (s : slot) (o : option disc) : Prop :=
  exists d, o = Some d /\ shaped (p_base p) n (s_first s) /\ wired_by p (s_first s) /\ len (s_seen s) <= N /\
    Forall (plain_image (p_base p) n) (s_seen s) /\ after (s_first s) (Train <$> s_seen s) d /\ run (s_first s) (Train <$> s_seen s) = (Ok tt, d).
Lemma signed_train h : signed_count (Train <$> h) = len h.
Proof.
  unfold signed_count. rewrite !count_if_fmap. rewrite (count_if_false (fun _ => false)) by reflexivity.
  induction h as [|x h IH]; [reflexivity|]. rewrite count_if_cons, len_cons. lia.
Qed.
Lemma slot_step p n N s o x : 0 <= n <= INT_MAX -> N < INT_MAX -> slot_ok p n N s o -> plain_image (p_base p) n x ->
  exists d d', o = Some d /\ d_count d = len (s_seen s) /\ disc_classify d x = Ok (slot_votes s x) /\ disc_train d x = (Ok tt, d') /\ slot_ok p n (N + 1) (feed x s) (Some d').
Proof.
  intros Hn HN (d & -> & Hsh & Hw & Hl & Hpl & Ha & Hr) Hx. pose proof (plain_valid _ _ _ _ Hn Hsh Hx) as Hv.
  destruct (dstep_after (s_first s) (Train <$> s_seen s) d (Train x) (proj1 Hsh) Ha Hv) as (d' & Ed & Ha'); [rewrite len_fmap; lia|].
  exists d, d'. split; [reflexivity|]. split; [rewrite (af_count _ _ _ Ha); apply signed_train|]. split; [apply classify_after; [apply Hsh|exact Ha|exact Hv]|]. split; [exact Ed|].
  exists d'. split; [reflexivity|]. unfold feed. cbn [s_first s_seen]. split; [exact Hsh|]. split; [exact Hw|]. split; [rewrite len_app, len_cons, len_nil; lia|].
  split; [apply Forall_app; split; [exact Hpl|repeat constructor; apply Hx]|]. rewrite fmap_app. split; [exact Ha'|].
  rewrite run_app, Hr. cbn [ebind]. unfold run. cbn [fmap list_fmap efor]. rewrite Ed. reflexivity.
Qed.
Lemma slot_mono p n N N' s o : N <= N' -> slot_ok p n N s o -> slot_ok p n N' s o.
Proof. intros H (d & H1 & H2 & H3 & H4 & H5). exists d. split; [exact H1|]. split; [exact H2|]. split; [exact H3|]. split; [lia|exact H5]. Qed.

Record cl_ok (p : cparams) (n : Z) (N : Z) (ss : list slot) (c : cluster) : Prop := {
  ck_params : c_params c = Some p;
  ck_counting : all_counting c;
  ck_slots : Forall2 (slot_ok p n N) ss (c_discs c);
  ck_limit : len ss <= Z.max 1 (p_limit p) }.

Lemma cluster_step lhs dr p n N ss c x : good_params p n -> valid_draw dr -> cl_ok p n N ss c -> plain_image (p_base p) n x -> 0 <= N < INT_MAX ->
  exists c' ss', cluster_train lhs dr c x = (Ok tt, c') /\ learn p x ss ss' /\ cl_ok p n (N + 1) ss' c'.
Proof.
  intros Hg Hdr [Hp Hc Hs Hlim] Hx [Hxs0 Hxs]. assert (Hg' := Hg). destruct Hg' as (He & Ha & Hn & Hb & Hf & Hli).
  assert (Hn' : 0 <= n <= INT_MAX) by lia.
  destruct (wired_shaped p n dr Hg Hdr) as (d0 & Hd0 & Hw0 & Hs0).
  destruct (slot_step p n 0 (Slot d0 []) (Some d0) x Hn' ltac:(unfold INT_MAX; lia)) as (d0' & d1 & E0 & _ & _ & Et0 & Hok0).
  { exists d0. cbn [s_first s_seen]. split; [reflexivity|]. split; [exact Hs0|]. split; [exact Hw0|]. split; [rewrite len_nil; lia|]. split; [constructor|]. split; [apply fresh_after, Hs0|reflexivity]. }
  { exact Hx. }
  injection E0 as <-.
  assert (Hnew : slot_ok p n (N + 1) (Slot d0 [x]) (Some d1)) by (eapply slot_mono; [|exact Hok0]; lia).
  assert (Hmono : forall s o, slot_ok p n N s o -> slot_ok p n (N + 1) s o) by (intros s o; apply slot_mono; lia).
  destruct (decide (c_discs c = [])) as [Hnil|Hne].
  - rewrite Hnil in Hs. apply Forall2_nil_inv_r in Hs as ->. exists (Cluster (Some p) [Some d1]), [Slot d0 [x]].
    assert (Ht : cluster_train lhs dr c x = (Ok tt, Cluster (Some p) [Some d1])).
    { unfold cluster_train. rewrite Hnil. unfold cluster_make. rewrite Hp, Hd0. cbn [ebind]. unfold cluster_train_at. cbn [with_discs c_discs]. rewrite Hnil. cbn [app lookup list_lookup].
      rewrite Et0. unfold with_discs. cbn [c_params]. rewrite Hp. reflexivity. }
    split; [exact Ht|]. split; [apply (learn_new p x [] d0); [constructor|auto|exact Hw0]|]. split.
    + reflexivity.
    + destruct (train_keeps _ _ _ _ _ _ Ht) as (_ & _ & K & _). exact (K Hc).
    + constructor; [exact Hnew|constructor].
    + rewrite len_cons, len_nil. lia.
  - assert (Hlen : length ss = length (c_discs c)) by (eapply Forall2_length, Hs).
    assert (Hlenz : len (c_discs c) <= INT_MAX). { unfold len in *. rewrite <- Hlen. unfold INT_MAX in *. lia. }
    (* the call succeeds *)
    assert (Hex : exists c', cluster_train lhs dr c x = (Ok tt, c')).
    { unfold cluster_train. destruct (c_discs c) as [|o0 ds0] eqn:Hds; [congruence|]. rewrite <- Hds in *. rewrite Hp.
      destruct (scan_total p x (c_discs c) 0 f32_zero None false) as (bi & t & ds' & -> & E1 & _ & E2).
      { apply Forall_lookup. intros i o Hi. destruct (Forall2_lookup_r _ _ _ _ _ Hs Hi) as (s & _ & Hso).
        destruct (slot_step _ _ _ _ _ _ Hn' Hxs Hso Hx) as (d & d' & -> & _ & Hcl & Htr & _). exists d, (slot_votes s x), d'. auto. }
      destruct t; [eauto|]. rewrite (E1 eq_refl). assert (Hwc : with_discs c (c_discs c) = c) by (destruct c; reflexivity). rewrite Hwc.
      destruct (_ <? _).
      - unfold cluster_make. rewrite Hp, Hd0. cbn [ebind]. unfold cluster_train_at. cbn [with_discs c_discs].
        rewrite lookup_app_r, Nat.sub_diag by lia. cbn [lookup list_lookup]. rewrite Et0. eauto.
      - destruct E2 as [->|(j & -> & Hj)]; [eauto|]. cbn [Nat.add]. unfold cluster_train_at. destruct (lookup_lt_is_Some_2 _ _ Hj) as [o Ho]. rewrite Ho.
        destruct (Forall2_lookup_r _ _ _ _ _ Hs Ho) as (s & _ & Hso). destruct (slot_step _ _ _ _ _ _ Hn' Hxs Hso Hx) as (d & d' & -> & _ & _ & Htr & _).
        rewrite Htr. eauto. }
    destruct Hex as [c' Ht]. exists c'.
    destruct (train_keeps _ _ _ _ _ _ Ht) as (Kp & _ & Kc & _).
    destruct (decision lhs dr c p x c' Hp Hc Hne Hlenz Ht) as (sc & (votes & Hcl & ->) & Hcase). cbv zeta in Hcase.
    assert (Hvotes : votes = (fun s => slot_votes s x) <$> ss).
    { unfold cluster_classify, on_discs in Hcl. apply DiscCtorProofs.rmapM_ok in Hcl. clear - Hs Hcl Hn' Hxs Hx. revert votes Hcl.
      induction Hs as [|s o ss ds Hso Hs IH]; intros votes Hcl; inversion Hcl as [|? v ? vs Hv Hvs]; subst; [reflexivity|].
      rewrite fmap_cons. f_equal; [|apply IH; assumption]. destruct (slot_step _ _ _ _ _ _ Hn' Hxs Hso Hx) as (d & d' & -> & _ & Hc & _). congruence. }
    assert (Hscores : getScore <$> votes = slot_score x <$> ss) by (rewrite Hvotes, <- list_fmap_compose; reflexivity).
    rewrite Hscores in Hcase.
    assert (Hlearn : forall i s d, ss !! i = Some s -> c_discs c !! i = Some (Some d) ->
       ((exists sc, c_discs c !! i = Some (Some d) /\ (slot_score x <$> ss) !! i = Some sc /\ f32_leb (bar p (d_count d)) sc = true) <-> takes p x s = true)).
    { intros i s d Hi Hd. rewrite list_lookup_fmap, Hi. cbn. destruct (Forall2_lookup_lr _ _ _ _ _ _ Hs Hi Hd) as (d2 & [= <-] & _ & _ & _ & _ & Haf & _).
      unfold takes. rewrite (af_count _ _ _ Haf), signed_train. split.
      - intros (sc & _ & [= <-] & H). exact H.
      - intros H. exists (slot_score x s). auto. }
    assert (Hsome : forall i s, ss !! i = Some s -> exists d, c_discs c !! i = Some (Some d)).
    { intros i s Hi. destruct (Forall2_lookup_l _ _ _ _ _ Hs Hi) as (o & Ho & d & -> & _). eauto. }
    assert (Hnone : ~ (exists i d sc, c_discs c !! i = Some (Some d) /\ (slot_score x <$> ss) !! i = Some sc /\ f32_leb (bar p (d_count d)) sc = true) ->
       Forall (fun s => takes p x s = false) ss).
    { intros H. apply Forall_lookup. intros i s Hi. destruct (takes p x s) eqn:E; [|reflexivity]. exfalso. apply H.
      destruct (Hsome _ _ Hi) as [d Hd]. exists i, d. apply (Hlearn i s d Hi Hd). exact E. }
    destruct Hcase as [(Hany & Hl' & Hall)|[(Hno & Hlt & dn & dn' & Hdn & Htn & Heq)|(Hno & Hge & i & d & d' & Hbest & Hd & Htr & Heq)]].
    + exists ((fun s => if takes p x s then feed x s else s) <$> ss). split; [exact Ht|]. split; [|split].
      * apply learn_taken. destruct Hany as (i & d & sc & Hd & Hsc & Hb'). destruct (Forall2_lookup_r _ _ _ _ _ Hs Hd) as (s & Hi & _).
        apply Exists_exists. exists s. split; [eapply elem_of_list_lookup_2; eassumption|]. apply (Hlearn i s d Hi Hd). eauto.
      * congruence.
      * exact (Kc Hc).
      * apply Forall2_fmap_l. apply Forall2_same_length_lookup_2; [lia|].
        intros i s o' Hi Ho'. destruct (Hsome _ _ Hi) as [d Hd]. destruct (Hall _ _ Hd) as (d' & Hd' & Hor).
        assert (o' = Some d') as -> by congruence. pose proof (Forall2_lookup_lr _ _ _ _ _ _ Hs Hi Hd) as Hso.
        destruct (slot_step _ _ _ _ _ _ Hn' Hxs Hso Hx) as (d2 & d3 & [= <-] & _ & _ & Htr & Hok).
        pose proof (Hlearn i s d Hi Hd) as HL. unfold compose. cbv beta. destruct (takes p x s).
        -- destruct Hor as [[_ H3]|[H3 _]]; [|exfalso; apply H3, HL; reflexivity]. assert (d' = d3) as -> by congruence. exact Hok.
        -- destruct Hor as [[H3 _]|[_ ->]]; [apply HL in H3; discriminate|]. apply Hmono, Hso.
      * rewrite len_fmap. exact Hlim.
    + assert (dn = d0) as -> by congruence. assert (dn' = d1) as -> by congruence. exists (ss ++ [Slot d0 [x]]). split; [exact Ht|]. split; [|split].
      * apply learn_new; [apply Hnone, Hno|right; unfold len in *; rewrite Hlen; lia|exact Hw0].
      * congruence.
      * exact (Kc Hc).
      * rewrite Heq. apply Forall2_app; [|constructor; [exact Hnew|constructor]]. eapply Forall2_impl; [exact Hs|exact Hmono].
      * rewrite len_app, len_cons, len_nil. unfold len in *. rewrite Hlen. lia.
    + destruct (Forall2_lookup_r _ _ _ _ _ Hs Hd) as (s & Hi & Hso). exists (<[i := feed x s]> ss). split; [exact Ht|]. split; [|split].
      * apply learn_best; [apply Hnone, Hno|unfold len in *; rewrite Hlen; lia|exact Hbest|exact Hi].
      * congruence.
      * exact (Kc Hc).
      * rewrite Heq. apply Forall2_insert; [eapply Forall2_impl; [exact Hs|exact Hmono]|].
        destruct (slot_step _ _ _ _ _ _ Hn' Hxs Hso Hx) as (d2 & d3 & [= <-] & _ & _ & Htr' & Hok). assert (d' = d3) as -> by congruence. exact Hok.
      * unfold len in *. rewrite insert_length. exact Hlim.
Qed.

(** ** Sequences *)
Lemma cluster_run lhs env p n : good_params p n -> (forall i : nat, valid_draw (env i)) -> forall xs i xs0 ss c,
  cl_ok p n (len xs0) ss c -> cluster_law p xs0 ss -> Forall (plain_image (p_base p) n) xs -> len xs0 + len xs <= INT_MAX ->
  exists c' ss', efor (fun c ix => cluster_train lhs (env ix.1) c ix.2) (enum i xs) c = (Ok tt, c') /\
    cl_ok p n (len (xs0 ++ xs)) ss' c' /\ cluster_law p (xs0 ++ xs) ss'.
Proof.
  intros Hg Henv. induction xs as [|x xs IH]; intros i xs0 ss c Hok Hlaw HF Hl.
  - exists c, ss. rewrite app_nil_r. cbn. auto.
  - apply Forall_cons in HF as [Hx HF]. rewrite len_cons in Hl. pose proof (len_nonneg xs). pose proof (len_nonneg xs0).
    destruct (cluster_step lhs (env i) p n (len xs0) ss c x Hg (Henv i) Hok Hx ltac:(lia)) as (c1 & ss1 & E & HL & Hok1).
    destruct (IH (S i) (xs0 ++ [x]) ss1 c1) as (c2 & ss2 & E2 & Hok2 & Hlaw2).
    + rewrite len_app, len_cons, len_nil. replace (len xs0 + (1 + 0)) with (len xs0 + 1) by lia. exact Hok1.
    + eapply law_learn; eassumption.
    + exact HF.
    + rewrite len_app, len_cons, len_nil. lia.
    + exists c2, ss2. rewrite enum_cons. cbn [efor fst snd]. rewrite E. cbn [ebind]. rewrite <- app_assoc in *. auto.
Qed.
Lemma cl_classify p n N ss c x : good_params p n -> N < INT_MAX -> cl_ok p n N ss c -> plain_image (p_base p) n x ->
  cluster_classify c x = Ok ((fun s => slot_votes s x) <$> ss).
Proof.
  intros (_ & Ha & Hn & _) HN [_ _ Hs _] Hx. unfold cluster_classify, on_discs. apply DiscCtorProofs.rmapM_ok. apply Forall2_fmap_r.
  apply Forall2_flip. eapply Forall2_impl; [exact Hs|]. intros s o Hso. unfold compose, flip. cbn beta.
  destruct (slot_step p n N s o x ltac:(lia) HN Hso Hx) as (d & d' & -> & _ & H & _). exact H.
Qed.
Lemma cl_holds p n N ss c : cl_ok p n N ss c -> holds ss c.
Proof. intros [_ _ Hs _]. eapply Forall2_impl; [exact Hs|]. intros s o (d & -> & _ & _ & _ & _ & _ & H). exists d. auto. Qed.

Theorem cluster_learning lhs env p n xs : good_params p n -> (forall i : nat, valid_draw (env i)) ->
  Forall (plain_image (p_base p) n) xs -> len xs < INT_MAX ->
  exists c ss, efor (fun c ix => cluster_train lhs (env ix.1) c ix.2) (imap pair xs) (Cluster (Some p) []) = (Ok tt, c) /\
    cluster_law p xs ss /\ holds ss c /\
    forall x, plain_image (p_base p) n x -> cluster_classify c x = Ok ((fun s => slot_votes s x) <$> ss).
Proof.
  intros Hg Henv HF Hl. destruct (cluster_run lhs env p n Hg Henv xs 0 [] [] (Cluster (Some p) [])) as (c & ss & E & Hok & Hlaw).
  - split; [reflexivity|constructor|constructor|]. rewrite len_nil. lia.
  - constructor.
  - exact HF.
  - rewrite len_nil. lia.
  - exists c, ss. split; [exact E|]. split; [exact Hlaw|]. split; [eapply cl_holds, Hok|]. intros x Hx. eapply cl_classify; [exact Hg|exact Hl|exact Hok|exact Hx].
Qed.

(** ** ClusWisard *)
Definition kstate (k0 : cluswisard) (n N : Z) (m : gmap str (list slot)) (k : cluswisard) : Prop :=
  k = with_clusters k0 (k_clusters k) /\
  forall l, match m !! l, k_clusters k !! l with
            | Some ss, Some c => cl_ok (params_for k0 n) n N ss c /\ ss <> [] /\ plain_label l
            | None, None => True
            | _, _ => False
            end.
Lemma kstate_mono k0 n N N' m k : N <= N' -> kstate k0 n N m k -> kstate k0 n N' m k.
Proof.
  intros H [H1 H2]. split; [exact H1|]. intros l. specialize (H2 l). destruct (m !! l), (k_clusters k !! l); try assumption.
  destruct H2 as ([Hp Hc Hs Hl] & H3). split; [|exact H3]. split; try assumption. eapply Forall2_impl; [exact Hs|]. intros s o. apply slot_mono, H.
Qed.
Lemma learn_nonempty p x ss ss' : learn p x ss ss' -> ss' <> [].
Proof.
  intros H. inversion H as [HE|d HF Hl Hw|i s HF Hl Hb Hi]; subst.
  - destruct ss; [inversion HE|]. discriminate.
  - intros E. destruct ss; discriminate E.
  - destruct ss; [discriminate|]. destruct i; discriminate.
Qed.
Lemma kstate_insert k0 n N m k l ss c : 0 <= N -> kstate k0 n N m k -> cl_ok (params_for k0 n) n (N + 1) ss c -> ss <> [] -> plain_label l ->
  kstate k0 n (N + 1) (<[l := ss]> m) (with_clusters k (<[l := c]> (k_clusters k))).
Proof.
  intros HN [H1 H2] Hc Hne Hp. split; [rewrite H1; reflexivity|]. intros l'. cbn [with_clusters k_clusters].
  destruct (decide (l = l')) as [<-|Hn]; [rewrite !lookup_insert; auto|]. rewrite !lookup_insert_ne by assumption.
  destruct (kstate_mono k0 n N (N + 1) m k ltac:(lia) (conj H1 H2)) as [_ H3]. apply H3.
Qed.
Lemma u32_small z : 0 <= z <= INT_MAX -> u32 z = z.
Proof. intros H. unfold u32. apply Z.mod_small. unfold INT_MAX, W32 in *. lia. Qed.
Lemma new_cluster_ok k0 n m k N : configured_for k0 n -> kstate k0 n N m k -> cl_ok (params_for k0 n) n N [] (new_cluster k n (k_base k)).
Proof.
  intros ((He & Ha & Hn & Hb & Hf & Hl) & Ht & _) [H1 _]. rewrite H1. unfold new_cluster, cluster_new. cbn [with_clusters k_addressSize k_minScore k_threshold k_limit k_completeAddressing k_ignoreZero k_base].
  cbn [params_for p_addressSize p_entrySize] in *. rewrite !u32_small by lia. split; [reflexivity|constructor|constructor|]. rewrite len_nil. lia.
Qed.

Lemma given_step lhs dr k0 n N m k x l : configured_for k0 n -> valid_draw dr -> kstate k0 n N m k -> plain_image (k_base k0) n x -> plain_label l -> 0 <= N < INT_MAX ->
  exists k' ss', clus_train1 lhs dr k x l = (Ok tt, k') /\ learn (params_for k0 n) x (default [] (m !! l)) ss' /\ kstate k0 n (N + 1) (<[l := ss']> m) k'.
Proof.
  intros Hcf Hdr Hk Hx Hl HN. assert (Hg := proj1 Hcf). assert (Hk' := Hk). destruct Hk' as [H1 H2]. specialize (H2 l).
  assert (Hsz : s32 (im_size x) = n). { destruct Hx as [-> _]. destruct Hg as (_ & Ha & Hn & _). cbn [params_for p_addressSize] in *. apply s32_small. lia. }
  unfold clus_train1, at_cluster. destruct (m !! l) as [ss|], (k_clusters k !! l) as [c|] eqn:Hc; try contradiction.
  - destruct H2 as (Hok & Hne & _). rewrite Hc. cbn [from_option id].
    destruct (cluster_step lhs dr _ n N ss c x Hg Hdr Hok Hx HN) as (c' & ss' & -> & HL & Hok'). eexists _, ss'. split; [reflexivity|]. split; [exact HL|].
    apply kstate_insert; [lia|exact Hk|exact Hok'|eapply learn_nonempty, HL|exact Hl].
  - cbn [makeClusters with_clusters k_clusters]. rewrite lookup_insert. cbn [from_option id]. rewrite Hsz.
    destruct (cluster_step lhs dr _ n N [] _ x Hg Hdr (new_cluster_ok k0 n m k N Hcf Hk) Hx HN) as (c' & ss' & -> & HL & Hok'). eexists _, ss'. split; [reflexivity|]. split; [exact HL|].
    unfold makeClusters. cbn [with_clusters k_clusters]. rewrite insert_insert.
    change (with_clusters (with_clusters k ?a) ?b) with (with_clusters k b). apply kstate_insert; [lia|exact Hk|exact Hok'|eapply learn_nonempty, HL|exact Hl].
Qed.

Lemma rmapM_total {A B} (f : A -> res B) l : Forall (fun x => exists y, f x = Ok y) l -> exists ys, rmapM f l = Ok ys.
Proof. induction 1 as [|x l (y & Hy) _ (ys & IH)]; cbn [rmapM]; [eauto|]. rewrite Hy. cbn [rbind]. rewrite IH. cbn [rbind]. eauto. Qed.

Lemma clus_votes_owed k0 n N m k x : configured_for k0 n -> N < INT_MAX -> kstate k0 n N m k -> plain_image (k_base k0) n x ->
  exists vts, clus_votes (k_clusters k) x = Ok vts /\ owes m x vts.
Proof.
  intros Hcf HN [H1 H2] Hx. assert (Hg := proj1 Hcf).
  assert (Hcl : forall l c, k_clusters k !! l = Some c -> exists ss, m !! l = Some ss /\ cluster_classify c x = Ok ((fun s => slot_votes s x) <$> ss)).
  { intros l c Hc. specialize (H2 l). rewrite Hc in H2. destruct (m !! l) as [ss|]; [|contradiction]. destruct H2 as (Hok & _). exists ss. split; [reflexivity|].
    eapply cl_classify; [exact Hg|exact HN|exact Hok|exact Hx]. }
  assert (Hex : exists vts, clus_votes (k_clusters k) x = Ok vts).
  { unfold clus_votes. destruct (rmapM_total (fun kc : str * cluster => let* vs := cluster_classify kc.2 x in Ok (imap (fun j v => (cluster_key kc.1 j, v)) vs)) (sorted_items (k_clusters k))) as [ys ->]; [|cbn [rbind]; eauto].
    apply Forall_forall. intros [l c] Hin. apply sorted_items_elem in Hin. destruct (Hcl _ _ Hin) as (ss & _ & E). cbn [fst snd]. rewrite E. cbn [rbind]. eauto. }
  destruct Hex as [vts Hv]. exists vts. split; [exact Hv|]. destruct (clus_votes_spec _ _ _ Hv) as [_ Hs]. intros key v. rewrite Hs. split.
  - intros (l & c & vs & j & Hc & Hcc & Hj & ->). destruct (Hcl _ _ Hc) as (ss & Hm & E). assert (vs = (fun s => slot_votes s x) <$> ss) as -> by congruence.
    rewrite list_lookup_fmap in Hj. destruct (ss !! j) as [s|] eqn:Es; [|discriminate]. cbn in Hj. injection Hj as <-. exists l, ss, j, s. auto.
  - intros (l & ss & j & s & Hm & Hj & -> & ->). specialize (H2 l). rewrite Hm in H2. destruct (k_clusters k !! l) as [c|] eqn:Hc; [|contradiction].
    destruct (Hcl _ _ Hc) as (ss' & Hm' & E). assert (ss' = ss) as -> by congruence. exists l, c, ((fun s => slot_votes s x) <$> ss), j. split; [exact Hc|]. split; [exact E|].
    rewrite list_lookup_fmap, Hj. split; reflexivity.
Qed.

Lemma owes_below k0 n N m k x vts : kstate k0 n N m k -> N < INT_MAX - 1 -> 0 <= N -> owes m x vts -> votes_below (INT_MAX - 1) vts.
Proof.
  intros [_ H2] HN HN0 Ho key vs Hv. apply Ho in Hv as (l & ss & j & s & Hm & Hj & _ & ->). specialize (H2 l). rewrite Hm in H2.
  destruct (k_clusters k !! l) as [c|]; [|contradiction]. destruct H2 as ([_ _ Hs _] & _). destruct (Forall2_lookup_l _ _ _ _ _ Hs Hj) as (o & _ & d & _ & _ & _ & Hlen & _).
  unfold slot_votes. apply Forall_fmap, Forall_true. intros r. unfold compose, vote_due. destruct (_ && _); [lia|].
  pose proof (due_range (r_addresses r) x (Train <$> s_seen s)) as Hd. rewrite len_fmap in Hd. lia.
Qed.

Lemma clus_label_due k0 n N m k x sb : configured_for k0 n -> 0 <= N -> N < INT_MAX - 1 -> kstate k0 n N m k -> m <> ∅ -> plain_image (k_base k0) n x ->
  exists cand, clus_candidates k x sb = Ok cand /\ label_due k0 m x (before_colons (getBiggestCandidate cand)).
Proof.
  intros Hcf HN0 HN Hk Hm Hx. destruct (clus_votes_owed k0 n N m k x Hcf ltac:(lia) Hk Hx) as (vts & Hv & Ho).
  assert (Hb : exists cand, bleaching_make vts (k_bleachingActivated k0) sb (k_confidence k0) = Ok cand /\
    (if k_bleachingActivated k0 then bleached (k_confidence k0) vts cand else cand = tallies 1 vts)).
  { destruct (k_bleachingActivated k0); [apply bleach_terminates, (owes_below k0 n N m k x vts Hk HN HN0 Ho)|eexists; split; [apply bleach_off|reflexivity]]. }
  destruct Hb as (cand & Hb & Hd). exists cand. assert (H1 : k = with_clusters k0 (k_clusters k)) by apply Hk.
  split; [unfold clus_candidates; rewrite Hv; cbn [rbind]; rewrite H1; exact Hb|].
  assert (Hne : vts <> ∅).
  { intros ->. apply map_choose in Hm as (l & ss & Hl). destruct Hk as [_ H2]. specialize (H2 l). rewrite Hl in H2. destruct (k_clusters k !! l); [|contradiction].
    destruct H2 as (_ & Hss & _). destruct ss as [|s ss]; [congruence|]. specialize (Ho (l ++ lit "::" ++ to_string 0) (slot_votes s x)). rewrite lookup_empty in Ho.
    destruct Ho as [_ Ho]. discriminate Ho. exists l, (s :: ss), O, s. auto. }
  destruct (candidates_keys _ _ _ _ _ Hb) as [b Hcand].
  assert (Hw : winner cand (getBiggestCandidate cand)).
  { apply biggest_winner; [rewrite Hcand; intros ? ?; apply tallies_nonneg|]. rewrite Hcand. unfold tallies. intros E. apply fmap_empty_inv in E. contradiction. }
  destruct (biggest_key _ _ _ _ _ Hb Hne) as [v Hbk]. apply Ho in Hbk as (l & ss & j & s & Hl & Hj & Hkey & _).
  assert (Hp : plain_label l). { destruct Hk as [_ H2]. specialize (H2 l). rewrite Hl in H2. destruct (k_clusters k !! l); [apply H2|contradiction]. }
  assert (Hbc : before_colons (getBiggestCandidate cand) = l) by (rewrite Hkey; apply before_colons_key, Hp). rewrite Hbc.
  exists vts, cand, ss, j. split; [exact Ho|]. split; [exact Hd|]. split; [exact Hl|]. rewrite <- Hkey. exact Hw.
Qed.

Lemma guessed_step lhs dr k0 n N m k x : configured_for k0 n -> valid_draw dr -> kstate k0 n N m k -> m <> ∅ -> plain_image (k_base k0) n x -> 0 <= N < INT_MAX - 1 ->
  exists k' l ss ss', clus_train_unlabelled lhs dr k x = (Ok tt, k') /\ label_due k0 m x l /\ m !! l = Some ss /\ learn (params_for k0 n) x ss ss' /\
    kstate k0 n (N + 1) (<[l := ss']> m) k'.
Proof.
  intros Hcf Hdr Hk Hm Hx HN. destruct (clus_label_due k0 n N m k x false Hcf (proj1 HN) ltac:(lia) Hk Hm Hx) as (cand & Hc & Hd).
  unfold clus_train_unlabelled. rewrite Hc. cbn [elift ebind]. set (l := before_colons _) in *.
  assert (Hl : exists ss, m !! l = Some ss) by (destruct Hd as (? & ? & ss & ? & _ & _ & H & _); eauto). destruct Hl as [ss Hl].
  assert (Hk' := Hk). destruct Hk' as [_ H2]. specialize (H2 l). rewrite Hl in H2. unfold at_cluster. destruct (k_clusters k !! l) as [c|] eqn:Ec; [|contradiction]. cbn [from_option id].
  destruct H2 as (Hok & Hne & Hp).
  destruct (cluster_step lhs dr _ n N ss c x (proj1 Hcf) Hdr Hok Hx ltac:(lia)) as (c' & ss' & -> & HL & Hok').
  eexists _, l, ss, ss'. split; [reflexivity|]. split; [exact Hd|]. split; [exact Hl|]. split; [exact HL|].
  apply kstate_insert; [lia|exact Hk|exact Hok'|eapply learn_nonempty, HL|exact Hp].
Qed.

Definition state_law (k0 : cluswisard) (n : Z) (es : list event) (m : gmap str (list slot)) (k : cluswisard) : Prop :=
  kstate k0 n (len es) m k /\ clus_law k0 (params_for k0 n) es m.
Lemma given_law lhs dr k0 n es m k x l : configured_for k0 n -> valid_draw dr -> state_law k0 n es m k -> plain_image (k_base k0) n x -> plain_label l -> len es < INT_MAX ->
  exists k' m', clus_train1 lhs dr k x l = (Ok tt, k') /\ state_law k0 n (es ++ [Given l x]) m' k' /\ m' <> ∅.
Proof.
  intros Hcf Hdr [Hk Hlaw] Hx Hl HN. pose proof (len_nonneg es). destruct (given_step lhs dr k0 n (len es) m k x l Hcf Hdr Hk Hx Hl ltac:(lia)) as (k' & ss' & E & HL & Hk').
  exists k', (<[l := ss']> m). split; [exact E|]. split; [|intros E0; apply (f_equal (fun m => m !! l)) in E0; rewrite lookup_insert, lookup_empty in E0; discriminate].
  split; [rewrite len_app, len_cons, len_nil; exact Hk'|]. eapply clus_given; [exact Hlaw|exact HL].
Qed.
Lemma guessed_law lhs dr k0 n es m k x : configured_for k0 n -> valid_draw dr -> state_law k0 n es m k -> m <> ∅ -> plain_image (k_base k0) n x -> len es < INT_MAX - 1 ->
  exists k' m', clus_train_unlabelled lhs dr k x = (Ok tt, k') /\ state_law k0 n (es ++ [Guessed x]) m' k' /\ m' <> ∅.
Proof.
  intros Hcf Hdr [Hk Hlaw] Hm Hx HN. pose proof (len_nonneg es). destruct (guessed_step lhs dr k0 n (len es) m k x Hcf Hdr Hk Hm Hx ltac:(lia)) as (k' & l & ss & ss' & E & Hd & Hl & HL & Hk').
  exists k', (<[l := ss']> m). split; [exact E|]. split; [|intros E0; apply (f_equal (fun m => m !! l)) in E0; rewrite lookup_insert, lookup_empty in E0; discriminate].
  split; [rewrite len_app, len_cons, len_nil; exact Hk'|]. eapply clus_guessed; [exact Hlaw|exact Hd|exact Hl|exact HL].
Qed.
Definition fine (k0 : cluswisard) (n : Z) (e : event) : Prop :=
  plain_image (k_base k0) n (event_image e) /\ match e with Given l _ => plain_label l | _ => True end.

Lemma train_loop_law lhs env k0 n : configured_for k0 n -> (forall i, valid_draw (env i)) -> forall images labels i es m k,
  length images = length labels -> state_law k0 n es m k -> Forall (fine k0 n) (zip_with Given labels images) -> len es + len images < INT_MAX ->
  exists k' m', clus_train_loop lhs env i k images labels = (Ok tt, k') /\ state_law k0 n (es ++ zip_with Given labels images) m' k' /\ (m <> ∅ \/ images <> [] -> m' <> ∅).
Proof.
  intros Hcf Henv. induction images as [|x images IH]; intros labels i es m k Hl Hs HF Hlen; destruct labels as [|l labels]; try discriminate Hl.
  - exists k, m. cbn. rewrite app_nil_r. split; [reflexivity|]. split; [exact Hs|]. intros [?|[]]; [assumption|reflexivity].
  - cbn [zip_with] in *. apply Forall_cons in HF as [[Hx Hp] HF]. cbn [event_image] in Hx. rewrite len_cons in Hlen. pose proof (len_nonneg images).
    destruct (given_law lhs (env i) k0 n es m k x l Hcf (Henv i) Hs Hx Hp ltac:(lia)) as (k1 & m1 & E & Hs1 & Hm1).
    destruct (IH labels (S i) _ m1 k1 ltac:(cbn in Hl; lia) Hs1 HF) as (k2 & m2 & E2 & Hs2 & Hm2); [rewrite len_app, len_cons, len_nil; lia|].
    exists k2, m2. cbn [clus_train_loop]. rewrite E. cbn [ebind]. rewrite <- app_assoc in Hs2. auto.
Qed.
Lemma given_loop_law lhs env k0 n : configured_for k0 n -> (forall i, valid_draw (env i)) -> forall (xs : list (nat * image * str)) es m k,
  state_law k0 n es m k -> Forall (fine k0 n) ((fun x => Given x.2 x.1.2) <$> xs) -> len es + len xs < INT_MAX ->
  exists k' m', efor (fun k x => clus_train1 lhs (env x.1.1) k x.1.2 x.2) xs k = (Ok tt, k') /\
    state_law k0 n (es ++ ((fun x => Given x.2 x.1.2) <$> xs)) m' k' /\ (m <> ∅ \/ xs <> [] -> m' <> ∅).
Proof.
  intros Hcf Henv. induction xs as [|[[i x] l] xs IH]; intros es m k Hs HF Hlen.
  - exists k, m. cbn. rewrite app_nil_r. split; [reflexivity|]. split; [exact Hs|]. intros [?|[]]; [assumption|reflexivity].
  - rewrite fmap_cons in *. cbn [fst snd] in *. apply Forall_cons in HF as [[Hx Hp] HF]. cbn [event_image] in Hx. rewrite len_cons in Hlen. pose proof (len_nonneg xs).
    destruct (given_law lhs (env i) k0 n es m k x l Hcf (Henv i) Hs Hx Hp ltac:(lia)) as (k1 & m1 & E & Hs1 & Hm1).
    destruct (IH _ m1 k1 Hs1 HF) as (k2 & m2 & E2 & Hs2 & Hm2); [rewrite len_app, len_cons, len_nil; lia|].
    exists k2, m2. cbn [efor fst snd]. rewrite E. cbn [ebind]. rewrite <- app_assoc in Hs2. auto.
Qed.
Lemma guessed_loop_law lhs env k0 n : configured_for k0 n -> (forall i : nat, valid_draw (env i)) -> forall xs i es m k,
  state_law k0 n es m k -> m <> ∅ -> Forall (fine k0 n) (Guessed <$> xs) -> len es + len xs < INT_MAX ->
  exists k' m', efor (fun k ix => clus_train_unlabelled lhs (env ix.1) k ix.2) (enum i xs) k = (Ok tt, k') /\
    state_law k0 n (es ++ (Guessed <$> xs)) m' k' /\ m' <> ∅.
Proof.
  intros Hcf Henv. induction xs as [|x xs IH]; intros i es m k Hs Hm HF Hlen.
  - exists k, m. cbn. rewrite app_nil_r. auto.
  - rewrite fmap_cons in *. apply Forall_cons in HF as [[Hx _] HF]. cbn [event_image] in Hx. rewrite len_cons in Hlen. pose proof (len_nonneg xs).
    destruct (guessed_law lhs (env i) k0 n es m k x Hcf (Henv i) Hs Hm Hx ltac:(lia)) as (k1 & m1 & E & Hs1 & Hm1).
    destruct (IH (S i) _ m1 k1 Hs1 Hm1 HF) as (k2 & m2 & E2 & Hs2 & Hm2); [rewrite len_app, len_cons, len_nil; lia|].
    exists k2, m2. rewrite enum_cons. cbn [efor fst snd]. rewrite E. cbn [ebind]. rewrite <- app_assoc in Hs2. auto.
Qed.

Lemma first_checks_ok k0 n k x : configured_for k0 n -> k = with_clusters k0 (k_clusters k) -> plain_image (k_base k0) n x -> clus_first_checks k x = Ok tt.
Proof.
  intros ((He & Ha & Hn & Hb & Hf & Hl) & Ht & _ & Hc) Hk [Hx _]. cbn [params_for p_addressSize p_entrySize] in *. unfold clus_first_checks. rewrite Hk. cbn [with_clusters k_addressSize k_completeAddressing k_confidence].
  rewrite Hx, s32_small by lia. rewrite ram_count_ok by lia. cbn [rbind]. unfold checkConfidence. rewrite (proj2 (Z.ltb_ge _ _)); [reflexivity|]. exact Hc.
Qed.

Lemma kcall_law lhs k0 n es m k c : configured_for k0 n -> state_law k0 n es m k -> proper_kcall k0 n c -> len es + len (events c) < INT_MAX ->
  exists k' m', kcall_run lhs k c = (Ok tt, k') /\ state_law k0 n (es ++ events c) m' k' /\ m' <> ∅.
Proof.
  intros Hcf Hs [HF Hc] Hlen. assert (Hk : k = with_clusters k0 (k_clusters k)) by apply Hs. change (Forall (fine k0 n) (events c)) in HF.
  destruct c as [env images labels|env env2 images labels|env images]; cbn [kcall_run events] in *; [| |contradiction].
  - destruct Hc as (Hne & Hl & Henv). destruct images as [|x0 images]; [congruence|]. destruct labels as [|l0 labels]; [unfold len in Hl; cbn in Hl; lia|].
    assert (Hx0 : plain_image (k_base k0) n x0) by (cbn [zip_with] in HF; apply Forall_cons in HF as [[H _] _]; exact H).
    unfold clus_train. rewrite (first_checks_ok k0 n k x0 Hcf Hk Hx0). cbn [rbind]. unfold checkInputSizes. rewrite Hl, Z.eqb_refl. cbn [negb elift ebind].
    assert (Hlen' : length (x0 :: images) = length (l0 :: labels)) by (unfold len in Hl; lia).
    assert (Hz : len (zip_with Given (l0 :: labels) (x0 :: images)) = len (x0 :: images)) by (unfold len; rewrite zip_with_length; lia).
    destruct (train_loop_law lhs env k0 n Hcf Henv (x0 :: images) (l0 :: labels) 0 es m k Hlen' Hs HF ltac:(lia)) as (k' & m' & E & Hs' & Hm).
    exists k', m'. split; [exact E|]. split; [exact Hs'|]. apply Hm. right. discriminate.
  - destruct Hc as (HI & Hsz & Hr & Hlab & Henv). destruct images as [|x0 images]; [cbn in Hlab; congruence|].
    apply Forall_app in HF as [HF1 HF2]. rewrite len_app, !len_fmap in Hlen. pose proof (len_nonneg (take (length (unlabelled labels (x0 :: images))) (x0 :: images))).
    assert (Hx0 : plain_image (k_base k0) n x0).
    { destruct (labels !! 0) as [l|] eqn:El.
      - rewrite Forall_fmap, Forall_forall in HF1. destruct (HF1 (0%nat, x0, l)) as [H1 _]; [apply labelled_elem; auto|exact H1].
      - assert (Hu : unlabelled labels (x0 :: images) = x0 :: omap (fun ix => match labels !! Z.of_nat ix.1 with Some l => None | None => Some ix.2 end) (enum 1 images)).
        { unfold unlabelled. rewrite <- enum0, enum_cons. cbn [omap list_omap fst snd]. change (Z.of_nat 0) with 0. rewrite El. reflexivity. }
        rewrite Hu in HF2. cbn [length take fmap list_fmap] in HF2. apply Forall_cons in HF2 as [[H1 _] _]. exact H1. }
    rewrite (semi_exact lhs env env2 k x0 images labels HI Hsz Hr). rewrite (first_checks_ok k0 n k x0 Hcf Hk Hx0). cbn [elift ebind].
    destruct (given_loop_law lhs env k0 n Hcf (fun i => proj1 (Henv i)) (labelled labels (x0 :: images)) es m k Hs HF1 ltac:(lia)) as (k1 & m1 & E1 & Hs1 & Hm1).
    rewrite E1. cbn [ebind]. destruct (labelled labels (x0 :: images)) as [|y ys] eqn:Ey; [congruence|]. rewrite <- Ey in *.
    rewrite <- enum0.
    destruct (guessed_loop_law lhs env2 k0 n Hcf (fun i => proj2 (Henv i)) (take (length (unlabelled labels (x0 :: images))) (x0 :: images)) 0 _ m1 k1 Hs1 (Hm1 (or_intror Hlab)) HF2) as (k2 & m2 & E2 & Hs2 & Hm2).
    { rewrite len_app, len_fmap. lia. }
    exists k2, m2. split; [exact E2|]. rewrite app_assoc. auto.
Qed.

Lemma clus_reach lhs k0 n cs : k_clusters k0 = ∅ -> configured_for k0 n -> Forall (proper_kcall k0 n) cs -> len (all_events cs) <= INT_MAX - 2 ->
  exists k m, krun lhs k0 cs = (Ok tt, k) /\ state_law k0 n (all_events cs) m k /\ (cs <> [] -> m <> ∅).
Proof.
  intros H0 Hcf HF Hl.
  assert (G : forall cs es m k, state_law k0 n es m k -> Forall (proper_kcall k0 n) cs -> len es + len (all_events cs) <= INT_MAX - 2 ->
    exists k' m', krun lhs k cs = (Ok tt, k') /\ state_law k0 n (es ++ all_events cs) m' k' /\ (m <> ∅ \/ cs <> [] -> m' <> ∅)).
  { clear - Hcf. induction cs as [|c cs IH]; intros es m k Hs HF Hl.
    - exists k, m. unfold all_events. cbn. rewrite app_nil_r. split; [reflexivity|]. split; [exact Hs|]. intros [?|[]]; [assumption|reflexivity].
    - apply Forall_cons in HF as [Hc HF]. unfold all_events in *. rewrite fmap_cons in *. cbn [List.concat] in *. rewrite len_app in Hl.
      pose proof (len_nonneg (List.concat (events <$> cs))).
      destruct (kcall_law lhs k0 n es m k c Hcf Hs Hc ltac:(lia)) as (k1 & m1 & E & Hs1 & Hm1).
      destruct (IH (es ++ events c) m1 k1 Hs1 HF) as (k2 & m2 & E2 & Hs2 & Hm2); [rewrite len_app; lia|].
      exists k2, m2. unfold krun in *. cbn [efor]. rewrite E. cbn [ebind]. rewrite app_assoc. auto. }
  destruct (G cs [] ∅ k0) as (k & m & E & Hs & Hm).
  - split; [|constructor]. split; [destruct k0; cbn in *; subst; reflexivity|]. intros l. rewrite H0, !lookup_empty. exact I.
  - exact HF.
  - rewrite len_nil. lia.
  - exists k, m. cbn [app] in *. auto.
Qed.
Theorem clus_learning lhs k0 n cs : k_clusters k0 = ∅ -> configured_for k0 n -> Forall (proper_kcall k0 n) cs -> len (all_events cs) <= INT_MAX - 2 ->
  exists k m, krun lhs k0 cs = (Ok tt, k) /\ clus_law k0 (params_for k0 n) (all_events cs) m /\
    k = with_clusters k0 (k_clusters k) /\
    (forall l, match m !! l, k_clusters k !! l with Some ss, Some c => holds ss c | None, None => True | _, _ => False end) /\
    (cs <> [] -> forall xs, Forall (plain_image (k_base k0) n) xs ->
      exists ls, clus_classify k xs = Ok ls /\ Forall2 (fun x l => label_due k0 m x l) xs ls).
Proof.
  intros H0 Hcf HF Hl.
  destruct (clus_reach lhs k0 n cs H0 Hcf HF Hl) as (k & m & E & [Hk Hlaw] & Hm).
  exists k, m. pose proof (len_nonneg (all_events cs)). split; [exact E|]. split; [exact Hlaw|]. split; [apply Hk|]. split.
  - intros l. destruct Hk as [_ H2]. specialize (H2 l). destruct (m !! l), (k_clusters k !! l); try assumption. eapply cl_holds, H2.
  - intros Hcs. assert (Hne : m <> ∅) by (apply Hm; exact Hcs). induction 1 as [|x xs Hx _ (ls & El & IH)]; [exists []; auto|].
      destruct (clus_label_due k0 n _ m k x (k_searchBestConfidence k) Hcf H ltac:(lia) Hk Hne Hx) as (cand & Ec & Hd).
      exists (before_colons (getBiggestCandidate cand) :: ls). unfold clus_classify in *. cbn [rmapM]. unfold clus_classify1 at 1. rewrite Ec. cbn [rbind]. rewrite El. cbn [rbind]. auto.
Qed.
