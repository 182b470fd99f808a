From Verif Require Import Prelude Bytes Utils Float32 BinInput Ram Json Fs RamData Disc Cluster SpecDisc SpecCluster FloatSign DiscCtorProofs.

Lemma s32_small z : 0 <= z <= INT_MAX -> s32 z = z.
Proof. unfold s32, INT_MAX, W32. intros H. rewrite Z.mod_small by lia. lia. Qed.

(** ** One discriminator *)
Lemma ram_train_addrs r im o r' : ram_train r im = (o, r') -> r_addresses r' = r_addresses r.
Proof.
  unfold ram_train. destruct (getIndex r im); [|intros [= _ <-]; reflexivity..].
  destruct (_ !! _); [|intros [= _ <-]; reflexivity]. destruct (int_of _); intros [= _ <-]; reflexivity.
Qed.
Definition counting_ram (r : ram) : Prop := forall a v, r_positions r !! a = Some v -> 0 <= v <= INT_MAX.
Lemma ram_train_counting r im o r' : ram_train r im = (o, r') -> counting_ram r -> counting_ram r'.
Proof.
  unfold ram_train, counting_ram. intros H Hc. destruct (getIndex r im); [|injection H as _ <-; assumption..].
  destruct (r_positions r !! a) as [v|] eqn:Hv.
  - destruct (int_of (v + 1)) as [w| | |] eqn:Hw; injection H as _ <-; try assumption.
    intros b x. cbn [with_positions r_positions]. intros Hx. apply lookup_insert_Some in Hx as [[_ <-]|[_ Hx]]; [|eapply Hc; eassumption].
    specialize (Hc _ _ Hv). unfold int_of, in_int in Hw. destruct (_ && _) eqn:Hb; [|discriminate]. injection Hw as <-. lia.
  - injection H as _ <-. intros b x Hx. cbn [with_positions r_positions] in Hx. apply lookup_insert_Some in Hx as [[_ <-]|[_ Hx]]; [unfold INT_MAX; lia|eapply Hc; eassumption].
Qed.
Lemma rams_update_keeps (P : ram -> Prop) f rs o rs' : (forall r o r', f r = (o, r') -> r_addresses r' = r_addresses r /\ (P r -> P r')) ->
  rams_update f rs = (o, rs') -> r_addresses <$> rs' = r_addresses <$> rs /\ (Forall P rs -> Forall P rs').
Proof.
  intros Hf. revert o rs'. induction rs as [|r rs IH]; intros o rs' H; cbn in H.
  - injection H as <- <-. auto.
  - destruct (f r) as [o1 r1] eqn:E. destruct (Hf _ _ _ E) as [Ha Hp]. destruct o1 as [a| | |].
    + destruct (rams_update f rs) as [o2 rs2]. injection H as <- <-. destruct (IH _ _ eq_refl) as [IHa IHp].
      rewrite !fmap_cons, Ha, IHa. split; [reflexivity|]. intros HF. apply Forall_cons in HF as [? ?]. apply Forall_cons. auto.
    + injection H as <- <-. rewrite !fmap_cons, Ha. split; [reflexivity|]. intros HF. apply Forall_cons in HF as [? ?]. apply Forall_cons. auto.
    + injection H as <- <-. rewrite !fmap_cons, Ha. split; [reflexivity|]. intros HF. apply Forall_cons in HF as [? ?]. apply Forall_cons. auto.
    + injection H as <- <-. rewrite !fmap_cons, Ha. split; [reflexivity|]. intros HF. apply Forall_cons in HF as [? ?]. apply Forall_cons. auto.
Qed.
Lemma descends_refl d : descends d d. Proof. unfold descends. split; [|split]; reflexivity. Qed.
Lemma descends_trans a b c : descends a b -> descends b c -> descends a c.
Proof. unfold descends. intros (? & ? & ?) (? & ? & ?). split; [congruence|]. split; [congruence|]. lia. Qed.
Lemma disc_train_keeps d im o d' : disc_train d im = (o, d') ->
  descends d d' /\ (counting d -> counting d') /\ (o = Ok tt -> d_count d' = d_count d + 1).
Proof.
  unfold disc_train. destruct (checkEntrySize _ _).
  2-4: intros [= <- <-]; split; [apply descends_refl|split; [auto|discriminate]].
  destruct (int_of (d_count d + 1)) as [c| | |] eqn:Hc.
  2-4: intros [= <- <-]; split; [apply descends_refl|split; [auto|discriminate]].
  assert (c = d_count d + 1) by (unfold int_of in Hc; destruct (in_int _); congruence). subst c.
  destruct (rams_update _ (d_rams d)) as [o1 rs] eqn:E. intros [= <- <-].
  apply (rams_update_keeps counting_ram) in E as [Ha Hp].
  2:{ intros r o2 r' H. split; [eapply ram_train_addrs; eassumption|eapply ram_train_counting; eassumption]. }
  split; [|split].
  - unfold descends, disc_mapping. cbn. split; [reflexivity|]. split; [assumption|lia].
  - unfold counting. cbn. intros [Hl HF]. split; [|apply Hp, HF]. unfold len in *. apply (f_equal length) in Ha. rewrite !fmap_length in Ha. lia.
  - intros _. reflexivity.
Qed.

(** ** Votes and scores *)
Lemma getVote_range r im v : counting_ram r -> getVote r im = Ok v -> 0 <= v <= INT_MAX.
Proof.
  unfold getVote, counting_ram. intros Hc. destruct (getIndex r im); cbn; [|discriminate..].
  destruct (_ && _); [intros [= <-]; unfold INT_MAX; lia|]. destruct (_ !! _) eqn:E; intros [= <-]; [eapply Hc; eassumption|unfold INT_MAX; lia].
Qed.
Lemma classify_range d im votes : counting d -> disc_classify d im = Ok votes ->
  len votes <= INT_MAX /\ Forall (fun v => 0 <= v <= INT_MAX) votes.
Proof.
  unfold counting, disc_classify. intros [Hl HF]. destruct (checkEntrySize _ _); cbn; [|discriminate..].
  intros H. apply rmapM_ok in H. split.
  - unfold len in *. apply Forall2_length in H. lia.
  - apply Forall_forall. intros v Hv. apply elem_of_list_lookup in Hv as [i Hi].
    destruct (Forall2_lookup_r _ _ _ _ _ H Hi) as (r & Hr & Hg). eapply getVote_range; [|eassumption].
    rewrite Forall_forall in HF. unfold counting_ram. intros b x. apply (HF r). eapply elem_of_list_lookup_2. eassumption.
Qed.
Lemma score_sum_pos votes : forall s, fpos s -> Forall (fun v => 0 <= v <= INT_MAX) votes ->
  fpos (foldl (fun s v => f32_add s (f32_of_Z v)) s votes).
Proof.
  induction votes as [|v votes IH]; cbn; intros s Hs HF; [assumption|]. apply Forall_cons in HF as [Hv HF].
  apply IH; [|assumption]. apply add_pos; [assumption|apply of_Z_pos; lia].
Qed.
Lemma score_max_range votes : forall m, 0 <= m <= INT_MAX -> Forall (fun v => 0 <= v <= INT_MAX) votes ->
  0 <= foldl (fun m v => if m <? v then v else m) m votes <= INT_MAX.
Proof.
  induction votes as [|v votes IH]; cbn; intros m Hm HF; [assumption|]. apply Forall_cons in HF as [Hv HF].
  apply IH; [|assumption]. destruct (m <? v); assumption.
Qed.
Lemma getScore_pos votes : len votes <= INT_MAX -> Forall (fun v => 0 <= v <= INT_MAX) votes -> fpos (getScore votes).
Proof.
  intros Hl HF. unfold getScore. destruct (score_max votes =? 0) eqn:Hm; [exact I|]. apply Z.eqb_neq in Hm.
  pose proof (score_max_range votes 0 ltac:(unfold INT_MAX; lia) HF) as Hr. fold (score_max votes) in Hr.
  apply div_pos; [apply score_sum_pos; [exact I|assumption]|]. apply of_Z_strict.
  assert (votes <> []) by (intros ->; apply Hm; reflexivity).
  assert (0 < len votes) by (unfold len; destruct votes; [congruence|cbn; lia]).
  unfold INT_MAX in *. unfold u64. rewrite Z.mod_small; [nia|unfold W64; nia].
Qed.

(** ** The training loop *)
(** Scan of non-null, counting discriminators. *)
Lemma scan_spec p im : forall ds i best bi trained bi' trained' ds', fpos best ->
  Forall (fun o => exists d, o = Some d /\ counting d) ds ->
  cluster_scan p im ds i best bi trained = (Ok (bi', trained'), ds') ->
  exists ss, rmapM (fun od => match od with Some d => disc_classify d im | None => UB UBNull end) ds = Ok ss /\
    length ds' = length ds /\
    (forall j d votes, ds !! j = Some (Some d) -> ss !! j = Some votes -> exists d',
       ds' !! j = Some (Some d') /\
       (if f32_leb (bar p (d_count d)) (getScore votes) then disc_train d im = (Ok tt, d') else d' = d)) /\
    (trained' = true <-> trained = true \/ exists j d votes, ds !! j = Some (Some d) /\ ss !! j = Some votes /\
       f32_leb (bar p (d_count d)) (getScore votes) = true) /\
    ((bi' = bi /\ forall j votes, ss !! j = Some votes -> f32_ltb (getScore votes) best = true) \/
     exists j votes, bi' = Some (i + j)%nat /\ ss !! j = Some votes /\ f32_leb best (getScore votes) = true /\ last_best (getScore <$> ss) j).
Proof.
  induction ds as [|od ds IH]; intros i best bi trained bi' trained' ds' Hb HF H; cbn [cluster_scan] in H.
  - injection H as <- <- <-. exists []. cbn. split; [reflexivity|]. split; [reflexivity|]. split; [intros j d v [=]|].
    split; [split; [auto|intros [?|(j & d & v & [=] & _)]; assumption]|]. left. split; [reflexivity|]. intros j v [=].
  - apply Forall_cons in HF as [(d & -> & Hd) HF].
    destruct (disc_classify d im) as [votes| | |] eqn:Hv; [|discriminate..].
    destruct (classify_range _ _ _ Hd Hv) as [Hl Hr]. pose proof (getScore_pos _ Hl Hr) as Hs.
    change (train_limit p d) with (bar p (d_count d)) in H.
    set (s := getScore votes) in *.
    set (best' := if f32_leb best s then s else best) in *. set (bi1 := if f32_leb best s then Some i else bi) in *.
    assert (Hb' : fpos best') by (unfold best'; destruct (f32_leb best s); assumption).
    assert (Hsplit : exists t1 d' ds1, cluster_scan p im ds (S i) best' bi1 t1 = (Ok (bi', trained'), ds1) /\ ds' = Some d' :: ds1 /\
              (if f32_leb (bar p (d_count d)) s then t1 = true /\ disc_train d im = (Ok tt, d') else t1 = trained /\ d' = d)).
    { destruct (f32_leb (bar p (d_count d)) s).
      - destruct (disc_train d im) as [[[]| | |] d'] eqn:Ht; try discriminate.
        destruct (cluster_scan p im ds (S i) best' bi1 true) as [r rest] eqn:E. injection H as -> <-. exists true, d', rest. auto.
      - destruct (cluster_scan p im ds (S i) best' bi1 trained) as [r rest] eqn:E. injection H as -> <-. exists trained, d, rest. auto. }
    clear H. destruct Hsplit as (t1 & d' & ds1 & H & -> & Hd').
    destruct (IH _ _ _ _ _ _ _ Hb' HF H) as (ss & E1 & E2 & E3 & E4 & E5).
    exists (votes :: ss). cbn [rmapM]. rewrite Hv. cbn [rbind]. rewrite E1. cbn [rbind].
    split; [reflexivity|]. split; [cbn; lia|]. split; [|split].
    + intros [|j] e vs; cbn [lookup list_lookup].
      * intros [= <-] [= <-]. exists d'. split; [reflexivity|]. fold s. revert Hd'; clear; destruct (f32_leb _ s); intros [_ ?]; assumption.
      * apply E3.
    + rewrite E4. split.
      * intros [Ht|(j & e & vs & Hj & Hk & Hq)].
        -- destruct (f32_leb (bar p (d_count d)) s) eqn:Hq; destruct Hd' as [-> _]; [|auto]. right. exists O, d, votes. auto.
        -- right. exists (S j), e, vs. auto.
      * intros [Ht|([|j] & e & vs & Hj & Hk & Hq)].
        -- left. destruct (f32_leb (bar p (d_count d)) s); destruct Hd' as [-> _]; [reflexivity|assumption].
        -- cbn in Hj, Hk. injection Hj as <-. injection Hk as <-. fold s in Hq. rewrite Hq in Hd'. left. apply Hd'.
        -- right. exists j, e, vs. auto.
    + assert (Hpos : forall j vs, ss !! j = Some vs -> fpos (getScore vs)).
      { intros j vs Hj. apply rmapM_ok in E1. destruct (Forall2_lookup_r _ _ _ _ _ E1 Hj) as (od & Hod & Hc).
        rewrite Forall_forall in HF. destruct (HF od) as (e & -> & He); [eapply elem_of_list_lookup_2; eassumption|].
        cbn in Hc. destruct (classify_range _ _ _ He Hc). apply getScore_pos; assumption. }
      destruct E5 as [[Hbi Hall]|(j & vs & Hbi & Hj & Hle & Hlast)].
      * destruct (f32_leb best s) eqn:Hbs.
        -- right. exists O, votes. split; [rewrite Hbi; unfold bi1; f_equal; lia|]. split; [reflexivity|]. split; [exact Hbs|].
           exists s. split; [reflexivity|]. split.
           ++ intros [|k] t Ht; [cbn in Ht; injection Ht as <-; apply leb_refl; assumption|].
              cbn in Ht. apply list_lookup_fmap_inv in Ht as (vs & -> & Hk). apply ltb_leb. eapply Hall. eassumption.
           ++ intros [|k] t Hlt Ht; [lia|]. cbn in Ht. apply list_lookup_fmap_inv in Ht as (vs & -> & Hk). eapply Hall. eassumption.
        -- left. split; [rewrite Hbi; reflexivity|]. intros [|k] t Ht; cbn in Ht.
           ++ injection Ht as <-. apply leb_total; assumption.
           ++ eapply Hall. eassumption.
      * right. exists (S j), vs. split; [rewrite Hbi; f_equal; lia|]. split; [assumption|]. split.
        -- unfold best' in Hle. destruct (f32_leb best s) eqn:Hbs; [|assumption]. eapply leb_trans; [assumption|exact Hs| |exact Hbs|exact Hle]. eapply Hpos. eassumption.
        -- destruct Hlast as (t & Ht & Hmax & Hstrict). exists t. split; [assumption|]. split.
           ++ intros [|k] u Hu; [|apply (Hmax k), Hu]. cbn in Hu. injection Hu as <-. fold s.
              assert (t = getScore vs) as -> by (rewrite list_lookup_fmap, Hj in Ht; cbn in Ht; congruence).
              unfold best' in Hle. destruct (f32_leb best s) eqn:Hbs; [assumption|]. apply ltb_leb.
              eapply ltb_leb_trans; [exact Hs|exact Hb| | |exact Hle]; [eapply Hpos; eassumption|]. apply leb_total; assumption.
           ++ intros [|k] u Hlt Hu; [lia|]. apply (Hstrict k); [lia|exact Hu].
Qed.

(** Whatever the outcome of the scan: slots kept, and how counting is preserved. *)
Lemma scan_keeps p im : forall ds i best bi trained o ds', cluster_scan p im ds i best bi trained = (o, ds') ->
  Forall2 slot_kept ds ds' /\
  (Forall (fun o => match o with Some d => counting d | None => True end) ds ->
   Forall (fun o => match o with Some d => counting d | None => True end) ds') /\
  (forall r, o = Ok r -> Forall (fun o => is_Some o) ds).
Proof.
  assert (Hself : forall ds, Forall2 slot_kept ds ds).
  { intros ds. induction ds as [|[d|] ds IH]; constructor; try assumption; [apply descends_refl|exact I]. }
  induction ds as [|od ds IH]; intros i best bi trained o ds' H; cbn [cluster_scan] in H.
  - injection H as <- <-. split; [constructor|]. split; auto.
  - destruct od as [d|]; [|injection H as <- <-; split; [apply Hself|]; split; [auto|discriminate]].
    destruct (disc_classify d im) as [votes| | |]; [|injection H as <- <-; split; [apply Hself|]; split; [auto|discriminate]..].
    destruct (f32_leb (train_limit p d) (getScore votes)).
    + destruct (disc_train d im) as [o1 d1] eqn:Ht. destruct (disc_train_keeps _ _ _ _ Ht) as (Hk & Hc & _).
      destruct o1 as [u| | |].
      2-4: injection H as <- <-; split; [constructor; [exact Hk|apply Hself]|]; split; [|discriminate];
        intros HF; apply Forall_cons in HF as [? ?]; apply Forall_cons; auto.
      destruct (cluster_scan p im ds (S i) _ _ true) as [r rest] eqn:E. injection H as <- <-.
      destruct (IH _ _ _ _ _ _ E) as (I1 & I2 & I3). split; [constructor; assumption|]. split.
      * intros HF; apply Forall_cons in HF as [? ?]; apply Forall_cons; auto.
      * intros r' Hr. apply Forall_cons. split; [eexists; reflexivity|eapply I3; eassumption].
    + destruct (cluster_scan p im ds (S i) _ _ trained) as [r rest] eqn:E. injection H as <- <-.
      destruct (IH _ _ _ _ _ _ E) as (I1 & I2 & I3). split; [constructor; [apply descends_refl|assumption]|]. split.
      * intros HF; apply Forall_cons in HF as [? ?]; apply Forall_cons; auto.
      * intros r' Hr. apply Forall_cons. split; [eexists; reflexivity|eapply I3; eassumption].
Qed.

Lemma slot_refl o : slot_kept o o.
Proof. destruct o; [apply descends_refl|exact I]. Qed.
Lemma slots_refl ds : Forall2 slot_kept ds ds.
Proof. induction ds; constructor; [apply slot_refl|assumption]. Qed.
Lemma slot_trans a b c : slot_kept a b -> slot_kept b c -> slot_kept a c.
Proof. destruct a, b, c; cbn; try contradiction; [apply descends_trans|auto]. Qed.
(** A list of slots extended at the end. *)
Definition extends (ds ds' : list (option disc)) : Prop := exists ds1 ds2, ds' = ds1 ++ ds2 /\ Forall2 slot_kept ds ds1.
Lemma extends_refl ds : extends ds ds. Proof. exists ds, []. rewrite app_nil_r. split; [reflexivity|apply slots_refl]. Qed.
Lemma extends_trans a b c : extends a b -> extends b c -> extends a c.
Proof.
  intros (a1 & a2 & -> & H) (b1 & b2 & -> & H').
  apply Forall2_app_inv_l in H' as (c1 & c2 & H1 & H2 & ->). exists c1, (c2 ++ b2). rewrite app_assoc. split; [reflexivity|].
  clear - H H1. revert c1 H1. induction H; intros c1 H1; inversion H1; subst; constructor; [eapply slot_trans; eassumption|auto].
Qed.
Lemma extends_kept ds ds' : Forall2 slot_kept ds ds' -> extends ds ds'.
Proof. intros H. exists ds', []. rewrite app_nil_r. auto. Qed.

Lemma train_at_keeps c i im o c' : cluster_train_at c i im = (o, c') ->
  c_params c' = c_params c /\ Forall2 slot_kept (c_discs c) (c_discs c') /\ (all_counting c -> all_counting c').
Proof.
  unfold cluster_train_at. destruct (c_discs c !! i) as [[d|]|] eqn:Hi.
  2-3: intros [= <- <-]; split; [reflexivity|]; split; [apply slots_refl|auto].
  destruct (disc_train d im) as [o1 d1] eqn:Ht. intros [= <- <-]. destruct (disc_train_keeps _ _ _ _ Ht) as (Hk & Hc & _).
  split; [reflexivity|]. cbn [with_discs c_discs]. split.
  - apply Forall2_same_length_lookup_2; [rewrite insert_length; reflexivity|]. intros j x y Hx Hy.
    destruct (decide (i = j)) as [<-|Hij].
    + rewrite list_lookup_insert in Hy by (eapply lookup_lt_Some; eassumption). injection Hy as <-. rewrite Hi in Hx. injection Hx as <-. exact Hk.
    + rewrite list_lookup_insert_ne in Hy by assumption. assert (x = y) as -> by congruence. apply slot_refl.
  - unfold all_counting. cbn [with_discs c_discs]. intros HF. apply Forall_insert; [assumption|]. apply Hc.
    rewrite Forall_forall in HF. apply (HF (Some d)). eapply elem_of_list_lookup_2. eassumption.
Qed.

Lemma shuffle_counting dr e a iz cp b d : is_int e -> setRAMShuffle dr e a iz cp b = Ok d -> counting d.
Proof.
  unfold setRAMShuffle, is_int. intros He H.
  destruct (checkAddressSize e a) eqn:Ha; cbn [rbind] in H; [|discriminate..]. destruct a0. apply checkAddressSize_ok in Ha.
  destruct (checkBase b) eqn:Hb; cbn [rbind] in H; [|discriminate..].
  destruct (int_of _); cbn [rbind] in H; [|discriminate..].
  destruct (rmapM _ (seq 0 (Z.to_nat _))); cbn [rbind] in H; [|discriminate..].
  destruct (make_rams _ a _ iz b) as [rs| | |] eqn:Hm; cbn [rbind] in H; [|discriminate..]. injection H as <-.
  unfold make_rams in Hm. apply rmapM_ok in Hm. unfold counting. cbn [d_rams]. split.
  - apply Forall2_length in Hm. rewrite seq_length in Hm. unfold len. rewrite <- Hm.
    assert (0 <= Z.quot e a <= e - 1). { rewrite Z.quot_div_nonneg by lia. split; [apply Z.div_pos; lia|]. assert (e / a < e) by (apply Z.div_lt; lia). lia. }
    destruct (cp && (0 <? Z.rem e a)); lia.
  - apply Forall_forall. intros r Hr x v Hx. apply elem_of_list_lookup in Hr as [i Hi].
    destruct (Forall2_lookup_r _ _ _ _ _ Hm Hi) as (k & _ & Hk). unfold ram_new in Hk.
    destruct (checkLimitAddressSize _ _); cbn in Hk; [|discriminate..]. injection Hk as <-. cbn in Hx. rewrite lookup_empty in Hx. discriminate.
Qed.
Lemma s32_int z : is_int (s32 z).
Proof. unfold is_int, s32, INT_MIN, INT_MAX, W32. pose proof (Z.mod_pos_bound (z + 2147483648) 4294967296). lia. Qed.

Lemma make_keeps lhs dr c o c' : cluster_make lhs dr c = (o, c') ->
  c_params c' = c_params c /\
  ((exists d, o = Ok tt /\ c_discs c' = c_discs c ++ [Some d] /\ counting d /\ d_count d = 0) \/
   (o <> Ok tt /\ (c_discs c' = c_discs c \/ c_discs c' = c_discs c ++ [None]))).
Proof.
  unfold cluster_make. destruct (c_params c) as [p|] eqn:Hp; [|intros [= <- <-]; split; [auto|right; split; [discriminate|auto]]].
  destruct (setRAMShuffle _ _ _ _ _ _) as [d| | |] eqn:Hs.
  - intros [= <- <-]. split; [assumption|]. left. exists d. split; [reflexivity|]. split; [reflexivity|].
    split; [eapply shuffle_counting; [apply s32_int|eassumption]|].
    unfold setRAMShuffle in Hs. repeat (match type of Hs with (rbind ?m _) = _ => destruct m; cbn [rbind] in Hs; [|discriminate Hs..] end).
    injection Hs as <-. reflexivity.
  - intros [= <- <-]. destruct lhs; (split; [assumption|]; right; split; [discriminate|]; cbn; auto).
  - intros [= <- <-]. split; [auto|]. right. split; [discriminate|auto].
  - intros [= <- <-]. split; [auto|]. right. split; [discriminate|auto].
Qed.

(** A train call, whatever its outcome. *)
Lemma train_keeps lhs dr c im o c' : cluster_train lhs dr c im = (o, c') ->
  c_params c' = c_params c /\ extends (c_discs c) (c_discs c') /\ (all_counting c -> all_counting c') /\
  (length (c_discs c') = length (c_discs c) \/
   (length (c_discs c') = S (length (c_discs c)) /\
    (c_discs c = [] \/ exists p, c_params c = Some p /\ s32 (len (c_discs c)) < p_limit p))).
Proof.
  assert (Hmk : forall c o c' n, length (c_discs c) = n ->
    ebind (cluster_make lhs dr c) (fun _ c => cluster_train_at c n im) = (o, c') ->
    c_params c' = c_params c /\ extends (c_discs c) (c_discs c') /\ (all_counting c -> all_counting c') /\
    (length (c_discs c') = length (c_discs c) \/ length (c_discs c') = S (length (c_discs c)))).
  { clear. intros c o c' n Hn H. destruct (cluster_make lhs dr c) as [o1 c1] eqn:Hm. destruct (make_keeps _ _ _ _ _ Hm) as [Hp Hd].
    destruct Hd as [(d & -> & Hd & Hc & _)|[Ho Hd]].
    - cbn [ebind] in H. destruct (train_at_keeps _ _ _ _ _ H) as (Hp' & Hk & Hcc). split; [congruence|].
      rewrite Hd in Hk. pose proof (Forall2_length _ _ _ Hk) as Hlen. rewrite app_length in Hlen. cbn in Hlen. split; [|split].
      + apply Forall2_app_inv_l in Hk as (l1 & l2 & H1 & H2 & E). exists l1, l2. auto.
      + intros HF. apply Hcc. unfold all_counting in *. rewrite Hd. apply Forall_app. split; [assumption|]. apply Forall_cons. split; [assumption|apply Forall_nil; exact I].
      + right. lia.
    - assert (c' = c1) as -> by (destruct o1 as [[]| | |]; [congruence|cbn in H; congruence..]).
      split; [assumption|]. destruct Hd as [Hd|Hd]; rewrite Hd.
      + split; [apply extends_refl|]. split; [unfold all_counting; rewrite Hd; auto|auto].
      + split; [exists (c_discs c), [None]; split; [reflexivity|apply slots_refl]|]. split.
        * unfold all_counting. rewrite Hd. intros HF. apply Forall_app. split; [assumption|]. apply Forall_cons. split; [exact I|apply Forall_nil; exact I].
        * right. rewrite app_length. cbn. lia. }
  unfold cluster_train. destruct (c_discs c) as [|od ds] eqn:Hds.
  - intros H. destruct (Hmk c o c' O) as (H1 & H2 & H3 & H4); [rewrite Hds; reflexivity|exact H|]. rewrite Hds in *.
    split; [assumption|]. split; [assumption|]. split; [assumption|]. destruct H4 as [H4|H4]; [left; assumption|right]. split; [assumption|auto].
  - destruct (c_params c) as [p|] eqn:Hp.
    2:{ intros [= <- <-]. rewrite Hp, Hds. split; [reflexivity|]. split; [apply extends_refl|]. split; [auto|auto]. }
    destruct (cluster_scan _ _ _ _ _ _ _) as [r ds'] eqn:Hsc. destruct (scan_keeps _ _ _ _ _ _ _ _ _ Hsc) as (K1 & K2 & _).
    pose proof (Forall2_length _ _ _ K1) as Hlen.
    assert (Hcc : all_counting c -> all_counting (with_discs c ds')).
    { unfold all_counting. cbn [with_discs c_discs]. rewrite Hds. exact K2. }
    assert (Hbase : c_params (with_discs c ds') = Some p /\ extends (od :: ds) (c_discs (with_discs c ds')) /\
      (all_counting c -> all_counting (with_discs c ds')) /\
      (length (c_discs (with_discs c ds')) = length (od :: ds) \/ (length (c_discs (with_discs c ds')) = S (length (od :: ds)) /\ ((od :: ds) = [] \/ exists p0, Some p = Some p0 /\ s32 (len (od :: ds)) < p_limit p0)))).
    { split; [exact Hp|]. cbn [with_discs c_discs]. split; [apply extends_kept; assumption|]. split; [assumption|]. left. symmetry. exact Hlen. }
    destruct r as [[bi trained]|e|u|]; [|intros [= <- <-]; exact Hbase..].
    destruct trained; [intros [= <- <-]; exact Hbase|].
    destruct (s32 (len ds') <? p_limit p) eqn:Hlim.
    + intros H. destruct (Hmk _ _ _ _ eq_refl H) as (H1 & H2 & H3 & H4). cbn [with_discs c_discs c_params] in *.
      split; [congruence|]. split; [eapply extends_trans; [apply extends_kept; exact K1|exact H2]|]. split; [auto|].
      destruct H4 as [H4|H4]; [left; rewrite H4; symmetry; exact Hlen|right]. split; [rewrite H4, Hlen; reflexivity|]. right. exists p. split; [reflexivity|].
      unfold len in *. rewrite Hlen. apply Z.ltb_lt. assumption.
    + destruct bi as [i|]; [|intros [= <- <-]; exact Hbase]. intros H. destruct (train_at_keeps _ _ _ _ _ H) as (H1 & H2 & H3). cbn [with_discs c_discs c_params] in *.
      split; [congruence|]. split; [eapply extends_trans; apply extends_kept; [exact K1|exact H2]|]. split; [auto|].
      left. rewrite <- (Forall2_length _ _ _ H2). symmetry. exact Hlen.
Qed.

(** C64 *)
Lemma size_limit lhs c p c' : c_params c = Some p -> p_limit p <= INT_MAX -> len (c_discs c) <= Z.max 1 (p_limit p) -> reaches lhs c c' ->
  len (c_discs c') <= Z.max 1 (p_limit p) /\ (length (c_discs c) <= length (c_discs c'))%nat /\
  forall i o, c_discs c !! i = Some o -> exists o', c_discs c' !! i = Some o' /\ slot_kept o o'.
Proof.
  intros Hp Hi Hl Hr.
  assert (c_params c' = Some p /\ len (c_discs c') <= Z.max 1 (p_limit p) /\ extends (c_discs c) (c_discs c')) as (_ & H1 & (l1 & l2 & E & H2)).
  { induction Hr as [|c1 dr im o c2 Hr IH Ht Hret]; [split; [assumption|]; split; [assumption|apply extends_refl]|].
    destruct IH as (I1 & I2 & I3). destruct (train_keeps _ _ _ _ _ _ Ht) as (K1 & K2 & _ & K4).
    split; [congruence|]. split; [|eapply extends_trans; eassumption].
    unfold len in *. destruct K4 as [K4|[K4 [K5|(q & Hq & Hlim)]]].
    - lia.
    - rewrite K5 in K4. cbn in K4. lia.
    - rewrite I1 in Hq. injection Hq as <-. rewrite s32_small in Hlim by (unfold INT_MAX in *; lia). lia. }
  split; [assumption|]. rewrite E. split; [rewrite app_length, (Forall2_length _ _ _ H2); lia|].
  intros i o Ho. destruct (Forall2_lookup_l _ _ _ _ _ H2 Ho) as (o' & Ho' & Hk). exists o'. split; [|assumption]. apply lookup_app_l_Some. assumption.
Qed.

(** C66 *)
Lemma Forall_nonnull c : all_counting c -> Forall is_Some (c_discs c) -> Forall (fun o => exists d, o = Some d /\ counting d) (c_discs c).
Proof.
  unfold all_counting. intros H1 H2. rewrite Forall_forall in *. intros o Ho. destruct (H2 o Ho) as [d ->]. exists d. split; [reflexivity|]. apply (H1 _ Ho).
Qed.
Lemma decision lhs dr c p im c' : c_params c = Some p -> all_counting c -> c_discs c <> [] -> len (c_discs c) <= INT_MAX ->
  cluster_train lhs dr c im = (Ok tt, c') ->
  exists ss, scores c im ss /\
    let learner i d := exists s, c_discs c !! i = Some (Some d) /\ ss !! i = Some s /\ f32_leb (bar p (d_count d)) s = true in
    ((exists i d, learner i d) /\ length (c_discs c') = length (c_discs c) /\
     forall i d, c_discs c !! i = Some (Some d) -> exists d', c_discs c' !! i = Some (Some d') /\
       ((learner i d /\ disc_train d im = (Ok tt, d')) \/ (~ learner i d /\ d' = d)))
    \/ ((~ exists i d, learner i d) /\ len (c_discs c) < p_limit p /\
        exists d0 d', setRAMShuffle dr (s32 (p_entrySize p)) (s32 (p_addressSize p)) (p_ignoreZero p) (p_complete p) (p_base p) = Ok d0 /\
          disc_train d0 im = (Ok tt, d') /\ c_discs c' = c_discs c ++ [Some d'])
    \/ ((~ exists i d, learner i d) /\ p_limit p <= len (c_discs c) /\
        exists i d d', last_best ss i /\ c_discs c !! i = Some (Some d) /\ disc_train d im = (Ok tt, d') /\
          c_discs c' = <[i := Some d']> (c_discs c)).
Proof.
  intros Hp Hc Hne Hlen H. unfold cluster_train in H. destruct (c_discs c) as [|od0 ds0] eqn:Hds; [congruence|]. rewrite <- Hds in *.
  rewrite Hp in H. destruct (cluster_scan _ _ _ _ _ _ _) as [r ds'] eqn:Hsc. destruct r as [[bi trained]| | |]; [|discriminate..].
  destruct (scan_keeps _ _ _ _ _ _ _ _ _ Hsc) as (K1 & _ & K3). specialize (K3 _ eq_refl).
  destruct (scan_spec _ _ _ _ _ _ _ _ _ _ (I : fpos f32_zero) (Forall_nonnull _ Hc K3) Hsc) as (vs & E1 & E2 & E3 & E4 & E5).
  exists (getScore <$> vs). split; [exists vs; split; [exact E1|reflexivity]|]. cbv zeta.
  assert (Hlearn : forall i d votes, c_discs c !! i = Some (Some d) -> vs !! i = Some votes ->
    ((exists s, c_discs c !! i = Some (Some d) /\ (getScore <$> vs) !! i = Some s /\ f32_leb (bar p (d_count d)) s = true) <-> f32_leb (bar p (d_count d)) (getScore votes) = true)).
  { intros i d votes H1 H2. rewrite list_lookup_fmap, H2. cbn. split.
    - intros (s & _ & [= <-] & Hb). exact Hb.
    - intros Hb. exists (getScore votes). auto. }
  assert (Hvs : forall i d, c_discs c !! i = Some (Some d) -> exists votes, vs !! i = Some votes).
  { intros i d Hi. apply rmapM_ok in E1. destruct (Forall2_lookup_l _ _ _ _ _ E1 Hi) as (votes & Hv & _). eauto. }
  assert (Hany : (exists i d, exists s, c_discs c !! i = Some (Some d) /\ (getScore <$> vs) !! i = Some s /\ f32_leb (bar p (d_count d)) s = true) <-> trained = true).
  { rewrite E4. split.
    - intros (i & d & s & H1 & H2 & H3). right. destruct (Hvs _ _ H1) as [votes Hv]. exists i, d, votes. split; [assumption|]. split; [assumption|].
      rewrite list_lookup_fmap, Hv in H2. cbn in H2. congruence.
    - intros [?|(i & d & votes & H1 & H2 & H3)]; [discriminate|]. exists i, d. apply (Hlearn i d votes); assumption. }
  destruct trained.
  - left. injection H as <-. split; [apply Hany; reflexivity|]. cbn [with_discs c_discs]. split; [assumption|].
    intros i d Hi. destruct (Hvs _ _ Hi) as [votes Hv]. destruct (E3 _ _ _ Hi Hv) as (d' & Hd' & Hq). exists d'. split; [assumption|].
    pose proof (Hlearn i d votes Hi Hv) as Hl. destruct (f32_leb _ _); [left|right]; (split; [|assumption]).
    + apply Hl. reflexivity.
    + rewrite Hl. discriminate.
  - assert (Hnone : ~ (exists i d, exists s, c_discs c !! i = Some (Some d) /\ (getScore <$> vs) !! i = Some s /\ f32_leb (bar p (d_count d)) s = true)) by (rewrite Hany; discriminate).
    right. assert (Hsame : ds' = c_discs c).
    { apply list_eq_same_length with (n := length ds'); [congruence|reflexivity|]. intros i x y _ Hx Hy.
      destruct (lookup_lt_is_Some_2 (c_discs c) i) as [o Ho]; [apply lookup_lt_Some in Hx; lia|].
      rewrite Forall_forall in K3. destruct (K3 o) as [d ->]; [eapply elem_of_list_lookup_2; eassumption|].
      destruct (Hvs _ _ Ho) as [votes Hv]. destruct (E3 _ _ _ Ho Hv) as (d' & Hd' & Hq).
      destruct (f32_leb (bar p (d_count d)) (getScore votes)) eqn:Hb.
      + exfalso. apply Hnone. exists i, d. apply (Hlearn i d votes); assumption.
      + subst d'. congruence. }
    subst ds'. rewrite s32_small in H by (unfold len in *; lia).
    assert (Hwc : with_discs c (c_discs c) = c) by (destruct c; reflexivity). rewrite Hwc in H.
    destruct (len (c_discs c) <? p_limit p) eqn:Hlim.
    + left. split; [exact Hnone|]. apply Z.ltb_lt in Hlim. split; [assumption|].
      unfold cluster_make in H. rewrite Hp in H. destruct (setRAMShuffle _ _ _ _ _ _) as [d0| | |] eqn:Hs; cbn [ebind] in H; [|discriminate..].
      unfold cluster_train_at in H. cbn [with_discs c_discs] in H. rewrite lookup_app_r, Nat.sub_diag in H by lia. cbn [lookup list_lookup] in H.
      destruct (disc_train d0 im) as [o d'] eqn:Ht. injection H as -> <-. exists d0, d'. split; [reflexivity|]. split; [exact Ht|]. cbn [c_discs].
      rewrite insert_app_r_alt by lia. rewrite Nat.sub_diag. reflexivity.
    + right. split; [exact Hnone|]. apply Z.ltb_ge in Hlim. split; [assumption|].
      destruct E5 as [[Hbi Hall]|(j & votes & Hbi & Hj & _ & Hlast)].
      * exfalso. rewrite Forall_forall in K3. destruct (K3 od0) as [d ->]; [rewrite Hds; left|].
        assert (Hd : c_discs c !! O = Some (Some d)) by (rewrite Hds; reflexivity).
        destruct (Hvs _ _ Hd) as [votes Hv]. specialize (Hall _ _ Hv).
        apply rmapM_ok in E1. destruct (Forall2_lookup_l _ _ _ _ _ E1 Hd) as (votes' & Hv' & Hcl). cbn in Hcl.
        assert (votes' = votes) as -> by congruence.
        assert (Hcd : counting d). { unfold all_counting in Hc. rewrite Forall_forall in Hc. apply (Hc (Some d)). rewrite Hds. left. }
        destruct (classify_range _ _ _ Hcd Hcl) as [R1 R2]. pose proof (getScore_pos _ R1 R2) as Hs.
        destruct (getScore votes) as [[]|[]| |[] ? ?]; cbn in Hs, Hall; try contradiction; discriminate.
      * rewrite Hbi in H. cbn [Nat.add] in H. unfold cluster_train_at in H. destruct (c_discs c !! j) as [[d|]|] eqn:Hd; [|discriminate..].
        destruct (disc_train d im) as [o d'] eqn:Ht. injection H as -> <-. exists j, d, d'. auto.
Qed.

Lemma reaches_counting lhs c c' : all_counting c -> reaches lhs c c' -> all_counting c'.
Proof. intros H Hr. induction Hr as [|c1 dr im o c2 Hr IH Ht _]; [assumption|]. destruct (train_keeps _ _ _ _ _ _ Ht) as (_ & _ & K & _). auto. Qed.
Lemma reaches_params lhs c c' : reaches lhs c c' -> c_params c' = c_params c.
Proof. intros Hr. induction Hr as [|c1 dr im o c2 Hr IH Ht _]; [reflexivity|]. destruct (train_keeps _ _ _ _ _ _ Ht) as (K & _). congruence. Qed.

(** C65 *)
Lemma learned lhs dr c im c' : all_counting c -> len (c_discs c) <= INT_MAX -> cluster_train lhs dr c im = (Ok tt, c') ->
  (exists i, counter_at c' i = counter_at c i + 1) /\ forall i, counter_at c i <= counter_at c' i <= counter_at c i + 1.
Proof.
  intros Hc Hlen H. destruct (c_discs c) as [|od0 ds0] eqn:Hds.
  - unfold cluster_train in H. rewrite Hds in H. destruct (cluster_make lhs dr c) as [o1 c1] eqn:Hm.
    destruct (make_keeps _ _ _ _ _ Hm) as (_ & [(d & -> & Hd & _ & H0)|[Ho _]]).
    2:{ exfalso. destruct o1 as [[]| | |]; cbn in H; congruence. }
    cbn [ebind] in H. unfold cluster_train_at in H. rewrite Hd, Hds in H. cbn in H. destruct (disc_train d im) as [o d'] eqn:Ht. injection H as -> <-.
    destruct (disc_train_keeps _ _ _ _ Ht) as (_ & _ & Hk). specialize (Hk eq_refl). unfold counter_at. rewrite Hds. cbn. split.
    + exists O. cbn. lia.
    + intros [|i]; cbn; [lia|]. destruct i; cbn; lia.
  - destruct (c_params c) as [p|] eqn:Hp.
    2:{ unfold cluster_train in H. rewrite Hds, Hp in H. discriminate. }
    rewrite <- Hds in *. destruct (decision _ _ _ _ _ _ Hp Hc ltac:(rewrite Hds; discriminate) Hlen H) as (ss & _ & HD). cbv zeta in HD.
    destruct HD as [((i0 & d0 & L0) & Hl & Hall)|[(_ & _ & d0 & d' & Hs & Ht & Hd')|(_ & _ & i0 & d & d' & _ & Hi & Ht & Hd')]].
    + split.
      * exists i0. destruct L0 as (s0 & Hi0 & Hrest). destruct (Hall _ _ Hi0) as (d' & Hd' & [[_ Ht]|[Hn _]]).
        -- unfold counter_at. rewrite Hi0, Hd'. apply disc_train_keeps in Ht as (_ & _ & Hk). apply Hk. reflexivity.
        -- exfalso. apply Hn. exists s0. auto.
      * intros i. unfold counter_at. destruct (c_discs c !! i) as [[d|]|] eqn:Hi.
        -- destruct (Hall _ _ Hi) as (d' & -> & [[_ Ht]|[_ ->]]); [|lia]. apply disc_train_keeps in Ht as (_ & _ & Hk). rewrite Hk by reflexivity. lia.
        -- destruct (train_keeps _ _ _ _ _ _ H) as (_ & (l1 & l2 & E & K) & _). destruct (Forall2_lookup_l _ _ _ _ _ K Hi) as (o' & Ho' & Hk).
           rewrite E, (lookup_app_l_Some _ _ _ _ Ho'). destruct o'; [contradiction|lia].
        -- apply lookup_ge_None in Hi. rewrite (lookup_ge_None_2 (c_discs c') i) by lia. lia.
    + apply disc_train_keeps in Ht as (_ & _ & Hk). specialize (Hk eq_refl).
      assert (H0 : d_count d0 = 0).
      { unfold setRAMShuffle in Hs. repeat (match type of Hs with (rbind ?m _) = _ => destruct m; cbn [rbind] in Hs; [|discriminate Hs..] end). injection Hs as <-. reflexivity. }
      unfold counter_at. rewrite Hd'. split.
      * exists (length (c_discs c)). rewrite lookup_app_r, Nat.sub_diag by lia. rewrite (lookup_ge_None_2 (c_discs c)) by lia. cbn. lia.
      * intros i. destruct (decide (i < length (c_discs c))%nat) as [Hlt|Hge].
        -- rewrite lookup_app_l by assumption. destruct (c_discs c !! i) as [[?|]|]; lia.
        -- rewrite (lookup_ge_None_2 (c_discs c)) by lia. rewrite lookup_app_r by lia. destruct (i - length (c_discs c))%nat as [|k]; cbn; [lia|]. destruct k; cbn; lia.
    + apply disc_train_keeps in Ht as (_ & _ & Hk). specialize (Hk eq_refl). unfold counter_at. rewrite Hd'. pose proof (lookup_lt_Some _ _ _ Hi). split.
      * exists i0. rewrite list_lookup_insert by assumption. rewrite Hi. lia.
      * intros i. destruct (decide (i0 = i)) as [<-|Hne].
        -- rewrite list_lookup_insert by assumption. rewrite Hi. lia.
        -- rewrite list_lookup_insert_ne by assumption. destruct (c_discs c !! i) as [[?|]|]; lia.
Qed.
