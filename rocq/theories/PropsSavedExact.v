(** Property theorem C176_saved_exactly_partial: which models that survived failing calls can be loaded. *)
From Verif Require Import Prelude Bytes Base64 Bleaching Utils BinInput Json Fs RamData Ram Disc DataSet Wisard.
From Verif Require Import SpecBin SpecDisc SpecBleach SpecWisard SpecValues SpecSaved SpecUtf8 Utf8Proofs Base64Proofs BytesProofs TextProofs BinProofs UtilsProofs RamDataProofs BleachProofs DiscCtorProofs CtorFacts JsonNF RamProofs DiscProofs DiscFacts WisardProofs WisardFacts WisardSafety JsonProofs JsonFacts WisardJson WisardSaved SizesProofs.
From Verif Require Import PropsWisard PropsDefined PropsDefinedSaved.

(** ** A text with an empty field is refused *)
Definition loose_ram (iz : bool) (base : Z) (r : ram) : Prop :=
  r_ignoreZero r = iz /\ r_base r = base /\ 2 <= base /\ is_int base /\ width_ok base (len (r_addresses r)) /\ Forall is_int (r_addresses r) /\ valid_entries (r_positions r).
Lemma loose_storable iz base r : storable_ram iz base r <-> loose_ram iz base r /\ r_positions r <> ∅.
Proof. unfold storable_ram, loose_ram. tauto. Qed.
Lemma empty_part f iz base r : loose_ram iz base r -> ram_of_parts f (rbase_of iz base) (jints (r_addresses r)) [] = Throw EOutOfRange.
Proof.
  intros (Hz & Hb & H2 & Hib & Hw & Ha & Hv). unfold ram_of_parts, ram_of_json.
  destruct (part_fields (jints (r_addresses r)) [] iz base) as (-> & -> & -> & ->). cbn [rbind jget_bool].
  cbn [jget_int rbind]. rewrite s32_id by exact Hib. rewrite jget_ints_jints by exact Ha. cbn [rbind].
  pose proof (width_64 base _ H2 (len_nonneg _) Hw) as H64. pose proof (len_nonneg (r_addresses r)).
  rewrite s32_id by (unfold INT_MIN, INT_MAX; lia). rewrite checkLimit_spec by (unfold INT_MAX; lia).
  assert ((if base =? 2 then if len (r_addresses r) <=? 64 then Ok tt else Throw limit_exn
           else if base ^ len (r_addresses r) <=? LL_MAX then Ok tt else UB UBOverflow) = Ok tt) as ->.
  { unfold width_ok in Hw. destruct (base =? 2); [destruct (Z.leb_spec (len (r_addresses r)) 64); [reflexivity|lia]|].
    destruct (Z.leb_spec (base ^ len (r_addresses r)) LL_MAX); [reflexivity|lia]. }
  reflexivity.
Qed.
Lemma empty_data iter r : good_iter iter -> r_positions r = ∅ -> ram_getData iter r = [].
Proof. intros Hi E. unfold ram_getData. rewrite E. apply empty_text, Hi. Qed.
Lemma data_broken iter f iz base : good_iter iter -> forall rs1 r rs2 pre, Forall (storable_ram iz base) rs1 -> loose_ram iz base r -> r_positions r = ∅ ->
  len (pre ++ join_dots (texts iter (rs1 ++ r :: rs2))) <= INT_MAX ->
  rams_of_data f (rbase_of iz base) (jints <$> (r_addresses <$> (rs1 ++ r :: rs2))) (pre ++ join_dots (texts iter (rs1 ++ r :: rs2))) (len pre) = Throw EOutOfRange.
Proof.
  intros Hi. induction rs1 as [|r1 rs1 IH]; intros r rs2 pre Hall Hr Hemp Hlen; unfold texts in *; cbn [app] in *; rewrite !fmap_cons in *; cbn [rams_of_data]; pose proof (len_nonneg pre).
  - rewrite (empty_data iter r Hi Hemp) in *. assert (Hn : "."%char ∉ @nil ascii) by (intros K; inversion K).
    destruct rs2 as [|r2 rs2].
    + cbn [fmap list_fmap join_dots] in *. rewrite len_app, len_nil in Hlen. rewrite find_char_none by (auto; unfold W64, INT_MAX in *; lia). change (s32 npos) with (-1).
      rewrite substr_rest.
      * cbn [rbind]. change (int_of (-1 + 1)) with (@Ok Z 0). cbn [rbind]. rewrite empty_part by assumption. reflexivity.
      * rewrite len_app, len_nil. unfold W64, INT_MAX in *. lia.
      * rewrite len_app, len_nil. replace (-1 - len pre) with (- (len pre + 1)) by lia. rewrite u64_neg by (unfold W64, INT_MAX in *; lia). unfold W64, INT_MAX in *. lia.
    + rewrite !fmap_cons in *. rewrite join_cons in *. set (rest := join_dots _) in *. pose proof (len_nonneg rest). rewrite !len_app, len_nil, len_cons in Hlen.
      rewrite find_char_app by (auto; unfold W64, INT_MAX in *; lia). rewrite len_nil. rewrite s32_id by (unfold INT_MIN, INT_MAX in *; lia). replace (len pre + 0 - len pre) with (len (@nil ascii)) by (rewrite len_nil; lia).
      rewrite substr_mid by (rewrite !len_app, len_nil, len_cons; unfold W64, INT_MAX in *; lia). cbn [rbind]. unfold int_of, in_int.
      replace ((INT_MIN <=? _) && _) with true by (unfold INT_MIN, INT_MAX in *; lia). cbn [rbind]. rewrite empty_part by assumption. reflexivity.
  - apply Forall_cons in Hall as [Hr1 Hall]. assert (Hd : "."%char ∉ ram_getData iter r1) by apply ram_text_no_dot.
    assert (exists x xs, ram_getData iter <$> (rs1 ++ r :: rs2) = x :: xs) as (x & xs & Ex) by (destruct rs1; cbn; eauto).
    rewrite Ex in *. rewrite join_cons in *. specialize (IH r rs2 (pre ++ ram_getData iter r1 ++ ["."%char]) Hall Hr Hemp). rewrite Ex in IH. set (rest := join_dots (x :: xs)) in *.
    pose proof (len_nonneg (ram_getData iter r1)). pose proof (len_nonneg rest). assert (Hlen' := Hlen). rewrite !len_app, len_cons in Hlen'.
    rewrite find_char_app by (auto; unfold W64, INT_MAX in *; lia).
    rewrite s32_id by (unfold INT_MIN; lia). replace (len pre + len (ram_getData iter r1) - len pre) with (len (ram_getData iter r1)) by lia.
    rewrite substr_mid by (unfold W64, INT_MAX in *; lia). cbn [rbind]. unfold int_of, in_int.
    replace ((INT_MIN <=? _) && _) with true by (unfold INT_MIN; lia). cbn [rbind].
    rewrite (ram_of_parts_ok iter) by (auto; lia). cbn [rbind].
    replace ((pre ++ ram_getData iter r1 ++ ["."%char]) ++ rest) with (pre ++ ram_getData iter r1 ++ "."%char :: rest) in IH by (rewrite <- !app_assoc; reflexivity).
    rewrite !len_app, !len_cons, len_nil in IH.
    replace (len pre + (len (ram_getData iter r1) + (1 + 0))) with (len pre + len (ram_getData iter r1) + 1) in IH by lia.
    rewrite IH by lia. reflexivity.
Qed.
Lemma mem_texts_any iter rs : forall data, data <> [] -> ramsdata_mem iter rs data = join_dots (data :: texts iter rs).
Proof.
  unfold texts. induction rs as [|r rs IH]; intros data Hd; [reflexivity|]. rewrite fmap_cons.
  cbn [ramsdata_mem]. destruct data as [|c data]; [congruence|].
  rewrite IH by (intros E; apply (f_equal length) in E; rewrite !app_length in E; cbn in E; lia).
  rewrite !join_tail, fmap_cons. cbn [List.concat]. rewrite <- !app_assoc. reflexivity.
Qed.
Lemma ends_with_dot l : forall s, exists X, join_dots (s :: l ++ [[]]) = X ++ ["."%char].
Proof.
  intros s. rewrite join_tail, fmap_app, List.concat_app. cbn. exists (s ++ List.concat ((fun s => "."%char :: s) <$> l)). rewrite <- app_assoc. reflexivity.
Qed.
(** The RAMs a failing call leaves: those that learned something come first. *)
Fixpoint pfx (rs : list ram) : Prop := match rs with [] => True | r :: rs => (r_positions r = ∅ -> Forall (fun r => r_positions r = ∅) rs) /\ pfx rs end.
Lemma setRAMs_broken iter f iz base rs : good_iter iter -> Forall (loose_ram iz base) rs -> pfx rs -> len (join_dots (texts iter rs)) <= INT_MAX -> (rs = [] \/ exists r, r ∈ rs /\ r_positions r = ∅) ->
  setRAMsData f (jintss (r_addresses <$> rs)) (rbase_of iz base) (ramsdata_mem iter rs []) = Throw EOutOfRange.
Proof.
  intros Hi Hall Hp Hlen [-> | (r & Hr & Hemp)]; [reflexivity|].
  assert (exists rs1 e rs2, rs = rs1 ++ e :: rs2 /\ Forall (fun r => r_positions r <> ∅) rs1 /\ Forall (fun r => r_positions r = ∅) (e :: rs2)) as (rs1 & e & rs2 & -> & Hf & He).
  { clear -Hp Hr Hemp. induction rs as [|r0 rs IH]; [inversion Hr|]. destruct Hp as [Hp0 Hp]. destruct (decide (r_positions r0 = ∅)) as [E0|E0].
    - exists [], r0, rs. split; [reflexivity|]. split; [constructor|]. apply Forall_cons. auto.
    - apply elem_of_cons in Hr as [-> |Hr]; [congruence|]. destruct (IH Hp Hr) as (rs1 & e & rs2 & -> & H1 & H2). exists (r0 :: rs1), e, rs2. split; [reflexivity|]. split; [apply Forall_cons; auto|exact H2]. }
  apply Forall_app in Hall as [H1 H2]. assert (He2 := He). apply Forall_cons in He as [He _]. apply Forall_cons in H2 as [H2 _].
  assert (Hs1 : Forall (storable_ram iz base) rs1) by (apply Forall_forall; intros x Hx; apply loose_storable; rewrite Forall_forall in H1, Hf; auto).
  unfold setRAMsData. destruct rs1 as [|r1 rs1].
  - cbn [app]. rewrite fresh_texts by assumption. reflexivity.
  - assert (Et : ramsdata_mem iter ((r1 :: rs1) ++ e :: rs2) [] = join_dots (texts iter ((r1 :: rs1) ++ e :: rs2))).
    { cbn [app ramsdata_mem]. rewrite mem_texts_any; [reflexivity|]. apply Forall_cons in Hf as [Hf _]. pose proof (ram_text_len iter _ Hi Hf) as K. intros E. unfold ram_getData in E. rewrite E in K. unfold len in K. cbn in K. lia. }
    rewrite Et. set (D := join_dots _) in *.
    assert (HD : exists X, D = X ++ ["."%char]).
    { subst D. destruct (exists_last (l := e :: rs2) ltac:(discriminate)) as (l' & z & El). assert (r_positions z = ∅) as Hz.
      { rewrite El in He2. apply Forall_app in He2 as [_ He2]. apply Forall_cons in He2 as [He2 _]. exact He2. }
      rewrite El. unfold texts. cbn [app]. rewrite fmap_cons, app_assoc, fmap_app. cbn [fmap list_fmap]. rewrite (empty_data iter z Hi Hz). apply ends_with_dot. }
    assert (H6 : 16 <= len D).
    { subst D. unfold texts. cbn [app]. rewrite fmap_cons, join_tail, len_app. apply Forall_cons in Hf as [Hf _]. pose proof (ram_text_len iter _ Hi Hf). unfold ram_getData at 1. match goal with |- _ <= _ + len ?t => pose proof (len_nonneg t) end. lia. }
    assert (Hsuf : has_suffix D ramdata_sufix = Ok false).
    { rewrite has_suffix_long by (change (len ramdata_sufix) with 6; unfold W64, INT_MAX in *; lia). f_equal. apply bool_decide_eq_false. intros E. destruct HD as [X HX].
      match type of E with drop ?n D = _ => pose proof (take_drop n D) as K end. rewrite E, HX in K at 1. rewrite HX in K. change ramdata_sufix with (lit ".wdpk" ++ ["g"%char]) in K. rewrite app_assoc in K. apply app_inj_tail in K as [_ K]. discriminate. }
    rewrite Hsuf. cbn [rbind]. rewrite jvalues_jintss. exact (data_broken iter f iz base Hi (r1 :: rs1) e rs2 [] Hs1 H2 He Hlen).
Qed.

(** ** What programs leave in a discriminator *)
Definition everywhere (P : disc -> Prop) (w : wisard) : Prop := forall l d, w_discriminators w !! l = Some d -> P d.
Lemma everywhere_put (P : disc -> Prop) w l d : everywhere P w -> P d -> everywhere P (with_discriminators w (<[l := d]> (w_discriminators w))).
Proof. intros H Hd k e. cbn. rewrite lookup_insert_Some. intros [[_ <-]|[_ He]]; [exact Hd|exact (H k e He)]. Qed.
Lemma at_label_everywhere (P : disc -> Prop) w (f : disc -> eff disc unit) l : everywhere P w -> (forall d, P d -> P (snd (f d))) -> everywhere P (snd (at_label f w l)).
Proof.
  intros H Hf. unfold at_label. destruct (w_discriminators w !! l) as [d|] eqn:E; [|exact H]. specialize (Hf d (H l d E)). destruct (f d) as [o d']. cbn [snd] in *. apply everywhere_put; assumption.
Qed.
Lemma outcomes_everywhere (P : disc -> Prop) lhs : (forall d x, P d -> P (snd (disc_train d x)) /\ P (snd (disc_untrain d x))) ->
  (forall dr w l n d, construct_discriminator dr w l n = Ok d -> P d) -> P (Disc 0 0 []) ->
  forall cs w, everywhere P w -> everywhere P (snd (outcomes (wcall_run lhs) w cs)).
Proof.
  intros Hop Hnew Hghost.
  assert (H1 : forall env w x l, everywhere P w -> everywhere P (snd (wisard_train1 lhs env w x l))).
  { intros env w x l H. unfold wisard_train1. destruct (w_discriminators w !! l); [apply at_label_everywhere; [exact H|intros e He; apply Hop, He]|].
    apply (ebind_snd _ _ (everywhere P)).
    - unfold makeDiscriminator. destruct (construct_discriminator _ _ _ _) as [d| | |] eqn:E; cbn [snd]; try exact H; [apply everywhere_put; [exact H|eapply Hnew, E]|]. destruct lhs; [apply everywhere_put; assumption|exact H].
    - intros [] s Es. apply at_label_everywhere; [|intros e He; apply Hop, He]. unfold makeDiscriminator in Es. destruct (construct_discriminator _ _ _ _) as [d| | |] eqn:E; try discriminate. injection Es as <-. apply everywhere_put; [exact H|eapply Hnew, E]. }
  assert (Hl : forall env xs ls w, everywhere P w -> everywhere P (snd (wisard_train_loop lhs env w xs ls))).
  { intros env. induction xs as [|x xs IH]; intros ls w H; [destruct ls; exact H|]. destruct ls as [|l ls]; [exact H|]. cbn [wisard_train_loop].
    apply (ebind_snd _ _ (everywhere P)); [apply H1, H|]. intros [] s Es. apply IH. pose proof (H1 env w x l H) as K. rewrite Es in K. exact K. }
  assert (H2 : forall w x l, everywhere P w -> everywhere P (snd (leaveOneOut w x l))).
  { intros w x l H. unfold leaveOneOut. destruct (w_discriminators w !! l); [|exact H]. apply at_label_everywhere; [exact H|intros e He; apply Hop, He]. }
  assert (Hm : forall xs ls w, everywhere P w -> everywhere P (snd (leaveMoreOut_loop w xs ls))).
  { induction xs as [|x xs IH]; intros ls w H; [destruct ls; exact H|]. destruct ls as [|l ls]; [exact H|]. cbn [leaveMoreOut_loop].
    apply (ebind_snd _ _ (everywhere P)); [apply H2, H|]. intros [] s Es. apply IH. pose proof (H2 w x l H) as K. rewrite Es in K. exact K. }
  induction cs as [|c cs IH]; intros w H; [exact H|]. cbn [outcomes].
  assert (Hc : everywhere P (snd (wcall_run lhs w c))).
  { destruct c as [env xs ls|x l|xs ls]; cbn [wcall_run] in *.
    - unfold wisard_train. destruct xs; [exact H|]. destruct (calculateNumberOfRams _ _ _); try exact H. destruct (checkConfidence _ _); try exact H. destruct (checkInputSizes _ _); try exact H. apply Hl, H.
    - apply H2, H.
    - unfold leaveMoreOut. destruct (checkInputSizes _ _); try exact H. apply Hm, H. }
  destruct (wcall_run lhs w c) as [o w1]. cbn [snd] in Hc. specialize (IH w1 Hc). destruct (outcomes (wcall_run lhs) w1 cs) as [os w2]. destruct o; cbn [snd] in *; first [exact IH|exact Hc].
Qed.
Lemma fresh_pfx rs : Forall (fun r => r_positions r = ∅) rs -> pfx rs.
Proof. induction 1 as [|r rs Hr Hrs IH]; [exact I|]. split; [intros _; exact Hrs|exact IH]. Qed.
Lemma train_pfx x : forall rs, pfx rs -> pfx (snd (rams_update (fun r => ram_train r x) rs)).
Proof.
  induction rs as [|r rs IH]; [intros _; exact I|]. intros [H1 H2]. cbn [rams_update].
  assert (Hr : match fst (ram_train r x) with Ok _ => r_positions (snd (ram_train r x)) <> ∅ | _ => snd (ram_train r x) = r end).
  { unfold ram_train. destruct (getIndex r x) as [i| | |]; try reflexivity. destruct (r_positions r !! i) as [v|]; [destruct (int_of (v + 1)); try reflexivity|]; apply put_nonempty. }
  destruct (ram_train r x) as [[u|e|u|] r']; cbn [fst snd] in *; try (subst r'; split; assumption).
  specialize (IH H2). destruct (rams_update (fun r => ram_train r x) rs) as [o rs']. cbn [snd] in *. split; [tauto|exact IH].
Qed.
Lemma untrain_pfx x : forall rs, pfx rs -> pfx (snd (rams_update (fun r => ram_untrain r x) rs)) /\ (Forall (fun r => r_positions r = ∅) rs -> Forall (fun r => r_positions r = ∅) (snd (rams_update (fun r => ram_untrain r x) rs))).
Proof.
  induction rs as [|r rs IH]; [intros _; split; [exact I|auto]|]. intros [H1 H2]. cbn [rams_update].
  assert (Hr : (r_positions (snd (ram_untrain r x)) = ∅ <-> r_positions r = ∅) /\ match fst (ram_untrain r x) with Ok _ => True | _ => snd (ram_untrain r x) = r end).
  { unfold ram_untrain. destruct (getIndex r x) as [i| | |]; try (split; reflexivity). destruct (r_positions r !! i) as [v|] eqn:E; [destruct (int_of (v - 1)); try (split; reflexivity)|split; [reflexivity|exact I]].
    split; [|exact I]. cbn. split; intros K; [exfalso; revert K; apply put_nonempty|rewrite K, lookup_empty in E; discriminate]. }
  destruct (ram_untrain r x) as [[u|e|u|] r']; cbn [fst snd] in *; destruct Hr as [Hr Hr2]; try (subst r'; split; [split; assumption|auto]).
  specialize (IH H2). destruct (rams_update (fun r => ram_untrain r x) rs) as [o rs']. cbn [snd] in *. destruct IH as [I1 I2]. split; [split; [intros K; apply I2, H1, Hr, K|exact I1]|].
  intros K. apply Forall_cons in K as [K1 K2]. apply Forall_cons. split; [apply Hr, K1|apply I2, K2].
Qed.
Lemma new_fresh dr w l n d : construct_discriminator dr w l n = Ok d -> Forall (fun r => r_positions r = ∅) (d_rams d).
Proof.
  assert (Hn : forall addrs iz base r, ram_new addrs iz base = Ok r -> r_positions r = ∅).
  { intros addrs iz base r. unfold ram_new. destruct (checkLimitAddressSize _ _); cbn [rbind]; try discriminate. intros [= <-]. reflexivity. }
  assert (Hmk : forall idx a n iz base rs, make_rams idx a n iz base = Ok rs -> Forall (fun r => r_positions r = ∅) rs).
  { intros idx a k iz base rs E. apply DiscCtorProofs.rmapM_ok in E. clear -E Hn. induction E as [|i r is rs Hr _ IH]; [constructor|]. apply Forall_cons. split; [eapply Hn, Hr|exact IH]. }
  unfold construct_discriminator. intros E. destruct (w_mapping w !! l) as [m|]; [|destruct (negb _)].
  - unfold setRAMByMapping in E. destruct (checkBase _); cbn [rbind] in E; try discriminate. destruct (rmapM _ _) as [rs| | |] eqn:Er; cbn [rbind] in E; try discriminate. injection E as <-.
    cbn [d_rams]. apply DiscCtorProofs.rmapM_ok in Er. clear -Er Hn. induction Er as [|i r is rs Hr _ IH]; [constructor|]. apply Forall_cons. split; [eapply Hn, Hr|exact IH].
  - unfold setRAMByIndex in E. destruct (checkAddressSize _ _); cbn [rbind] in E; try discriminate. destruct (checkBase _); cbn [rbind] in E; try discriminate.
    destruct (checkListOfIndexes _ _); cbn [rbind] in E; try discriminate. destruct (make_rams _ _ _ _ _) as [rs| | |] eqn:Er; cbn [rbind] in E; try discriminate. injection E as <-. eapply Hmk, Er.
  - unfold setRAMShuffle in E. destruct (checkAddressSize _ _); cbn [rbind] in E; try discriminate. destruct (checkBase _); cbn [rbind] in E; try discriminate. cbv zeta in E.
    destruct (int_of _); cbn [rbind] in E; try discriminate. destruct (rmapM _ _); cbn [rbind] in E; try discriminate. destruct (make_rams _ _ _ _ _) as [rs| | |] eqn:Er; cbn [rbind] in E; try discriminate. injection E as <-. eapply Hmk, Er.
Qed.
Lemma outcomes_pfx lhs cs w : everywhere (fun d => pfx (d_rams d)) w -> everywhere (fun d => pfx (d_rams d)) (snd (outcomes (wcall_run lhs) w cs)).
Proof.
  apply outcomes_everywhere; [|intros dr u l n d E; apply fresh_pfx; eapply new_fresh, E|exact I]. intros d x H. unfold disc_train, disc_untrain. destruct (checkEntrySize _ _); try (split; exact H).
  pose proof (train_pfx x (d_rams d) H) as T. pose proof (proj1 (untrain_pfx x (d_rams d) H)) as U.
  destruct (int_of (d_count d + 1)), (int_of (d_count d - 1)); destruct (rams_update (fun r => ram_train r x) _) as [o1 rs1], (rams_update (fun r => ram_untrain r x) _) as [o2 rs2]; cbn [snd d_rams] in *; split; assumption.
Qed.

(** ** Loading the whole model *)
Lemma load_classes_broken f dc iter rnd huge path l : forall m,
  Forall (fun kd => let r := disc_of_json f (merge_patch (class_value kd.2 (class_data iter rnd huge path kd.1 kd.2)) dc) in r = Ok kd.2 \/ r = Throw EOutOfRange) l ->
  (exists kd, kd ∈ l /\ disc_of_json f (merge_patch (class_value kd.2 (class_data iter rnd huge path kd.1 kd.2)) dc) = Throw EOutOfRange) ->
  load_classes f dc (members iter rnd huge path l) m = Throw EOutOfRange.
Proof.
  unfold members. induction l as [|[k d] l IH]; intros m H (kd & Hin & Hb); [inversion Hin|]. rewrite fmap_cons. apply Forall_cons in H as [Hd H]. cbn [fst snd] in *. cbn [load_classes].
  destruct Hd as [Hd|Hd]; rewrite Hd; cbn [rbind]; [|reflexivity]. apply IH; [exact H|]. apply elem_of_cons in Hin as [-> |Hin]; [cbn [fst snd] in Hb; congruence|eauto].
Qed.
Lemma sound_loose w N d : is_int (w_base w) -> 0 <= N <= INT_MAX -> kept w d -> sound N d -> Forall (loose_ram (w_ignoreZero w) (w_base w)) (d_rams d).
Proof.
  intros Hb HN [He Hk] (Hw & Hc & Hs). unfold wired_inside in Hw. rewrite Forall_forall in Hk, Hs, Hw |- *. intros r Hr. destruct (Hk r Hr) as (K1 & K2 & K3 & K4 & K5). unfold loose_ram. do 3 (split; [assumption|]). split; [exact Hb|]. split; [exact K4|]. split.
  - pose proof (Hw r Hr) as Ha. eapply Forall_impl; [exact Ha|]. intros a Ha'. cbn beta in Ha'. unfold is_int, INT_MIN, INT_MAX in *. lia.
  - intros a v E. split; [exact (K5 a v E)|]. pose proof (bounded_at N r a v (Hs r Hr) E). unfold is_int, INT_MIN, INT_MAX in *. lia.
Qed.
Lemma mem_either iter rs : good_iter iter -> pfx rs -> ramsdata_mem iter rs [] = [] \/ ramsdata_mem iter rs [] = join_dots (texts iter rs).
Proof.
  intros Hi. destruct rs as [|r rs]; [left; reflexivity|]. intros [H1 H2]. destruct (decide (r_positions r = ∅)) as [E|E].
  - left. apply fresh_texts; [exact Hi|]. apply Forall_cons. split; [exact E|exact (H1 E)].
  - right. cbn [ramsdata_mem app]. rewrite mem_texts_any; [reflexivity|]. pose proof (ram_text_len iter _ Hi E) as K. intros En. unfold ram_getData in En. rewrite En in K. unfold len in K. cbn in K. lia.
Qed.
Lemma filled_dec d : filled d \/ (d_rams d = [] \/ exists r, r ∈ d_rams d /\ r_positions r = ∅).
Proof.
  destruct (decide (Forall (fun r => r_positions r <> ∅) (d_rams d))) as [H|H].
  - destruct (d_rams d) eqn:E; [right; left; reflexivity|]. left. unfold filled. rewrite E. split; [discriminate|exact H].
  - right. right. apply not_Forall_Exists in H; [|intros r; apply _]. apply Exists_exists in H as (r & Hr & Hn). exists r. split; [exact Hr|]. destruct (decide (r_positions r = ∅)); [assumption|contradiction].
Qed.

(** C176, exactly: whatever failed, the model is saved; the text is read back as the same model when every
    RAM of every known label has learned something, and is refused with std::out_of_range otherwise. *)
Theorem C176_saved_exactly_partial : forall lhs_first iter rnd f path w0 cs,
  good_iter iter -> w_discriminators w0 = ∅ -> w_addressSize w0 <> 0 -> SpecSaved.int_options w0 -> Forall (safe_call w0) cs -> zsum (handed <$> cs) < INT_MAX - 1 ->
  let w := snd (outcomes (wcall_run lhs_first) w0 cs) in
  (forall l d, w_discriminators w !! l = Some d -> is_utf8 l /\ saved_size d <= INT_MAX + 1) ->
  exists j, wisard_json iter rnd f w false path = (Ok j, f) /\
    ((forall l d, w_discriminators w !! l = Some d -> d_rams d <> [] /\ Forall (fun r => r_positions r <> ∅) (d_rams d)) -> forall f', wisard_of_json f' j = Ok (without_mapping w)) /\
    ((exists l d, w_discriminators w !! l = Some d /\ (d_rams d = [] \/ exists r, r ∈ d_rams d /\ r_positions r = ∅)) -> forall f', wisard_of_json f' j = Throw EOutOfRange).
Proof.
  intros lhs iter rnd f path w0 cs Hi H0 Ha Ho Hc HM w Hlab. pose proof (total_handed cs) as Hz.
  pose proof (outcomes_fine lhs w0 cs 0 w0 Ha (same_refl w0) ltac:(lia) ltac:(lia)) as H. specialize (H ltac:(intros l d; rewrite H0, lookup_empty; discriminate) Hc).
  pose proof (outcomes_kept w0 lhs Ho cs w0) as K. specialize (K ltac:(split; [reflexivity|intros l d; rewrite H0, lookup_empty; discriminate])).
  pose proof (outcomes_pfx lhs cs w0) as P. specialize (P ltac:(intros l d; rewrite H0, lookup_empty; discriminate)).
  subst w. destruct (outcomes (wcall_run lhs) w0 cs) as [os w]. cbn [snd] in *. destruct H as (_ & _ & Hs & Hsm). destruct K as [_ Hk].
  assert (Hsame : w_ignoreZero w = w_ignoreZero w0 /\ w_base w = w_base w0) by (rewrite Hsm; split; reflexivity).
  assert (Hio : SpecSaved.int_options w) by (rewrite Hsm; exact Ho).
  assert (Hkw : forall l d, w_discriminators w !! l = Some d -> kept w d) by (intros l d E; unfold kept; destruct Hsame as [-> ->]; exact (Hk l d E)).
  assert (Hloose : forall l d, w_discriminators w !! l = Some d -> Forall (loose_ram (w_ignoreZero w) (w_base w)) (d_rams d)).
  { intros l d E. eapply sound_loose; [exact (proj1 (proj2 Hio))| |exact (Hkw l d E)|exact (Hs l d E)]. lia. }
  assert (Hlen : forall l d, w_discriminators w !! l = Some d -> len (join_dots (texts iter (d_rams d))) <= INT_MAX).
  { intros l d E. destruct (decide (d_rams d = [])) as [En|En]; [rewrite En; vm_compute; congruence|]. pose proof (texts_size iter d Hi En). pose proof (proj2 (Hlab l d E)). lia. }
  assert (Hread : forall f' l d, w_discriminators w !! l = Some d ->
    let r := disc_of_json f' (merge_patch (class_value d (class_data iter rnd false path l d)) (rbase_of (w_ignoreZero w) (w_base w))) in
    (filled d /\ r = Ok d) \/ ((d_rams d = [] \/ exists r, r ∈ d_rams d /\ r_positions r = ∅) /\ r = Throw EOutOfRange)).
  { intros f' l d E. cbv zeta. destruct (Hkw l d E) as [He _]. destruct (Hs l d E) as (_ & Hcn & _).
    rewrite class_of_value by (first [exact He|unfold is_int, INT_MIN, INT_MAX in *; lia]). unfold class_data, disc_mapping. destruct (filled_dec d) as [Hf|Hb].
    - left. split; [exact Hf|]. destruct Hf as [Hne Hf].
      assert (Hst : Forall (storable_ram (w_ignoreZero w) (w_base w)) (d_rams d)) by (pose proof (Hloose l d E) as HL; apply Forall_forall; intros x Hx; apply loose_storable; rewrite Forall_forall in HL, Hf; auto).
      rewrite mem_join by (eapply Forall_impl; [exact (texts_seg iter _ _ _ Hi Hst)|]; intros s [_ Hsg]; exact Hsg).
      rewrite (setRAMs_mem iter) by (auto; exact (Hlen l d E)). cbn [rbind]. rewrite disc_eta. reflexivity.
    - right. split; [exact Hb|]. rewrite setRAMs_broken; [reflexivity|exact Hi|exact (Hloose l d E)|exact (P l d E)|exact (Hlen l d E)|exact Hb]. }
  exists (wisard_value w (obj (members iter rnd false path (sorted_items (w_discriminators w))))). split; [|split].
  - rewrite wisard_json_nf.
    + f_equal. generalize (sorted_items (w_discriminators w)) as l. intros l. induction l as [|kd l IH]; [reflexivity|exact IH].
    + intros l d E. split; [apply utf8_ok_iff; exact (proj1 (Hlab l d E))|]. unfold class_data. destruct (mem_either iter (d_rams d) Hi (P l d E)) as [-> | ->]; [reflexivity|apply texts_utf8].
  - intros Hall f'. rewrite <- (with_own w). apply wisard_of_value with (ms := members iter rnd false path (sorted_items (w_discriminators w))); [exact Hio|apply jmembers_obj|].
    rewrite load_classes_ok.
    + rewrite map_union_empty, sorted_items_map. reflexivity.
    + apply sorted_items_nodup.
    + intros kd _. apply lookup_empty.
    + apply Forall_forall. intros [k d] Hkd. apply sorted_items_elem in Hkd. cbn [fst snd]. destruct (Hread f' k d Hkd) as [[_ E]|[Hb _]]; [exact E|]. exfalso. destruct (Hall k d Hkd) as [A1 A2].
      destruct Hb as [Hb|(r & Hr & Hb)]; [contradiction|]. rewrite Forall_forall in A2. exact (A2 r Hr Hb).
  - intros (l & d & E & Hb) f'. rewrite wisard_of_value_gen by exact Hio. rewrite jmembers_obj. cbn [rbind]. rewrite load_classes_broken; [reflexivity| |].
    + apply Forall_forall. intros [k e] Hkd. apply sorted_items_elem in Hkd. cbn [fst snd]. destruct (Hread f' k e Hkd) as [[_ E']|[_ E']]; [left|right]; exact E'.
    + exists (l, d). split; [apply sorted_items_elem; exact E|]. cbn [fst snd]. destruct (Hread f' l d E) as [[[A1 A2] _]|[_ E']]; [|exact E']. exfalso.
      destruct Hb as [Hb|(r & Hr & Hb)]; [contradiction|]. rewrite Forall_forall in A2. exact (A2 r Hr Hb).
Qed.
Print Assumptions C176_saved_exactly_partial.
(** Both cases occur, for every evaluation order. *)
Example C176_exactly_witness : forall lhs_first,
  let half := snd (outcomes (wcall_run lhs_first) wild half_learned) in
  (exists d r, w_discriminators half !! hot = Some d /\ r ∈ d_rams d /\ r_positions r = ∅ /\ saved_size d = 18) /\
  let full := snd (outcomes (wcall_run lhs_first) wild (half_learned ++ [CTrain (fun _ => some_draw) [vec_image [1; 0; 0; 1]] [hot]])) in
  (exists d, w_discriminators full !! hot = Some d /\ size (w_discriminators full) = 1%nat /\ (fun r => size (r_positions r)) <$> d_rams d = [1; 1]%nat).
Proof.
  intros lhs. split.
  - assert (H : match w_discriminators (snd (outcomes (wcall_run lhs) wild half_learned)) !! hot with Some d => match d_rams d with [a; b] => r_positions b = ∅ | _ => False end /\ saved_size d = 18 | None => False end) by (destruct lhs; vm_compute; split; reflexivity).
    destruct (w_discriminators _ !! hot) as [d|]; [|contradiction]. destruct H as [H Hs]. exists d. destruct (d_rams d) as [|a [|b [|c t]]]; try contradiction. exists b. split; [reflexivity|]. split; [right; left|]. split; [exact H|exact Hs].
  - cbv zeta. set (full := snd _). assert (H : match w_discriminators full !! hot with Some d => size (w_discriminators full) = 1%nat /\ (fun r => size (r_positions r)) <$> d_rams d = [1; 1]%nat | None => False end) by (subst full; destruct lhs; vm_compute; split; reflexivity).
    destruct (w_discriminators full !! hot) as [d|]; [|contradiction]. exists d. tauto.
Qed.
