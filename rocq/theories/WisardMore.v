(** Ghost entries, mental images, queries and data sets (C52-C56). *)
From Verif Require Import Prelude Bytes Utils BinInput Bleaching Ram Json Fs RamData Disc DataSet Wisard SpecBin SpecDisc SpecBleach SpecWisard.
From Verif Require Import BytesProofs BinProofs UtilsProofs TextProofs BleachProofs DiscCtorProofs CtorFacts RamProofs DiscProofs DiscFacts MentalProofs MentalHistory WisardProofs WisardFacts WisardSafety.

(** C52 *)
Lemma failed_creation lhs env w x l e : w_discriminators w !! l = None ->
  construct_discriminator (env l) w l (s32 (im_size x)) = Throw e ->
  wisard_train1 lhs env w x l =
    (Throw e, if lhs then with_discriminators w (<[l := disc_default]> (w_discriminators w)) else w).
Proof. intros E Ec. unfold wisard_train1. rewrite E. unfold makeDiscriminator. rewrite Ec. reflexivity. Qed.
Lemma failed_creation_batch env w xs1 ls1 w1 x l e xs2 ls2 :
  xs1 <> [] -> length xs1 = length ls1 -> length xs2 = length ls2 ->
  wisard_train false env w xs1 ls1 = (Ok tt, w1) -> w_discriminators w1 !! l = None ->
  construct_discriminator (env l) w1 l (s32 (im_size x)) = Throw e ->
  wisard_train false env w (xs1 ++ x :: xs2) (ls1 ++ l :: ls2) = (Throw e, w1).
Proof.
  intros Hne Hl1 Hl2 E Ed Hn. destruct xs1 as [|x0 xs1]; [congruence|]. unfold wisard_train in *.
  change ((x0 :: xs1) ++ x :: xs2) with (x0 :: (xs1 ++ x :: xs2)). cbv iota beta in E |- *.
  destruct (calculateNumberOfRams _ _ _); try discriminate. destruct (checkConfidence _ _); try discriminate.
  destruct (checkInputSizes (len (x0 :: xs1)) (len ls1)) eqn:E2; try discriminate.
  unfold checkInputSizes. replace (len (x0 :: xs1 ++ x :: xs2)) with (len (ls1 ++ l :: ls2)).
  2:{ unfold len. cbn [length]. rewrite !app_length. cbn [length] in *. lia. }
  rewrite Z.eqb_refl. change (x0 :: xs1 ++ x :: xs2) with ((x0 :: xs1) ++ x :: xs2). rewrite train_loop_app by exact Hl1.
  rewrite E. cbn [ebind wisard_train_loop]. rewrite (failed_creation false env w1 x l e Ed Hn). reflexivity.
Qed.

(** C53 *)
Lemma leave_unknown lhs w0 n cs w l x : w_discriminators w0 = ∅ -> configured w0 n -> Forall (proper_call w0 n) cs ->
  len (all_examples cs) <= INT_MAX -> wrun lhs w0 cs = (Ok tt, w) -> ~ SpecWisard.trained l (all_examples cs) ->
  leaveOneOut w x l = (Ok tt, w).
Proof.
  intros H0 Hc Hp Hl E Ht. destruct (wrun_inv lhs w0 n cs H0 Hc Hp Hl) as (w' & d0 & E' & Hi). rewrite E in E'. injection E' as <-.
  destruct Hi as [_ Hi]. specialize (Hi l). unfold label_inv in Hi. unfold leaveOneOut. rewrite <- history_trained in Ht.
  destruct (d0 !! l), (w_discriminators w !! l); try contradiction; [|reflexivity]. exfalso. apply Ht, Hi.
Qed.

(** C54 *)
Lemma mental_owed iter w0 n d0 es w : good_iter iter -> 0 <= n <= INT_MAX -> winv w0 n d0 es w -> len es <= INT_MAX ->
  Forall (fun e => plain_image (w_base w0) n (op_image e.2)) es ->
  (forall l d, d0 !! l = Some d -> Forall small (d_rams d) /\ len es * total_inputs d <= INT_MAX) ->
  exists m, wisard_mental iter w = Ok m /\
    forall l, match d0 !! l with
              | None => m !! l = None
              | Some d => exists img, m !! l = Some img /\ len img = n /\
                  forall p, 0 <= p < n -> img !! Z.to_nat p = Some (mental_law d (history l es) p)
              end.
Proof.
  intros Hit Hn (_ & Hinv) Hlen Himg Hsmall.
  assert (Hd : forall l d0l d, d0 !! l = Some d0l -> w_discriminators w !! l = Some d ->
    exists img, disc_mental iter d = Ok img /\ len img = n /\
      forall p, 0 <= p < n -> img !! Z.to_nat p = Some (mental_law d0l (history l es) p)).
  { intros l dd d E0 E. specialize (Hinv l). rewrite E0, E in Hinv. destruct Hinv as (_ & _ & Hsh & Ha).
    destruct (Hsmall l dd E0) as [Hs Hb]. pose proof (history_len l es) as Hhl. pose proof Hsh as (Hf & He & Hw & _).
    assert (Hv : Forall (fun o => valid_image dd (op_image o)) (history l es)).
    { apply Forall_forall. intros o Ho. apply history_elem in Ho. rewrite Forall_forall in Himg. specialize (Himg _ Ho). cbn in Himg.
      eapply plain_valid; eassumption. }
    assert (0 <= total_inputs dd) as Ht by apply len_nonneg. pose proof (len_nonneg (history l es)).
    destruct (mental_after iter dd (history l es) d Hit Hf) as (img & Em & Hl & _ & Hg); auto; try lia; [nia|].
    exists img. split; [exact Em|]. rewrite He in Hl, Hg. split; [exact Hl|]. intros p Hp.
    rewrite (Hg Hs p Hp), mental_due_law. reflexivity. }
  set (imgs := map_imap (fun l d => match disc_mental iter d with Ok m => Some m | _ => None end) (w_discriminators w)).
  exists imgs. split.
  - unfold wisard_mental. apply (keyed_ok (disc_mental iter)). intros l. unfold imgs. rewrite map_lookup_imap.
    destruct (w_discriminators w !! l) as [d|] eqn:E; cbn [mbind option_bind]; [|reflexivity].
    specialize (Hinv l). rewrite E in Hinv. destruct (d0 !! l) as [dd|] eqn:E0; [|destruct Hinv].
    destruct (Hd l dd d E0 E) as (img & -> & _). eauto.
  - intros l. unfold imgs. rewrite map_lookup_imap. pose proof (Hinv l) as Hl. destruct (d0 !! l) as [dd|] eqn:E0; destruct (w_discriminators w !! l) as [d|] eqn:E; try contradiction; cbn [mbind option_bind]; [|reflexivity].
    destruct (Hd l dd d E0 E) as (img & -> & H1 & H2). exists img. auto.
Qed.
Lemma proper_images w n cs : Forall (proper_call w n) cs -> Forall (fun e => plain_image (w_base w) n (op_image e.2)) (all_examples cs).
Proof.
  unfold all_examples. induction 1 as [|c cs [H _] _ IH]; [constructor|]. rewrite fmap_cons. cbn [List.concat]. apply Forall_app. auto.
Qed.
Lemma mental_images lhs w0 n cs : w_discriminators w0 = ∅ -> configured w0 n -> Forall (proper_call w0 n) cs ->
  len (all_examples cs) <= INT_MAX ->
  exists w (d0 : gmap str disc), wrun lhs w0 cs = (Ok tt, w) /\
    (forall l, is_Some (d0 !! l) <-> SpecWisard.trained l (all_examples cs)) /\
    (forall l d, d0 !! l = Some d -> built w0 n l d) /\
    forall iter, good_iter iter ->
      (forall l d, d0 !! l = Some d -> Forall small (d_rams d) /\ len (all_examples cs) * total_inputs d <= INT_MAX) ->
      exists m, wisard_mental iter w = Ok m /\
        forall l, match d0 !! l with
              | None => m !! l = None
              | Some d => exists img, m !! l = Some img /\ len img = n /\
                  forall p, 0 <= p < n -> img !! Z.to_nat p = Some (mental_law d (history l (all_examples cs)) p)
              end.
Proof.
  intros H0 Hc Hp Hl. destruct (wrun_inv lhs w0 n cs H0 Hc Hp Hl) as (w & d0 & E & Hi).
  exists w, d0. split; [exact E|]. destruct Hc as (Hn & _). split; [|split].
  - intros l. rewrite <- history_trained. destruct Hi as [_ Hi]. specialize (Hi l). unfold label_inv in Hi.
    destruct (d0 !! l), (w_discriminators w !! l); try contradiction.
    + split; [intros _; apply Hi|intros _; eauto].
    + split; [intros [? ?]; discriminate|congruence].
  - intros l d Ed. destruct Hi as [_ Hi]. specialize (Hi l). rewrite Ed in Hi. destruct (w_discriminators w !! l); [|destruct Hi]. apply Hi.
  - intros iter Hit Hs. apply (mental_owed iter w0 n d0 (all_examples cs) w); auto. apply proper_images, Hp.
Qed.

(** C55 *)
Inductive wquery :=
| QClassify (xs : list image)
| QMental (iter : iteration)
| QJson (iter : iteration) (rnd : str -> str) (huge : bool) (path : str)
| QJsonConfig.
Inductive answer :=
| AClasses (r : res (list str))
| AMental (r : res (gmap str (list Z)))
| AJson (r : res json).
Definition ask (w : wisard) (f : fs) (q : wquery) : answer * fs :=
  match q with
  | QClassify xs => (AClasses (wisard_classify w xs), f)
  | QMental iter => (AMental (wisard_mental iter w), f)
  | QJson iter rnd huge path => let '(r, f') := wisard_json iter rnd f w huge path in (AJson r, f')
  | QJsonConfig => (AJson (wisard_jsonConfig w), f)
  end.
(** A session: updates and queries in any order, going on after exceptions. *)
Inductive wevent := Update (c : wcall) | Ask (q : wquery).
Fixpoint session (lhs : bool) (w : wisard) (f : fs) (evs : list wevent) : list (res unit) * list answer * wisard * fs :=
  match evs with
  | [] => ([], [], w, f)
  | Update c :: evs' =>
      let '(o, w') := wcall_run lhs w c in
      let '(os, ans, w'', f') := session lhs w' f evs' in (o :: os, ans, w'', f')
  | Ask q :: evs' =>
      let '(a, f') := ask w f q in
      let '(os, ans, w'', f'') := session lhs w f' evs' in (os, a :: ans, w'', f'')
  end.
Definition is_update (e : wevent) : Prop := match e with Update _ => True | Ask _ => False end.
Global Instance is_update_dec e : Decision (is_update e).
Proof. destruct e; [left; exact I|right; intros []]. Defined.
Lemma queries_pure lhs : forall evs w f f', let '(os, _, w1, _) := session lhs w f evs in
  let '(os', _, w1', _) := session lhs w f' (filter is_update evs) in os = os' /\ w1 = w1'.
Proof.
  induction evs as [|e evs IH]; intros w f f'; [cbn; auto|]. destruct e as [c|q]; cbn [session].
  - rewrite filter_cons, decide_True by exact I. cbn [session]. destruct (wcall_run lhs w c) as [o w'].
    specialize (IH w' f f'). destruct (session lhs w' f evs) as [[[os ans] w1] f1]. destruct (session lhs w' f' (filter is_update evs)) as [[[os' ans'] w1'] f1'].
    destruct IH as [-> ->]. auto.
  - rewrite filter_cons, decide_False by (intros []). destruct (ask w f q) as [a f1]. specialize (IH w f1 f').
    destruct (session lhs w f1 evs) as [[[os ans] w1] f2]. destruct (session lhs w f' (filter is_update evs)) as [[[os' ans'] w1'] f2']. exact IH.
Qed.

(** C56 *)
Definition labelled (ds : dataset) (labels : list str) : Prop :=
  length labels = length (ds_data ds) /\ forall i, (i < length labels)%nat -> ds_labels ds !! Z.of_nat i = labels !! i.
Lemma ds_loop lhs env ds : forall data labels i w, length labels = length data -> 0 <= i -> i + len data <= INT_MAX ->
  (forall j, (j < length labels)%nat -> ds_labels ds !! (i + Z.of_nat j) = labels !! j) ->
  wisard_train_ds_loop lhs env ds data i w = wisard_train_loop lhs env w (bin_image <$> data) labels.
Proof.
  induction data as [|b data IH]; intros [|l labels] i w Hl Hi Hmax Hlab; try discriminate; [reflexivity|].
  rewrite fmap_cons. cbn [wisard_train_ds_loop wisard_train_loop]. rewrite len_cons in Hmax. pose proof (len_nonneg data).
  unfold ds_getLabel. rewrite s32_id by (unfold INT_MIN; lia).
  pose proof (Hlab 0%nat ltac:(cbn; lia)) as H0. rewrite Z.add_0_r in H0. rewrite H0. cbn [lookup list_lookup].
  destruct (wisard_train1 lhs env w (bin_image b) l) as [[[]| | |] w1]; cbn [ebind]; try reflexivity.
  apply IH; [cbn in Hl; lia|lia|lia|]. intros j Hj. replace (i + 1 + Z.of_nat j) with (i + Z.of_nat (S j)) by lia.
  rewrite (Hlab (S j)) by (cbn; lia). reflexivity.
Qed.
Lemma train_ds_bin lhs env w ds labels : labelled ds labels -> len labels <= INT_MAX ->
  wisard_train_ds lhs env w ds = wisard_train lhs env w (bin_image <$> ds_data ds) labels.
Proof.
  intros [Hl Hlab] Hmax. unfold wisard_train_ds, wisard_train. destruct (ds_data ds) as [|b data] eqn:E; [reflexivity|].
  rewrite fmap_cons. cbn [im_size bin_image]. destruct (calculateNumberOfRams _ _ _); try reflexivity. destruct (checkConfidence _ _); try reflexivity.
  unfold checkInputSizes. replace (len (bin_image b :: (bin_image <$> data))) with (len labels).
  2:{ unfold len. cbn [length]. rewrite fmap_length, Hl. reflexivity. }
  rewrite Z.eqb_refl. rewrite <- fmap_cons. apply ds_loop; [exact Hl|lia| |].
  - unfold len in *. lia.
  - intros j Hj. rewrite Z.add_0_l. apply Hlab, Hj.
Qed.

Definition bits_of (v : list Z) (b : bininput) : Prop := len v <= INT_MAX /\ Forall is_bit v /\ bin_of_list v = Ok b.
Lemma bits_size v b : bits_of v b -> im_size (bin_image b) = len v.
Proof.
  intros (Hl & Hb & E). assert (len v <= bin_limit) as Hl' by (unfold bin_limit, INT_MAX in *; lia).
  destruct (bin_of_list_spec v Hl' Hb) as (b' & E' & _ & Hsz & _). rewrite E in E'. injection E' as <-. exact Hsz.
Qed.
Lemma at_label_ext f g w l : (forall d, w_discriminators w !! l = Some d -> f d = g d) -> at_label f w l = at_label g w l.
Proof. intros H. unfold at_label. destruct (w_discriminators w !! l) as [d|]; [rewrite (H d eq_refl)|]; reflexivity. Qed.
Lemma train1_bits lhs env w v b l : valid_draw (env l) -> inside w (len v) l -> all_wired w -> bits_of v b ->
  wisard_train1 lhs env w (bin_image b) l = wisard_train1 lhs env w (vec_image v) l.
Proof.
  intros Hdr Hin Hw Hb. pose proof (bits_size v b Hb) as Hs. destruct Hb as (Hl & Hb & E). unfold wisard_train1.
  destruct (w_discriminators w !! l) as [d|] eqn:Ed.
  - apply at_label_ext. intros d' E'. apply (interchangeable d' v b); auto. eapply Hw, E'.
  - rewrite Hs. cbn [im_size vec_image]. unfold makeDiscriminator.
    destruct (construct_discriminator _ _ _ _) as [d| | |] eqn:Ec; cbn [ebind]; try reflexivity.
    apply at_label_ext. intros d'. cbn. rewrite lookup_insert. intros [= <-]. apply (interchangeable d v b); auto.
    eapply construct_inside; [exact Hdr| |exact Ec]. rewrite s32_id by (pose proof (len_nonneg v); unfold INT_MIN; lia). exact Hin.
Qed.
Lemma train_loop_bits lhs env : forall vs bs ls w, (forall l, valid_draw (env l)) -> Forall2 bits_of vs bs -> length vs = length ls ->
  (forall v l, v ∈ vs -> l ∈ ls -> inside w (len v) l) -> all_wired w ->
  wisard_train_loop lhs env w (bin_image <$> bs) ls = wisard_train_loop lhs env w (vec_image <$> vs) ls.
Proof.
  induction vs as [|v vs IH]; intros bs [|l ls] w Hdr H2 Hlen Hin Hw; try discriminate; inversion H2 as [|? b ? bs' Hb Hbs]; subst; [reflexivity|].
  rewrite !fmap_cons. cbn [wisard_train_loop]. assert (Hiv : inside w (len v) l) by (apply Hin; left).
  rewrite (train1_bits lhs env w v b l (Hdr l) Hiv Hw Hb).
  assert (Hw1 : all_wired (snd (wisard_train1 lhs env w (vec_image v) l))).
  { apply train1_wired; auto. cbn. rewrite s32_id by (pose proof (len_nonneg v); destruct Hb; unfold INT_MIN; lia). exact Hiv. }
  pose proof (train1_options lhs env w (vec_image v) l) as H3.
  destruct (wisard_train1 lhs env w (vec_image v) l) as [[[]| | |] w1]; cbn [ebind snd] in *; try reflexivity.
  apply IH; auto. intros v' l' Hv' Hl'. rewrite H3. apply Hin; right; assumption.
Qed.
Lemma train_ds_lists lhs env w ds vs ls : (forall l, valid_draw (env l)) -> labelled ds ls -> len ls <= INT_MAX ->
  Forall2 bits_of vs (ds_data ds) -> (forall v l, v ∈ vs -> l ∈ ls -> inside w (len v) l) -> all_wired w ->
  wisard_train_ds lhs env w ds = wisard_train lhs env w (vec_image <$> vs) ls.
Proof.
  intros Hdr Hlab Hmax H2 Hin Hw. rewrite (train_ds_bin lhs env w ds ls Hlab Hmax). destruct Hlab as [Hl _].
  pose proof (Forall2_length _ _ _ H2) as Hlen.
  unfold wisard_train. destruct H2 as [|v b vs bs Hb Hbs]; [reflexivity|]. rewrite !fmap_cons, (bits_size v b Hb). cbn [im_size vec_image].
  destruct (calculateNumberOfRams _ _ _); try reflexivity. destruct (checkConfidence _ _); try reflexivity.
  rewrite <- !fmap_cons. replace (len (bin_image <$> b :: bs)) with (len (vec_image <$> v :: vs)).
  2:{ unfold len. rewrite !fmap_length. cbn [length] in *. lia. }
  destruct (checkInputSizes _ _); try reflexivity. apply train_loop_bits; auto. cbn [length] in *. lia.
Qed.
Lemma classify_ds_lists w ds vs : all_wired w -> Forall2 bits_of vs (ds_data ds) ->
  wisard_classify_ds w ds = wisard_classify w (vec_image <$> vs).
Proof.
  intros Hw H2. unfold wisard_classify_ds, wisard_classify. induction H2 as [|v b vs bs Hb _ IH]; [reflexivity|].
  rewrite !fmap_cons. cbn [rmapM]. rewrite IH. f_equal.
  assert (Hv : all_votes (w_discriminators w) (bin_image b) = all_votes (w_discriminators w) (vec_image v)).
  { unfold all_votes. f_equal. assert (Hd : forall k d, (k, d) ∈ sorted_items (w_discriminators w) -> disc_classify d (bin_image b) = disc_classify d (vec_image v)).
    { intros k d Hk. apply sorted_items_elem in Hk. destruct Hb as (H1 & H2 & H3). apply (interchangeable d v b); auto. eapply Hw, Hk. }
    revert Hd. induction (sorted_items (w_discriminators w)) as [|[k d] l IHl]; intros Hd; [reflexivity|]. cbn [rmapM fst snd].
    rewrite (Hd k d) by left. rewrite IHl by (intros k' d' Hk; apply (Hd k' d'); right; exact Hk). reflexivity. }
  unfold wisard_classify1, wisard_candidates. rewrite Hv. reflexivity.
Qed.
(** Reachable states are wired inside. *)
Lemma winv_wired w0 n d0 es w : winv w0 n d0 es w -> all_wired w.
Proof.
  intros [_ Hi] l d E. specialize (Hi l). rewrite E in Hi. destruct (d0 !! l) as [dd|]; [|destruct Hi]. destruct Hi as (_ & _ & (_ & _ & Hw & _) & [He _ Hr]).
  rewrite wired_mapping in *. rewrite He. unfold disc_mapping in *. replace (r_addresses <$> d_rams d) with (r_addresses <$> d_rams dd); [exact Hw|].
  clear Hw. induction Hr as [|r0 r rs0 rs [[Hs _ _] _] _ IH]; [reflexivity|]. rewrite !fmap_cons, Hs, IH. reflexivity.
Qed.
Lemma reachable_wired lhs w0 n cs w : w_discriminators w0 = ∅ -> configured w0 n -> Forall (proper_call w0 n) cs ->
  len (all_examples cs) <= INT_MAX -> wrun lhs w0 cs = (Ok tt, w) -> all_wired w.
Proof.
  intros H0 Hc Hp Hl E. destruct (wrun_inv lhs w0 n cs H0 Hc Hp Hl) as (w' & d0 & E' & Hi). rewrite E in E'. injection E' as <-.
  eapply winv_wired, Hi.
Qed.
