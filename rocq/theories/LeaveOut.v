(** Leaving examples out and training them again (for C129, C130). *)
From Verif Require Import Prelude Bytes Utils BinInput Bleaching Ram Disc Wisard SpecBin SpecDisc SpecBleach SpecWisard.
From Verif Require Import BytesProofs UtilsProofs TextProofs DiscCtorProofs CtorFacts DiscProofs DiscFacts BleachProofs WisardProofs WisardFacts.

(** The images of one label in a labelled list. *)
Definition of_pairs (l : str) (ps : list (str * image)) : list image := (filter (fun p => p.1 = l) ps).*2.
Definition agreeing (addrs : list Z) (x : image) (ys : list image) : Z :=
  count_if (fun y => bool_decide (agree addrs x y)) ys.

Lemma agreeing_perm addrs x ys zs : ys ≡ₚ zs -> agreeing addrs x ys = agreeing addrs x zs.
Proof. apply count_if_perm. Qed.
Lemma agreeing_cons addrs x y ys : agreeing addrs x (y :: ys) = (if bool_decide (agree addrs x y) then 1 else 0) + agreeing addrs x ys.
Proof. unfold agreeing. rewrite count_if_cons. reflexivity. Qed.
Lemma agreeing_app addrs x ys zs : agreeing addrs x (ys ++ zs) = agreeing addrs x ys + agreeing addrs x zs.
Proof. unfold agreeing. rewrite count_if_app. reflexivity. Qed.
Lemma agreeing_nonneg addrs x ys : 0 <= agreeing addrs x ys.
Proof. apply count_if_range. Qed.

Lemma cell_untrains addrs x ys : forall h, cell addrs (h ++ (Untrain <$> ys)) x = (fun v => v - agreeing addrs x ys) <$> cell addrs h x.
Proof.
  induction ys as [|y ys IH]; intros h.
  - cbn [fmap list_fmap]. rewrite app_nil_r. destruct (cell addrs h x); [|reflexivity]. cbn. f_equal. unfold agreeing. rewrite count_if_nil. lia.
  - rewrite fmap_cons. change (h ++ Untrain y :: (Untrain <$> ys)) with (h ++ [Untrain y] ++ (Untrain <$> ys)). rewrite app_assoc, IH, cell_snoc, agreeing_cons. cbn [op_image].
    destruct (bool_decide (agree addrs x y)); destruct (cell addrs h x); try reflexivity; cbn; f_equal; lia.
Qed.
Lemma cell_trains addrs x ys : forall h, cell addrs (h ++ (Train <$> ys)) x =
  if agreeing addrs x ys =? 0 then cell addrs h x else Some (default 0 (cell addrs h x) + agreeing addrs x ys).
Proof.
  induction ys as [|y ys IH]; intros h.
  - cbn [fmap list_fmap]. rewrite app_nil_r. reflexivity.
  - rewrite fmap_cons. change (h ++ Train y :: (Train <$> ys)) with (h ++ [Train y] ++ (Train <$> ys)). rewrite app_assoc, IH, cell_snoc, agreeing_cons. cbn [op_image].
    pose proof (agreeing_nonneg addrs x ys).
    destruct (bool_decide (agree addrs x y)).
    + cbn [from_option id]. replace (1 + agreeing addrs x ys =? 0) with false by lia.
      destruct (Z.eqb_spec (agreeing addrs x ys) 0) as [E|E]; f_equal; lia.
    + rewrite Z.add_0_l. reflexivity.
Qed.
(** An image agreeing with a trained one has a cell. *)
Lemma trained_cell addrs x h y : Train y ∈ h -> agree addrs x y -> is_Some (cell addrs h x).
Proof.
  intros Hy Ha. unfold cell. destruct (Z.eqb_spec (trainings addrs x h) 0) as [E|]; [|eauto]. exfalso. unfold trainings in E.
  assert (0 < count_if (fun o => match o with Train y => bool_decide (agree addrs x y) | Untrain _ => false end) h); [|lia].
  apply count_if_pos. exists (Train y). split; [exact Hy|]. apply bool_decide_eq_true_2, Ha.
Qed.
Lemma cell_restored addrs x h ys zs : Forall (fun y => Train y ∈ h) ys -> zs ≡ₚ ys ->
  cell addrs (h ++ (Untrain <$> ys) ++ (Train <$> zs)) x = cell addrs h x.
Proof.
  intros Hy Hp. rewrite app_assoc, cell_trains, cell_untrains, (agreeing_perm _ _ _ _ Hp).
  destruct (Z.eqb_spec (agreeing addrs x ys) 0) as [E|E].
  - destruct (cell addrs h x); [|reflexivity]. cbn. f_equal. lia.
  - pose proof (agreeing_nonneg addrs x ys).
    assert (Hc : 0 < agreeing addrs x ys) by lia. apply count_if_pos in Hc as (y & Hin & Ha). apply bool_decide_eq_true_1 in Ha.
    rewrite Forall_forall in Hy. destruct (trained_cell addrs x h y (Hy y Hin) Ha) as (v & ->). cbn. f_equal. lia.
Qed.
Lemma signed_untrains ys zs h : zs ≡ₚ ys -> signed_count (h ++ (Untrain <$> ys) ++ (Train <$> zs)) = signed_count h.
Proof.
  intros Hp. unfold signed_count. rewrite !count_if_app, !count_if_fmap.
  assert (A : forall (b : bool) (l : list image), count_if (fun _ : image => b) l = if b then len l else 0).
  { intros b l. induction l as [|y l IH]; [destruct b; reflexivity|]. rewrite count_if_cons, IH, len_cons. destruct b; lia. }
  rewrite (A false ys), (A true ys), (A false zs), (A true zs). unfold len. rewrite (Permutation_length Hp). lia.
Qed.

(** ** Labelled lists *)
Lemma of_label_zip (f : image -> dop) l : forall (labels : list str) (images : list image),
  of_label l (zip labels (f <$> images)) = f <$> of_pairs l (zip labels images).
Proof.
  induction labels as [|k labels IH]; intros [|x images]; try reflexivity. rewrite fmap_cons. cbn [zip zip_with].
  unfold of_label, of_pairs in *. rewrite !filter_cons. cbn [fst]. destruct (decide (k = l)); [|apply IH]. rewrite !fmap_cons, IH. reflexivity.
Qed.
Lemma of_label_app l es es' : of_label l (es ++ es') = of_label l es ++ of_label l es'.
Proof. unfold of_label. rewrite filter_app, fmap_app. reflexivity. Qed.
Lemma of_pairs_perm l ps qs : ps ≡ₚ qs -> of_pairs l ps ≡ₚ of_pairs l qs.
Proof. intros H. unfold of_pairs. apply fmap_Permutation. rewrite H. reflexivity. Qed.
Lemma of_pairs_elem l x ps : x ∈ of_pairs l ps <-> (l, x) ∈ ps.
Proof.
  unfold of_pairs. rewrite elem_of_list_fmap. split.
  - intros ([k y] & -> & H). apply elem_of_list_filter in H as [E H]. cbn in *. subst. exact H.
  - intros H. exists (l, x). split; [reflexivity|]. apply elem_of_list_filter. auto.
Qed.
Lemma in_history l x es : (l, Train x) ∈ es -> Train x ∈ history l es.
Proof.
  intros H. unfold history. assert (Hi : Train x ∈ of_label l es).
  { unfold of_label. apply elem_of_list_fmap. exists (l, Train x). split; [reflexivity|]. apply elem_of_list_filter. auto. }
  revert Hi. induction (of_label l es) as [|[y|y] h IH]; cbn [since_first_training]; [auto|auto|].
  intros Hi. apply elem_of_cons in Hi as [Hi|Hi]; [discriminate|auto].
Qed.
Lemma history_app_known l es es' : history l es <> [] -> history l (es ++ es') = history l es ++ of_label l es'.
Proof. unfold history. rewrite of_label_app. apply since_app_ne. Qed.
Lemma history_app_none l es es' : of_label l es' = [] -> history l (es ++ es') = history l es.
Proof. unfold history. rewrite of_label_app. intros ->. rewrite app_nil_r. reflexivity. Qed.

(** A known label consumes no random choice. *)
Lemma train1_known lhs lhs' env env' w x l : is_Some (w_discriminators w !! l) ->
  wisard_train1 lhs env w x l = wisard_train1 lhs' env' w x l.
Proof. intros (d & E). unfold wisard_train1. rewrite E. reflexivity. Qed.
Lemma train1_keeps lhs env w x l r w' : is_Some (w_discriminators w !! l) -> wisard_train1 lhs env w x l = (r, w') ->
  forall k, is_Some (w_discriminators w !! k) -> is_Some (w_discriminators w' !! k).
Proof.
  intros (d & E) E1 k Hk. unfold wisard_train1 in E1. rewrite E in E1. unfold at_label in E1. rewrite E in E1.
  destruct (disc_train d x) as [o d']. injection E1 as _ <-. cbn [w_discriminators with_discriminators].
  destruct (decide (l = k)) as [<-|]; [rewrite lookup_insert; eauto|rewrite lookup_insert_ne by assumption; exact Hk].
Qed.
Lemma train_loop_known lhs lhs' env env' : forall images labels w,
  Forall (fun l => is_Some (w_discriminators w !! l)) labels ->
  wisard_train_loop lhs env w images labels = wisard_train_loop lhs' env' w images labels.
Proof.
  induction images as [|x images IH]; intros [|l labels] w H; try reflexivity. apply Forall_cons in H as [Hl H].
  cbn [wisard_train_loop]. rewrite (train1_known lhs lhs' env env' w x l Hl).
  destruct (wisard_train1 lhs' env' w x l) as [r w'] eqn:E. destruct r; cbn [ebind]; try reflexivity. apply IH.
  eapply Forall_impl; [exact H|]. intros k Hk. eapply train1_keeps; eassumption.
Qed.
Lemma train_known lhs lhs' env env' images labels w :
  Forall (fun l => is_Some (w_discriminators w !! l)) labels ->
  wisard_train lhs env w images labels = wisard_train lhs' env' w images labels.
Proof.
  intros H. unfold wisard_train. destruct images; [reflexivity|]. rewrite (train_loop_known lhs lhs' env env' _ labels w H). reflexivity.
Qed.

(** ** Restoration *)
Lemma zip_elem (labels : list str) (images : list image) l : length images = length labels -> l ∈ labels ->
  exists x, (l, x) ∈ zip labels images.
Proof.
  revert images. induction labels as [|k labels IH]; intros [|x images] Hl Hin; try discriminate; [inversion Hin|].
  cbn [zip zip_with]. apply elem_of_cons in Hin as [-> |Hin]; [exists x; left|]. destruct (IH images) as (y & Hy); [cbn in Hl; lia|exact Hin|].
  exists y. right. exact Hy.
Qed.
Lemma zip_elem_r (labels : list str) (images : list image) x : length images = length labels -> x ∈ images ->
  exists l, (l, x) ∈ zip labels images.
Proof.
  revert images. induction labels as [|k labels IH]; intros [|y images] Hl Hin; try discriminate; [inversion Hin|].
  cbn [zip zip_with]. apply elem_of_cons in Hin as [-> |Hin]; [exists k; left|]. destruct (IH images) as (l & Hy); [cbn in Hl; lia|exact Hin|].
  exists l. right. exact Hy.
Qed.
Lemma zip_elem_2 (labels : list str) (f : image -> dop) (images : list image) l o : (l, o) ∈ zip labels (f <$> images) ->
  l ∈ labels /\ exists x, x ∈ images /\ o = f x.
Proof.
  revert images. induction labels as [|k labels IH]; intros [|x images]; try (intros H; inversion H; fail).
  rewrite fmap_cons. cbn [zip zip_with]. intros H. apply elem_of_cons in H as [[= -> ->]|H]; [split; [left|]; exists x; split; [left|reflexivity]|].
  destruct (IH images H) as (A & y & B & C). split; [right; exact A|]. exists y. split; [right; exact B|exact C].
Qed.

(** What a proper call trained is plain and learnable. *)
Lemma trained_proper w0 n cs l x : Forall (proper_call w0 n) cs -> (l, Train x) ∈ all_examples cs ->
  plain_image (w_base w0) n x /\ can_learn w0 n l.
Proof.
  unfold all_examples. induction 1 as [|c cs (Hi & Hc) _ IH]; [intros H; inversion H|]. rewrite fmap_cons. cbn [List.concat].
  intros H. apply elem_of_app in H as [H|H]; [|auto]. split.
  - rewrite Forall_forall in Hi. exact (Hi _ H).
  - destruct c as [env images labels|y k|images labels]; cbn [examples] in H.
    + destruct Hc as (_ & _ & Hc & _). rewrite Forall_forall in Hc. apply Hc. apply (zip_elem_2 _ _ _ _ _ H).
    + apply elem_of_list_singleton in H. discriminate.
    + destruct (zip_elem_2 _ _ _ _ _ H) as (_ & z & _ & E). discriminate.
Qed.

Section Restore.
  Context (lhs : bool) (w0 : wisard) (n : Z) (cs : list wcall) (w : wisard) (images : list image) (labels : list str).
  Hypothesis H0 : w_discriminators w0 = ∅.
  Hypothesis Hc : configured w0 n.
  Hypothesis Hp : Forall (proper_call w0 n) cs.
  Hypothesis Hw : wrun lhs w0 cs = (Ok tt, w).
  Hypothesis Hl : len images = len labels.
  Hypothesis Htr : forall l x, (l, x) ∈ zip labels images -> (l, Train x) ∈ all_examples cs.

  Lemma fold_plain : Forall (plain_image (w_base w0) n) images.
  Proof.
    apply Forall_forall. intros x Hx. apply len_length in Hl. destruct (zip_elem_r labels images x Hl Hx) as (l & H).
    apply Htr in H. eapply trained_proper; eassumption.
  Qed.
  Lemma fold_proper : proper_call w0 n (CLeaveMore images labels).
  Proof.
    split; [|exact Hl]. cbn [examples]. apply Forall_forall. intros [l o] H. destruct (zip_elem_2 _ _ _ _ _ H) as (_ & x & Hx & ->).
    pose proof fold_plain as F. rewrite Forall_forall in F. apply F, Hx.
  Qed.
  Lemma fold_zip_len (f : image -> dop) : len (zip labels (f <$> images)) = len images.
  Proof. unfold len in *. rewrite zip_with_length, fmap_length. lia. Qed.

  Lemma left_inv : len (all_examples cs) + len images <= INT_MAX ->
    exists w1 d0, leaveMoreOut w images labels = (Ok tt, w1) /\ winv w0 n d0 (all_examples cs) w /\
      winv w0 n d0 (all_examples cs ++ zip labels (Untrain <$> images)) w1.
  Proof.
    intros Hmax. pose proof (len_nonneg images).
    destruct (wrun_inv lhs w0 n cs H0 Hc Hp ltac:(lia)) as (w' & d0 & E & Hi).
    rewrite E in Hw. injection Hw as ->.
    apply len_length in Hl as Hl'.
    destruct (leave_loop_inv w0 n images labels d0 _ w Hc Hi Hl' fold_plain Hmax) as (w1 & E1 & Hi1).
    exists w1, d0. split; [|auto]. unfold leaveMoreOut, checkInputSizes. rewrite Hl, Z.eqb_refl. exact E1.
  Qed.

  Lemma restored (images' : list image) (labels' : list str) (lhs' : bool) (env : str -> draw) :
    len (all_examples cs) + len images + len images <= INT_MAX -> images <> [] ->
    len images' = len labels' -> zip labels' images' ≡ₚ zip labels images ->
    exists w1, leaveMoreOut w images labels = (Ok tt, w1) /\
      wisard_train lhs' env w1 images' labels' = (Ok tt, w).
  Proof.
    intros Hmax Hne Hl' Hperm. pose proof (len_nonneg images). destruct (left_inv ltac:(lia)) as (w1 & d0 & E1 & Hi & Hi1).
    exists w1. split; [exact E1|].
    assert (Htr' : forall l x, (l, x) ∈ zip labels' images' -> (l, Train x) ∈ all_examples cs).
    { intros l x Hin. apply Htr. rewrite <- Hperm. exact Hin. }
    apply len_length in Hl as Hlen. apply len_length in Hl' as Hlen'.
    assert (Hlab : forall l, l ∈ labels' -> trained l (all_examples cs)).
    { intros l Hin. destruct (zip_elem labels' images' l Hlen' Hin) as (x & Hx). exists x. auto. }
    assert (Hlz : length images' = length images).
    { apply Permutation_length in Hperm. rewrite !zip_with_length in Hperm. lia. }
    rewrite (train_known lhs' false env (fun _ => some_draw)).
    2:{ apply Forall_forall. intros l Hin. destruct Hi1 as (_ & Hi1). specialize (Hi1 l). unfold label_inv in Hi1.
        destruct (d0 !! l), (w_discriminators w1 !! l); try contradiction; [eauto|]. exfalso.
        apply Hlab in Hin. apply history_trained in Hin. rewrite history_app_known in Hi1 by exact Hin.
        apply app_eq_nil in Hi1 as [Hi1 _]. exact (Hin Hi1). }
    assert (Hpr : proper_call w0 n (CTrain (fun _ => some_draw) images' labels')).
    { split.
      - cbn [examples]. apply Forall_forall. intros [l o] Hin. destruct (zip_elem_2 _ _ _ _ _ Hin) as (_ & x & Hx & ->).
        destruct (zip_elem_r labels' images' x Hlen' Hx) as (k & Hk). eapply trained_proper; [exact Hp|apply Htr', Hk].
      - split; [intros ->; destruct images; [congruence|discriminate]|]. split; [exact Hl'|]. split; [|intros; apply some_draw_valid].
        apply Forall_forall. intros l Hin. destruct (zip_elem labels' images' l Hlen' Hin) as (x & Hx). eapply trained_proper; [exact Hp|apply Htr', Hx]. }
    destruct (call_inv false w0 n d0 _ w1 _ Hc Hi1 Hpr) as (w2 & d2 & E2 & Hi2 & Hsub).
    { cbn [examples]. rewrite len_app, fold_zip_len. unfold len in *. rewrite zip_with_length, fmap_length. lia. }
    cbn [wcall_run] in E2. rewrite E2. f_equal. cbn [examples] in Hi2. rewrite <- app_assoc in Hi2.
    destruct Hi as (Ew & Hi), Hi2 as (Ew2 & Hi2).
    assert (E : w_discriminators w2 = w_discriminators w); [|rewrite Ew2, Ew, E; reflexivity].
    apply map_eq. intros l. specialize (Hi l). specialize (Hi2 l). unfold label_inv in *.
    assert (Hol : of_label l (zip labels (Untrain <$> images) ++ zip labels' (Train <$> images')) =
      (Untrain <$> of_pairs l (zip labels images)) ++ (Train <$> of_pairs l (zip labels' images'))).
    { rewrite of_label_app, !of_label_zip. reflexivity. }
    assert (Hmem : Forall (fun y => Train y ∈ history l (all_examples cs)) (of_pairs l (zip labels images))).
    { apply Forall_forall. intros y Hy. apply of_pairs_elem in Hy. apply in_history, Htr, Hy. }
    destruct (d0 !! l) as [dd|] eqn:Ed.
    - assert (Ed2 : d2 !! l = Some dd) by (eapply lookup_weaken; eassumption). rewrite Ed2 in Hi2.
      destruct (w_discriminators w !! l) as [d|]; [|contradiction]. destruct (w_discriminators w2 !! l) as [d'|]; [|contradiction].
      destruct Hi as (Hn & _ & _ & Ha), Hi2 as (_ & _ & _ & Ha2). rewrite (history_app_known _ _ _ Hn), Hol in Ha2. f_equal.
      refine (after_det dd _ _ d' d _ _ Ha2 Ha).
      + intros addrs x. apply cell_restored; [exact Hmem|]. apply of_pairs_perm, Hperm.
      + apply signed_untrains. apply of_pairs_perm, Hperm.
    - destruct (w_discriminators w !! l); [contradiction|].
      assert (Hnil : of_pairs l (zip labels images) = []).
      { destruct (of_pairs l (zip labels images)) as [|y ys]; [reflexivity|]. apply Forall_cons in Hmem as [Hm _]. rewrite Hi in Hm. inversion Hm. }
      assert (Hnil' : of_pairs l (zip labels' images') = []).
      { pose proof (of_pairs_perm l _ _ Hperm) as P. rewrite Hnil in P. apply Permutation_nil_r in P. exact P. }
      rewrite Hnil, Hnil' in Hol. rewrite history_app_none in Hi2 by exact Hol. rewrite Hi in Hi2.
      destruct (d2 !! l), (w_discriminators w2 !! l); try contradiction; [destruct Hi2 as (A & _); congruence|reflexivity].
  Qed.

  Lemma left_classifies : len (all_examples cs) + len images <= INT_MAX - 2 ->
    exists w1, leaveMoreOut w images labels = (Ok tt, w1) /\
      forall xs, Forall (plain_image (w_base w0) n) xs -> exists ks, wisard_classify w1 xs = Ok ks /\ len ks = len xs.
  Proof.
    intros Hmax. destruct (left_inv ltac:(lia)) as (w1 & d0 & E1 & _ & Hi1). exists w1. split; [exact E1|]. intros xs Hxs.
    destruct (classify_owed w0 n d0 _ w1 xs (proj1 Hc) Hi1) as (ks & E & F).
    { rewrite len_app, fold_zip_len. lia. }
    { exact Hxs. }
    exists ks. split; [exact E|]. unfold len. f_equal. symmetry. eapply Forall2_length, F.
  Qed.
End Restore.

(** ** One discriminator *)
Lemma disc_restored d0 h d ys zs : constructed d0 -> Forall (fun o => valid_image d0 (op_image o)) h ->
  Forall (fun y => Train y ∈ h) ys -> zs ≡ₚ ys -> len h + 2 * len ys <= INT_MAX -> run d0 h = (Ok tt, d) ->
  exists d1, run d (Untrain <$> ys) = (Ok tt, d1) /\ run d1 (Train <$> zs) = (Ok tt, d).
Proof.
  intros Hc Hv Hy Hp Hl E. pose proof (len_nonneg ys). apply constructed_fresh in Hc as Hf.
  assert (Ha : after d0 h d).
  { destruct (run_after d0 h Hf Hv ltac:(lia)) as (d' & E' & Ha). congruence. }
  assert (Hvy : Forall (valid_image d0) ys).
  { eapply Forall_impl; [exact Hy|]. intros y Hin. rewrite Forall_forall in Hv. exact (Hv _ Hin). }
  assert (Hvz : Forall (valid_image d0) zs) by (rewrite Hp; exact Hvy).
  assert (Lz : length zs = length ys) by (apply Permutation_length, Hp).
  destruct (run_after_gen d0 h d (Untrain <$> ys) Hf Ha) as (d1 & E1 & Ha1).
  { apply Forall_fmap. exact Hvy. }
  { unfold len in *. rewrite fmap_length. lia. }
  destruct (run_after_gen d0 _ d1 (Train <$> zs) Hf Ha1) as (d2 & E2 & Ha2).
  { apply Forall_fmap. exact Hvz. }
  { rewrite len_app. unfold len in *. rewrite !fmap_length. lia. }
  exists d1. split; [exact E1|]. rewrite E2. f_equal. rewrite <- app_assoc in Ha2.
  refine (after_det d0 _ _ d2 d _ _ Ha2 Ha); [intros addrs x; apply cell_restored; assumption|apply signed_untrains; assumption].
Qed.

(** ** Leaving out against never training *)
Lemma due_left r xs ys zs z : xs ≡ₚ ys ++ zs ->
  vote_due r ((Train <$> xs) ++ (Untrain <$> ys)) z = vote_due r (Train <$> zs) z.
Proof.
  intros Hp. unfold vote_due. destruct (_ && _); [reflexivity|]. rewrite <- !cell_due, cell_untrains.
  change (Train <$> xs) with ([] ++ (Train <$> xs)). change (Train <$> zs) with ([] ++ (Train <$> zs)). rewrite !cell_trains.
  rewrite (agreeing_perm _ _ _ _ Hp), agreeing_app.
  pose proof (agreeing_nonneg (r_addresses r) z ys). pose proof (agreeing_nonneg (r_addresses r) z zs).
  assert (E : forall addrs, cell addrs [] z = None) by reflexivity. rewrite E. cbn [from_option id].
  destruct (Z.eqb_spec (agreeing (r_addresses r) z ys + agreeing (r_addresses r) z zs) 0) as [E0|E0];
    destruct (Z.eqb_spec (agreeing (r_addresses r) z zs) 0) as [E1|E1]; cbn; lia.
Qed.
Lemma disc_left d0 xs ys zs z : constructed d0 -> Forall (valid_image d0) xs -> xs ≡ₚ ys ++ zs -> valid_image d0 z ->
  2 * len xs <= INT_MAX ->
  exists d d', run d0 ((Train <$> xs) ++ (Untrain <$> ys)) = (Ok tt, d) /\ run d0 (Train <$> zs) = (Ok tt, d') /\
    disc_classify d z = disc_classify d' z /\ d_count d = d_count d'.
Proof.
  intros Hc Hv Hp Hz Hl. pose proof (len_nonneg xs). apply constructed_fresh in Hc as Hf.
  assert (Hv' : Forall (valid_image d0) (ys ++ zs)) by (rewrite <- Hp; exact Hv). apply Forall_app in Hv' as [Hvy Hvz].
  assert (L : len xs = len ys + len zs). { rewrite <- len_app. unfold len. rewrite (Permutation_length Hp). reflexivity. }
  pose proof (len_nonneg ys). pose proof (len_nonneg zs).
  destruct (run_after d0 ((Train <$> xs) ++ (Untrain <$> ys)) Hf) as (d & E & Ha).
  { apply Forall_app. split; apply Forall_fmap; assumption. }
  { rewrite len_app. unfold len in *. rewrite !fmap_length. lia. }
  destruct (run_after d0 (Train <$> zs) Hf) as (d' & E' & Ha').
  { apply Forall_fmap. assumption. }
  { unfold len in *. rewrite !fmap_length. lia. }
  exists d, d'. split; [exact E|]. split; [exact E'|]. split.
  - rewrite (classify_after d0 _ d z Hf Ha Hz), (classify_after d0 _ d' z Hf Ha' Hz). f_equal. apply list_fmap_ext. intros i r _. apply due_left, Hp.
  - rewrite (af_count _ _ _ Ha), (af_count _ _ _ Ha'). unfold signed_count. rewrite !count_if_app, !count_if_fmap.
    assert (A : forall (b : bool) (l : list image), count_if (fun _ : image => b) l = if b then len l else 0).
    { intros b l. induction l as [|y l IH]; [destruct b; reflexivity|]. rewrite count_if_cons, IH, len_cons. destruct b; lia. }
    rewrite !(A true), !(A false). lia.
Qed.

Definition trains_of (ps : list (str * image)) : list (str * dop) := (fun p => (p.1, Train p.2)) <$> ps.
Lemma of_label_trains_of l ps : of_label l (trains_of ps) = Train <$> of_pairs l ps.
Proof.
  unfold of_label, trains_of, of_pairs. induction ps as [|[k x] ps IH]; [reflexivity|]. rewrite fmap_cons, !filter_cons. cbn [fst snd].
  destruct (decide (k = l)); [|exact IH]. rewrite !fmap_cons, IH. reflexivity.
Qed.
Lemma since_trains xs : since_first_training (Train <$> xs) = Train <$> xs.
Proof. destruct xs; reflexivity. Qed.

Theorem left_as_never lhs lhs' w0 n cs cs' w w' images labels :
  w_discriminators w0 = ∅ -> configured w0 n -> Forall (proper_call w0 n) cs -> Forall (proper_call w0 n) cs' ->
  training_only cs -> training_only cs' -> (forall l, wiring_fixed w0 l) ->
  len images = len labels ->
  all_examples cs ≡ₚ trains_of (zip labels images) ++ all_examples cs' ->
  Forall (fun l => trained l (all_examples cs')) labels ->
  len (all_examples cs) + len images <= INT_MAX - 2 ->
  wrun lhs w0 cs = (Ok tt, w) -> wrun lhs' w0 cs' = (Ok tt, w') ->
  exists w1, leaveMoreOut w images labels = (Ok tt, w1) /\
    forall z, plain_image (w_base w0) n z ->
      all_votes (w_discriminators w1) z = all_votes (w_discriminators w') z /\
      wisard_candidates w1 z = wisard_candidates w' z /\ wisard_classify1 w1 z = wisard_classify1 w' z.
Proof.
  intros H0 Hc Hp Hp' Ht Ht' Hfix Hl Hperm Hlab Hmax E E'. pose proof (len_nonneg images).
  assert (Htr : forall l x, (l, x) ∈ zip labels images -> (l, Train x) ∈ all_examples cs).
  { intros l x H1. rewrite Hperm. apply elem_of_app. left. unfold trains_of. apply elem_of_list_fmap. exists (l, x). auto. }
  assert (Hlen' : len (all_examples cs') <= INT_MAX).
  { apply Permutation_length in Hperm. rewrite app_length in Hperm. unfold len in *. lia. }
  destruct (left_inv lhs w0 n cs w images labels H0 Hc Hp E Hl Htr ltac:(lia)) as (w1 & d0 & E1 & Hi & Hi1).
  destruct (wrun_inv lhs' w0 n cs' H0 Hc Hp' Hlen') as (w2 & d0' & E2 & Hi').
  rewrite E2 in E'. injection E' as ->. exists w1. split; [exact E1|]. intros z Hz.
  assert (Hv : all_votes (w_discriminators w1) z = all_votes (w_discriminators w') z).
  { rewrite (all_votes_inv w0 n d0 _ w1 z (proj1 Hc) Hi1 Hz), (all_votes_inv w0 n d0' _ w' z (proj1 Hc) Hi' Hz). f_equal.
    unfold votes_owed. apply map_eq. intros l. rewrite !map_lookup_imap.
    destruct Hi as (_ & Hi), Hi' as (_ & Hi'). specialize (Hi l). specialize (Hi' l). unfold label_inv in *.
    pose proof (of_label_perm l _ _ Hperm) as Pl. rewrite of_label_app, of_label_trains_of in Pl.
    destruct (of_label_trains l _ (training_examples cs Ht)) as (xs & Exs).
    destruct (of_label_trains l _ (training_examples cs' Ht')) as (zs & Ezs). rewrite Exs, Ezs, <- fmap_app in Pl. apply Train_perm in Pl.
    assert (Hh : history l (all_examples cs) = Train <$> xs) by (unfold history; rewrite Exs; apply since_trains).
    assert (Hh' : history l (all_examples cs') = Train <$> zs) by (unfold history; rewrite Ezs; apply since_trains).
    rewrite Hh in Hi. rewrite Hh' in Hi'.
    assert (Hys : zs = [] -> of_pairs l (zip labels images) = []).
    { intros ->. destruct (of_pairs l (zip labels images)) as [|y ys] eqn:Ey; [reflexivity|]. exfalso.
      assert (Hy : y ∈ of_pairs l (zip labels images)) by (rewrite Ey; left). apply of_pairs_elem in Hy.
      assert (Hll : l ∈ labels) by (apply elem_of_zip_l in Hy; exact Hy).
      rewrite Forall_forall in Hlab. apply Hlab, history_trained in Hll. rewrite Hh' in Hll. exact (Hll eq_refl). }
    destruct (d0 !! l) as [dd|] eqn:Ed, (w_discriminators w !! l) as [d|]; try contradiction;
      destruct (d0' !! l) as [dd'|] eqn:Ed', (w_discriminators w' !! l) as [d'|]; try contradiction; cbn [mbind option_bind].
    - destruct Hi as (Hne & Hb & _), Hi' as (_ & Hb' & _). rewrite (built_fixed w0 n l dd dd' (Hfix l) Hb Hb'). f_equal.
      rewrite history_app_known by (rewrite Hh; exact Hne). rewrite Hh, Hh', of_label_zip. apply list_fmap_ext. intros i r _. apply due_left, Pl.
    - exfalso. destruct Hi as (Hne & _). apply Hne. apply fmap_nil_inv in Hi'. rewrite Hi', (Hys Hi') in Pl.
      apply Permutation_nil_r in Pl. rewrite Pl. reflexivity.
    - exfalso. destruct Hi' as (Hne & _). apply Hne. apply fmap_nil_inv in Hi. rewrite Hi in Pl. symmetry in Pl. apply Permutation_nil_r in Pl.
      apply app_eq_nil in Pl as [_ ->]. reflexivity.
    - reflexivity. }
  split; [exact Hv|]. destruct Hi1 as (Ew1 & _), Hi' as (Ew' & _).
  assert (Hcand : wisard_candidates w1 z = wisard_candidates w' z).
  { unfold wisard_candidates. rewrite Hv. rewrite Ew1, Ew'. reflexivity. }
  split; [exact Hcand|]. unfold wisard_classify1. rewrite Hcand. reflexivity.
Qed.
