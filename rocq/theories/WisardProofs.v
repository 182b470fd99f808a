(** Histories of calls on a Wisard. *)
From Verif Require Import Prelude Bytes Utils BinInput Bleaching Ram Disc DataSet Wisard SpecDisc SpecBleach SpecWisard.
From Verif Require Import BytesProofs UtilsProofs TextProofs BleachProofs DiscCtorProofs CtorFacts RamProofs DiscProofs DiscFacts.

(** ** Construction *)
Lemma construct_disc_new dr w l n :
  (forall m, w_mapping w !! l = Some m -> m <> []) ->
  construct_discriminator dr w l n =
  disc_new dr (w_addressSize w) n (w_ignoreZero w) (w_completeAddressing w) (w_indexes w) (default [] (w_mapping w !! l)) (w_base w).
Proof.
  intros H. unfold construct_discriminator, disc_new. destruct (w_mapping w !! l) as [m|]; cbn [default].
  - specialize (H m eq_refl). destruct m; [congruence|]. reflexivity.
  - reflexivity.
Qed.

Definition shaped (base n : Z) (d : disc) : Prop :=
  fresh d /\ d_entrySize d = n /\ wired_inside d /\ Forall (fun r => r_base r = base) (d_rams d).

Lemma sub_indexes_elem idx a k p : p ∈ sub_indexes idx a k -> p ∈ idx.
Proof.
  unfold sub_indexes. intros H. apply elem_of_take in H as (i & H & _). rewrite lookup_drop in H.
  eapply elem_of_list_lookup_2, H.
Qed.

Lemma construct_ok dr w l n : valid_draw dr -> configured w n -> can_learn w n l ->
  exists d, construct_discriminator dr w l n = Ok d /\ shaped (w_base w) n d.
Proof.
  intros Hdr ((Hn0 & Hn) & Hb & Ha & _) Hl. unfold can_learn in Hl. unfold construct_discriminator.
  destruct (w_mapping w !! l) as [m|].
  - exists (Disc n 0 (rams_map m (w_ignoreZero w) (w_base w))). split.
    { apply setRAMByMapping_ok; auto; [eapply Forall_impl; [exact Hl|]; cbn; tauto|].
      eapply Forall_impl; [exact Hl|]. intros addrs (_ & H & _). apply fits_width, H. }
    unfold shaped, fresh, wired_inside, rams_map. cbn [d_count d_rams d_entrySize].
    split; [split; [reflexivity|]|split; [reflexivity|split]].
    + apply Forall_fmap. eapply Forall_impl; [exact Hl|]. intros addrs (_ & H & _). unfold compose, ram_shape. cbn.
      split; [split; [exact Hb|apply fits_width, H]|reflexivity].
    + apply Forall_fmap. eapply Forall_impl; [exact Hl|]. intros addrs (_ & _ & H). exact H.
    + apply Forall_fmap. apply Forall_true. intros addrs. reflexivity.
  - destruct Hl as (Han & Hsum & Hf & Hix). destruct (negb (Nat.eqb (length (w_indexes w)) 0)) eqn:E.
    + assert (Hne : w_indexes w <> []) by (destruct (w_indexes w); [discriminate|congruence]).
      destruct Hix as [Hix|Hix]; [congruence|].
      assert (Hlen : len (w_indexes w) = n).
      { unfold len. rewrite (Permutation_length Hix), fmap_length, seq_length. lia. }
      destruct (index_layout dr (w_addressSize w) n (w_ignoreZero w) true (w_indexes w) (w_base w) Hne ltac:(lia) Han Hb Hf Hix)
        as (d & Hd & He & Hc & Hk & Hr).
      unfold disc_new in Hd. cbn [length Nat.eqb] in Hd. rewrite E in Hd. cbn [negb] in Hd. exists d. split; [exact Hd|].
      assert (Hin : forall r, r ∈ d_rams d -> r_base r = w_base w /\ r_positions r = ∅ /\ len (r_addresses r) = w_addressSize w /\
                 Forall (fun p => 0 <= p < n) (r_addresses r)).
      { intros r Hir. apply elem_of_list_lookup in Hir as (k & Hir). destruct (Hr k r Hir) as (H1 & _ & H3 & H4 & H5).
        split; [exact H1|]. split; [exact H3|]. split; [exact H4|]. apply Forall_forall. intros p Hp.
        apply elem_of_list_lookup in Hp as (j & Hj). rewrite H5 in Hj.
        - apply elem_of_list_lookup_2 in Hj. rewrite Hix in Hj. apply elem_of_list_fmap in Hj as (z & -> & Hz).
          apply elem_of_seq in Hz. lia.
        - apply lookup_lt_Some in Hj. unfold len in H4. lia. }
      split; [split; [exact Hc|]|split; [exact He|split]].
      * apply Forall_forall. intros r Hir. destruct (Hin r Hir) as (H1 & H2 & H3 & _). split; [|exact H2].
        unfold ram_shape. rewrite H1, H3. split; [exact Hb|apply fits_width, Hf].
      * apply Forall_forall. intros r Hir. destruct (Hin r Hir) as (_ & _ & _ & H4). rewrite He. exact H4.
      * apply Forall_forall. intros r Hir. apply (Hin r Hir).
    + destruct (shuffle_layout dr (w_addressSize w) n (w_ignoreZero w) (w_completeAddressing w) (w_base w) Hdr Han Hb Hsum Hf)
        as (d & Hd & He & Hc & Hk & Hr & _).
      unfold disc_new in Hd. cbn [length Nat.eqb negb] in Hd. exists d. split; [exact Hd|].
      rewrite Forall_forall in Hr.
      split; [split; [exact Hc|]|split; [exact He|split]].
      * apply Forall_forall. intros r Hir. destruct (Hr r Hir) as (H1 & _ & H3 & _ & H5). split; [|exact H5].
        unfold ram_shape. rewrite H1, H3. split; [exact Hb|apply fits_width, Hf].
      * apply Forall_forall. intros r Hir. destruct (Hr r Hir) as (_ & H2 & _). rewrite He. exact H2.
      * apply Forall_forall. intros r Hir. apply (Hr r Hir).
Qed.

Lemma plain_valid base n x d : 0 <= n <= INT_MAX -> shaped base n d -> plain_image base n x -> valid_image d x.
Proof.
  intros Hn (_ & He & Hw & Hb) (Hs & Hv). split.
  - rewrite Hs, He, s32_id by (unfold INT_MIN, INT_MAX in *; lia). reflexivity.
  - unfold wired_inside in Hw. rewrite Forall_forall in Hw, Hb. apply Forall_forall. intros r Hr.
    specialize (Hw r Hr). specialize (Hb r Hr). rewrite He in Hw. rewrite Hb. eapply Forall_impl; [exact Hw|]. exact Hv.
Qed.

(** ** Histories *)
Lemma of_label_nil l : of_label l [] = []. Proof. reflexivity. Qed.
Lemma of_label_snoc l es k o : of_label l (es ++ [(k, o)]) = of_label l es ++ (if decide (k = l) then [o] else []).
Proof.
  unfold of_label. rewrite filter_app, fmap_app. f_equal. rewrite filter_cons. cbn [fst].
  destruct (decide (k = l)); reflexivity.
Qed.
Lemma since_app_ne h h' : since_first_training h <> [] -> since_first_training (h ++ h') = since_first_training h ++ h'.
Proof. induction h as [|[x|x] h IH]; cbn; [congruence|reflexivity|exact IH]. Qed.
Lemma since_app_nil h h' : since_first_training h = [] -> since_first_training (h ++ h') = since_first_training h'.
Proof. induction h as [|[x|x] h IH]; cbn; [reflexivity|congruence|exact IH]. Qed.
Lemma history_snoc_other l es k o : k <> l -> history l (es ++ [(k, o)]) = history l es.
Proof. intros H. unfold history. rewrite of_label_snoc, decide_False by exact H. rewrite app_nil_r. reflexivity. Qed.
Lemma history_snoc_known l es o : history l es <> [] -> history l (es ++ [(l, o)]) = history l es ++ [o].
Proof. intros H. unfold history in *. rewrite of_label_snoc, decide_True by reflexivity. apply since_app_ne, H. Qed.
Lemma history_snoc_train l es x : history l es = [] -> history l (es ++ [(l, Train x)]) = [Train x].
Proof. intros H. unfold history in *. rewrite of_label_snoc, decide_True by reflexivity. apply since_app_nil, H. Qed.
Lemma history_snoc_untrain l es x : history l es = [] -> history l (es ++ [(l, Untrain x)]) = [].
Proof. intros H. unfold history in *. rewrite of_label_snoc, decide_True by reflexivity. rewrite since_app_nil by exact H. reflexivity. Qed.
Lemma since_len h : len (since_first_training h) <= len h.
Proof. induction h as [|[x|x] h IH]; cbn; rewrite ?len_cons; lia. Qed.
Lemma history_len l es : len (history l es) <= len es.
Proof.
  etransitivity; [apply since_len|]. unfold of_label, len. rewrite fmap_length.
  pose proof (filter_length (fun e : str * dop => e.1 = l) es). lia.
Qed.
Lemma since_elem o h : o ∈ since_first_training h -> o ∈ h.
Proof. induction h as [|[x|x] h IH]; cbn; [auto|auto|]. intros H. right. auto. Qed.
Lemma history_elem l es o : o ∈ history l es -> (l, o) ∈ es.
Proof.
  intros H. apply since_elem in H. unfold of_label in H. apply elem_of_list_fmap in H as ([k o'] & -> & H).
  apply elem_of_list_filter in H as [E H]. cbn in *. subst. exact H.
Qed.
Lemma history_trained l es : history l es <> [] <-> trained l es.
Proof.
  unfold history, trained. split.
  - intros H. assert (exists x, Train x ∈ of_label l es) as (x & Hx).
    { revert H. induction (of_label l es) as [|[x|x] h IH]; cbn; [congruence|intros _; exists x; left|].
      intros H. destruct (IH H) as (y & Hy). exists y. right. exact Hy. }
    exists x. unfold of_label in Hx. apply elem_of_list_fmap in Hx as ([k o'] & E & H'). cbn in E. subst o'.
    apply elem_of_list_filter in H' as [E H']. cbn in E. subst. exact H'.
  - intros (x & Hx) H. assert (Train x ∈ of_label l es) as Hi.
    { unfold of_label. apply elem_of_list_fmap. exists (l, Train x). split; [reflexivity|]. apply elem_of_list_filter. auto. }
    revert H Hi. induction (of_label l es) as [|[y|y] h IH]; cbn; intros H Hi.
    + inversion Hi.
    + congruence.
    + apply elem_of_cons in Hi as [Hi|Hi]; [congruence|]. auto.
Qed.

(** ** The invariant *)
Definition label_inv (w0 : wisard) (n : Z) (es : list (str * dop)) (l : str) (o0 o : option disc) : Prop :=
  match o0, o with
  | None, None => history l es = []
  | Some d0, Some d => history l es <> [] /\ built w0 n l d0 /\ shaped (w_base w0) n d0 /\ after d0 (history l es) d
  | _, _ => False
  end.
Definition winv (w0 : wisard) (n : Z) (d0 : gmap str disc) (es : list (str * dop)) (w : wisard) : Prop :=
  w = with_discriminators w0 (w_discriminators w) /\
  forall l, label_inv w0 n es l (d0 !! l) (w_discriminators w !! l).

Lemma winv_init w0 n : w_discriminators w0 = ∅ -> winv w0 n ∅ [] w0.
Proof.
  intros H. split; [destruct w0; reflexivity|]. intros l. rewrite H, !lookup_empty. reflexivity.
Qed.

Lemma label_inv_other w0 n es l k o od od' : k <> l -> label_inv w0 n es l od od' -> label_inv w0 n (es ++ [(k, o)]) l od od'.
Proof. intros H. unfold label_inv. rewrite history_snoc_other by exact H. auto. Qed.

Definition one_step (lhs_first : bool) (env : str -> draw) (w : wisard) (l : str) (o : dop) : eff wisard unit :=
  match o with Train x => wisard_train1 lhs_first env w x l | Untrain x => leaveOneOut w x l end.

Lemma at_label_dstep w l o d : w_discriminators w !! l = Some d ->
  at_label (fun d => dstep d o) w l = (let '(r, d') := dstep d o in (r, with_discriminators w (<[l := d']> (w_discriminators w)))).
Proof. intros E. unfold at_label. rewrite E. reflexivity. Qed.

Lemma one_step_inv lhs env w0 n d0 es w l o :
  configured w0 n -> (forall l, valid_draw (env l)) -> winv w0 n d0 es w ->
  (match o with Train _ => can_learn w0 n l | Untrain _ => True end) ->
  plain_image (w_base w0) n (op_image o) -> len es < INT_MAX ->
  exists w' d0', one_step lhs env w l o = (Ok tt, w') /\ winv w0 n d0' (es ++ [(l, o)]) w' /\ d0 ⊆ d0'.
Proof.
  intros Hc Henv (Hw & Hinv) Hcan Hp Hlen. pose proof (Hinv l) as Hl. unfold label_inv in Hl.
  pose proof (history_len l es) as Hhl.
  destruct (d0 !! l) as [dd0|] eqn:E0; destruct (w_discriminators w !! l) as [d|] eqn:E; try contradiction.
  - destruct Hl as (Hne & Hb & Hsh & Ha). destruct Hc as (Hn & Hc).
    pose proof (plain_valid _ _ _ _ Hn Hsh Hp) as Hv.
    destruct (dstep_after dd0 (history l es) d o (proj1 Hsh) Ha Hv) as (d' & Ed & Ha'); [lia|].
    exists (with_discriminators w (<[l := d']> (w_discriminators w))), d0.
    split.
    { destruct o as [x|x]; cbn [one_step]; unfold wisard_train1, leaveOneOut; rewrite E.
      - change (fun d => disc_train d x) with (fun d => dstep d (Train x)). rewrite (at_label_dstep _ _ _ _ E), Ed. reflexivity.
      - change (fun d => disc_untrain d x) with (fun d => dstep d (Untrain x)). rewrite (at_label_dstep _ _ _ _ E), Ed. reflexivity. }
    split; [|reflexivity]. split; [rewrite Hw; reflexivity|]. intros k. cbn [w_discriminators with_discriminators].
    destruct (decide (l = k)) as [<-|Hnk].
    + rewrite lookup_insert, E0. cbn [label_inv]. rewrite history_snoc_known by exact Hne.
      split; [intros H; destruct (history l es); discriminate|]. auto.
    + rewrite lookup_insert_ne by exact Hnk. apply label_inv_other; [exact Hnk|]. apply Hinv.
  - destruct o as [x|x].
    + destruct (construct_ok (env l) w0 l n (Henv l) Hc Hcan) as (dd & Edd & Hsh). destruct Hc as (Hn & Hc).
      pose proof (plain_valid _ _ _ _ Hn Hsh Hp) as Hv. cbn [op_image] in Hv, Hp.
      destruct (dstep_after dd [] dd (Train x) (proj1 Hsh) (fresh_after dd (proj1 Hsh)) Hv) as (d' & Ed & Ha').
      { rewrite len_nil. unfold INT_MAX. lia. }
      exists (with_discriminators w (<[l := d']> (w_discriminators w))), (<[l := dd]> d0).
      split.
      { cbn [one_step]. unfold wisard_train1. rewrite E. unfold makeDiscriminator.
        assert (Econ : construct_discriminator (env l) w l (s32 (im_size x)) = Ok dd).
        { rewrite (proj1 Hp), s32_id by (unfold INT_MIN, INT_MAX in *; lia). rewrite Hw. exact Edd. }
        rewrite Econ. cbn [ebind]. change (fun d => disc_train d x) with (fun d => dstep d (Train x)).
        erewrite at_label_dstep by (cbn [w_discriminators with_discriminators]; apply lookup_insert).
        rewrite Ed. cbn [w_discriminators with_discriminators]. rewrite insert_insert. reflexivity. }
      split; [|apply insert_subseteq, E0].
      split; [rewrite Hw; reflexivity|]. intros k. cbn [w_discriminators with_discriminators].
      destruct (decide (l = k)) as [<-|Hnk].
      * rewrite !lookup_insert. cbn [label_inv]. rewrite history_snoc_train by exact Hl.
        split; [congruence|]. split; [exists (env l); auto|]. auto.
      * rewrite !lookup_insert_ne by exact Hnk. apply label_inv_other; [exact Hnk|]. apply Hinv.
    + exists w, d0. split; [cbn [one_step]; unfold leaveOneOut; rewrite E; reflexivity|]. split; [|reflexivity].
      split; [exact Hw|]. intros k. destruct (decide (l = k)) as [<-|Hnk].
      * rewrite E0, E. cbn [label_inv]. apply history_snoc_untrain, Hl.
      * apply label_inv_other; [exact Hnk|]. apply Hinv.
Qed.

Lemma train_loop_inv lhs env w0 n : forall images labels d0 es w,
  configured w0 n -> (forall l, valid_draw (env l)) -> winv w0 n d0 es w ->
  length images = length labels -> Forall (can_learn w0 n) labels -> Forall (plain_image (w_base w0) n) images ->
  len es + len images <= INT_MAX ->
  exists w' d0', wisard_train_loop lhs env w images labels = (Ok tt, w') /\
    winv w0 n d0' (es ++ zip labels (Train <$> images)) w' /\ d0 ⊆ d0'.
Proof.
  induction images as [|x images IH]; intros [|l labels] d0 es w Hc Henv Hinv Hlen Hcan Hp Hmax; try discriminate.
  - exists w, d0. cbn. rewrite app_nil_r. auto.
  - apply Forall_cons in Hcan as [Hcl Hcan]. apply Forall_cons in Hp as [Hpx Hp]. rewrite len_cons in Hmax. pose proof (len_nonneg images).
    destruct (one_step_inv lhs env w0 n d0 es w l (Train x) Hc Henv Hinv Hcl Hpx) as (w1 & d1 & E1 & Hi1 & Hs1); [lia|].
    destruct (IH labels d1 (es ++ [(l, Train x)]) w1 Hc Henv Hi1) as (w2 & d2 & E2 & Hi2 & Hs2); auto.
    { rewrite len_app, len_cons, len_nil. lia. }
    exists w2, d2. cbn [wisard_train_loop]. cbn [one_step] in E1. rewrite E1. cbn [ebind]. split; [exact E2|].
    rewrite fmap_cons. cbn [zip zip_with]. rewrite <- app_assoc in Hi2. split; [exact Hi2|]. etransitivity; eassumption.
Qed.

Lemma leave_loop_inv w0 n : forall images labels d0 es w,
  configured w0 n -> winv w0 n d0 es w -> length images = length labels ->
  Forall (plain_image (w_base w0) n) images -> len es + len images <= INT_MAX ->
  exists w', leaveMoreOut_loop w images labels = (Ok tt, w') /\
    winv w0 n d0 (es ++ zip labels (Untrain <$> images)) w'.
Proof.
  induction images as [|x images IH]; intros [|l labels] d0 es w Hc Hinv Hlen Hp Hmax; try discriminate.
  - exists w. cbn. rewrite app_nil_r. auto.
  - apply Forall_cons in Hp as [Hpx Hp]. rewrite len_cons in Hmax. pose proof (len_nonneg images).
    assert (exists w1, leaveOneOut w x l = (Ok tt, w1) /\ winv w0 n d0 (es ++ [(l, Untrain x)]) w1) as (w1 & E1 & Hi1).
    { destruct (one_step_inv false (fun _ => some_draw) w0 n d0 es w l (Untrain x) Hc) as (w1 & d1 & E1 & Hi1 & Hs1); auto; [intros; apply some_draw_valid|lia|].
      exists w1. split; [exact E1|]. assert (d1 = d0) as ->; [|exact Hi1].
      cbn [one_step] in E1. unfold leaveOneOut in E1. apply map_eq. intros k.
      destruct (d0 !! k) as [dk|] eqn:Ek; [eapply lookup_weaken; eassumption|].
      destruct Hi1 as [_ Hi1]. specialize (Hi1 k). destruct Hinv as [_ Hinv]. specialize (Hinv k). rewrite Ek in Hinv.
      destruct (w_discriminators w !! k) as [|] eqn:Ewk; [destruct Hinv|]. cbn in Hinv.
      destruct (d1 !! k) as [dk1|] eqn:Ek1; [|reflexivity]. exfalso.
      assert (Hk : history k (es ++ [(l, Untrain x)]) = []).
      { destruct (decide (l = k)) as [<-|Hnk]; [apply history_snoc_untrain, Hinv|rewrite history_snoc_other by exact Hnk; exact Hinv]. }
      unfold label_inv in Hi1. destruct (w_discriminators w1 !! k); [|contradiction]. apply (proj1 Hi1), Hk. }
    destruct (IH labels d0 (es ++ [(l, Untrain x)]) w1 Hc Hi1) as (w2 & E2 & Hi2); auto.
    { rewrite len_app, len_cons, len_nil. lia. }
    exists w2. cbn [leaveMoreOut_loop]. rewrite E1. cbn [ebind]. split; [exact E2|].
    rewrite fmap_cons. cbn [zip zip_with]. rewrite <- app_assoc in Hi2. exact Hi2.
Qed.

Lemma ram_count_ok n a c : 0 <= n -> 1 <= a -> calculateNumberOfRams n a c = Ok (ram_count n a c).
Proof.
  intros Hn Ha. unfold calculateNumberOfRams, ram_count. replace (a =? 0) with false by lia.
  rewrite Z.quot_div_nonneg, Z.rem_mod_nonneg by lia. pose proof (Z.mod_pos_bound n a ltac:(lia)).
  destruct c; cbn [andb]; [|f_equal; lia].
  destruct (Z.ltb_spec 0 (n mod a)), (Z.eqb_spec (n mod a) 0); cbn [negb]; try lia; f_equal; lia.
Qed.

Lemma examples_images c w n : proper_call w n c -> Forall (fun e => plain_image (w_base w) n (op_image e.2)) (examples c).
Proof. intros H. apply H. Qed.
Lemma zip_images (labels : list str) (f : image -> dop) images (P : image -> Prop) :
  (forall x, op_image (f x) = x) -> length images = length labels ->
  Forall (fun e => P (op_image e.2)) (zip labels (f <$> images)) -> Forall P images.
Proof.
  intros Hf. revert images. induction labels as [|l labels IH]; intros [|x images] Hl H; try discriminate; [constructor|].
  rewrite fmap_cons in H. cbn [zip zip_with] in H. apply Forall_cons in H as [H1 H]. cbn in H1. rewrite Hf in H1.
  constructor; [exact H1|]. apply IH; [cbn in Hl; lia|exact H].
Qed.
Lemma len_length {A B} (l : list A) (k : list B) : len l = len k <-> length l = length k.
Proof. unfold len. lia. Qed.

Lemma call_inv lhs w0 n d0 es w c : configured w0 n -> winv w0 n d0 es w -> proper_call w0 n c ->
  len es + len (examples c) <= INT_MAX ->
  exists w' d0', wcall_run lhs w c = (Ok tt, w') /\ winv w0 n d0' (es ++ examples c) w' /\ d0 ⊆ d0'.
Proof.
  intros Hc Hinv (Himg & Hcall) Hmax. destruct c as [env images labels|x l|images labels]; cbn [wcall_run examples] in *.
  - destruct Hcall as (Hne & Hlen & Hcan & Henv). apply len_length in Hlen.
    assert (Hp : Forall (plain_image (w_base w0) n) images) by (apply (zip_images labels Train); auto).
    assert (Hlz : len (zip labels (Train <$> images)) = len images).
    { unfold len. rewrite zip_with_length, fmap_length. lia. }
    assert (Hll : 0 <= len images <= INT_MAX) by (pose proof (len_nonneg images); pose proof (len_nonneg es); lia).
    destruct (train_loop_inv lhs env w0 n images labels d0 es w Hc Henv Hinv Hlen Hcan Hp) as (w' & d0' & E & Hi & Hs); [lia|].
    exists w', d0'. split; [|auto]. rewrite <- E. unfold wisard_train. destruct images as [|x0 images]; [congruence|].
    destruct Hinv as [Hw _]. destruct Hc as (Hn & Hb & Ha & Hconf). apply Forall_cons in Hp as [[Hx0 _] _].
    replace (w_addressSize w) with (w_addressSize w0) by (rewrite Hw; reflexivity).
    replace (w_completeAddressing w) with (w_completeAddressing w0) by (rewrite Hw; reflexivity).
    rewrite Hx0, s32_id by (unfold INT_MIN, INT_MAX in *; lia). rewrite ram_count_ok by lia. unfold checkConfidence.
    replace (w_confidence w) with (w_confidence w0) by (rewrite Hw; reflexivity).
    replace (ram_count n (w_addressSize w0) (w_completeAddressing w0) <? w_confidence w0) with false by lia.
    unfold checkInputSizes. apply (proj2 (len_length _ _)) in Hlen. rewrite Hlen, Z.eqb_refl. reflexivity.
  - apply Forall_cons in Himg as [Hp _]. cbn in Hp. rewrite len_cons, len_nil in Hmax.
    destruct (leave_loop_inv w0 n [x] [l] d0 es w Hc Hinv eq_refl) as (w' & E & Hi); [auto|rewrite len_cons, len_nil; lia|].
    exists w', d0. cbn [leaveMoreOut_loop] in E. destruct (leaveOneOut w x l) as [[[]| | |] w1]; cbn [ebind] in E; try discriminate.
    split; [exact E|]. split; [exact Hi|reflexivity].
  - apply len_length in Hcall as Hlen.
    assert (Hp : Forall (plain_image (w_base w0) n) images) by (apply (zip_images labels Untrain); auto).
    assert (Hlz : len (zip labels (Untrain <$> images)) = len images).
    { unfold len. rewrite zip_with_length, fmap_length. lia. }
    destruct (leave_loop_inv w0 n images labels d0 es w Hc Hinv Hlen Hp) as (w' & E & Hi); [lia|].
    exists w', d0. unfold leaveMoreOut, checkInputSizes. rewrite Hcall, Z.eqb_refl. split; [exact E|]. split; [exact Hi|reflexivity].
Qed.

Lemma wrun_inv_gen lhs w0 n : forall cs d0 es w, configured w0 n -> winv w0 n d0 es w -> Forall (proper_call w0 n) cs ->
  len es + len (all_examples cs) <= INT_MAX ->
  exists w' d0', wrun lhs w cs = (Ok tt, w') /\ winv w0 n d0' (es ++ all_examples cs) w' /\ d0 ⊆ d0'.
Proof.
  induction cs as [|c cs IH]; intros d0 es w Hc Hinv Hp Hmax.
  - exists w, d0. unfold all_examples. cbn. rewrite app_nil_r. auto.
  - apply Forall_cons in Hp as [Hpc Hp]. unfold all_examples in *. rewrite fmap_cons in Hmax. cbn [List.concat] in Hmax.
    rewrite len_app in Hmax. pose proof (len_nonneg (List.concat (examples <$> cs))).
    destruct (call_inv lhs w0 n d0 es w c Hc Hinv Hpc) as (w1 & d1 & E1 & Hi1 & Hs1); [lia|].
    destruct (IH d1 (es ++ examples c) w1 Hc Hi1 Hp) as (w2 & d2 & E2 & Hi2 & Hs2); [rewrite len_app; lia|].
    exists w2, d2. unfold wrun in *. cbn [efor]. rewrite E1. cbn [ebind]. split; [exact E2|].
    rewrite fmap_cons. cbn [List.concat]. rewrite app_assoc. split; [exact Hi2|]. etransitivity; eassumption.
Qed.
Theorem wrun_inv lhs w0 n cs : w_discriminators w0 = ∅ -> configured w0 n -> Forall (proper_call w0 n) cs ->
  len (all_examples cs) <= INT_MAX ->
  exists w d0, wrun lhs w0 cs = (Ok tt, w) /\ winv w0 n d0 (all_examples cs) w.
Proof.
  intros H0 Hc Hp Hmax. destruct (wrun_inv_gen lhs w0 n cs ∅ [] w0 Hc (winv_init w0 n H0) Hp) as (w & d0 & E & Hi & _); [rewrite len_nil; lia|].
  eauto.
Qed.

(** ** Classification *)
Lemma rmapM_ok {A B} (f : A -> res B) (g : A -> B) l : (forall x, x ∈ l -> f x = Ok (g x)) -> rmapM f l = Ok (g <$> l).
Proof.
  induction l as [|x l IH]; intros H; [reflexivity|]. cbn [rmapM]. rewrite H by left. cbn [rbind].
  rewrite IH by (intros y Hy; apply H; right; exact Hy). reflexivity.
Qed.
(** A per-label evaluation of a map. *)
Lemma keyed_ok {A B} (f : A -> res B) (m : gmap str A) (out : gmap str B) :
  (forall k, match m !! k with Some a => exists b, f a = Ok b /\ out !! k = Some b | None => out !! k = None end) ->
  (let* vs := rmapM (fun kd => let* v := f kd.2 in Ok (kd.1, v)) (sorted_items m) in Ok (list_to_map vs)) = Ok out.
Proof.
  intros H.
  assert (Hg : forall l : list (str * A), (forall kd, kd ∈ l -> m !! kd.1 = Some kd.2) ->
     exists vs, rmapM (fun kd => let* v := f kd.2 in Ok (kd.1, v)) l = Ok vs /\ vs.*1 = l.*1 /\
       Forall (fun kv => out !! kv.1 = Some kv.2) vs).
  { induction l as [|[k a] l IH]; intros Hl; [exists []; auto|].
    assert (Hk : m !! k = Some a) by (apply (Hl (k, a)); left). specialize (H k) as Hfk. rewrite Hk in Hfk.
    destruct Hfk as (b & Eb & Ho). destruct IH as (vs & E & E1 & E2); [intros kd Hkd; apply Hl; right; exact Hkd|].
    exists ((k, b) :: vs). cbn [rmapM snd fst]. rewrite Eb. cbn [rbind]. rewrite E. cbn [rbind]. split; [reflexivity|].
    split; [rewrite !fmap_cons; f_equal; exact E1|]. constructor; [exact Ho|exact E2]. }
  destruct (Hg (sorted_items m)) as (vs & -> & E1 & E2); [intros [k a] Hk; apply sorted_items_elem, Hk|].
  cbn [rbind]. f_equal. apply map_eq. intros k. rewrite Forall_forall in E2.
  assert (Hnd : NoDup (vs.*1)) by (rewrite E1; apply sorted_items_nodup).
  destruct (m !! k) as [a|] eqn:Ek.
  - specialize (H k) as Hfk. rewrite Ek in Hfk. destruct Hfk as (b & _ & Ho).
    assert (Hin : k ∈ vs.*1). { rewrite E1. apply elem_of_list_fmap. exists (k, a). split; [reflexivity|]. apply sorted_items_elem, Ek. }
    apply elem_of_list_fmap in Hin as ([k' b'] & -> & Hin). rewrite (elem_of_list_to_map_1 _ _ _ Hnd Hin).
    specialize (E2 _ Hin). symmetry. exact E2.
  - specialize (H k) as Hfk. rewrite Ek in Hfk. rewrite Hfk. apply not_elem_of_list_to_map_1. rewrite E1. intros Hin.
    apply elem_of_list_fmap in Hin as ([k' a'] & -> & Hin). apply sorted_items_elem in Hin. cbn in Ek. congruence.
Qed.

Lemma all_votes_inv w0 n d0 es w x : 0 <= n <= INT_MAX -> winv w0 n d0 es w -> plain_image (w_base w0) n x ->
  all_votes (w_discriminators w) x = Ok (votes_owed d0 es x).
Proof.
  intros Hn (_ & Hinv) Hp. unfold all_votes. apply (keyed_ok (fun d => disc_classify d x)). intros l. specialize (Hinv l).
  unfold votes_owed. rewrite map_lookup_imap. unfold label_inv in Hinv.
  destruct (d0 !! l) as [dd|], (w_discriminators w !! l) as [d|]; try contradiction; cbn [mbind option_bind]; [|reflexivity].
  destruct Hinv as (_ & _ & Hsh & Ha). exists ((fun r => vote_due r (history l es) x) <$> d_rams dd).
  split; [|reflexivity]. apply classify_after; [apply Hsh|exact Ha|]. eapply plain_valid; eassumption.
Qed.

Lemma votes_owed_below d0 es x N : len es < N -> votes_below N (votes_owed d0 es x).
Proof.
  intros HN l vs. unfold votes_owed. rewrite map_lookup_imap. destruct (d0 !! l) as [dd|]; cbn [mbind option_bind]; [|congruence].
  intros [= <-]. apply Forall_fmap, Forall_true. intros r. unfold compose, vote_due. pose proof (history_len l es). pose proof (len_nonneg es).
  destruct (_ && _); [lia|]. pose proof (due_range (r_addresses r) x (history l es)). lia.
Qed.

Lemma candidates_owed w votes : (w_bleachingActivated w = true -> votes_below (INT_MAX - 1) votes) ->
  exists cand, bleaching_make votes (w_bleachingActivated w) (w_searchBestConfidence w) (w_confidence w) = Ok cand /\
    degrees_owed w votes cand.
Proof.
  intros H. unfold degrees_owed. destruct (w_bleachingActivated w).
  - apply bleach_terminates. auto.
  - eexists. split; [apply bleach_off|reflexivity].
Qed.
Lemma degrees_nonneg w votes cand k v : degrees_owed w votes cand -> cand !! k = Some v -> 0 <= v.
Proof.
  unfold degrees_owed. destruct (w_bleachingActivated w).
  - intros (b & _ & -> & _). apply tallies_nonneg.
  - intros ->. apply tallies_nonneg.
Qed.
Lemma degrees_keys w votes cand : degrees_owed w votes cand -> exists b, cand = tallies b votes.
Proof.
  unfold degrees_owed. destruct (w_bleachingActivated w); [intros (b & _ & -> & _); eauto|intros ->; eauto].
Qed.
Lemma class_of_degrees w votes cand : degrees_owed w votes cand -> class_owed w votes (getBiggestCandidate cand).
Proof.
  intros H. exists cand. split; [exact H|]. destruct (degrees_keys _ _ _ H) as (b & Hb).
  destruct (decide (votes = ∅)) as [->|Hne].
  - left. split; [reflexivity|]. rewrite Hb. unfold tallies. rewrite fmap_empty. reflexivity.
  - right. apply biggest_winner; [intros k v; eapply degrees_nonneg, H|]. rewrite Hb. unfold tallies. intros E.
    apply fmap_empty_inv in E. contradiction.
Qed.

Theorem classify_owed w0 n d0 es w xs : 0 <= n <= INT_MAX -> winv w0 n d0 es w -> len es <= INT_MAX - 2 ->
  Forall (plain_image (w_base w0) n) xs ->
  exists ks, wisard_classify w xs = Ok ks /\ Forall2 (fun x k => class_owed w0 (votes_owed d0 es x) k) xs ks.
Proof.
  intros Hn Hinv Hl. unfold wisard_classify. induction 1 as [|x xs Hx _ (ks & E & IH)]; [exists []; auto|].
  assert (exists k, wisard_classify1 w x = Ok k /\ class_owed w0 (votes_owed d0 es x) k) as (k & Ek & Hk).
  { unfold wisard_classify1, wisard_candidates. rewrite (all_votes_inv w0 n d0 es w x Hn Hinv Hx). cbn [rbind].
    destruct (candidates_owed w (votes_owed d0 es x)) as (cand & -> & Hd); [intros _; apply votes_owed_below; lia|].
    cbn [rbind]. eexists. split; [reflexivity|].
    assert (degrees_owed w0 (votes_owed d0 es x) cand) as Hd0 by (destruct Hinv as [Hw _]; rewrite Hw in Hd; exact Hd).
    apply class_of_degrees, Hd0. }
  exists (k :: ks). cbn [rmapM]. rewrite Ek. cbn [rbind]. rewrite E. cbn [rbind]. auto.
Qed.

Theorem wisard_law lhs w0 n cs : w_discriminators w0 = ∅ -> configured w0 n -> Forall (proper_call w0 n) cs ->
  len (all_examples cs) <= INT_MAX - 2 ->
  exists w d0, wrun lhs w0 cs = (Ok tt, w) /\
    (forall l, is_Some (d0 !! l) <-> trained l (all_examples cs)) /\
    (forall l d, d0 !! l = Some d -> built w0 n l d) /\
    forall xs, Forall (plain_image (w_base w0) n) xs ->
      exists ks, wisard_classify w xs = Ok ks /\ Forall2 (fun x k => class_owed w0 (votes_owed d0 (all_examples cs) x) k) xs ks.
Proof.
  intros H0 Hc Hp Hl. destruct (wrun_inv lhs w0 n cs H0 Hc Hp ltac:(lia)) as (w & d0 & E & Hi).
  exists w, d0. split; [exact E|]. destruct Hc as (Hn & _). split; [|split].
  - intros l. rewrite <- history_trained. destruct Hi as [_ Hi]. specialize (Hi l). unfold label_inv in Hi.
    destruct (d0 !! l), (w_discriminators w !! l); try contradiction.
    + split; [intros _; apply Hi|intros _; eauto].
    + split; [intros [? ?]; discriminate|congruence].
  - intros l d Ed. destruct Hi as [_ Hi]. specialize (Hi l). rewrite Ed in Hi. destruct (w_discriminators w !! l); [|destruct Hi]. apply Hi.
  - intros xs Hxs. eapply classify_owed; eassumption.
Qed.
