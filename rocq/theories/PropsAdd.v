(** Property theorems C166: learning is additive. *)
From Verif Require Import Prelude Bytes Utils BinInput Bleaching Ram Disc DataSet Wisard SpecDisc SpecBleach SpecWisard.
From Verif Require Import UtilsProofs TextProofs BinProofs DiscProofs DiscCtorProofs DiscFacts MentalHistory CtorFacts WisardProofs WisardFacts WisardMore Recall PropsDisc PropsWisard PropsRecall PropsPipeline.

Lemma active_app p xs ys : active p (xs ++ ys) = active p xs + active p ys.
Proof. unfold active. apply count_if_app. Qed.

(** C166 for a discriminator: train one copy of it with xs, another with ys and a third with both:
    the votes of every image, RAM by RAM, and the number of trainings of the third are the sums of
    those of the first two. *)
Theorem C166_votes_add : forall d0 xs ys,
  constructed d0 -> Forall (valid_image d0) xs -> Forall (valid_image d0) ys -> len xs + len ys <= INT_MAX ->
  exists da db d, disc_train_all d0 xs = (Ok tt, da) /\ disc_train_all d0 ys = (Ok tt, db) /\ disc_train_all d0 (xs ++ ys) = (Ok tt, d) /\
    getNumberOfTrainings d = getNumberOfTrainings da + getNumberOfTrainings db /\
    forall x, valid_image d0 x -> exists va vb, disc_classify da x = Ok va /\ disc_classify db x = Ok vb /\ length va = length vb /\
      disc_classify d x = Ok (zip_with Z.add va vb).
Proof.
  intros d0 xs ys Hc Hx Hy Hl. pose proof (len_nonneg xs). pose proof (len_nonneg ys).
  assert (Hxy : Forall (valid_image d0) (xs ++ ys)) by (apply Forall_app; auto).
  assert (G : forall zs, Forall (valid_image d0) zs -> len zs <= INT_MAX -> exists d, disc_train_all d0 zs = (Ok tt, d) /\ getNumberOfTrainings d = len zs /\
    forall x, valid_image d0 x -> disc_classify d x = Ok ((fun r =>
      if r_ignoreZero r && bool_decide (all_zero (r_addresses r) x) then 0
      else count_if (fun y => bool_decide (agree (r_addresses r) x y)) zs) <$> d_rams d0)).
  { intros zs Hz Hlz. destruct (run_after d0 (Train <$> zs)) as (d & E & Ha).
    - apply constructed_fresh, Hc.
    - apply valid_train, Hz.
    - unfold len in *. rewrite fmap_length. exact Hlz.
    - exists d. rewrite train_all_run. split; [exact E|]. split.
      + rewrite (C35_training_counter d0 (Train <$> zs) d Hc) by (try exact E; try (apply valid_train, Hz); unfold len in *; rewrite fmap_length; exact Hlz).
        clear. unfold len. induction zs as [|z zs IH]; [reflexivity|]. rewrite fmap_cons, !count_if_cons. cbn [length]. lia.
      + intros x Hxv. destruct (C26_votes_count_matching d0 zs x Hc Hz Hxv Hlz) as (d' & E' & Ec). rewrite train_all_run, E in E'. injection E' as <-. exact Ec. }
  destruct (G xs Hx ltac:(lia)) as (da & Ea & Na & Ca). destruct (G ys Hy ltac:(lia)) as (db & Eb & Nb & Cb).
  destruct (G (xs ++ ys) Hxy ltac:(rewrite len_app; lia)) as (d & E & N & C).
  exists da, db, d. repeat split; try assumption; [rewrite N, Na, Nb; apply len_app|].
  intros x Hv. eexists _, _. split; [apply Ca, Hv|]. split; [apply Cb, Hv|]. split; [rewrite !fmap_length; reflexivity|]. rewrite (C x Hv). f_equal.
  clear. induction (d_rams d0) as [|r rs IH]; [reflexivity|]. rewrite !fmap_cons. cbn [zip_with]. f_equal; [|exact IH].
  destruct (r_ignoreZero r && bool_decide (all_zero (r_addresses r) x)); [reflexivity|]. apply count_if_app.
Qed.
Print Assumptions C166_votes_add.

(** The mental image likewise, pixel by pixel. *)
Theorem C166_mental_add : forall iter d0 xs ys,
  good_iter iter -> constructed d0 -> 0 <= d_entrySize d0 -> wired_inside d0 -> Forall small (d_rams d0) ->
  Forall (valid_image d0) xs -> Forall (valid_image d0) ys -> len xs + len ys <= INT_MAX -> (len xs + len ys) * total_inputs d0 <= INT_MAX ->
  exists da db d ma mb, disc_train_all d0 xs = (Ok tt, da) /\ disc_train_all d0 ys = (Ok tt, db) /\ disc_train_all d0 (xs ++ ys) = (Ok tt, d) /\
    disc_mental iter da = Ok ma /\ disc_mental iter db = Ok mb /\ length ma = length mb /\ disc_mental iter d = Ok (zip_with Z.add ma mb).
Proof.
  intros iter d0 xs ys Hit Hc He Hw Hs Hx Hy Hl Hb. pose proof (len_nonneg xs). pose proof (len_nonneg ys).
  assert (0 <= total_inputs d0) by apply len_nonneg.
  destruct (C36_mental_image iter d0 xs) as (da & ma & Ea & Ma & La & Ga); try assumption; [lia|nia|].
  destruct (C36_mental_image iter d0 ys) as (db & mb & Eb & Mb & Lb & Gb); try assumption; [lia|nia|].
  destruct (C36_mental_image iter d0 (xs ++ ys)) as (d & m & E & M & L & G); try assumption; [apply Forall_app; auto|rewrite len_app; lia|rewrite len_app; lia|].
  exists da, db, d, ma, mb. repeat split; try assumption; [unfold len in *; lia|]. rewrite M. f_equal. apply list_eq. intros i.
  destruct (decide (Z.of_nat i < d_entrySize d0)) as [Hi|Hi].
  - specialize (Ga (Z.of_nat i) ltac:(lia)). specialize (Gb (Z.of_nat i) ltac:(lia)). specialize (G (Z.of_nat i) ltac:(lia)). rewrite Nat2Z.id in *.
    rewrite lookup_zip_with, Ga, Gb. cbn. rewrite G, active_app. f_equal. lia.
  - unfold len in *. rewrite !lookup_ge_None_2; [reflexivity| |lia]. rewrite zip_with_length. lia.
Qed.
Print Assumptions C166_mental_add.
Example C166_disc_witness : constructed demo /\ Forall (valid_image demo) [img1; img2] /\ Forall (valid_image demo) [img1; img0] /\
  disc_classify (snd (disc_train_all demo [img1; img2])) img1 = Ok [2; 1] /\
  disc_classify (snd (disc_train_all demo [img1; img0])) img1 = Ok [1; 1] /\
  disc_classify (snd (disc_train_all demo [img1; img2; img1; img0])) img1 = Ok [3; 2] /\
  disc_mental (fun m => map_to_list m) (snd (disc_train_all demo [img1; img2])) = Ok [2; 1; 2; 1; 0] /\
  disc_mental (fun m => map_to_list m) (snd (disc_train_all demo [img1])) = Ok [1; 0; 1; 1; 0].
Proof.
  destruct demo_valid as (H1 & H2 & H3). split; [exact demo_constructed|]. do 2 (split; [apply Forall_cons; split; [assumption|]; apply Forall_cons; split; [assumption|]; apply Forall_nil; exact I|]).
  vm_compute. auto 10.
Qed.

(** ** Wisard *)
(** Pixel p of the mental image of label l; 0 when the label has none. *)
Definition pixel (m : gmap str (list Z)) (l : str) (p : Z) : Z := match m !! l with Some img => default 0 (img !! Z.to_nat p) | None => 0 end.

Lemma images_app l es es' : images_of l (es ++ es') = images_of l es ++ images_of l es'.
Proof.
  unfold images_of. induction es as [|e es IH]; [reflexivity|]. cbn [app omap list_omap]. destruct (if decide (e.1 = l) then _ else _); [|exact IH]. cbn [app]. f_equal. exact IH.
Qed.
Lemma calls_app cs cs' : all_examples (cs ++ cs') = all_examples cs ++ all_examples cs'.
Proof. unfold all_examples. rewrite fmap_app. apply List.concat_app. Qed.

(** Mental images of a Wisard whose wiring is configured, after training. *)
Lemma shown lhs w0 n cs iter : w_discriminators w0 = ∅ -> configured w0 n -> (forall l, wiring_fixed w0 l) -> Forall (proper_call w0 n) cs -> training_only cs ->
  len (all_examples cs) <= INT_MAX -> good_iter iter -> mental_budget w0 n (all_examples cs) ->
  exists w m, wrun lhs w0 cs = (Ok tt, w) /\ wisard_mental iter w = Ok m /\
    (forall l, is_Some (m !! l) <-> SpecWisard.trained l (all_examples cs)) /\
    (forall l img, m !! l = Some img -> len img = n) /\
    forall l d p, built w0 n l d -> 0 <= p < n -> pixel m l p = wires d p * active p (images_of l (all_examples cs)).
Proof.
  intros H0 Hc Hf Hp Ht Hl Hit Hbud. destruct (mental_images lhs w0 n cs H0 Hc Hp Hl) as (w & d0 & E & Hd & Hb & Hm). destruct (Hm iter Hit) as (m & Em & Hml).
  { intros k d Hld. apply (Hbud k); [apply Hd; eauto|apply Hb, Hld]. }
  pose proof (training_examples cs Ht) as Hes. exists w, m. split; [exact E|]. split; [exact Em|]. split; [|split].
  - intros l. rewrite <- Hd. specialize (Hml l). destruct (d0 !! l) as [d|]; [destruct Hml as (img & -> & _)|rewrite Hml]; split; intros []; eauto; discriminate.
  - intros l img Hi. specialize (Hml l). destruct (d0 !! l) as [d|]; [destruct Hml as (img' & E' & Hlen & _); congruence|congruence].
  - intros l d p Hd' Hpn. unfold pixel. specialize (Hml l). destruct (d0 !! l) as [d'|] eqn:Ed.
    + destruct Hml as (img & -> & Hlen & Hlaw). rewrite (Hlaw p Hpn). cbn [default]. rewrite history_trains, images_of_trains, mental_law_train by exact Hes.
      rewrite (built_fixed w0 n l d d' (Hf l) Hd' (Hb _ _ Ed)). reflexivity.
    + rewrite Hml. assert (Hnil : images_of l (all_examples cs) = []).
      { destruct (images_of l (all_examples cs)) as [|x xs] eqn:Ei; [reflexivity|]. exfalso. assert (Hin : x ∈ images_of l (all_examples cs)) by (rewrite Ei; left).
        apply elem_images_of in Hin. destruct (proj2 (Hd l)) as (? & ?); [exists x; exact Hin|congruence]. }
      rewrite Hnil. change (active p []) with 0. lia.
Qed.

(** C166 for Wisard: three Wisards of one configuration whose wiring is configured; one makes the
    training calls cs, one cs', one both: its mental images are the pixelwise sums of theirs. *)
Theorem C166_wisard_mental_add : forall lhs_a lhs_b lhs w0 n cs cs' iter,
  w_discriminators w0 = ∅ -> configured w0 n -> (forall l, wiring_fixed w0 l) ->
  Forall (proper_call w0 n) cs -> Forall (proper_call w0 n) cs' -> training_only cs -> training_only cs' ->
  len (all_examples (cs ++ cs')) <= INT_MAX -> good_iter iter -> mental_budget w0 n (all_examples (cs ++ cs')) ->
  exists wa wb w ma mb m, wrun lhs_a w0 cs = (Ok tt, wa) /\ wrun lhs_b w0 cs' = (Ok tt, wb) /\ wrun lhs w0 (cs ++ cs') = (Ok tt, w) /\
    wisard_mental iter wa = Ok ma /\ wisard_mental iter wb = Ok mb /\ wisard_mental iter w = Ok m /\
    dom m = dom ma ∪ dom mb /\ (forall l img, m !! l = Some img -> len img = n) /\
    forall l p, 0 <= p < n -> pixel m l p = pixel ma l p + pixel mb l p.
Proof.
  intros la lb lhs w0 n cs cs' iter H0 Hc Hf Hp Hp' Ht Ht' Hl Hit Hbud. rewrite calls_app, len_app in Hl. pose proof (len_nonneg (all_examples cs)). pose proof (len_nonneg (all_examples cs')).
  assert (B : forall es, es ⊆ all_examples (cs ++ cs') -> len es <= len (all_examples (cs ++ cs')) -> mental_budget w0 n es).
  { intros es Hsub Hle l d (x & Hx) Hd. destruct (Hbud l d) as (Hs & Hi); [exists x; apply Hsub, Hx|exact Hd|]. split; [exact Hs|].
    assert (0 <= total_inputs d) by apply len_nonneg. pose proof (len_nonneg es). nia. }
  destruct (shown la w0 n cs iter) as (wa & ma & Ea & Ma & Da & _ & Pa); try assumption; [lia|apply B; rewrite calls_app; [intros e; rewrite elem_of_app; auto|rewrite len_app; lia]|].
  destruct (shown lb w0 n cs' iter) as (wb & mb & Eb & Mb & Db & _ & Pb); try assumption; [lia|apply B; rewrite calls_app; [intros e; rewrite elem_of_app; auto|rewrite len_app; lia]|].
  destruct (shown lhs w0 n (cs ++ cs') iter) as (w & m & E & M & D & L & P); try assumption; [apply Forall_app; auto|apply Forall_app; auto|rewrite calls_app, len_app; lia|].
  exists wa, wb, w, ma, mb, m. repeat (split; [assumption|]). split; [|split; [exact L|]].
  - apply set_eq. intros l. rewrite elem_of_union, !elem_of_dom, D, Da, Db, calls_app. unfold SpecWisard.trained. setoid_rewrite elem_of_app. clear. firstorder.
  - intros l p Hpn. destruct (m !! l) as [img|] eqn:El.
    + assert (Hb : exists d, built w0 n l d).
      { destruct (mental_images lhs w0 n (cs ++ cs') H0 Hc) as (w' & d0 & _ & Hd & Hb & _); [apply Forall_app; auto|rewrite calls_app, len_app; lia|].
        destruct (proj2 (Hd l)) as (d & Ed); [apply D; eauto|]. exists d. apply Hb, Ed. }
      destruct Hb as (d & Hb). rewrite (P l d p Hb Hpn), (Pa l d p Hb Hpn), (Pb l d p Hb Hpn), calls_app, images_app, active_app. lia.
    + assert (Hno : ~ SpecWisard.trained l (all_examples (cs ++ cs'))) by (rewrite <- D, El; intros []; discriminate).
      assert (Na : ma !! l = None). { destruct (ma !! l) eqn:Em; [|reflexivity]. exfalso. apply Hno. destruct (proj1 (Da l)) as (x & Hx); [rewrite Em; eauto|]. exists x. rewrite calls_app, elem_of_app. auto. }
      assert (Nb : mb !! l = None). { destruct (mb !! l) eqn:Em; [|reflexivity]. exfalso. apply Hno. destruct (proj1 (Db l)) as (x & Hx); [rewrite Em; eauto|]. exists x. rewrite calls_app, elem_of_app. auto. }
      unfold pixel. rewrite El, Na, Nb. reflexivity.
Qed.
Print Assumptions C166_wisard_mental_add.
Definition first_day : list wcall := [CTrain env0 [w1; w2] [hot; cold]].
Definition second_day : list wcall := [CTrain env0 [w3] [hot]; CTrain env0 [w1] [lit "mild"]].
Ltac proper_days := destruct w_plain as (H1 & H2 & H3); split; [cbn; repeat (apply Forall_cons; split; [cbn; assumption|]); apply Forall_nil; exact I|];
  split; [discriminate|]; split; [reflexivity|]; split; [repeat (apply Forall_cons; split; [apply cfg_learns|]); apply Forall_nil; exact I|intros l; apply some_draw_valid].
Example C166_wisard_witness : configured cfg 4 /\ (forall l, wiring_fixed cfg l) /\ Forall (proper_call cfg 4) first_day /\ Forall (proper_call cfg 4) second_day /\
  training_only first_day /\ training_only second_day /\ mental_budget cfg 4 (all_examples (first_day ++ second_day)) /\
  let shown cs := rmap sorted_items (wisard_mental (fun m => map_to_list m) (snd (wrun true cfg cs))) in
  shown first_day = Ok [(cold, [0; 0; 1; 1]); (hot, [1; 1; 0; 0])] /\ shown second_day = Ok [(hot, [1; 1; 0; 1]); (lit "mild", [1; 1; 0; 0])] /\
  shown (first_day ++ second_day) = Ok [(cold, [0; 0; 1; 1]); (hot, [2; 2; 0; 1]); (lit "mild", [1; 1; 0; 0])].
Proof.
  split; [apply cfg_configured|]. split; [intros l; right; discriminate|].
  split; [repeat (apply Forall_cons; split; [proper_days|]); apply Forall_nil; exact I|]. split; [repeat (apply Forall_cons; split; [proper_days|]); apply Forall_nil; exact I|].
  split; [repeat constructor|]. split; [repeat constructor|]. split; [apply cfg_budget; vm_compute; congruence|]. vm_compute. auto.
Qed.
