(** Property theorems C149, C150: synthetic images made from the mental images of a Wisard. *)
From Verif Require Import Prelude Bytes Utils BinInput Bleaching Ram Disc DataSet Wisard Synth SpecDisc SpecBleach SpecWisard.
From Verif Require Import UtilsProofs TextProofs BinProofs DiscProofs MentalHistory BleachProofs CtorFacts WisardProofs WisardFacts WisardMore Recall PropsSynth Pipeline PropsWisard PropsRecall.

(** ** The small specification *)
(** The images trained under label l. *)
Definition images_of (l : str) (es : list (str * dop)) : list image :=
  omap (fun e => if decide (e.1 = l) then match e.2 with Train x => Some x | Untrain _ => None end else None) es.
(** Mental images fit the machine integers: at most 2^31 addresses per RAM, and examples times
    RAM inputs below 2^31. *)
Definition mental_budget (w : wisard) (n : Z) (es : list (str * dop)) : Prop :=
  forall l d, SpecWisard.trained l es -> built w n l d -> Forall small (d_rams d) /\ len es * total_inputs d <= INT_MAX.
(** out is the list of n zeros and ones that has a one exactly at the pixels on in more than k of the images xs. *)
Definition shown_by_more_than (k : Z) (xs : list image) (n : Z) (out : list Z) : Prop :=
  len out = n /\ forall p, 0 <= p < n -> out !! Z.to_nat p = Some (if bool_decide (k < active p xs) then 1 else 0).

Lemma images_of_trains l es : Forall is_train es -> of_label l es = Train <$> images_of l es.
Proof.
  unfold of_label, images_of. induction 1 as [|[k [x|x]] es He _ IH]; [reflexivity| |contradiction]. rewrite filter_cons. cbn [omap list_omap fst snd].
  destruct (decide (k = l)); [rewrite !fmap_cons; f_equal; exact IH|exact IH].
Qed.
Lemma elem_images_of l es x : x ∈ images_of l es <-> (l, Train x) ∈ es.
Proof.
  unfold images_of. rewrite elem_of_list_omap. split.
  - intros ([k [y|y]] & Hin & E); cbn [fst snd] in E; destruct (decide (k = l)) as [->|]; try discriminate. injection E as ->. exact Hin.
  - intros H. exists (l, Train x). split; [exact H|]. cbn [fst snd]. rewrite decide_True by reflexivity. reflexivity.
Qed.
Lemma bits_plain base n out : 2 <= base -> len out = n -> Forall (fun o => o = 0 \/ o = 1) out -> plain_image base n (vec_image out).
Proof.
  intros Hb Hl Hf. split; [exact Hl|]. intros p Hp. destruct (vget_some out p) as (v & Hv & E); [lia|]. exists v. split; [exact E|].
  pose proof (Forall_lookup_1 _ _ _ _ Hf Hv) as H. cbv beta in H. lia.
Qed.

(** C149, all histories (training and leaving out): the mental images have exactly the trained labels; whatever image the
    Synthesizer makes from the one of l is an image the classifier takes, and a pixel on in it
    was on in some image trained under l. *)
Theorem C149_inherited : forall lhs_first w0 n cs iter,
  w_discriminators w0 = ∅ -> configured w0 n -> Forall (proper_call w0 n) cs -> len (all_examples cs) <= INT_MAX ->
  good_iter iter -> mental_budget w0 n (all_examples cs) ->
  exists w m, wrun lhs_first w0 cs = (Ok tt, w) /\ wisard_mental iter w = Ok m /\
    (forall l, is_Some (m !! l) <-> SpecWisard.trained l (all_examples cs)) /\
    forall l img s r out, m !! l = Some img -> synth_new img = Ok s -> synth_make s r = Ok out ->
      Forall (fun o => o = 0 \/ o = 1) out /\ plain_image (w_base w0) n (vec_image out) /\
      forall p, 0 <= p < n -> im_get (vec_image out) p = Ok 1 -> exists x, (l, Train x) ∈ all_examples cs /\ on p x = true.
Proof.
  intros lhs w0 n cs iter H0 Hc Hp Hl Hit Hbud. destruct (mental_images lhs w0 n cs H0 Hc Hp Hl) as (w & d0 & E & Hd & Hb & Hm). exists w.
  destruct (Hm iter Hit) as (m & Em & Hml).
  { intros l d Hld. apply (Hbud l); [apply Hd; eauto|apply Hb, Hld]. }
  exists m. split; [exact E|]. split; [exact Em|]. split.
  - intros l. rewrite <- Hd. specialize (Hml l). destruct (d0 !! l) as [d|].
    + destruct Hml as (img & -> & _). split; eauto.
    + rewrite Hml. split; intros [? ?]; discriminate.
  - intros l img s r out Hli Es Eo. pose proof (make_any img s r out Es Eo) as HF. specialize (Hml l). destruct (d0 !! l) as [d|] eqn:Ed; [|congruence].
    destruct Hml as (img' & E1 & Hlen & Hlaw). assert (img' = img) as -> by congruence.
    assert (Hol : len out = n) by (rewrite <- Hlen; unfold len; rewrite (Forall2_length _ _ _ HF); reflexivity).
    assert (Hbits : Forall (fun o => o = 0 \/ o = 1) out).
    { apply Forall_forall. intros o Ho. apply elem_of_list_lookup in Ho as (i & Hi). destruct (Forall2_lookup_r _ _ _ _ _ HF Hi) as (v & _ & Hx & _). exact Hx. }
    split; [exact Hbits|]. split; [apply bits_plain; [apply Hc|exact Hol|exact Hbits]|]. intros p Hpn Ho. apply (law_on d).
    intros Hz. pose proof (Hlaw p Hpn) as Hv. destruct (Forall2_lookup_l _ _ _ _ _ HF Hv) as (o & Hoi & _ & Hoz).
    destruct (vget_some out p) as (o' & Ho' & E2); [lia|]. change (im_get (vec_image out) p) with (vget out p) in Ho. rewrite E2 in Ho. injection Ho as ->.
    rewrite Hoi in Ho'. injection Ho' as ->. specialize (Hoz Hz). lia.
Qed.
Print Assumptions C149_inherited.

(** Training only, every pixel wired once: each draw of make() shows the pixels on in more than k
    of the images of the label, k ranging over 0 .. the highest count - 1. *)
Theorem C149_threshold : forall lhs_first w0 n cs iter l,
  w_discriminators w0 = ∅ -> configured w0 n -> Forall (proper_call w0 n) cs -> len (all_examples cs) <= INT_MAX -> training_only cs ->
  good_iter iter -> mental_budget w0 n (all_examples cs) ->
  w_mapping w0 !! l = None -> n mod w_addressSize w0 = 0 ->
  (exists x p, (l, Train x) ∈ all_examples cs /\ 0 <= p < n /\ on p x = true) ->
  exists w m img s mx, wrun lhs_first w0 cs = (Ok tt, w) /\ wisard_mental iter w = Ok m /\ m !! l = Some img /\ synth_new img = Ok s /\
    0 < mx /\ (exists p, 0 <= p < n /\ active p (images_of l (all_examples cs)) = mx) /\
    (forall p, 0 <= p < n -> active p (images_of l (all_examples cs)) <= mx) /\
    (forall r, 0 <= r <= INT_MAX -> exists out k, synth_make s r = Ok out /\ 0 <= k < mx /\ shown_by_more_than k (images_of l (all_examples cs)) n out) /\
    (forall k, 0 <= k < mx -> exists out, synth_make s k = Ok out /\ shown_by_more_than k (images_of l (all_examples cs)) n out).
Proof.
  intros lhs w0 n cs iter l H0 Hc Hp Hl Ht Hit Hbud Hmap Hmod (x0 & p0 & Hx0 & Hp0 & Hon).
  destruct (mental_images lhs w0 n cs H0 Hc Hp Hl) as (w & d0 & E & Hd & Hb & Hm). destruct (Hm iter Hit) as (m & Em & Hml).
  { intros k d Hld. apply (Hbud k); [apply Hd; eauto|apply Hb, Hld]. }
  assert (Htr : SpecWisard.trained l (all_examples cs)) by (exists x0; exact Hx0).
  destruct (proj2 (Hd l) Htr) as (d & Ed). specialize (Hml l). rewrite Ed in Hml. destruct Hml as (img & Eimg & Hlen & Hlaw).
  set (xs := images_of l (all_examples cs)) in *. pose proof (training_examples cs Ht) as Hes.
  assert (Hact : forall p, 0 <= p < n -> img !! Z.to_nat p = Some (active p xs)).
  { intros p Hpn. rewrite (Hlaw p Hpn), history_trains, images_of_trains by exact Hes. rewrite mental_law_train.
    rewrite (wired_once w0 n l d Hc Hmap (trained_learns _ _ _ _ Hp Htr) Hmod (Hb _ _ Ed) p Hpn). f_equal. fold xs. lia. }
  assert (Hxs : len xs <= INT_MAX).
  { unfold xs. etransitivity; [|exact Hl]. unfold len. apply inj_le. unfold images_of. clear. induction (all_examples cs) as [|e es IH]; [cbn; lia|].
    cbn [omap list_omap]. destruct (if decide (e.1 = l) then _ else _); cbn [length]; [apply le_n_S, IH|]. etransitivity; [exact IH|]. apply Nat.le_succ_diag_r. }
  assert (Hidx : forall i v, img !! i = Some v -> exists p, 0 <= p < n /\ i = Z.to_nat p /\ v = active p xs).
  { intros i v Hi. pose proof (lookup_lt_Some _ _ _ Hi) as Hlt. exists (Z.of_nat i). unfold len in Hlen. split; [lia|]. split; [lia|].
    specialize (Hact (Z.of_nat i) ltac:(lia)). rewrite Nat2Z.id in Hact. congruence. }
  assert (HF : Forall (fun v => 0 <= v <= INT_MAX) img).
  { apply Forall_forall. intros v Hv. apply elem_of_list_lookup in Hv as (i & Hi). destruct (Hidx i v Hi) as (p & _ & _ & ->). unfold active. pose proof (count_if_range (fun x => negb (bool_decide (im_get x p = Ok 0))) xs). lia. }
  destruct (max_spec img) as (M0 & M1 & M2). set (mx := synth_max img) in *.
  assert (Hpos : 0 < active p0 xs).
  { unfold active. apply DiscProofs.count_if_pos. exists x0. split; [apply elem_images_of, Hx0|exact Hon]. }
  assert (Hle : forall p, 0 <= p < n -> active p xs <= mx) by (intros p Hpn; apply M1; eapply elem_of_list_lookup_2; apply Hact, Hpn).
  assert (Hmx : 0 < mx) by (specialize (Hle p0 Hp0); lia). destruct M2 as [M2|M2]; [lia|].
  destruct (C77_output_law img mx HF) as (s & Es & H1 & H2); [split; [exact M2|apply Forall_forall; exact M1]|exact Hmx|].
  assert (Hcon : forall k out, Forall2 (lit_by k) img out -> shown_by_more_than k xs n out).
  { intros k out H2f. split; [rewrite <- Hlen; unfold len; rewrite (Forall2_length _ _ _ H2f); reflexivity|]. intros p Hpn.
    destruct (Forall2_lookup_l _ _ _ _ _ H2f (Hact p Hpn)) as (o & -> & [[-> Ho]|[-> Ho]]); case_bool_decide; try reflexivity; lia. }
  exists w, m, img, s, mx. split; [exact E|]. split; [exact Em|]. split; [exact Eimg|]. split; [exact Es|]. split; [exact Hmx|]. split.
  { apply elem_of_list_lookup in M2 as (i & Hi). destruct (Hidx i _ Hi) as (p & Hpn & _ & Hv). exists p. auto. }
  split; [exact Hle|]. split.
  - intros r Hr. destruct (H1 r Hr) as (out & k & Eo & Hk & H2f). exists out, k. auto.
  - intros k Hk. destruct (H2 k Hk) as (out & Eo & H2f). exists out. auto.
Qed.
Print Assumptions C149_threshold.

(** Hence every image made, whatever the generator says, has on the pixels on in all images of the label,
    and the classifier answers it with a trained label. *)
Theorem C149_common_pixels : forall lhs_first w0 n cs iter l,
  w_discriminators w0 = ∅ -> configured w0 n -> Forall (proper_call w0 n) cs -> len (all_examples cs) <= INT_MAX - 2 -> training_only cs ->
  good_iter iter -> mental_budget w0 n (all_examples cs) ->
  w_mapping w0 !! l = None -> n mod w_addressSize w0 = 0 ->
  (exists x p, (l, Train x) ∈ all_examples cs /\ 0 <= p < n /\ on p x = true) ->
  exists w m img s, wrun lhs_first w0 cs = (Ok tt, w) /\ wisard_mental iter w = Ok m /\ m !! l = Some img /\ synth_new img = Ok s /\
    forall r, 0 <= r <= INT_MAX -> exists out k, synth_make s r = Ok out /\
      wisard_classify w [vec_image out] = Ok [k] /\ SpecWisard.trained k (all_examples cs) /\
      (exists p, 0 <= p < n /\ im_get (vec_image out) p = Ok 1) /\
      (forall p, 0 <= p < n -> (forall x, (l, Train x) ∈ all_examples cs -> on p x = true) -> im_get (vec_image out) p = Ok 1).
Proof.
  intros lhs w0 n cs iter l H0 Hc Hp Hl Ht Hit Hbud Hmap Hmod Hex.
  destruct (C149_threshold lhs w0 n cs iter l H0 Hc Hp ltac:(lia) Ht Hit Hbud Hmap Hmod Hex) as (w & m & img & s & mx & E & Em & Ei & Es & Hmx & (pm & Hpm & Hpe) & Hle & H1 & _).
  exists w, m, img, s. split; [exact E|]. split; [exact Em|]. split; [exact Ei|]. split; [exact Es|]. intros r Hr. destruct (H1 r Hr) as (out & k & Eo & Hk & Hlen & Hout).
  assert (Hget : forall p, 0 <= p < n -> im_get (vec_image out) p = Ok (if bool_decide (k < active p (images_of l (all_examples cs))) then 1 else 0)).
  { intros p Hpn. destruct (vget_some out p) as (o & Ho & E2); [lia|]. change (im_get (vec_image out) p) with (vget out p). rewrite E2. f_equal. rewrite Hout in Ho by exact Hpn. congruence. }
  assert (Hpl : plain_image (w_base w0) n (vec_image out)).
  { split; [exact Hlen|]. intros p Hpn. eexists. split; [apply Hget, Hpn|]. destruct Hc as (_ & Hb2 & _). case_bool_decide; lia. }
  destruct (C138_known_labels lhs w0 n cs (vec_image out) H0 Hc Hp Hl Hpl) as (w' & c & E' & Ec & Hc1 & _). assert (w' = w) as -> by congruence.
  exists out, c. split; [exact Eo|]. split; [exact Ec|]. split.
  { apply Hc1. destruct Hex as (x & p & Hx & _). exists l, x. exact Hx. }
  split.
  { exists pm. split; [exact Hpm|]. rewrite (Hget pm Hpm), bool_decide_eq_true_2 by lia. reflexivity. }
  intros p Hpn Hall. rewrite (Hget p Hpn), bool_decide_eq_true_2; [reflexivity|].
  assert (active p (images_of l (all_examples cs)) = len (images_of l (all_examples cs))) as ->.
  { unfold active. assert (G : forall ys, (forall y, y ∈ ys -> on p y = true) -> count_if (fun x => negb (bool_decide (im_get x p = Ok 0))) ys = len ys).
    { induction ys as [|y ys IH]; intros Hy; [reflexivity|]. rewrite count_if_cons, len_cons, IH by (intros z Hz; apply Hy; right; exact Hz). specialize (Hy y ltac:(left)). unfold on in Hy. rewrite Hy. reflexivity. }
    apply G. intros y Hy. apply Hall, elem_images_of, Hy. }
  unfold active in Hpe. pose proof (count_if_range (fun x => negb (bool_decide (im_get x pm = Ok 0))) (images_of l (all_examples cs))). lia.
Qed.
Print Assumptions C149_common_pixels.

Definition three : list wcall := [CTrain env0 [w1; w2; w3] [hot; cold; hot]].
Lemma three_proper : Forall (proper_call cfg 4) three.
Proof.
  constructor; [|constructor]. destruct w_plain as (H1 & H2 & H3). split; [cbn; repeat (apply Forall_cons; split; [cbn; assumption|]); apply Forall_nil; exact I|]. split; [discriminate|]. split; [reflexivity|].
  split; [repeat (apply Forall_cons; split; [apply cfg_learns|]); apply Forall_nil; exact I|intros l; apply some_draw_valid].
Qed.
Lemma cfg_budget es : len es <= 100 -> mental_budget cfg 4 es.
Proof.
  intros Hl l d _ (dr & _ & E). unfold construct_discriminator in E. cbn [w_mapping cfg] in E. rewrite lookup_empty in E. vm_compute in E. injection E as <-.
  split; [repeat constructor; vm_compute; congruence|]. unfold total_inputs. change (len _) with 4 at 2. unfold INT_MAX. lia.
Qed.
Definition made (w : wisard) (l : str) (rs : list Z) : res (list (list Z)) :=
  let* m := wisard_mental (fun m => map_to_list m) w in drawn (default [] (m !! l)) rs.
Example C149_witness : configured cfg 4 /\ Forall (proper_call cfg 4) three /\ training_only three /\ mental_budget cfg 4 (all_examples three) /\
  w_mapping cfg !! hot = None /\ 4 mod w_addressSize cfg = 0 /\ (exists x p, (hot, Train x) ∈ all_examples three /\ 0 <= p < 4 /\ on p x = true) /\
  made (snd (wrun true cfg three)) hot [0; 1; 2] = Ok [[1; 1; 0; 1]; [1; 1; 0; 0]; [1; 1; 0; 1]].
Proof.
  split; [apply cfg_configured|]. split; [apply three_proper|]. split; [repeat constructor|]. split; [apply cfg_budget; vm_compute; congruence|]. split; [apply lookup_empty|]. split; [reflexivity|].
  split; [exists w1, 0; split; [left|]; split; [lia|reflexivity]|]. vm_compute. reflexivity.
Qed.

(** C150 is false: an image made from the mental image of a label can be answered with another label. *)
Definition merged : list wcall := [CTrain env0 [vec_image [1; 0; 0; 0]; vec_image [0; 1; 0; 0]; w1] [hot; hot; cold]].
Theorem C150_own_label_refuted : fst (wrun true cfg merged) = Ok tt /\ made (snd (wrun true cfg merged)) hot [0] = Ok [[1; 1; 0; 0]] /\
  wisard_classify (snd (wrun true cfg merged)) [vec_image [1; 1; 0; 0]] = Ok [cold].
Proof. vm_compute. auto. Qed.
Print Assumptions C150_own_label_refuted.
(** What holds: when all images of the label show the same pixels (values 0 and 1, not all 0), every draw gives
    exactly that image back, and if some pixel tells it from all images of each other label, it is
    answered with its label. *)
Theorem C150_own_label_partial : forall lhs_first w0 n cs iter l x,
  w_discriminators w0 = ∅ -> configured w0 n -> Forall (proper_call w0 n) cs -> len (all_examples cs) <= INT_MAX - 2 -> training_only cs ->
  good_iter iter -> mental_budget w0 n (all_examples cs) ->
  w_ignoreZero w0 = false -> w_mapping w0 = ∅ -> n mod w_addressSize w0 = 0 ->
  (w_bleachingActivated w0 = true -> w_confidence w0 <= 1) ->
  (l, Train x) ∈ all_examples cs -> (forall p, 0 <= p < n -> im_get x p = Ok 0 \/ im_get x p = Ok 1) -> (exists p, 0 <= p < n /\ im_get x p = Ok 1) ->
  (forall y, (l, Train y) ∈ all_examples cs -> forall p, 0 <= p < n -> im_get y p = im_get x p) ->
  exists w m img s, wrun lhs_first w0 cs = (Ok tt, w) /\ wisard_mental iter w = Ok m /\ m !! l = Some img /\ synth_new img = Ok s /\
    forall r, 0 <= r <= INT_MAX -> exists out, synth_make s r = Ok out /\ len out = n /\
      (forall p, 0 <= p < n -> im_get (vec_image out) p = im_get x p) /\
      ((forall l', l' <> l -> exists p, 0 <= p < n /\ forall y, (l', Train y) ∈ all_examples cs -> im_get y p <> im_get x p) ->
       wisard_classify w [vec_image out] = Ok [l]).
Proof.
  intros lhs w0 n cs iter l x H0 Hc Hp Hl Ht Hit Hbud Hiz Hm Hmod Hconf Hx Hbits (p0 & Hp0 & Hon) Hsame.
  destruct (C149_threshold lhs w0 n cs iter l H0 Hc Hp ltac:(lia) Ht Hit Hbud ltac:(rewrite Hm; apply lookup_empty) Hmod) as (w & m & img & s & mx & E & Em & Ei & Es & Hmx & (pm & Hpm & Hpe) & Hle & H1 & _).
  { exists x, p0. split; [exact Hx|]. split; [exact Hp0|]. unfold on. rewrite Hon. reflexivity. }
  exists w, m, img, s. split; [exact E|]. split; [exact Em|]. split; [exact Ei|]. split; [exact Es|]. intros r Hr. destruct (H1 r Hr) as (out & k & Eo & Hk & Hlen & Hout).
  exists out. split; [exact Eo|]. split; [exact Hlen|].
  assert (Hact : forall p, 0 <= p < n -> active p (images_of l (all_examples cs)) = if bool_decide (im_get x p = Ok 1) then len (images_of l (all_examples cs)) else 0).
  { intros p Hpn. unfold active. assert (G : forall ys, (forall y, y ∈ ys -> im_get y p = im_get x p) -> count_if (fun x => negb (bool_decide (im_get x p = Ok 0))) ys = if bool_decide (im_get x p = Ok 1) then len ys else 0).
    { induction ys as [|y ys IH]; intros Hy; [case_bool_decide; reflexivity|]. rewrite count_if_cons, len_cons, IH by (intros z Hz; apply Hy; right; exact Hz). rewrite (Hy y) by left.
      destruct (Hbits p Hpn) as [-> | ->]; reflexivity. }
    apply G. intros y Hy. apply Hsame; [apply elem_images_of, Hy|exact Hpn]. }
  assert (Hk2 : k < len (images_of l (all_examples cs))) by (rewrite (Hact pm Hpm) in Hpe; case_bool_decide; lia).
  assert (Hget : forall p, 0 <= p < n -> im_get (vec_image out) p = im_get x p).
  { intros p Hpn. destruct (vget_some out p) as (o & Ho & E2); [lia|]. change (im_get (vec_image out) p) with (vget out p). rewrite E2. rewrite Hout in Ho by exact Hpn. rewrite (Hact p Hpn) in Ho.
    destruct (Hbits p Hpn) as [Hb|Hb]; rewrite Hb in *.
    - rewrite (bool_decide_eq_false_2 (Ok 0 = Ok 1)) in Ho by discriminate. rewrite bool_decide_eq_false_2 in Ho by lia. congruence.
    - rewrite (bool_decide_eq_true_2 (Ok 1 = Ok 1)) in Ho by reflexivity. rewrite bool_decide_eq_true_2 in Ho by lia. congruence. }
  split; [exact Hget|]. intros Hdiff.
  destruct (wrun_inv lhs w0 n cs H0 Hc Hp ltac:(lia)) as (w' & d0 & E' & Hi). assert (w' = w) as -> by congruence.
  assert (Hpl : plain_image (w_base w0) n (vec_image out)).
  { split; [exact Hlen|]. intros p Hpn. rewrite (Hget p Hpn). destruct Hc as (_ & Hb2 & _). destruct (Hbits p Hpn) as [-> | ->]; eexists; (split; [reflexivity|lia]). }
  destruct (classify_owed w0 n d0 _ w [vec_image out] ltac:(apply Hc) Hi Hl ltac:(constructor; [exact Hpl|constructor])) as (ks & Ek & Hks).
  clear Hlen. inversion Hks as [|? c ? ks' Hck Hn]; subst. inversion Hn; subst. rewrite Ek. f_equal. f_equal.
  rewrite (owed_same w0 n d0 _ w (vec_image out) x Hi Hget) in Hck.
  refine (recall_class w0 n cs w d0 Hc Hp Ht Hiz Hi l x c Hm Hx Hconf _ Hck).
  intros l' d Hne Hd. destruct (Hdiff l' Hne) as (p & Hpn & Hy). exact (unseen_pixel w0 n cs w d0 Hc Hp Hiz Hi l' d x p Hm ltac:(right; exact Hmod) Hd Hpn Hy).
Qed.
Print Assumptions C150_own_label_partial.
Definition twice : list wcall := [CTrain env0 [w1; w2; w1] [hot; cold; hot]].
Example C150_witness : Forall (proper_call cfg 4) twice /\ training_only twice /\ mental_budget cfg 4 (all_examples twice) /\ (hot, Train w1) ∈ all_examples twice /\ (forall y, (hot, Train y) ∈ all_examples twice -> forall p, 0 <= p < 4 -> im_get y p = im_get w1 p) /\ (forall l', l' <> hot -> exists p, 0 <= p < 4 /\ forall y, (l', Train y) ∈ all_examples twice -> im_get y p <> im_get w1 p) /\ made (snd (wrun true cfg twice)) hot [0; 1; 5] = Ok [[1; 1; 0; 0]; [1; 1; 0; 0]; [1; 1; 0; 0]].
Proof.
  split.
  { constructor; [|constructor]. destruct w_plain as (H1 & H2 & _). split; [cbn; repeat (apply Forall_cons; split; [cbn; assumption|]); apply Forall_nil; exact I|]. split; [discriminate|]. split; [reflexivity|].
    split; [repeat (apply Forall_cons; split; [apply cfg_learns|]); apply Forall_nil; exact I|intros l; apply some_draw_valid]. }
  split; [repeat constructor|]. split; [apply cfg_budget; vm_compute; congruence|]. split; [left|]. split; [|split].
  - intros y Hy p _. apply elem_of_cons in Hy as [Hy|Hy]; [|apply elem_of_cons in Hy as [Hy|Hy]; [|apply elem_of_cons in Hy as [Hy|Hy]; [|inversion Hy]]]; try discriminate; injection Hy as ->; reflexivity.
  - intros l' Hl. exists 0. split; [lia|]. intros y Hy. apply elem_of_cons in Hy as [Hy|Hy]; [|apply elem_of_cons in Hy as [Hy|Hy]; [|apply elem_of_cons in Hy as [Hy|Hy]; [|inversion Hy]]]; injection Hy as -> ->; try congruence. vm_compute. discriminate.
  - vm_compute. reflexivity.
Qed.
