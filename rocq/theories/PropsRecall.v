(** Property theorems C136-C138: recall of training images, repeated examples, known labels. *)
From Verif Require Import Prelude Bytes Utils BinInput Bleaching Ram Disc DataSet Wisard SpecDisc SpecBleach SpecWisard.
From Verif Require Import BleachProofs CtorFacts WisardProofs WisardFacts WisardMore Recall Repeat PropsWisard PropsDisc.

(** C136: false: other examples of another label can cover a training image. *)
Definition covering : list wcall := [CTrain env0 [vec_image [1; 1; 1; 1]; vec_image [0; 0; 0; 0]; w1] [hot; hot; cold]].
Theorem C136_recall_refuted : fst (wrun true cfg covering) = Ok tt /\ (cold, Train w1) ∈ all_examples covering /\ (hot, Train w1) ∉ all_examples covering /\
  wisard_classify (snd (wrun true cfg covering)) [w1] = Ok [hot].
Proof.
  split; [vm_compute; reflexivity|]. split; [right; right; left|]. split; [|vm_compute; reflexivity].
  intros H. apply elem_of_cons in H as [H|H]; [|apply elem_of_cons in H as [H|H]; [|apply elem_of_cons in H as [H|H]; [|inversion H]]]; try discriminate.
  all: injection H as H; apply (f_equal (fun g => (g 0, g 2))) in H; vm_compute in H; discriminate.
Qed.
Print Assumptions C136_recall_refuted.
(** Nor does it hold with ignoreZero, even for images differing in every pixel. *)
Definition blind : wisard := Wisard 2 true false ∅ [0; 1; 2; 3] true true 2 false false false false 1 ∅.
Theorem C136_ignoreZero_refuted :
  let cs := [CTrain env0 [vec_image [1; 1; 1; 1]; vec_image [0; 0; 0; 0]] [hot; cold]] in
  fst (wrun true blind cs) = Ok tt /\ wisard_classify (snd (wrun true blind cs)) [vec_image [0; 0; 0; 0]] = Ok [hot].
Proof. vm_compute. auto. Qed.
Print Assumptions C136_ignoreZero_refuted.

(** What holds without ignoreZero. An image trained under l is answered l when every other label
    can be told apart from it by one pixel: a pixel wired somewhere, where the image differs from
    all images of that label; whatever the random choices. With bleaching, for confidence up to 1. *)
Theorem C136_recalled_partial : forall lhs_first w0 n cs l x,
  w_discriminators w0 = ∅ -> configured w0 n -> Forall (proper_call w0 n) cs -> len (all_examples cs) <= INT_MAX - 2 ->
  training_only cs -> w_ignoreZero w0 = false -> w_mapping w0 = ∅ -> whole_image_wired w0 n ->
  (w_bleachingActivated w0 = true -> w_confidence w0 <= 1) ->
  (l, Train x) ∈ all_examples cs ->
  (forall l', l' <> l -> exists p, 0 <= p < n /\ forall y, (l', Train y) ∈ all_examples cs -> im_get y p <> im_get x p) ->
  exists w, wrun lhs_first w0 cs = (Ok tt, w) /\ wisard_classify w [x] = Ok [l].
Proof.
  intros lhs w0 n cs l x H0 Hc Hp Hl Ht Hiz Hm Hw Hconf Hx Hdiff.
  destruct (wrun_inv lhs w0 n cs H0 Hc Hp ltac:(lia)) as (w & d0 & E & Hi). exists w. split; [exact E|].
  assert (Hxp : plain_image (w_base w0) n x).
  { pose proof (proper_images w0 n cs Hp) as HF. rewrite Forall_forall in HF. apply (HF _ Hx). }
  destruct (classify_owed w0 n d0 _ w [x] ltac:(apply Hc) Hi Hl ltac:(constructor; [exact Hxp|constructor])) as (ks & Ek & Hks).
  inversion Hks as [|? k ? ks' Hk Hn]; subst. inversion Hn; subst. rewrite Ek. f_equal. f_equal.
  refine (recall_class w0 n cs w d0 Hc Hp Ht Hiz Hi l x k Hm Hx Hconf _ Hk).
  intros l' d Hne Hd. destruct (Hdiff l' Hne) as (p & Hpn & Hy). exact (unseen_pixel w0 n cs w d0 Hc Hp Hiz Hi l' d x p Hm Hw Hd Hpn Hy).
Qed.
Print Assumptions C136_recalled_partial.
(** With bleaching off the label of a training image always has the highest possible count, one
    per RAM, whatever else was trained: only another label with the full count can be answered. *)
Theorem C136_full_count_partial : forall lhs_first w0 n cs l x,
  w_discriminators w0 = ∅ -> configured w0 n -> Forall (proper_call w0 n) cs -> len (all_examples cs) <= INT_MAX - 2 ->
  training_only cs -> w_ignoreZero w0 = false -> w_mapping w0 = ∅ -> w_bleachingActivated w0 = false ->
  (l, Train x) ∈ all_examples cs ->
  exists w cand k, wrun lhs_first w0 cs = (Ok tt, w) /\ wisard_candidates w x = Ok cand /\ wisard_classify w [x] = Ok [k] /\
    cand !! l = Some (rams_per_label w0 n) /\ cand !! k = Some (rams_per_label w0 n) /\ (forall l' v, cand !! l' = Some v -> v <= rams_per_label w0 n).
Proof.
  intros lhs w0 n cs l x H0 Hc Hp Hl Ht Hiz Hm Hb Hx.
  destruct (wrun_inv lhs w0 n cs H0 Hc Hp ltac:(lia)) as (w & d0 & E & Hi). exists w.
  assert (Hxp : plain_image (w_base w0) n x).
  { pose proof (proper_images w0 n cs Hp) as HF. rewrite Forall_forall in HF. apply (HF _ Hx). }
  destruct (candidates_inv w0 n d0 _ w x ltac:(apply Hc) Hi Hl Hxp) as (cand & Ec & Hd & Ek). exists cand, (getBiggestCandidate cand).
  split; [exact E|]. split; [exact Ec|]. split; [unfold wisard_classify; cbn [rmapM]; rewrite Ek; reflexivity|].
  pose proof (fun k v => degrees_nonneg w0 _ cand k v Hd) as Hnn. unfold degrees_owed in Hd. rewrite Hb in Hd. destruct (recall_highest w0 n cs w d0 Hc Hp Ht Hiz Hi l x Hm Hx) as (Hfull & Hbd).
  rewrite <- Hd in Hfull, Hbd. split; [exact Hfull|]. split; [|exact Hbd].
  destruct (biggest_winner cand) as (v & Hv & Hmax); [exact Hnn|intros ->; rewrite lookup_empty in Hfull; discriminate|].
  destruct (Hmax l _ Hfull) as [Hlt|[Heq _]]; [specialize (Hbd _ _ Hv); lia|congruence].
Qed.
Print Assumptions C136_full_count_partial.
Example C136_witness : configured cfg 4 /\ Forall (proper_call cfg 4) [CTrain env0 [w1; w2; w3] [hot; cold; hot]] /\ whole_image_wired cfg 4 /\
  (forall l', l' <> cold -> exists p, 0 <= p < 4 /\ forall y, (l', Train y) ∈ all_examples [CTrain env0 [w1; w2; w3] [hot; cold; hot]] -> im_get y p <> im_get w2 p) /\
  wisard_classify (snd (wrun true cfg [CTrain env0 [w1; w2; w3] [hot; cold; hot]])) [w2] = Ok [cold] /\ rams_per_label cfg 4 = 2.
Proof.
  split; [apply cfg_configured|]. split.
  { constructor; [|constructor]. destruct w_plain as (H1 & H2 & H3). split; [cbn; repeat (apply Forall_cons; split; [cbn; assumption|]); apply Forall_nil; exact I|]. split; [discriminate|]. split; [reflexivity|].
    split; [repeat (apply Forall_cons; split; [apply cfg_learns|]); apply Forall_nil; exact I|intros l; apply some_draw_valid]. }
  split; [right; reflexivity|]. split; [|vm_compute; auto].
  intros l' Hl. exists 0. split; [lia|]. intros y Hy. apply elem_of_cons in Hy as [Hy|Hy]; [|apply elem_of_cons in Hy as [Hy|Hy]; [|apply elem_of_cons in Hy as [Hy|Hy]; [|inversion Hy]]].
  - injection Hy as -> ->. vm_compute. discriminate.
  - injection Hy as -> ->. congruence.
  - injection Hy as -> ->. vm_compute. discriminate.
Qed.

(** C137: after training on some examples, training on k more copies of the same examples, in any
    order and batches, changes no count and no answer. *)
Theorem C137_repeats_change_nothing : forall lhs lhs' w0 n cs cs' k w w',
  w_discriminators w0 = ∅ -> configured w0 n -> Forall (proper_call w0 n) cs -> Forall (proper_call w0 n) cs' ->
  training_only cs -> training_only cs' ->
  all_examples cs' ≡ₚ List.concat (repeat (all_examples cs) k) -> len (all_examples cs) + len (all_examples cs') <= INT_MAX - 2 ->
  wrun lhs w0 cs = (Ok tt, w) -> wrun lhs' w cs' = (Ok tt, w') ->
  forall x xs, Forall (plain_image (w_base w0) n) (x :: xs) ->
    (exists cand, wisard_candidates w x = Ok cand /\ wisard_candidates w' x = Ok cand) /\
    wisard_classify w' (x :: xs) = wisard_classify w (x :: xs).
Proof.
  intros lhs lhs' w0 n cs cs' k w w' H0 Hc Hp Hp' Ht Ht' Hcp Hmax E E' x xs HF.
  assert (H : forall y, plain_image (w_base w0) n y -> exists cand, wisard_candidates w y = Ok cand /\ wisard_candidates w' y = Ok cand).
  { eapply (repeated lhs lhs' w0 n cs cs' k); eassumption. }
  split; [apply H; apply Forall_cons in HF; tauto|]. unfold wisard_classify. generalize dependent (x :: xs). clear x xs. intros xs HF.
  induction HF as [|y ys Hy _ IH]; [reflexivity|]. cbn [rmapM]. rewrite IH. destruct (H y Hy) as (cand & E1 & E2). unfold wisard_classify1. rewrite E1, E2. reflexivity.
Qed.
Print Assumptions C137_repeats_change_nothing.
Example C137_witness : let cs := [CTrain env0 [w1; w2; w3] [hot; cold; hot]] in let cs' := [CTrain env0 [w1; w2; w3; w1; w2; w3] [hot; cold; hot; hot; cold; hot]] in
  all_examples cs' ≡ₚ List.concat (repeat (all_examples cs) 2) /\ training_only cs /\ training_only cs' /\
  rmap sorted_items (all_votes (w_discriminators (snd (wrun true cfg cs))) w1) = Ok [(cold, [0; 0]); (hot, [2; 1])] /\
  rmap sorted_items (all_votes (w_discriminators (snd (wrun true (snd (wrun true cfg cs)) cs'))) w1) = Ok [(cold, [0; 0]); (hot, [6; 3])].
Proof. cbv zeta. split; [reflexivity|]. split; [repeat constructor|]. split; [repeat constructor|]. split; vm_compute; reflexivity. Qed.

(** C138: every answer is a label some training call gave (the empty label for an untrained
    classifier), so a classifier that knows one label always answers it. *)
Theorem C138_known_labels : forall lhs_first w0 n cs x,
  w_discriminators w0 = ∅ -> configured w0 n -> Forall (proper_call w0 n) cs -> len (all_examples cs) <= INT_MAX - 2 ->
  plain_image (w_base w0) n x ->
  exists w k, wrun lhs_first w0 cs = (Ok tt, w) /\ wisard_classify w [x] = Ok [k] /\
    ((exists l, trained l (all_examples cs)) -> trained k (all_examples cs)) /\
    ((forall l, ~ trained l (all_examples cs)) -> k = []) /\
    (forall l, (forall l', trained l' (all_examples cs) <-> l' = l) -> k = l).
Proof.
  intros lhs w0 n cs x H0 Hc Hp Hl Hx. destruct (wisard_law lhs w0 n cs H0 Hc Hp Hl) as (w & d0 & E & Hd & _ & Hk). exists w.
  destruct (Hk [x]) as (ks & Ek & Hks); [constructor; [exact Hx|constructor]|]. inversion Hks as [|? k ? ks' Hck Hn]; subst. inversion Hn; subst. exists k. split; [exact E|]. split; [exact Ek|].
  assert (Hmain : (votes_owed d0 (all_examples cs) x = ∅ /\ k = []) \/ trained k (all_examples cs)).
  { destruct Hck as (cand & Hcand & [He|(v & Hv & _)]); [left; exact He|]. right. apply Hd. destruct (degrees_keys _ _ _ Hcand) as (b & ->).
    unfold tallies in Hv. rewrite lookup_fmap, owed_lookup in Hv. destruct (d0 !! k); [eauto|discriminate]. }
  assert (Hemp : votes_owed d0 (all_examples cs) x = ∅ -> forall l, ~ trained l (all_examples cs)).
  { intros He l Htr. apply Hd in Htr as (d & Ed). assert (Hn' : votes_owed d0 (all_examples cs) x !! l = None) by (rewrite He; apply lookup_empty).
    rewrite owed_lookup, Ed in Hn'. discriminate. }
  split; [|split].
  - intros (l & Htr). destruct Hmain as [[He _]|Ht]; [|exact Ht]. destruct (Hemp He l Htr).
  - intros Hno. destruct Hmain as [[_ ->]|Ht]; [reflexivity|]. destruct (Hno k Ht).
  - intros l Hl1. destruct Hmain as [[He _]|Ht]; [|apply Hl1, Ht]. destruct (Hemp He l). apply Hl1. reflexivity.
Qed.
Print Assumptions C138_known_labels.
Example C138_witness : wisard_classify (snd (wrun true cfg [CTrain env0 [w1] [hot]])) [w1; w2; w3] = Ok [hot; hot; hot] /\
  wisard_classify cfg [w1; w2] = Ok [[]; []] /\ wisard_classify (snd (wrun true cfg calls)) [w1; w2] = Ok [hot; cold].
Proof. vm_compute. auto. Qed.
