(** Property theorems C160: similar images get similar votes. Vocabulary in SpecNear.v. *)
From Verif Require Import Prelude Bytes Utils BinInput Bleaching Ram Disc DataSet Wisard SpecDisc SpecBin SpecBleach SpecWisard SpecNear.
From Verif Require Import BytesProofs TextProofs BleachProofs CtorFacts DiscProofs DiscFacts WisardProofs WisardFacts WisardMore Recall Repeat Near PropsDisc PropsWisard PropsRecall.

(** C160 for a discriminator, after any history of trainings and untrainings: replacing an image by one
    that differs from it only at the positions ps changes the votes of at most as many RAMs as there are
    RAM inputs wired to ps. *)
Theorem C160_discriminator : forall d0 h x y ps,
  constructed d0 -> all_valid d0 h -> len h <= INT_MAX -> valid_image d0 x -> valid_image d0 y -> (forall p, im_get x p <> im_get y p -> p ∈ ps) ->
  exists d vx vy, run d0 h = (Ok tt, d) /\ disc_classify d x = Ok vx /\ disc_classify d y = Ok vy /\ length vx = length vy /\
    count_if (fun vv => negb (vv.1 =? vv.2)) (zip vx vy) <= zsum (wires d0 <$> ps).
Proof.
  intros d0 h x y ps Hc Hh Hl Hx Hy Hps. destruct (C27_votes_history d0 h x Hc Hh Hx Hl) as (d & Er & Ex). destruct (C27_votes_history d0 h y Hc Hh Hy Hl) as (d' & Er' & Ey).
  assert (d' = d) as -> by congruence. exists d, ((fun r => vote_due r h x) <$> d_rams d0), ((fun r => vote_due r h y) <$> d_rams d0).
  split; [exact Er|]. split; [exact Ex|]. split; [exact Ey|]. split; [rewrite !fmap_length; reflexivity|].
  transitivity (count_if (fun r => negb (bool_decide (agree (r_addresses r) x y))) (d_rams d0)).
  - clear. induction (d_rams d0) as [|r rs IH]; [apply Z.le_refl|]. rewrite !fmap_cons. cbn [zip zip_with]. rewrite !Near.count_if_cons. cbn [fst snd].
    destruct (bool_decide_reflect (agree (r_addresses r) x y)) as [H|H]; cbn [negb]; [rewrite (vote_agree r h x y H), Z.eqb_refl; cbn [negb]; exact (proj1 (Z.add_le_mono_l _ _ 0) IH)|].
    destruct (negb _); [exact (proj1 (Z.add_le_mono_l _ _ 1) IH)|]. etransitivity; [exact (proj1 (Z.add_le_mono_l _ _ 0) IH)|lia].
  - etransitivity; [apply (touched_le _ ps)|apply wires_ge]. apply Forall_forall. intros r _. apply Forall_forall. intros p _. apply Hps.
Qed.
Print Assumptions C160_discriminator.

(** C160 for Wisard with bleaching off, after any calls: the count of each label for two images differs by
    at most [reach]: without a mapping, the number of differing pixels, plus the RAM inputs that
    completeAddressing added to a random wiring. *)
Theorem C160_wisard : forall lhs_first w0 n cs,
  w_discriminators w0 = ∅ -> configured w0 n -> Forall (proper_call w0 n) cs -> len (all_examples cs) <= INT_MAX - 2 -> w_bleachingActivated w0 = false ->
  exists w, wrun lhs_first w0 cs = (Ok tt, w) /\
    forall x y, plain_image (w_base w0) n x -> plain_image (w_base w0) n y ->
    exists cx cy, wisard_candidates w x = Ok cx /\ wisard_candidates w y = Ok cy /\
      (forall l, is_Some (cx !! l) <-> trained l (all_examples cs)) /\
      forall l vx vy, cx !! l = Some vx -> cy !! l = Some vy -> Z.abs (vx - vy) <= reach w0 n l x y.
Proof.
  intros lhs w0 n cs H0 Hc Hp Hl Hb. destruct (wrun_inv lhs w0 n cs H0 Hc Hp ltac:(lia)) as (w & d0 & E & Hi). exists w. split; [exact E|]. intros x y Hx Hy.
  destruct (candidates_inv w0 n d0 _ w x ltac:(apply Hc) Hi Hl Hx) as (cx & Ex & Hdx & _). destruct (candidates_inv w0 n d0 _ w y ltac:(apply Hc) Hi Hl Hy) as (cy & Ey & Hdy & _).
  unfold degrees_owed in Hdx, Hdy. rewrite Hb in Hdx, Hdy. exists cx, cy. split; [exact Ex|]. split; [exact Ey|].
  assert (Htr : forall l d, d0 !! l = Some d -> trained l (all_examples cs) /\ built w0 n l d).
  { intros l d Ed. destruct Hi as [_ H]. specialize (H l). rewrite Ed in H. unfold label_inv in H. destruct (w_discriminators w !! l); [|contradiction].
    destruct H as (Hh & Hbt & _). split; [apply history_trained; exact Hh|exact Hbt]. }
  split.
  - intros l. rewrite Hdx. unfold tallies. rewrite lookup_fmap, owed_lookup. split.
    + intros (v & Hv). destruct (d0 !! l) as [d|] eqn:Ed; [|discriminate]. apply (Htr l d Ed).
    + intros Ht. destruct (d0_trained w0 n cs w d0 Hi l Ht) as (d & ->). cbn. eauto.
  - intros l vx vy Hvx Hvy. rewrite Hdx in Hvx. rewrite Hdy in Hvy. unfold tallies in Hvx, Hvy. rewrite lookup_fmap, owed_lookup in Hvx, Hvy. destruct (d0 !! l) as [d|] eqn:Ed; [|discriminate].
    cbn in Hvx, Hvy. injection Hvx as <-. injection Hvy as <-. destruct (Htr l d Ed) as (Ht & Hbt).
    destruct (built_reach w0 n l d x y Hc (trained_learns _ _ _ _ Hp Ht) Hbt) as (HR & HF). pose proof (touched_le _ _ x y HF) as HT.
    pose proof (tally_apart (fun r => vote_due r (history l (all_examples cs)) x) (fun r => vote_due r (history l (all_examples cs)) y) 1 (d_rams d) (fun r => negb (bool_decide (agree (r_addresses r) x y)))) as HA.
    assert (HB : forall r, r ∈ d_rams d -> negb (bool_decide (agree (r_addresses r) x y)) = false -> vote_due r (history l (all_examples cs)) x = vote_due r (history l (all_examples cs)) y).
    { intros r _ H. apply negb_false_iff, bool_decide_eq_true in H. apply vote_agree, H. }
    specialize (HA HB). apply Z.abs_le. lia.
Qed.
Print Assumptions C160_wisard.

(** So an image close to a training image of label l still has nearly all the RAMs of l, and so has the answer. *)
Theorem C160_generalises : forall lhs_first w0 n cs l x,
  w_discriminators w0 = ∅ -> configured w0 n -> Forall (proper_call w0 n) cs -> len (all_examples cs) <= INT_MAX - 2 -> w_bleachingActivated w0 = false ->
  training_only cs -> w_ignoreZero w0 = false -> w_mapping w0 = ∅ -> (l, Train x) ∈ all_examples cs ->
  exists w, wrun lhs_first w0 cs = (Ok tt, w) /\
    forall y, plain_image (w_base w0) n y -> exists cand k v, wisard_candidates w y = Ok cand /\ wisard_classify w [y] = Ok [k] /\ cand !! k = Some v /\
      rams_per_label w0 n - (len (differing n x y) + spare w0 n) <= default 0 (cand !! l) <= v.
Proof.
  intros lhs w0 n cs l x H0 Hc Hp Hl Hb Ht Hiz Hm Hx.
  destruct (C136_full_count_partial lhs w0 n cs l x H0 Hc Hp Hl Ht Hiz Hm Hb Hx) as (w & cand & k & E & Ec & _ & Hfull & _ & _).
  destruct (C160_wisard lhs w0 n cs H0 Hc Hp Hl Hb) as (w' & E' & H). assert (w' = w) as -> by congruence. exists w. split; [exact E|]. intros y Hy.
  assert (Hxp : plain_image (w_base w0) n x). { pose proof (proper_images w0 n cs Hp) as HF. rewrite Forall_forall in HF. apply (HF _ Hx). }
  destruct (H x y Hxp Hy) as (cx & cy & Ex & Ey & _ & Hr). assert (cx = cand) as -> by congruence.
  destruct (H y y Hy Hy) as (cy' & ? & Ey' & _ & Hdom & _). assert (cy' = cy) as -> by congruence.
  assert (Htr : trained l (all_examples cs)) by (exists x; exact Hx). apply Hdom in Htr as (vl & Hvl).
  destruct (wrun_inv lhs w0 n cs H0 Hc Hp ltac:(lia)) as (w2 & d0 & E2 & Hi). assert (w2 = w) as -> by congruence.
  destruct (candidates_inv w0 n d0 _ w y ltac:(apply Hc) Hi Hl Hy) as (cy2 & Ey2 & Hd & Ek). assert (cy2 = cy) as -> by congruence.
  destruct (biggest_winner cy) as (v & Hv & Hmax); [intros k' v' Hk'; exact (degrees_nonneg w0 _ cy k' v' Hd Hk')|intros ->; rewrite lookup_empty in Hvl; discriminate|].
  exists cy, (getBiggestCandidate cy), v. split; [exact Ey|]. split; [unfold wisard_classify; cbn [rmapM]; rewrite Ek; reflexivity|]. split; [exact Hv|].
  rewrite Hvl. change (default 0 (Some vl)) with vl. specialize (Hr l _ _ Hfull Hvl). unfold reach in Hr. rewrite Hm, lookup_empty in Hr. split; [lia|]. destruct (Hmax l vl Hvl) as [Hlt|[Heq _]]; lia.
Qed.
Print Assumptions C160_generalises.
(** Not vacuous: w1 = 1100 and 0100 differ in one pixel; the count of hot drops from 2 RAMs to 1. *)
Definition quiet : wisard := Wisard 2 false false ∅ [0; 1; 2; 3] false true 2 false false false false 1 ∅.
Definition lessons : list wcall := [CTrain env0 [w1; w2] [hot; cold]].
Example C160_witness : configured quiet 4 /\ Forall (proper_call quiet 4) lessons /\ training_only lessons /\ (hot, Train w1) ∈ all_examples lessons /\
  plain_image 2 4 (vec_image [0; 1; 0; 0]) /\ differing 4 w1 (vec_image [0; 1; 0; 0]) = [0] /\ spare quiet 4 = 0 /\ rams_per_label quiet 4 = 2 /\
  match wisard_candidates (snd (wrun true quiet lessons)) (vec_image [0; 1; 0; 0]) with Ok c => c !! hot = Some 1 | _ => False end.
Proof.
  split; [repeat split; vm_compute; congruence|]. split.
  { constructor; [|constructor]. destruct w_plain as (H1 & H2 & H3). split; [cbn; repeat (apply Forall_cons; split; [cbn; assumption|]); apply Forall_nil; exact I|]. split; [discriminate|]. split; [reflexivity|].
    split; [|intros l; apply some_draw_valid]. repeat (apply Forall_cons; split; [exact (cfg_learns hot)|]). apply Forall_nil; exact I. }
  split; [repeat constructor|]. split; [left|]. split; [apply plain4; unfold is_bit; auto|]. split; [reflexivity|]. split; [reflexivity|]. split; [reflexivity|]. vm_compute. reflexivity.
Qed.
(** With completeAddressing 5 pixels in RAMs of 2 leave one spare RAM input. *)
Example C160_spare : spare (Wisard 2 false false ∅ [] false true 2 false false false false 1 ∅) 5 = 1.
Proof. reflexivity. Qed.
