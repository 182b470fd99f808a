(** Property theorems C167: among labels wired alike, the one with more examples gets more votes. *)
From Verif Require Import Prelude Bytes Utils BinInput Bleaching Ram Disc DataSet Wisard SpecDisc SpecBleach SpecWisard.
From Verif Require Import UtilsProofs TextProofs BinProofs BleachProofs DiscProofs DiscFacts CtorFacts WisardProofs WisardFacts Recall PropsWisard PropsPipeline.

(** The two labels watch the same pixels: the same mapping is given for both, or none for either and
    the order of the pixels (indexes) is given. *)
Definition wired_alike (w : wisard) (A B : str) : Prop :=
  w_mapping w !! A = w_mapping w !! B /\ (is_Some (w_mapping w !! A) \/ w_indexes w <> []).

Lemma count_if_sub {A} (P : A -> bool) (xs ys : list A) : xs ⊆+ ys -> count_if P xs <= count_if P ys.
Proof.
  unfold count_if. induction 1 as [|x l1 l2 _ IH|x y l|x l1 l2 _ IH|l1 l2 l3 _ IH1 _ IH2].
  - apply Z.le_refl.
  - rewrite !filter_cons. destruct (decide _); [rewrite !len_cons; lia|exact IH].
  - rewrite !filter_cons. destruct (decide (P x = true)), (decide (P y = true)); apply Z.le_refl.
  - rewrite filter_cons. destruct (decide _); [rewrite len_cons; lia|exact IH].
  - lia.
Qed.
Lemma vote_sub r xs ys x : xs ⊆+ ys -> vote_due r (Train <$> xs) x <= vote_due r (Train <$> ys) x.
Proof. intros H. unfold vote_due. destruct (_ && _); [lia|]. rewrite !trains_vote. apply count_if_sub, H. Qed.
Lemma tally_sub b (us vs : list Z) : Forall2 Z.le us vs -> tally b us <= tally b vs.
Proof.
  unfold tally, count_if. induction 1 as [|u v us vs Huv _ IH]; [apply Z.le_refl|]. rewrite !filter_cons.
  destruct (decide ((b <=? u) = true)), (decide ((b <=? v) = true)); rewrite ?len_cons; lia.
Qed.
Lemma built_alike w n A B d d' : wired_alike w A B -> built w n A d -> built w n B d' -> d = d'.
Proof.
  intros (E & Hf) Hd (dr & Hv & Hd'). apply (built_fixed w n A d d'); [exact Hf|exact Hd|]. exists dr. split; [exact Hv|].
  rewrite <- Hd'. unfold construct_discriminator. rewrite E. reflexivity.
Qed.

(** C167: from an untrained Wisard, after any sequence of trainings: if A and B are wired alike and
    every example of B was shown for A too (as often, at least), then whatever the image, A has at
    least the votes of B when the answer is chosen, and B is the answer only if they have the same
    number and A does not come later in lexicographic order. *)
Theorem C167_more_examples : forall lhs_first w0 n cs A B,
  w_discriminators w0 = ∅ -> configured w0 n -> Forall (proper_call w0 n) cs -> training_only cs -> len (all_examples cs) <= INT_MAX - 2 ->
  wired_alike w0 A B -> images_of B (all_examples cs) <> [] -> images_of B (all_examples cs) ⊆+ images_of A (all_examples cs) ->
  exists w, wrun lhs_first w0 cs = (Ok tt, w) /\
    forall x, plain_image (w_base w0) n x ->
      exists cand a b k, wisard_candidates w x = Ok cand /\ cand !! A = Some a /\ cand !! B = Some b /\ b <= a /\
        wisard_classify w [x] = Ok [k] /\ (k = B -> a = b /\ str_le A B).
Proof.
  intros lhs w0 n cs A B H0 Hc Hp Ht Hl Hw Hne Hsub. destruct (wrun_inv lhs w0 n cs H0 Hc Hp ltac:(lia)) as (w & d0 & E & Hi).
  exists w. split; [exact E|]. intros x Hx. pose proof (training_examples cs Ht) as Hes. set (es := all_examples cs) in *.
  assert (Hlab : forall l, images_of l es <> [] -> exists d, d0 !! l = Some d /\ built w0 n l d).
  { intros l Hn. assert (Hh : history l es <> []) by (rewrite history_trains, images_of_trains by exact Hes; destruct (images_of l es); [contradiction|discriminate]).
    destruct Hi as [_ Hi]. specialize (Hi l). unfold label_inv in Hi. destruct (d0 !! l) as [d|], (w_discriminators w !! l); try contradiction. exists d. split; [reflexivity|]. apply Hi. }
  destruct (Hlab B Hne) as (d & EB & HB). destruct (Hlab A) as (d' & EA & HA).
  { intros K. rewrite K in Hsub. apply submseteq_nil_r in Hsub. contradiction. }
  rewrite (built_alike w0 n A B d' d Hw HA HB) in EA. clear HA d'.
  destruct Hc as (Hn & _). pose proof (all_votes_inv w0 n d0 es w x Hn Hi Hx) as Ev.
  destruct (candidates_owed w (votes_owed d0 es x)) as (cand & Ec & Hd); [intros _; apply votes_owed_below; lia|].
  destruct (degrees_keys _ _ _ Hd) as (t & Hct).
  pose proof (owed_lookup d0 es x A) as LA. pose proof (owed_lookup d0 es x B) as LB. rewrite EA in LA. rewrite EB in LB. cbn [fmap option_fmap option_map] in LA, LB.
  set (va := (fun r => vote_due r (history A es) x) <$> d_rams d) in *. set (vb := (fun r => vote_due r (history B es) x) <$> d_rams d) in *.
  assert (Hab : tally t vb <= tally t va).
  { apply tally_sub. unfold va, vb. rewrite !history_trains, !images_of_trains by exact Hes. apply Forall2_fmap, Forall_Forall2_diag, Forall_true. intros r. apply vote_sub, Hsub. }
  assert (CA : cand !! A = Some (tally t va)) by (rewrite Hct; unfold tallies; rewrite lookup_fmap, LA; reflexivity).
  assert (CB : cand !! B = Some (tally t vb)) by (rewrite Hct; unfold tallies; rewrite lookup_fmap, LB; reflexivity).
  assert (EC : wisard_candidates w x = Ok cand) by (unfold wisard_candidates; rewrite Ev; exact Ec).
  exists cand, (tally t va), (tally t vb), (getBiggestCandidate cand). split; [exact EC|]. split; [exact CA|]. split; [exact CB|]. split; [exact Hab|].
  split; [unfold wisard_classify; cbn [rmapM]; unfold wisard_classify1; rewrite EC; reflexivity|].
  intros K. destruct (biggest_winner cand) as (v & Hv & Hbig); [intros k v; eapply degrees_nonneg, Hd|intros K'; rewrite K', lookup_empty in CA; discriminate|].
  rewrite K in Hv. rewrite CB in Hv. injection Hv as <-. destruct (Hbig _ _ CA) as [Hlt|[Heq Hle]]; [lia|]. rewrite K in Hle. split; [exact Heq|exact Hle].
Qed.
Print Assumptions C167_more_examples.

(** Corollary: labels wired alike with the same examples always have the same votes. *)
Theorem C167_same_examples : forall lhs_first w0 n cs A B,
  w_discriminators w0 = ∅ -> configured w0 n -> Forall (proper_call w0 n) cs -> training_only cs -> len (all_examples cs) <= INT_MAX - 2 ->
  wired_alike w0 A B -> images_of A (all_examples cs) <> [] -> images_of A (all_examples cs) ≡ₚ images_of B (all_examples cs) ->
  exists w, wrun lhs_first w0 cs = (Ok tt, w) /\
    forall x, plain_image (w_base w0) n x -> exists cand a, wisard_candidates w x = Ok cand /\ cand !! A = Some a /\ cand !! B = Some a.
Proof.
  intros lhs w0 n cs A B H0 Hc Hp Ht Hl (Hm & Hf) Hne Heq.
  destruct (C167_more_examples lhs w0 n cs A B H0 Hc Hp Ht Hl) as (w & E & H); [split; assumption|intros K; rewrite K in Heq; apply Permutation_nil_r in Heq; contradiction|rewrite Heq; reflexivity|].
  destruct (C167_more_examples lhs w0 n cs B A H0 Hc Hp Ht Hl) as (w' & E' & H'); [split; [congruence|rewrite <- Hm; exact Hf]|exact Hne|rewrite Heq; reflexivity|].
  exists w. split; [exact E|]. assert (w' = w) as -> by congruence. intros x Hx.
  destruct (H x Hx) as (cand & a & b & _ & Ec & Ea & Eb & Hab & _). destruct (H' x Hx) as (cand' & b' & a' & _ & Ec' & Eb' & Ea' & Hab' & _).
  assert (cand' = cand) as -> by congruence. rewrite Ea in Ea'. rewrite Eb in Eb'. injection Ea' as <-. injection Eb' as <-.
  exists cand, a. split; [exact Ec|]. split; [exact Ea|]. replace a with b by lia. exact Eb.
Qed.
Print Assumptions C167_same_examples.
Definition two_days : list wcall := [CTrain env0 [w1; w2] [hot; cold]; CTrain env0 [w3; w1] [hot; lit "mild"]].
Ltac proper_days := destruct w_plain as (H1 & H2 & H3); split; [cbn; repeat (apply Forall_cons; split; [cbn; assumption|]); apply Forall_nil; exact I|];
  split; [discriminate|]; split; [reflexivity|]; split; [repeat (apply Forall_cons; split; [apply cfg_learns|]); apply Forall_nil; exact I|intros l; apply some_draw_valid].
(** mild knows one of the two images of hot: bleaching settles w1 for hot. *)
Example C167_witness : configured cfg 4 /\ wired_alike cfg hot (lit "mild") /\ Forall (proper_call cfg 4) two_days /\ training_only two_days /\
  images_of (lit "mild") (all_examples two_days) ⊆+ images_of hot (all_examples two_days) /\
  rmap sorted_items (wisard_candidates (snd (wrun true cfg two_days)) w1) = Ok [(cold, 0); (hot, 1); (lit "mild", 0)] /\
  rmap sorted_items (wisard_candidates (snd (wrun true cfg two_days)) w3) = Ok [(cold, 0); (hot, 2); (lit "mild", 1)] /\
  wisard_classify (snd (wrun true cfg two_days)) [w1; w3; w2] = Ok [hot; hot; cold].
Proof.
  split; [apply cfg_configured|]. split; [split; [reflexivity|right; discriminate]|].
  split; [repeat (apply Forall_cons; split; [proper_days|]); apply Forall_nil; exact I|]. split; [repeat constructor|].
  split; [cbn; apply submseteq_skip, submseteq_nil_l|]. vm_compute. repeat split.
Qed.
Print Assumptions C167_witness.
