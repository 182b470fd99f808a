(** Lemmas for C137: seeing the same examples again. *)
From Verif Require Import Prelude Bytes Utils BinInput Bleaching Ram Disc DataSet Wisard SpecDisc SpecBleach SpecWisard.
From Verif Require Import BytesProofs UtilsProofs TextProofs BleachProofs CtorFacts RamProofs DiscProofs DiscFacts WisardProofs WisardFacts WisardMore Recall.

(** k copies of a list. *)
Definition copies {A} (k : nat) (l : list A) : list A := List.concat (repeat l k).
Definition scaled (k : Z) (votes : gmap str (list Z)) : gmap str (list Z) := (fun vs : list Z => Z.mul k <$> vs) <$> votes.

Lemma tally_scaled (k b : Z) (votes : list Z) : 1 <= k -> tally b (Z.mul k <$> votes) = tally ((b + k - 1) / k) votes.
Proof.
  intros Hk. unfold tally, count_if. induction votes as [|v vs IH]; [reflexivity|]. rewrite fmap_cons, !filter_cons.
  assert (E : (b <=? k * v) = ((b + k - 1) / k <=? v)).
  { apply Bool.eq_true_iff_eq. rewrite !Z.leb_le. split; intros H.
    - assert ((b + k - 1) / k < v + 1); [|lia]. apply Z.div_lt_upper_bound; lia.
    - pose proof (Z_div_mod_eq_full (b + k - 1) k). pose proof (Z.mod_pos_bound (b + k - 1) k ltac:(lia)). nia. }
  rewrite E. case_decide; rewrite ?len_cons; lia.
Qed.
Lemma tallies_scaled k b votes : 1 <= k -> tallies b (scaled k votes) = tallies ((b + k - 1) / k) votes.
Proof.
  intros Hk. unfold tallies, scaled. apply map_eq. intros l. rewrite !lookup_fmap. destruct (votes !! l); [|reflexivity]. cbn. f_equal. apply tally_scaled, Hk.
Qed.
Lemma bleached_scaled k c votes out : 1 <= k -> bleached c votes out -> bleached c (scaled k votes) out.
Proof.
  intros Hk (b & Hb & Eo & Hs & Hmin). exists (k * (b - 1) + 1). split; [nia|]. split; [|split; [exact Hs|]].
  - rewrite tallies_scaled by exact Hk. rewrite Eo. f_equal. replace (k * (b - 1) + 1 + k - 1) with (b * k) by lia. rewrite Z.div_mul by lia. reflexivity.
  - intros b' Hb'. rewrite tallies_scaled by exact Hk. apply Hmin. split; [apply Z.div_le_lower_bound; lia|apply Z.div_lt_upper_bound; lia].
Qed.
Lemma degrees_scaled w k votes cand : 1 <= k -> degrees_owed w votes cand -> degrees_owed w (scaled k votes) cand.
Proof.
  intros Hk. unfold degrees_owed. destruct (w_bleachingActivated w); [apply bleached_scaled, Hk|]. intros ->. rewrite tallies_scaled by exact Hk.
  f_equal. replace (1 + k - 1) with (1 * k) by lia. rewrite Z.div_mul by lia. reflexivity.
Qed.
Lemma degrees_unique w votes c1 c2 : degrees_owed w votes c1 -> degrees_owed w votes c2 -> c1 = c2.
Proof. unfold degrees_owed. destruct (w_bleachingActivated w); [apply bleach_unique|congruence]. Qed.

(** What a reachable Wisard computes for a plain image. *)
Lemma candidates_inv w0 n d0 es w x : 0 <= n <= INT_MAX -> winv w0 n d0 es w -> len es <= INT_MAX - 2 -> plain_image (w_base w0) n x ->
  exists cand, wisard_candidates w x = Ok cand /\ degrees_owed w0 (votes_owed d0 es x) cand /\ wisard_classify1 w x = Ok (getBiggestCandidate cand).
Proof.
  intros Hn Hinv Hl Hx. unfold wisard_classify1, wisard_candidates. rewrite (all_votes_inv w0 n d0 es w x Hn Hinv Hx). cbn [rbind].
  destruct (candidates_owed w (votes_owed d0 es x)) as (cand & -> & Hd); [intros _; apply votes_owed_below; lia|].
  cbn [rbind]. eexists. split; [reflexivity|]. split; [|reflexivity]. destruct Hinv as [Hw _]; rewrite Hw in Hd; exact Hd.
Qed.

Lemma count_copies {A} (P : A -> bool) k l : count_if P (copies k l) = Z.of_nat k * count_if P l.
Proof. unfold copies. induction k as [|k IH]; [reflexivity|]. cbn [repeat List.concat]. rewrite count_if_app, IH. lia. Qed.
Lemma copies_elem {A} k (l : list A) x : x ∈ copies k l -> x ∈ l.
Proof. unfold copies. induction k as [|k IH]; [inversion 1|]. cbn [repeat List.concat]. rewrite elem_of_app. tauto. Qed.
Lemma of_label_app l es es' : of_label l (es ++ es') = of_label l es ++ of_label l es'.
Proof. unfold of_label. rewrite filter_app, fmap_app. reflexivity. Qed.
Lemma of_label_copies l k es : of_label l (copies k es) = copies k (of_label l es).
Proof. unfold copies. induction k as [|k IH]; [reflexivity|]. cbn [repeat List.concat]. rewrite of_label_app, IH. reflexivity. Qed.
Lemma fmap_copies {A B} (f : A -> B) k (l : list A) : f <$> copies k l = copies k (f <$> l).
Proof. unfold copies. induction k as [|k IH]; [reflexivity|]. cbn [repeat List.concat]. rewrite fmap_app, IH. reflexivity. Qed.

Lemma votes_copies d0 es ps k x : Forall is_train es -> ps ≡ₚ copies k es -> votes_owed d0 (es ++ ps) x = scaled (Z.of_nat k + 1) (votes_owed d0 es x).
Proof.
  intros He Hps. apply map_eq. intros l. unfold scaled. rewrite lookup_fmap, !owed_lookup. destruct (d0 !! l) as [d|]; [|reflexivity]. cbn. f_equal.
  rewrite <- list_fmap_compose. apply list_fmap_ext. intros i r _. unfold compose.
  assert (Hp : Forall is_train ps). { rewrite Hps. apply Forall_forall. intros e Hin. apply copies_elem in Hin. rewrite Forall_forall in He. apply He, Hin. }
  rewrite !history_trains by (try apply Forall_app; auto). rewrite of_label_app.
  destruct (of_label_trains l es He) as (xs & Ex). destruct (of_label_trains l ps Hp) as (ys & Ey). rewrite Ex, Ey, <- fmap_app.
  unfold vote_due. destruct (_ && _); [lia|]. rewrite !trains_vote, count_if_app.
  assert (Hys : ys ≡ₚ copies k xs). { apply Train_perm. rewrite <- Ey, fmap_copies, <- Ex, <- of_label_copies. apply of_label_perm, Hps. }
  rewrite (count_if_perm _ _ _ Hys), count_copies. lia.
Qed.

Lemma repeated lhs lhs' w0 n cs cs' k w w' : w_discriminators w0 = ∅ -> configured w0 n -> Forall (proper_call w0 n) cs -> Forall (proper_call w0 n) cs' ->
  training_only cs -> training_only cs' -> all_examples cs' ≡ₚ copies k (all_examples cs) -> len (all_examples cs) + len (all_examples cs') <= INT_MAX - 2 ->
  wrun lhs w0 cs = (Ok tt, w) -> wrun lhs' w cs' = (Ok tt, w') ->
  forall x, plain_image (w_base w0) n x -> exists cand, wisard_candidates w x = Ok cand /\ wisard_candidates w' x = Ok cand.
Proof.
  intros H0 Hc Hp Hp' Ht Ht' Hcp Hmax E E' x Hx. pose proof (len_nonneg (all_examples cs)). pose proof (len_nonneg (all_examples cs')).
  destruct (wrun_inv lhs w0 n cs H0 Hc Hp ltac:(lia)) as (w1 & d0 & E1 & Hi). rewrite E in E1. injection E1 as <-.
  destruct (wrun_inv_gen lhs' w0 n cs' d0 _ w Hc Hi Hp' ltac:(lia)) as (w2 & d1 & E2 & Hi2 & Hs). rewrite E' in E2. injection E2 as <-.
  assert (Hes : Forall is_train (all_examples cs)) by (apply training_examples, Ht).
  assert (d1 = d0) as ->.
  { apply map_eq. intros l. destruct (d0 !! l) as [d|] eqn:Ed; [eapply lookup_weaken; eassumption|]. destruct (d1 !! l) as [d|] eqn:Ed1; [|reflexivity]. exfalso.
    destruct Hi as [_ Hi]. destruct Hi2 as [_ Hi2]. specialize (Hi l). specialize (Hi2 l). rewrite Ed in Hi. rewrite Ed1 in Hi2. unfold label_inv in *.
    destruct (w_discriminators w !! l); [contradiction|]. destruct (w_discriminators w' !! l); [|contradiction]. destruct Hi2 as (Hh & _). apply Hh.
    rewrite history_trains in Hi by exact Hes. rewrite history_trains by (apply Forall_app; split; [exact Hes|apply training_examples, Ht']).
    rewrite of_label_app, Hi. cbn [app]. apply Permutation_nil. symmetry. etransitivity; [apply of_label_perm, Hcp|]. rewrite of_label_copies, Hi. clear. induction k; auto. }
  destruct Hc as (Hn & _). destruct (candidates_inv w0 n d0 _ w x Hn Hi ltac:(lia) Hx) as (cand & Ec & Hd & _). exists cand. split; [exact Ec|].
  destruct (candidates_inv w0 n d0 _ w' x Hn Hi2 ltac:(rewrite len_app; lia) Hx) as (cand' & -> & Hd' & _). f_equal.
  rewrite (votes_copies d0 _ _ k x Hes Hcp) in Hd'. eapply degrees_unique; [exact Hd'|]. apply degrees_scaled; [lia|exact Hd].
Qed.
