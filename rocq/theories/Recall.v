(** Lemmas for C136-C138: a Wisard recalls its training images, repeats change nothing. *)
From Verif Require Import Prelude Bytes Utils BinInput Bleaching Ram Disc DataSet Wisard SpecDisc SpecBleach SpecWisard.
From Verif Require Import BytesProofs UtilsProofs TextProofs BleachProofs DiscCtorProofs CtorFacts RamProofs DiscProofs DiscFacts WisardProofs WisardFacts WisardMore.

(** Every pixel of an image of n pixels is read by some RAM of the default or index wiring. *)
Definition whole_image_wired (w : wisard) (n : Z) : Prop :=
  (w_indexes w = [] /\ w_completeAddressing w = true) \/ n mod w_addressSize w = 0.
(** The number of RAMs per label without a mapping. *)
Definition rams_per_label (w : wisard) (n : Z) : Z :=
  if decide (w_indexes w = []) then ram_count n (w_addressSize w) (w_completeAddressing w) else n / w_addressSize w.

Lemma built_layout w n l d : configured w n -> can_learn w n l -> built w n l d ->
  Forall (fun r => r_ignoreZero r = w_ignoreZero w) (d_rams d) /\
  (w_mapping w !! l = None -> len (d_rams d) = rams_per_label w n /\ (whole_image_wired w n -> forall p, 0 <= p < n -> Exists (fun r => p ∈ r_addresses r) (d_rams d))).
Proof.
  intros ((Hn0 & Hn) & Hb & Ha & _) Hl (dr & Hdr & E). unfold can_learn in Hl. unfold construct_discriminator in E.
  destruct (w_mapping w !! l) as [m|].
  - rewrite setRAMByMapping_ok in E; auto.
    + injection E as <-. cbn [d_rams]. split; [|discriminate]. unfold rams_map. apply Forall_fmap, Forall_true. reflexivity.
    + eapply Forall_impl; [exact Hl|]; cbn; tauto.
    + eapply Forall_impl; [exact Hl|]. intros addrs (_ & H & _). apply fits_width, H.
  - destruct Hl as (Han & Hsum & Hf & Hix). unfold rams_per_label, whole_image_wired. destruct (negb (Nat.eqb (length (w_indexes w)) 0)) eqn:E0.
    + assert (Hne : w_indexes w <> []) by (destruct (w_indexes w); [discriminate|congruence]).
      destruct Hix as [Hix|Hix]; [congruence|].
      assert (Hlen : len (w_indexes w) = n).
      { unfold len. rewrite (Permutation_length Hix), fmap_length, seq_length. lia. }
      destruct (index_layout dr (w_addressSize w) n (w_ignoreZero w) true (w_indexes w) (w_base w) Hne ltac:(lia) Han Hb Hf Hix)
        as (d' & Hd & He & Hc & Hk & Hr).
      unfold disc_new in Hd. cbn [length Nat.eqb] in Hd. rewrite E0 in Hd. cbn [negb] in Hd. assert (d' = d) as -> by congruence.
      split; [apply Forall_forall; intros r Hir; apply elem_of_list_lookup in Hir as (k & Hir); apply (Hr k r Hir)|].
      intros _. rewrite decide_False by exact Hne. split; [exact Hk|]. intros [[? _]|Hm]; [congruence|]. intros p Hp.
      assert (Hpi : p ∈ w_indexes w). { rewrite Hix. apply elem_of_list_fmap. exists (Z.to_nat p). split; [lia|]. apply elem_of_seq. lia. }
      apply elem_of_list_lookup in Hpi as (i & Hi). pose proof (lookup_lt_Some _ _ _ Hi) as Hlt. unfold len in Hlen.
      set (a := w_addressSize w) in *. assert (Hdm : n = a * (n / a)) by (pose proof (Z_div_mod_eq_full n a); lia).
      assert (Hik : (Z.to_nat (Z.of_nat i / a) < length (d_rams d))%nat).
      { unfold len in Hk. assert (Z.of_nat i / a < n / a); [|pose proof (Z.div_pos (Z.of_nat i) a); lia]. apply Z.div_lt_upper_bound; [lia|]. lia. }
      apply lookup_lt_is_Some_2 in Hik as (r & Hrk). apply Exists_exists. exists r. split; [eapply elem_of_list_lookup_2; exact Hrk|].
      destruct (Hr _ _ Hrk) as (_ & _ & _ & _ & H5). pose proof (Z.mod_pos_bound (Z.of_nat i) a ltac:(lia)) as Hmb.
      specialize (H5 (Z.to_nat (Z.of_nat i mod a)) ltac:(lia)). eapply elem_of_list_lookup_2. rewrite H5.
      replace (_ + _)%nat with i; [exact Hi|]. pose proof (Z.div_pos (Z.of_nat i) a ltac:(lia) ltac:(lia)). pose proof (Z_div_mod_eq_full (Z.of_nat i) a). nia.
    + assert (He0 : w_indexes w = []) by (destruct (w_indexes w); [reflexivity|discriminate]).
      destruct (shuffle_layout dr (w_addressSize w) n (w_ignoreZero w) (w_completeAddressing w) (w_base w) Hdr Han Hb Hsum Hf)
        as (d' & Hd & He & Hc & Hk & Hr & Hw & _).
      unfold disc_new in Hd. cbn [length Nat.eqb negb] in Hd. assert (d' = d) as -> by congruence.
      split; [eapply Forall_impl; [exact Hr|]; intros r Hx; apply Hx|]. intros _. rewrite decide_True by exact He0.
      split; [exact Hk|]. intros Hww. apply Hw. destruct Hww as [[_ ?]|?]; auto.
Qed.

Lemma trained_learns w n cs l : Forall (proper_call w n) cs -> trained l (all_examples cs) -> can_learn w n l.
Proof.
  intros Hp (x & Hx). unfold all_examples in Hx. apply elem_of_list_In, in_concat in Hx as (es & Hes & Hx). apply elem_of_list_In in Hes, Hx.
  apply elem_of_list_fmap in Hes as (c & -> & Hc). rewrite Forall_forall in Hp. destruct (Hp c Hc) as (_ & Hpc). destruct c as [env images labels|im lab|images labels].
  - destruct Hpc as (_ & _ & Hl & _). rewrite Forall_forall in Hl. apply Hl. cbn [examples] in Hx. eapply elem_of_zip_l. exact Hx.
  - cbn [examples] in Hx. apply elem_of_list_singleton in Hx. discriminate.
  - cbn [examples] in Hx. apply elem_of_zip_r, elem_of_list_fmap in Hx as (? & ? & _). discriminate.
Qed.
Lemma history_trains l es : Forall is_train es -> history l es = of_label l es.
Proof. intros H. change es with ([] ++ es) at 1. rewrite history_app_trains by exact H. reflexivity. Qed.
Lemma of_label_elem l es o : o ∈ of_label l es <-> (l, o) ∈ es.
Proof.
  unfold of_label. rewrite elem_of_list_fmap. split.
  - intros ([k o'] & -> & H). apply elem_of_list_filter in H as [E H]. cbn in E. subst k. exact H.
  - intros H. exists (l, o). split; [reflexivity|]. apply elem_of_list_filter. auto.
Qed.

(** The vote of a RAM for an image, over training images only. *)
Lemma trains_vote addrs x xs : trainings addrs x (Train <$> xs) - effective_untrainings addrs x (Train <$> xs) = count_if (fun y => bool_decide (agree addrs x y)) xs.
Proof.
  assert (E1 : trainings addrs x (Train <$> xs) = count_if (fun y => bool_decide (agree addrs x y)) xs).
  { unfold trainings, count_if. induction xs as [|y xs IH]; [reflexivity|]. rewrite fmap_cons, !filter_cons. repeat case_decide; try contradiction; rewrite ?len_cons; lia. }
  assert (E0 : forall zs, count_if (fun o => match o with Train _ => false | Untrain z => bool_decide (agree addrs x z) end) (Train <$> zs) = 0).
  { intros zs. unfold count_if. replace (filter _ _) with (@nil dop); [reflexivity|]. symmetry. induction zs as [|z zs IHz]; [reflexivity|].
    rewrite fmap_cons, filter_cons. case_decide as H; [discriminate|exact IHz]. }
  assert (E2 : effective_untrainings addrs x (Train <$> xs) = 0).
  { clear E1. induction xs as [|y xs IH]; [reflexivity|]. rewrite fmap_cons. cbn [effective_untrainings]. case_decide; [apply E0|exact IH]. }
  lia.
Qed.
Lemma count_if_pos {A} (P : A -> bool) l : 1 <= count_if P l <-> exists x, x ∈ l /\ P x = true.
Proof.
  unfold count_if, len. split.
  - intros H. destruct (filter (fun x => P x = true) l) as [|x r] eqn:E; [cbn in H; lia|]. exists x.
    assert (Hx : x ∈ filter (fun x => P x = true) l) by (rewrite E; left). apply elem_of_list_filter in Hx. tauto.
  - intros (x & Hx & Px). assert (Hin : x ∈ filter (fun x => P x = true) l) by (apply elem_of_list_filter; auto).
    destruct (filter (fun x => P x = true) l); [inversion Hin|cbn; lia].
Qed.
Lemma vote_seen r x xs : r_ignoreZero r = false -> 1 <= vote_due r (Train <$> xs) x <-> exists y, y ∈ xs /\ agree (r_addresses r) x y.
Proof.
  intros H. unfold vote_due. rewrite H. cbn [andb]. rewrite trains_vote, count_if_pos. split.
  - intros (y & Hy & Hb). exists y. split; [exact Hy|]. apply bool_decide_eq_true in Hb. exact Hb.
  - intros (y & Hy & Hb). exists y. split; [exact Hy|]. apply bool_decide_eq_true. exact Hb.
Qed.
Lemma tally_full votes : Forall (fun v => 1 <= v) votes -> tally 1 votes = len votes.
Proof.
  unfold tally, count_if. induction 1 as [|v vs Hv _ IH]; [reflexivity|]. rewrite filter_cons, decide_True by (apply Z.leb_le, Hv). rewrite !len_cons, IH. reflexivity.
Qed.
Lemma tally_le b votes : tally b votes <= len votes.
Proof. unfold tally. apply count_if_range. Qed.
Lemma tally_short b votes : Exists (fun v => v < b) votes -> tally b votes < len votes.
Proof.
  unfold tally, count_if. induction 1 as [v vs Hv|v vs _ IH].
  - rewrite filter_cons, decide_False by (intros H; apply Z.leb_le in H; lia). rewrite len_cons. pose proof (tally_le b vs). unfold tally, count_if in *. lia.
  - rewrite filter_cons. case_decide; rewrite !len_cons; lia.
Qed.

(** Agreement over a history. *)
Definition unseen (d : disc) (es : list (str * dop)) (l : str) (x : image) : Prop :=
  Exists (fun r => forall y, (l, Train y) ∈ es -> ~ agree (r_addresses r) x y) (d_rams d).

Lemma owed_lookup d0 es x l : votes_owed d0 es x !! l = (fun d => (fun r => vote_due r (history l es) x) <$> d_rams d) <$> d0 !! l.
Proof. unfold votes_owed. rewrite map_lookup_imap. destruct (d0 !! l); reflexivity. Qed.

Section recall.
Context (lhs : bool) (w0 : wisard) (n : Z) (cs : list wcall) (w : wisard) (d0 : gmap str disc).
Context (Hc : configured w0 n) (Hp : Forall (proper_call w0 n) cs) (Ht : training_only cs) (Hiz : w_ignoreZero w0 = false).
Context (Hi : winv w0 n d0 (all_examples cs) w).
Let es := all_examples cs.

Lemma d0_label l d : d0 !! l = Some d -> trained l es /\ built w0 n l d /\ Forall (fun r => r_ignoreZero r = false) (d_rams d).
Proof using Hc Hp Hiz Hi.
  intros E. destruct Hi as [_ H]. specialize (H l). rewrite E in H. unfold label_inv in H. destruct (w_discriminators w !! l); [|contradiction].
  destruct H as (Hh & Hb & _). assert (Htr : trained l es) by (apply history_trained; exact Hh). split; [exact Htr|]. split; [exact Hb|].
  rewrite <- Hiz. eapply built_layout; [exact Hc| |exact Hb]. eapply trained_learns; eassumption.
Qed.
Lemma d0_trained l : trained l es -> exists d, d0 !! l = Some d.
Proof using Hi.
  intros Htr. apply history_trained in Htr. destruct Hi as [_ H]. specialize (H l). unfold label_inv in H. fold es in H.
  destruct (d0 !! l), (w_discriminators w !! l); try contradiction; eauto.
Qed.
Lemma recall_full l x d : (l, Train x) ∈ es -> d0 !! l = Some d -> tallies 1 (votes_owed d0 es x) !! l = Some (len (d_rams d)).
Proof using Hc Hp Ht Hiz Hi.
  intros Hx Hd. unfold tallies. rewrite lookup_fmap, owed_lookup, Hd. cbn. f_equal. destruct (d0_label l d Hd) as (_ & _ & Hz).
  rewrite tally_full; [unfold len; rewrite fmap_length; reflexivity|]. apply Forall_fmap. eapply Forall_impl; [exact Hz|]. intros r Hr. unfold compose.
  assert (Hes : Forall is_train es) by (apply training_examples, Ht). rewrite history_trains by exact Hes. destruct (of_label_trains l es Hes) as (xs & Exs). rewrite Exs.
  apply vote_seen; [exact Hr|]. exists x. split; [|apply Forall_true; reflexivity].
  assert (Train x ∈ of_label l es) as Ho by (apply of_label_elem, Hx). rewrite Exs in Ho. apply elem_of_list_fmap in Ho as (y & [= <-] & Hy). exact Hy.
Qed.
Lemma recall_other l x d v : d0 !! l = Some d -> tallies 1 (votes_owed d0 es x) !! l = Some v -> v <= len (d_rams d) /\ (unseen d es l x -> v < len (d_rams d)).
Proof using Hc Hp Ht Hiz Hi.
  intros Hd Hv. unfold tallies in Hv. rewrite lookup_fmap, owed_lookup, Hd in Hv. cbn in Hv. injection Hv as <-.
  set (vs := (fun r : ram => vote_due r (history l es) x) <$> d_rams d). assert (El : len (d_rams d) = len vs) by (unfold vs, len; rewrite fmap_length; reflexivity). rewrite El.
  split; [apply tally_le|]. intros Hu. apply tally_short. apply Exists_fmap. destruct (d0_label l d Hd) as (_ & _ & Hz). rewrite Forall_forall in Hz.
  apply Exists_exists in Hu as (r & Hr & Hu). apply Exists_exists. exists r. split; [exact Hr|]. unfold compose.
  assert (Hes : Forall is_train es) by (apply training_examples, Ht). rewrite history_trains by exact Hes. destruct (of_label_trains l es Hes) as (xs & Exs). rewrite Exs.
  destruct (Z.lt_ge_cases (vote_due r (Train <$> xs) x) 1) as [Hlt|Hge]; [exact Hlt|]. exfalso. apply vote_seen in Hge as (y & Hy & Ha); [|apply Hz, Hr].
  apply (Hu y); [|exact Ha]. apply of_label_elem. rewrite Exs. apply elem_of_list_fmap. eauto.
Qed.
Lemma same_size l d : w_mapping w0 = ∅ -> d0 !! l = Some d -> len (d_rams d) = rams_per_label w0 n.
Proof using Hc Hp Hiz Hi.
  intros Hm Hd. destruct (d0_label l d Hd) as (Htr & Hb & _). apply (built_layout w0 n l d Hc (trained_learns _ _ _ _ Hp Htr) Hb). rewrite Hm. apply lookup_empty.
Qed.
(** The full count is the highest one. *)
Lemma recall_highest l x : w_mapping w0 = ∅ -> (l, Train x) ∈ es ->
  tallies 1 (votes_owed d0 es x) !! l = Some (rams_per_label w0 n) /\ bounded_by (tallies 1 (votes_owed d0 es x)) (rams_per_label w0 n).
Proof using Hc Hp Ht Hiz Hi.
  intros Hm Hx. destruct (d0_trained l) as (d & Hd); [exists x; exact Hx|]. split; [rewrite <- (same_size l d Hm Hd); apply recall_full; assumption|].
  intros k v Hv. destruct (d0 !! k) as [dk|] eqn:Ek.
  - rewrite <- (same_size k dk Hm Ek). eapply recall_other; eassumption.
  - exfalso. unfold tallies in Hv. rewrite lookup_fmap, owed_lookup, Ek in Hv. discriminate.
Qed.
Lemma unseen_pixel l d x p : w_mapping w0 = ∅ -> whole_image_wired w0 n -> d0 !! l = Some d -> 0 <= p < n ->
  (forall y, (l, Train y) ∈ es -> im_get y p <> im_get x p) -> unseen d es l x.
Proof using Hc Hp Hiz Hi.
  intros Hm Hw Hd Hpn Hy. destruct (d0_label l d Hd) as (Htr & Hb & _). unfold unseen.
  destruct (built_layout w0 n l d Hc (trained_learns _ _ _ _ Hp Htr) Hb) as (_ & H). destruct H as (_ & H); [rewrite Hm; apply lookup_empty|].
  specialize (H Hw p Hpn). apply Exists_exists in H as (r & Hr & Hpr). apply Exists_exists. exists r. split; [exact Hr|]. intros y Hey Ha.
  unfold agree in Ha. rewrite Forall_forall in Ha. apply (Hy y Hey). symmetry. apply Ha, Hpr.
Qed.
Lemma recall_class l x k : w_mapping w0 = ∅ -> (l, Train x) ∈ es -> (w_bleachingActivated w0 = true -> w_confidence w0 <= 1) ->
  (forall l' d, l' <> l -> d0 !! l' = Some d -> unseen d es l' x) ->
  class_owed w0 (votes_owed d0 es x) k -> k = l.
Proof using Hc Hp Ht Hiz Hi.
  intros Hm Hx Hconf Hu (cand & Hd & Hk). destruct (recall_highest l x Hm Hx) as (Hl & Hbd). set (t := tallies 1 (votes_owed d0 es x)) in *. set (M := rams_per_label w0 n) in *.
  assert (Hlow : forall l' v, l' <> l -> t !! l' = Some v -> v < M).
  { intros l' v Hne Hv. destruct (d0 !! l') as [d|] eqn:Ed.
    - unfold M. rewrite <- (same_size l' d Hm Ed). eapply recall_other; eauto.
    - exfalso. unfold t, tallies in Hv. rewrite lookup_fmap, owed_lookup, Ed in Hv. discriminate. }
  assert (HM : 0 <= M) by (eapply tallies_nonneg; exact Hl).
  assert (Ec : cand = t).
  { unfold degrees_owed in Hd. destruct (w_bleachingActivated w0); [|exact Hd]. specialize (Hconf eq_refl). destruct Hd as (b & Hb & Eb & _ & Hmin).
    destruct (Z.eq_dec b 1) as [->|Hb1]; [exact Eb|]. exfalso. apply (Hmin 1 ltac:(lia)). fold t.
    destruct (Z.eq_dec M 0) as [HM0|HM0].
    { right. intros k0 v Hv. specialize (Hbd k0 v Hv). lia. }
    left. intros (M' & k0 & v & (_ & HB & HM') & Hv & Hmv & Hlt).
    assert (M' = M) as ->. { specialize (HB l M Hl). destruct HM' as [->|(k1 & Hk1)]; [lia|]. specialize (Hbd k1 M' Hk1). lia. }
    destruct Hlt as [Hz|(k1 & Hk1 & Hlt)]; [lia|].
    assert (k1 = l) as ->. { destruct (decide (k1 = l)) as [->|Hne]; [reflexivity|]. specialize (Hlow k1 M Hne Hk1). lia. }
    destruct (decide (k0 = l)) as [->|Hne]; [|specialize (Hlow k0 v Hne Hv); lia]. exact (str_lt_irrefl l Hlt). }
  subst cand. destruct Hk as [[He _]|(v & Hv & Hmax)].
  - exfalso. unfold t, tallies in Hl. rewrite lookup_fmap, He, lookup_empty in Hl. discriminate.
  - destruct (decide (k = l)) as [->|Hne]; [reflexivity|]. exfalso. specialize (Hlow k v Hne Hv). destruct (Hmax l M Hl) as [?|[? _]]; lia.
Qed.
End recall.
