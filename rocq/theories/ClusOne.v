(** A ClusWisard with one discriminator per label against a Wisard (for C132). *)
From Verif Require Import Prelude Bytes Utils Float32 BinInput Bleaching Ram Disc Wisard Cluster ClusWisard SpecDisc SpecBleach SpecWisard SpecCluster SpecClus.
From Verif Require Import SpecTwin BytesProofs CtorFacts DiscCtorProofs BleachProofs ClusterProofs ClusProofs WisardFacts FloatSign.

(** ** Sorted maps *)
Lemma strict_unique {A} (R : A -> A -> Prop) : (forall x y, R x y -> R y x -> False) ->
  forall l l', StronglySorted R l -> StronglySorted R l' -> l ≡ₚ l' -> l = l'.
Proof.
  intros HR l. induction l as [|x l IH]; intros l' H H' P.
  - apply Permutation_nil_l in P. congruence.
  - destruct l' as [|y l']; [symmetry in P; apply Permutation_nil_l in P; discriminate|].
    apply StronglySorted_inv in H as [H Hx]. apply StronglySorted_inv in H' as [H' Hy]. rewrite List.Forall_forall in Hx, Hy.
    assert (x = y) as ->.
    { assert (Hxy : x ∈ y :: l') by (rewrite <- P; left). assert (Hyx : y ∈ x :: l) by (rewrite P; left).
      apply elem_of_cons in Hxy as [?|Hxy]; [assumption|]. apply elem_of_cons in Hyx as [?|Hyx]; [congruence|]. exfalso.
      apply elem_of_list_In in Hxy, Hyx. apply (HR y x); [apply Hy, Hxy|apply Hx, Hyx]. }
    f_equal. apply IH; [exact H|exact H'|]. eapply Permutation_cons_inv, P.
Qed.
Lemma lt_key_asym {A} (x y : str * A) : lt_key x y -> lt_key y x -> False.
Proof. unfold lt_key. intros H1 H2. apply str_lt_nle in H1. apply H1, str_lt_le, H2. Qed.
Lemma sorted_by {A} (m : gmap str A) (l : list (str * A)) : StronglySorted lt_key l -> (forall k v, (k, v) ∈ l <-> m !! k = Some v) -> sorted_items m = l.
Proof.
  intros Hs He. apply (strict_unique lt_key lt_key_asym); [apply sorted_items_strict|exact Hs|].
  apply NoDup_Permutation.
  - apply (NoDup_fmap_1 fst), sorted_items_nodup.
  - clear He. induction Hs as [|x l Hl IH Hx]; constructor; [|exact IH]. intros Hin. rewrite List.Forall_forall in Hx. apply elem_of_list_In, Hx in Hin. exact (str_lt_irrefl _ Hin).
  - intros [k v]. rewrite sorted_items_elem. symmetry. apply He.
Qed.
Lemma sorted_fmap {A B} (R : A -> A -> Prop) (R' : B -> B -> Prop) (g : A -> B) l : StronglySorted R l ->
  (forall x y, x ∈ l -> y ∈ l -> R x y -> R' (g x) (g y)) -> StronglySorted R' (g <$> l).
Proof.
  induction 1 as [|x l Hl IH Hx]; intros Hg; [constructor|]. rewrite fmap_cons. constructor.
  - apply IH. intros y z Hy Hz. apply Hg; right; assumption.
  - rewrite List.Forall_forall in *. intros y Hy. apply elem_of_list_In, elem_of_list_fmap in Hy as (z & -> & Hz). apply Hg; [left|right; exact Hz|]. apply Hx, elem_of_list_In, Hz.
Qed.
Lemma sorted_pairs {A B} (R : A -> B -> Prop) (m : gmap str A) (m' : gmap str B) :
  (forall l, match m !! l, m' !! l with Some a, Some b => R a b | None, None => True | _, _ => False end) ->
  Forall2 (fun x y => x.1 = y.1 /\ R x.2 y.2) (sorted_items m) (sorted_items m').
Proof.
  intros H.
  assert (E : sorted_items m' = omap (fun x => (fun b => (x.1, b)) <$> m' !! x.1) (sorted_items m)).
  { apply sorted_by.
    - assert (G : forall l, StronglySorted lt_key l -> StronglySorted lt_key (omap (fun x : str * A => (fun b => (x.1, b)) <$> m' !! x.1) l) ).
      { induction 1 as [|x l Hl IH Hx]; [constructor|]. cbn. destruct (m' !! x.1) as [b|]; cbn; [|exact IH]. constructor; [exact IH|].
        rewrite List.Forall_forall in *. intros y Hy. apply elem_of_list_In, elem_of_list_omap in Hy as (z & Hz & E). destruct (m' !! z.1); [|discriminate].
        injection E as <-. unfold lt_key. cbn. apply (Hx z), elem_of_list_In, Hz. }
      apply G, sorted_items_strict.
    - intros k v. rewrite elem_of_list_omap. split.
      + intros ([k0 a] & _ & E). cbn in E. destruct (m' !! k0) eqn:E0; [|discriminate]. cbn in E. congruence.
      + intros Hk. specialize (H k). rewrite Hk in H. destruct (m !! k) as [a|] eqn:Ha; [|contradiction]. exists (k, a). rewrite sorted_items_elem. cbn. rewrite Hk. auto. }
  rewrite E. assert (G : forall l, (forall k a, (k, a) ∈ l -> m !! k = Some a) -> Forall2 (fun x y => x.1 = y.1 /\ R x.2 y.2) l (omap (fun x : str * A => (fun b => (x.1, b)) <$> m' !! x.1) l)).
  { induction l as [|[k a] l IH]; intros Hl; [constructor|]. cbn. assert (Hk := Hl k a ltac:(left)). specialize (H k). rewrite Hk in H. destruct (m' !! k) as [b|]; [|contradiction].
    cbn. constructor; [auto|]. apply IH. intros ? ? Hin. apply Hl. right. exact Hin. }
  apply G. intros k a. apply sorted_items_elem.
Qed.

(** ** The bleaching rule under an order preserving renaming of the labels *)
Section Rename.
  Context (f : str -> str) {Hf : Inj (=) (=) f}.
  Definition mono {A} (m : gmap str A) : Prop := forall l l', is_Some (m !! l) -> is_Some (m !! l') -> str_lt l l' -> str_lt (f l) (f l').
  Definition renamed {A} (m : gmap str A) : gmap str A := kmap f m.

  Lemma sorted_renamed {A} (m : gmap str A) : mono m -> sorted_items (renamed m) = (fun x => (f x.1, x.2)) <$> sorted_items m.
  Proof.
    intros Hm. apply sorted_by.
    - apply (sorted_fmap lt_key); [apply sorted_items_strict|]. intros [k a] [k' a'] H H' Hlt. apply sorted_items_elem in H, H'. unfold lt_key in *. cbn in *. apply Hm; eauto.
    - intros k v. unfold renamed. rewrite elem_of_list_fmap, (lookup_kmap_Some f). split.
      + intros ([k0 a] & E & Hin). cbn in E. injection E as -> ->. apply sorted_items_elem in Hin. eauto.
      + intros (k0 & -> & Hk). exists (k0, v). split; [reflexivity|]. apply sorted_items_elem, Hk.
  Qed.
  Lemma counts_renamed b votes : counts_at b (renamed votes) = renamed (counts_at b votes).
  Proof. unfold counts_at, renamed. symmetry. apply (kmap_fmap f). Qed.
  Lemma mono_counts b votes : mono votes -> mono (counts_at b votes).
  Proof. intros H l l'. unfold counts_at. rewrite !lookup_fmap, !fmap_is_Some. apply H. Qed.
  Lemma scan_renamed c : forall l big amb, ambiguity_scan c ((fun x : str * Z => (f x.1, x.2)) <$> l) big amb = ambiguity_scan c l big amb.
  Proof. induction l as [|[k v] l IH]; intros big amb; [reflexivity|]. cbn. rewrite !IH. reflexivity. Qed.
  Lemma ambiguity_renamed c cand : mono cand -> isThereAmbiguity (renamed cand) c = isThereAmbiguity cand c.
  Proof. intros H. unfold isThereAmbiguity. rewrite sorted_renamed by exact H. apply scan_renamed. Qed.
  Definition rres (r : res (gmap str Z)) : res (gmap str Z) :=
    match r with Ok c => Ok (renamed c) | Throw e => Throw e | UB u => UB u | Hang => Hang end.
  Lemma loop_renamed votes act c : mono votes -> forall fuel b,
    bleach_loop fuel (renamed votes) act c b = rres (bleach_loop fuel votes act c b).
  Proof.
    intros Hm. induction fuel as [|fuel IH]; intros b; [reflexivity|]. cbn [bleach_loop]. rewrite counts_renamed. destruct act; cbn [negb]; [|reflexivity].
    destruct (int_of (b + 1)) as [b'| | |]; cbn [rbind rres]; try reflexivity.
    rewrite ambiguity_renamed by apply mono_counts, Hm. destruct (_ && _); [apply IH|reflexivity].
  Qed.
  Lemma max_vote_app a b : max_vote (a ++ b) = Z.max (max_vote a) (max_vote b).
  Proof. assert (N : forall l, 0 <= max_vote l) by (induction l; cbn; lia). induction a as [|v a IH]; cbn; [specialize (N b); lia|]. rewrite IH. lia. Qed.
  Lemma max_vote_perm (l l' : list (list Z)) : l ≡ₚ l' -> max_vote (List.concat l) = max_vote (List.concat l').
  Proof.
    induction 1 as [|x l l' H IH|x y l|l1 l2 l3 H1 IH1 H2 IH2]; cbn [List.concat]; rewrite ?max_vote_app; lia.
  Qed.
  Lemma items_renamed {A} (m : gmap str A) : map_to_list (renamed m) ≡ₚ (fun x => (f x.1, x.2)) <$> map_to_list m.
  Proof.
    apply NoDup_Permutation.
    - apply NoDup_map_to_list.
    - apply NoDup_fmap_2; [|apply NoDup_map_to_list]. intros [a b] [a' b'] [= E ->]. apply Hf in E. congruence.
    - intros [k v]. rewrite elem_of_map_to_list, elem_of_list_fmap. unfold renamed. rewrite (lookup_kmap_Some f). split.
      + intros (k0 & -> & H). exists (k0, v). split; [reflexivity|]. apply elem_of_map_to_list, H.
      + intros ([k0 v0] & E & H). cbn in E. injection E as -> ->. apply elem_of_map_to_list in H. eauto.
  Qed.
  Lemma fuel_renamed votes : bleach_fuel (renamed votes) = bleach_fuel votes.
  Proof.
    unfold bleach_fuel. do 2 f_equal. apply max_vote_perm. rewrite items_renamed, <- list_fmap_compose. apply Permutation_refl'.
    apply list_fmap_ext. intros i x. reflexivity.
  Qed.
  Lemma bleach_renamed votes act sbc c : mono votes -> bleaching_make (renamed votes) act sbc c = rres (bleaching_make votes act sbc c).
  Proof.
    intros H. unfold bleaching_make, makeWithConfidence, makeConfidenceless. rewrite fuel_renamed. destruct sbc; apply loop_renamed, H.
  Qed.
  Lemma biggest_scan_renamed g : forall (l : list (str * Z)) big k, (forall k v, (k, v) ∈ l -> g (f k) = k) -> forall k', g k' = k ->
    g (biggest_scan ((fun x : str * Z => (f x.1, x.2)) <$> l) big k') = biggest_scan l big k.
  Proof.
    induction l as [|[k v] l IH]; intros big k0 Hg k' Hk'; [exact Hk'|]. cbn. destruct (big <=? v).
    - apply IH; [intros ? ? ?; eapply Hg; right; eassumption|]. eapply Hg. left.
    - apply IH; [intros ? ? ?; eapply Hg; right; eassumption|exact Hk'].
  Qed.
  Lemma biggest_renamed g cand : mono cand -> g [] = [] -> (forall k, is_Some (cand !! k) -> g (f k) = k) ->
    g (getBiggestCandidate (renamed cand)) = getBiggestCandidate cand.
  Proof.
    intros Hm H0 Hg. unfold getBiggestCandidate. rewrite sorted_renamed by exact Hm. apply biggest_scan_renamed; [|exact H0].
    intros k v Hin. apply sorted_items_elem in Hin. apply Hg. eauto.
  Qed.
End Rename.

(** ** Votes *)
Definition key0 (l : str) : str := cluster_key l 0.
Global Instance key0_inj : Inj (=) (=) key0.
Proof. intros a b H. apply cluster_key_inj in H as [? _]. assumption. Qed.
Definition paired (K : gmap str cluster) (D : gmap str disc) : Prop :=
  forall l, match K !! l, D !! l with Some c, Some d => c_discs c = [Some d] | None, None => True | _, _ => False end.

Definition rmap {A B} (g : A -> B) (r : res A) : res B := let* x := r in Ok (g x).
Lemma votes_paired K D x : paired K D -> clus_votes K x = rmap (renamed key0) (all_votes D x).
Proof.
  intros H. unfold clus_votes, all_votes.
  pose proof (sorted_pairs (fun c d => c_discs c = [Some d]) K D H) as H2.
  pose proof (sorted_items_nodup D) as Hn.
  assert (E : rmapM (fun kc : str * cluster => let* vs := cluster_classify kc.2 x in Ok (imap (fun j v => (cluster_key kc.1 j, v)) vs)) (sorted_items K) =
    rmap (fun vs => (fun kv => [(key0 kv.1, kv.2)]) <$> vs) (rmapM (fun kd => let* v := disc_classify kd.2 x in Ok (kd.1, v)) (sorted_items D))).
  { clear Hn. induction H2 as [|[l c] [l' d] lk ld [Hl Hc] _ IH]; [reflexivity|]. cbn [fst snd] in Hl, Hc. subst l'. cbn [rmapM fst snd].
    assert (Ec : cluster_classify c x = rmap (fun v => [v]) (disc_classify d x)) by (unfold cluster_classify, on_discs; rewrite Hc; cbn [rmapM]; destruct (disc_classify d x); reflexivity).
    rewrite Ec. destruct (disc_classify d x) as [v| | |]; cbn [rbind rmap]; try reflexivity.
    rewrite IH. destruct (rmapM _ ld) as [vs| | |]; reflexivity. }
  rewrite E. destruct (rmapM _ (sorted_items D)) as [vs| | |] eqn:Ev; cbn [rmap rbind]; try reflexivity. f_equal.
  assert (Hk : vs.*1 = (sorted_items D).*1).
  { clear - Ev. revert vs Ev. induction (sorted_items D) as [|[l d] ld IH]; intros vs; cbn [rmapM]; [intros [= <-]; reflexivity|]. cbn [fst snd].
    destruct (disc_classify d x) as [v| | |]; cbn [rbind]; try discriminate. destruct (rmapM _ ld) as [vs'| | |]; cbn [rbind]; try discriminate. intros [= <-].
    rewrite !fmap_cons. cbn [fst]. f_equal. apply IH. reflexivity. }
  assert (Hc : List.concat ((fun kv : str * list Z => [(key0 kv.1, kv.2)]) <$> vs) = (fun x => (key0 x.1, x.2)) <$> vs).
  { clear. induction vs as [|[k v] vs IH]; [reflexivity|]. rewrite fmap_cons. cbn [List.concat]. rewrite IH. reflexivity. }
  rewrite Hc. assert (Hnd : NoDup (vs.*1)) by (rewrite Hk; exact Hn). apply map_eq. intros k. apply option_eq. intros v.
  rewrite list_to_map_rev.
  - unfold renamed. rewrite elem_of_list_fmap, (lookup_kmap_Some key0). split.
    + intros ([k0 v0] & E0 & Hin). cbn [fst snd] in E0. injection E0 as -> ->. exists k0. split; [reflexivity|]. apply elem_of_list_to_map_1; assumption.
    + intros (k0 & -> & H0). apply elem_of_list_to_map_2 in H0. exists (k0, v). auto.
  - rewrite <- list_fmap_compose. change (fst ∘ (fun x : str * list Z => (key0 x.1, x.2))) with (key0 ∘ (@fst str (list Z))). rewrite list_fmap_compose.
    apply NoDup_fmap_2; [apply key0_inj|exact Hnd].
Qed.

Lemma classify_paired k w x : paired (k_clusters k) (w_discriminators w) -> mono key0 (k_clusters k) ->
  (forall l, is_Some (k_clusters k !! l) -> plain_label l) ->
  k_bleachingActivated k = w_bleachingActivated w -> k_searchBestConfidence k = w_searchBestConfidence w -> k_confidence k = w_confidence w ->
  clus_classify1 k x = wisard_classify1 w x.
Proof.
  intros H Hm Hp H1 H2 H3. unfold clus_classify1, wisard_classify1, clus_candidates, wisard_candidates. rewrite (votes_paired _ _ x H), H1, H2, H3.
  destruct (all_votes (w_discriminators w) x) as [v| | |] eqn:Ev; cbn [rmap rbind]; try reflexivity.
  pose proof (keyed_inv (fun d => disc_classify d x) _ _ Ev) as Hk.
  assert (Hd : forall l, is_Some (v !! l) -> is_Some (k_clusters k !! l)).
  { intros l [y Hy]. specialize (Hk l). specialize (H l). destruct (w_discriminators w !! l); [|congruence]. destruct (k_clusters k !! l); [eauto|contradiction]. }
  assert (Hmv : mono key0 v) by (intros a b Ha Hb; apply Hm; apply Hd; assumption).
  rewrite (bleach_renamed key0) by exact Hmv. destruct (bleaching_make v _ _ _) as [cand| | |] eqn:Eb; cbn [rres rbind]; try reflexivity. f_equal.
  destruct (candidates_keys _ _ _ _ _ Eb) as [b Hc].
  assert (Hdc : forall l, is_Some (cand !! l) -> is_Some (v !! l)) by (intros l; rewrite Hc; unfold tallies; rewrite lookup_fmap, fmap_is_Some; auto).
  apply (biggest_renamed key0).
  - intros a c Ha Hc'. apply Hmv; apply Hdc; assumption.
  - reflexivity.
  - intros l Hl. unfold key0, cluster_key. apply before_colons_key. apply Hp, Hd, Hdc, Hl.
Qed.

(** ** Training side by side *)
Record twin (P : str -> Prop) (k0 k : cluswisard) (w : wisard) : Prop := Twin {
  tw_k : k = with_clusters k0 (k_clusters k);
  tw_w : w = with_discriminators (as_wisard k0) (w_discriminators w);
  tw_l : forall l, match k_clusters k !! l, w_discriminators w !! l with
         | Some c, Some d => c_discs c = [Some d] /\ counting d /\ (exists p, c_params c = Some p /\ p_limit p <= 1) /\ P l
         | None, None => True
         | _, _ => False
         end }.

Lemma twin_insert (P : str -> Prop) k0 k w l c d : twin P k0 k w -> c_discs c = [Some d] -> counting d -> (exists p, c_params c = Some p /\ p_limit p <= 1) -> P l ->
  twin P k0 (with_clusters k (<[l := c]> (k_clusters k))) (with_discriminators w (<[l := d]> (w_discriminators w))).
Proof.
  intros [Hk Hw Hl] H1 H2 H3 H4. split.
  - rewrite Hk. reflexivity.
  - rewrite Hw. reflexivity.
  - intros l'. cbn [with_clusters k_clusters with_discriminators w_discriminators]. destruct (decide (l' = l)) as [->|Hn].
    + rewrite !lookup_insert. auto.
    + rewrite !lookup_insert_ne by congruence. apply Hl.
Qed.

Lemma one_disc lhs dr c p d x c' : c_discs c = [Some d] -> counting d -> c_params c = Some p -> p_limit p <= 1 -> cluster_train lhs dr c x = (Ok tt, c') ->
  exists d', disc_train d x = (Ok tt, d') /\ c_discs c' = [Some d'] /\ counting d' /\ c_params c' = Some p.
Proof.
  intros Hd Hc Hp Hl. unfold cluster_train. rewrite Hd, Hp. cbn [cluster_scan]. destruct (disc_classify d x) as [vs| | |] eqn:Ev; try discriminate.
  destruct (classify_range d x vs Hc Ev) as [Hlen HF]. rewrite (zero_leb _ (getScore_pos vs Hlen HF)).
  destruct (f32_leb (train_limit p d) (getScore vs)).
  - destruct (disc_train d x) as [o d'] eqn:Et. destruct (disc_train_keeps _ _ _ _ Et) as (_ & Hk & _). destruct o as [[]| | |]; try discriminate. intros [= <-]. exists d'. auto.
  - change (s32 (len [Some d])) with 1. destruct (1 <? p_limit p) eqn:El; [lia|]. unfold cluster_train_at. cbn [with_discs c_discs lookup list_lookup].
    destruct (disc_train d x) as [o d'] eqn:Et. destruct (disc_train_keeps _ _ _ _ Et) as (_ & Hk & _). intros [= -> <-]. exists d'. auto.
Qed.
Lemma no_disc lhs dr c p x c' : c_discs c = [] -> c_params c = Some p -> cluster_train lhs dr c x = (Ok tt, c') ->
  exists d d', setRAMShuffle dr (s32 (p_entrySize p)) (s32 (p_addressSize p)) (p_ignoreZero p) (p_complete p) (p_base p) = Ok d /\
    disc_train d x = (Ok tt, d') /\ c_discs c' = [Some d'] /\ counting d' /\ c_params c' = Some p.
Proof.
  intros Hd Hp. unfold cluster_train, cluster_make. rewrite Hd, Hp. destruct (setRAMShuffle _ _ _ _ _ _) as [d| | |] eqn:Es; try discriminate. cbn [ebind app].
  unfold cluster_train_at. cbn [with_discs c_discs lookup list_lookup c_params]. pose proof (shuffle_counting _ _ _ _ _ _ _ (s32_int _) Es) as Hc.
  destruct (disc_train d x) as [o d'] eqn:Et. destruct (disc_train_keeps _ _ _ _ Et) as (_ & Hk & _). intros [= -> <-]. exists d, d'. auto 10.
Qed.

Lemma twin_step (P : str -> Prop) lhs env dr k0 k w x l k' : is_int (k_addressSize k0) -> k_limit k0 <= 1 -> twin P k0 k w -> P l ->
  (w_discriminators w !! l = None -> env l = dr) -> clus_train1 lhs dr k x l = (Ok tt, k') ->
  exists w', wisard_train1 lhs env w x l = (Ok tt, w') /\ twin P k0 k' w' /\ is_Some (w_discriminators w' !! l) /\ forall l', l' <> l -> w_discriminators w' !! l' = w_discriminators w !! l'.
Proof.
  intros Ha Hlim Ht HP Henv. assert (Hl := tw_l _ _ _ _ Ht l). assert (Hk := tw_k _ _ _ _ Ht). assert (Hw := tw_w _ _ _ _ Ht). unfold clus_train1, wisard_train1, at_cluster, at_label.
  destruct (k_clusters k !! l) as [c|] eqn:Ec, (w_discriminators w !! l) as [d|] eqn:Ed; try contradiction.
  - destruct Hl as (Hd & Hc & (p & Hp & Hpl) & _). rewrite Ec. cbn [from_option id]. destruct (cluster_train lhs dr c x) as [o c'] eqn:Et. intros [= -> <-].
    destruct (one_disc _ _ _ _ _ _ _ Hd Hc Hp Hpl Et) as (d' & -> & Hd' & Hc' & Hp'). eexists. split; [reflexivity|]. split; [apply twin_insert; eauto|].
    cbn [with_discriminators w_discriminators]. split; [rewrite lookup_insert; eauto|]. intros l' Hn. apply lookup_insert_ne. congruence.
  - unfold makeClusters. cbn [with_clusters k_clusters]. rewrite lookup_insert. cbn [from_option id].
    destruct (cluster_train lhs dr (new_cluster k (s32 (im_size x)) (k_base k)) x) as [o c'] eqn:Et. intros [= -> <-].
    destruct (no_disc lhs dr (new_cluster k (s32 (im_size x)) (k_base k)) _ x c' eq_refl eq_refl Et) as (d & d' & Es & Etr & Hd' & Hc' & Hp').
    cbn [p_entrySize p_addressSize p_ignoreZero p_complete p_base] in Es. rewrite !s32_u32 in Es. rewrite (s32_id (s32 _)) in Es by apply s32_int.
    assert (Ek : k_addressSize k = k_addressSize k0) by (rewrite Hk; reflexivity). rewrite Ek, (s32_id (k_addressSize k0)) in Es by exact Ha.
    unfold makeDiscriminator, construct_discriminator. rewrite Henv by reflexivity.
    assert (E1 : w_mapping w = ∅) by (rewrite Hw; reflexivity). assert (E2 : w_indexes w = []) by (rewrite Hw; reflexivity). rewrite E1, lookup_empty, E2. cbn [length Nat.eqb negb].
    assert (E3 : w_addressSize w = k_addressSize k0) by (rewrite Hw; reflexivity). assert (E4 : w_ignoreZero w = k_ignoreZero k) by (rewrite Hw, Hk; reflexivity).
    assert (E5 : w_completeAddressing w = k_completeAddressing k) by (rewrite Hw, Hk; reflexivity). assert (E6 : w_base w = k_base k) by (rewrite Hw, Hk; reflexivity).
    rewrite E3, E4, E5, E6, Es. cbn [ebind with_discriminators w_discriminators]. rewrite lookup_insert, Etr. eexists. split; [reflexivity|].
    change (with_discriminators (with_discriminators w ?a) ?b) with (with_discriminators w b). change (with_clusters (with_clusters k ?a) ?b) with (with_clusters k b).
    cbn [w_discriminators with_discriminators]. rewrite !insert_insert. split.
    + apply twin_insert; [exact Ht|exact Hd'|exact Hc'| |exact HP]. exists (CParams (u32 (k_addressSize k)) (u32 (s32 (im_size x))) (k_minScore k) (u32 (k_threshold k)) (k_limit k) (k_completeAddressing k) (k_ignoreZero k) (k_base k)).
      split; [exact Hp'|]. cbn [p_limit]. rewrite Hk. exact Hlim.
    + split; [rewrite lookup_insert; eauto|]. intros l' Hn. apply lookup_insert_ne. congruence.
Qed.

Lemma twin_loop (P : str -> Prop) lhs env wenv k0 : is_int (k_addressSize k0) -> k_limit k0 <= 1 -> forall images labels i k w k',
  twin P k0 k w -> Forall P labels ->
  (forall j l, labels !! j = Some l -> (forall j', (j' < j)%nat -> labels !! j' <> Some l) -> w_discriminators w !! l = None -> wenv l = env (i + j)%nat) ->
  clus_train_loop lhs env i k images labels = (Ok tt, k') ->
  exists w', wisard_train_loop lhs wenv w images labels = (Ok tt, w') /\ twin P k0 k' w'.
Proof.
  intros Ha Hlim. induction images as [|x images IH]; intros [|l labels] i k w k' Ht HP Henv.
  - cbn. intros [= <-]. eauto.
  - cbn. intros [= <-]. eauto.
  - cbn. discriminate.
  - apply Forall_cons in HP as [HPl HP]. cbn [clus_train_loop wisard_train_loop].
    destruct (clus_train1 lhs (env i) k x l) as [o k1] eqn:E1. destruct o as [[]| | |]; cbn [ebind]; try discriminate. intros E2.
    destruct (twin_step P lhs wenv (env i) k0 k w x l k1 Ha Hlim Ht HPl) as (w1 & Ew1 & Ht1 & Hl1 & Ho1); [|exact E1|].
    { intros Hw. rewrite (Henv 0%nat l eq_refl ltac:(lia) Hw). f_equal. lia. }
    rewrite Ew1. cbn [ebind]. apply (IH labels (S i) k1 w1 k' Ht1 HP); [|exact E2].
    intros j l' Hj Hf Hw1. assert (Hn : l' <> l) by (intros ->; rewrite Hw1 in Hl1; destruct Hl1; discriminate).
    rewrite (Henv (S j) l' Hj); [f_equal; lia| |rewrite <- Ho1 by exact Hn; exact Hw1].
    intros [|j'] Hlt; [cbn; congruence|]. apply (Hf j'). lia.
Qed.

Lemma first_draw_at env labels j l : labels !! j = Some l -> (forall j', (j' < j)%nat -> labels !! j' <> Some l) -> first_draw env labels l = env j.
Proof.
  intros Hj Hf. unfold first_draw. assert (E : list_find (fun k => k = l) labels = Some (j, l)).
  { apply list_find_Some. split; [exact Hj|]. split; [reflexivity|]. intros i y Hi Hlt ->. exact (Hf i Hlt Hi). }
  rewrite E. reflexivity.
Qed.
Lemma twin_train (P : str -> Prop) lhs env k0 k w images labels k' : is_int (k_addressSize k0) -> k_limit k0 <= 1 -> twin P k0 k w -> Forall P labels ->
  clus_train lhs env k images labels = (Ok tt, k') ->
  exists w', wisard_train lhs (first_draw env labels) w images labels = (Ok tt, w') /\ twin P k0 k' w'.
Proof.
  intros Ha Hlim Ht HP. assert (Hk := tw_k _ _ _ _ Ht). assert (Hw := tw_w _ _ _ _ Ht). unfold clus_train, wisard_train. destruct images as [|x images]; [discriminate|]. unfold clus_first_checks.
  assert (E3 : w_addressSize w = k_addressSize k) by (rewrite Hw, Hk; reflexivity). assert (E4 : w_confidence w = k_confidence k) by (rewrite Hw, Hk; reflexivity).
  assert (E5 : w_completeAddressing w = k_completeAddressing k) by (rewrite Hw, Hk; reflexivity). rewrite E3, E4, E5.
  destruct (calculateNumberOfRams _ _ _) as [nr| | |]; cbn [rbind elift ebind]; try discriminate.
  destruct (checkConfidence _ _) as [u| | |]; cbn [rbind elift ebind]; try discriminate.
  destruct (checkInputSizes _ _) as [u'| | |]; cbn [rbind elift ebind]; try discriminate. intros E.
  apply (twin_loop P lhs env (first_draw env labels) k0 Ha Hlim (x :: images) labels 0 k w k' Ht HP); [|exact E].
  intros j l Hj Hf _. cbn [Nat.add]. apply first_draw_at; assumption.
Qed.

(** ** Sequences of calls *)
Lemma twin_run (P : str -> Prop) lhs k0 : is_int (k_addressSize k0) -> k_limit k0 <= 1 -> forall bs, Forall (fun b => Forall P (b_labels b)) bs ->
  forall k w k', twin P k0 k w -> krun lhs k (clus_batch <$> bs) = (Ok tt, k') -> exists w', wrun lhs w (wisard_batch <$> bs) = (Ok tt, w') /\ twin P k0 k' w'.
Proof.
  intros Ha Hlim bs H. induction H as [|[env images labels] bs HP H IH]; intros k w k' Ht; unfold krun, wrun in *; rewrite ?fmap_cons; cbn [efor].
  - intros [= <-]. exists w. split; [reflexivity|exact Ht].
  - cbn [clus_batch wisard_batch b_env b_images b_labels kcall_run wcall_run]. destruct (clus_train lhs env k images labels) as [o k1] eqn:E1. destruct o as [[]| | |]; cbn [ebind]; try discriminate. intros E2.
    destruct (twin_train P lhs env k0 k w images labels k1 Ha Hlim Ht HP E1) as (w1 & -> & Ht1). cbn [ebind]. apply (IH k1); assumption.
Qed.

(** ** The order of the keys *)
Lemma key0_mono (P : str -> Prop) : (forall l c s, P l -> P (l ++ c :: s) -> 58 < byte c) -> forall a b, P a -> P b -> str_lt a b -> str_lt (key0 a) (key0 b).
Proof.
  intros H a b Ha Hb. unfold key0, cluster_key. set (t := lit "::" ++ to_string 0).
  assert (G : forall pre, P (pre ++ a) -> P (pre ++ b) -> str_lt a b -> str_lt (a ++ t) (b ++ t)); [|apply (G []); assumption].
  clear Ha Hb. revert b. induction a as [|x a IH]; intros [|y b] pre Ha Hb; unfold str_lt.
  - discriminate.
  - intros _. rewrite app_nil_r in Ha. specialize (H pre y b Ha Hb). unfold t. change (str_leb (y :: b ++ (lit "::" ++ to_string 0)) (lit "::" ++ to_string 0) = false).
    assert (E : byte ":"%char = 58) by reflexivity. cbn [lit app str_leb] in *. change (lit "::" ++ to_string 0) with (":"%char :: ":"%char :: to_string 0). cbn [str_leb].
    rewrite E. destruct (byte y <? 58) eqn:E1; [lia|]. destruct (byte y =? 58) eqn:E2; [lia|reflexivity].
  - discriminate.
  - cbn [str_leb app]. destruct (byte y <? byte x); [discriminate|]. destruct (byte y =? byte x) eqn:E; [|reflexivity].
    assert (x = y) as -> by (apply byte_inj; lia). apply (IH b (pre ++ [y])); rewrite <- app_assoc; assumption.
Qed.

Theorem one_is_wisard (lhs : bool) (k0 : cluswisard) (bs : list batch) (k : cluswisard) :
  k_clusters k0 = ∅ -> is_int (k_addressSize k0) -> k_limit k0 <= 1 ->
  let given l := exists b, b ∈ bs /\ l ∈ b_labels b in
  (forall l, given l -> plain_label l) ->
  (forall l c s, given l -> given (l ++ c :: s) -> 58 < byte c) ->
  krun lhs k0 (clus_batch <$> bs) = (Ok tt, k) ->
  exists w, wrun lhs (as_wisard k0) (wisard_batch <$> bs) = (Ok tt, w) /\ (forall x, clus_classify1 k x = wisard_classify1 w x).
Proof.
  intros H0 Ha Hlim given Hp Hm E.
  destruct (twin_run given lhs k0 Ha Hlim bs) with (k := k0) (w := as_wisard k0) (k' := k) as (w & Ew & Ht); [| |exact E|].
  { apply Forall_forall. intros b Hb. apply Forall_forall. intros l Hl. exists b. auto. }
  { split; [destruct k0; cbn in *; subst; reflexivity|reflexivity|]. intros l. rewrite H0. cbn [as_wisard w_discriminators]. rewrite !lookup_empty. exact I. }
  exists w. split; [exact Ew|]. intros x.
  assert (HG : forall l, is_Some (k_clusters k !! l) -> given l).
  { intros l [c Hc]. pose proof (tw_l _ _ _ _ Ht l) as Hl. rewrite Hc in Hl. destruct (w_discriminators w !! l); [apply Hl|contradiction]. }
  apply classify_paired.
  - intros l. pose proof (tw_l _ _ _ _ Ht l) as Hl. destruct (k_clusters k !! l), (w_discriminators w !! l); try contradiction; [apply Hl|exact I].
  - intros a b Ha' Hb'. apply (key0_mono given Hm); apply HG; assumption.
  - intros l Hl. apply Hp, HG, Hl.
  - rewrite (tw_k _ _ _ _ Ht), (tw_w _ _ _ _ Ht). reflexivity.
  - rewrite (tw_k _ _ _ _ Ht), (tw_w _ _ _ _ Ht). reflexivity.
  - rewrite (tw_k _ _ _ _ Ht), (tw_w _ _ _ _ Ht). reflexivity.
Qed.
