(** Semi-supervised and unsupervised training, mental images. *)
From Verif Require Import Prelude Bytes Utils Float32 BinInput Bleaching Ram Json Fs RamData Disc Wisard Cluster ClusWisard.
From Verif Require Import SpecDisc SpecBleach SpecCluster SpecClus BleachProofs DiscCtorProofs ClusterProofs ClusProofs.

(** ** Any label text *)
Lemma before_colons_upto l s s' : before_colons (l ++ lit "::" ++ s) = before_colons (l ++ lit "::" ++ s').
Proof.
  induction l as [|c l IH]; [reflexivity|]. destruct l as [|c' l].
  - cbn [app lit String.list_ascii_of_string]. rewrite !before_colons_cons. destruct (decide _) as [|_]; reflexivity.
  - cbn [app]. rewrite !before_colons_cons. destruct (decide _) as [|_]; [reflexivity|]. f_equal. exact IH.
Qed.
Definition shown (l : str) : str := before_colons (l ++ lit "::").
Lemma shown_key l j : before_colons (cluster_key l j) = shown l.
Proof. unfold cluster_key, shown. rewrite (before_colons_upto l (to_string j) []). rewrite app_nil_r. reflexivity. Qed.
Lemma shown_prefix l : exists s, l ++ lit "::" = shown l ++ lit "::" ++ s.
Proof.
  unfold shown. induction l as [|c l (s & IH)]; [exists []; reflexivity|]. destruct l as [|c' l].
  - cbn [app lit String.list_ascii_of_string]. rewrite before_colons_cons. destruct (decide _) as [[-> _]|_]; [exists (lit ":"); reflexivity|exists []; reflexivity].
  - cbn [app]. rewrite before_colons_cons. destruct (decide _) as [[-> ->]|_].
    + exists (l ++ lit "::"). reflexivity.
    + exists s. cbn [app] in IH |- *. f_equal. exact IH.
Qed.
Lemma kcall_kinv_supervised lhs k c k' T : kinv k T -> (forall e e2 i m, c <> KSemi e e2 i m) -> kcall_run lhs k c = (Ok tt, k') -> kinv k' (fun l => T l \/ names c l).
Proof.
  intros HI Hs H. destruct c as [env images labels|env env2 images labels|env images]; cbn [kcall_run names] in *.
  - unfold clus_train in H. destruct images as [|im0 images]; [discriminate|]. apply ebind_ok in H as (u & k1 & H1 & H2).
    injection H1 as _ <-. apply (train_loop_kinv _ _ _ _ _ _ _ _ HI) in H2. exact H2.
  - exfalso. eapply Hs. reflexivity.
  - assert (Hk : k_clusters k' = k_clusters k).
    { unfold trainUnsupervised in H. destruct (Nat.eqb _ _).
      - destruct images as [|im0 images]; [discriminate|]. unfold at_unsupervised in H. destruct (efor _ _ _) as [o c']. injection H as _ <-. reflexivity.
      - unfold at_unsupervised in H. destruct (efor _ _ _) as [o c']. injection H as _ <-. reflexivity. }
    destruct HI as [H1 H2]. split; rewrite Hk; [intros l c Hl; destruct (H1 _ _ Hl); auto|intros l [?|[]]; auto].
Qed.
Lemma krun_kinv_supervised lhs cs : forall k k' T, kinv k T -> Forall (fun c => forall e e2 i m, c <> KSemi e e2 i m) cs -> krun lhs k cs = (Ok tt, k') -> kinv k' (fun l => T l \/ named cs l).
Proof.
  induction cs as [|c cs IH]; intros k k' T HI Hs H; unfold krun in H; cbn [efor] in H.
  - injection H as <-. eapply kinv_iff; [|exact HI]. intros l. split; [auto|]. intros [?|(c & Hc & _)]; [assumption|inversion Hc].
  - apply Forall_cons in Hs as [Hc0 Hs]. apply ebind_ok in H as ([] & k1 & H1 & H2). apply (kcall_kinv_supervised lhs k c k1 T HI Hc0) in H1. apply (IH _ _ _ H1 Hs) in H2.
    eapply kinv_iff; [|exact H2]. intros l. cbn beta. unfold named. split.
    + intros [[?|?]|(c' & Hc & ?)]; [auto|right; exists c; split; [left|assumption]|right; exists c'; split; [right; assumption|assumption]].
    + intros [?|(c' & Hc & ?)]; [auto|]. apply elem_of_cons in Hc as [->|Hc]; [auto|right; exists c'; auto].
Qed.
Lemma classify_shown lhs k0 cs k ims out : k_clusters k0 = ∅ -> krun lhs k0 cs = (Ok tt, k) -> Forall (fun c => forall e e2 i m, c <> KSemi e e2 i m) cs ->
  (exists l, named cs l) -> clus_classify k ims = Ok out -> Forall2 (fun _ r => exists l, named cs l /\ r = shown l) ims out.
Proof.
  intros H0 Hr Hs (l0 & Hl0) Hc.
  assert (HI : kinv k0 (fun _ => False)). { split; [rewrite H0; intros l c; rewrite lookup_empty; discriminate|intros l []]. }
  apply (krun_kinv_supervised _ _ _ _ _ HI Hs) in Hr as [H1 H2].
  unfold clus_classify in Hc. apply rmapM_ok in Hc. eapply Forall2_impl; [exact Hc|]. intros im r Hl. cbn beta in *.
  unfold clus_classify1, clus_candidates in Hl. destruct (clus_votes _ im) as [vts| | |] eqn:Hv; cbn [rbind] in Hl; [|discriminate..].
  destruct (bleaching_make _ _ _ _) as [cand| | |] eqn:Hb; cbn [rbind] in Hl; [|discriminate..]. injection Hl as <-.
  destruct (clus_votes_spec _ _ _ Hv) as [Hcl Hsp].
  assert (vts <> ∅).
  { intros ->. destruct (H2 l0) as [c Hc0]; [auto|]. destruct (H1 _ _ Hc0) as [_ Hd]. destruct (Hcl _ _ Hc0) as [[|v vs] Hvs].
    - unfold cluster_classify, on_discs in Hvs. apply rmapM_ok in Hvs. inversion Hvs. congruence.
    - specialize (Hsp (cluster_key l0 O) v). rewrite lookup_empty in Hsp. destruct Hsp as [_ Hsp]. discriminate Hsp. exists l0, c, (v :: vs), O. auto. }
  destruct (biggest_key _ _ _ _ _ Hb ltac:(assumption)) as [v Hbk]. apply Hsp in Hbk as (l & c & vs & j & Hlc & _ & _ & Hk).
  exists l. split; [destruct (H1 _ _ Hlc) as [[[]|?] _]; assumption|]. rewrite Hk. apply shown_key.
Qed.

(** ** Semi-supervised training *)
Definition enum (i : nat) (images : list image) : list (nat * image) := imap (fun n x => ((i + n)%nat, x)) images.
Lemma enum_cons i x l : enum i (x :: l) = (i, x) :: enum (S i) l.
Proof. unfold enum. cbn. rewrite Nat.add_0_r. f_equal. apply imap_ext. intros n y _. cbn. f_equal. lia. Qed.
Lemma semi_loop_spec lhs env labels : forall images i ls j k, Z.of_nat i + len images <= INT_MAX -> 0 <= j <= ls -> ls + len images < W64 ->
  (1 <= ls \/ len (omap (fun ix => match labels !! Z.of_nat ix.1 with Some l => None | None => Some ix.2 end) (enum i images)) <= ls - j) ->
  semi_loop lhs env labels i ls j images k =
  ebind (efor (fun k x => clus_train1 lhs (env x.1.1) k x.1.2 x.2)
     (omap (fun ix => match labels !! Z.of_nat ix.1 with Some l => Some (ix.1, ix.2, l) | None => None end) (enum i images)) k)
   (fun _ k => (Ok (Z.max ls (j + len (omap (fun ix => match labels !! Z.of_nat ix.1 with Some l => None | None => Some ix.2 end) (enum i images)))), k)).
Proof.
  induction images as [|im images IH]; intros i ls j k Hi Hj Hls Hc.
  - cbn. rewrite Z.add_0_r, Z.max_l by lia. reflexivity.
  - rewrite enum_cons in *. cbn [semi_loop omap list_omap fst snd] in *.
    assert (0 <= Z.of_nat i <= INT_MAX) by (unfold len in Hi; cbn in Hi; lia). rewrite s32_small by assumption.
    assert (Hi' : Z.of_nat (S i) + len images <= INT_MAX) by (unfold len in *; cbn [length] in Hi; lia).
    destruct (labels !! Z.of_nat i) as [l|].
    + change (efor ?b (?x :: ?r) k) with (ebind (b k x) (fun _ s' => efor b r s')). cbn [fst snd].
      destruct (clus_train1 lhs (env i) k im l) as [[[]| | |] k1]; cbn [ebind]; try reflexivity. apply IH; [assumption|assumption|unfold len in *; cbn [length] in Hls; lia|assumption].
    + set (U := omap _ (enum (S i) images)) in *. assert (Hlen : len (im :: U) = 1 + len U) by (unfold len; cbn [length]; lia). rewrite Hlen in *.
      assert (0 <= len U) by (unfold len; lia).
      destruct (u64 (ls - 1) <? j) eqn:Hlt.
      * apply Z.ltb_lt in Hlt. assert (ls - 1 < j \/ ls = 0).
        { destruct (Z.eq_dec ls 0); [auto|left]. unfold u64 in Hlt. rewrite Z.mod_small in Hlt by (unfold W64, len in *; lia). lia. }
        assert (1 <= ls) by lia. assert (j = ls) by lia. subst j.
        rewrite IH; [|assumption|lia| |left; lia]; [|unfold len in *; cbn [length] in Hls; lia]. fold U.
        destruct (efor _ _ k) as [[[]| | |] k1]; cbn [ebind]; try reflexivity. do 2 f_equal. lia.
      * apply Z.ltb_ge in Hlt. assert (j < ls).
        { destruct (Z.eq_dec ls 0) as [->|]; [destruct Hc; lia|]. unfold u64 in Hlt. rewrite Z.mod_small in Hlt by (unfold W64, len in *; lia). lia. }
        rewrite (proj2 (Z.ltb_lt j ls)) by assumption.
        rewrite IH; [|assumption|lia| |]; [|unfold len in *; cbn [length] in Hls; lia|destruct Hc; [left; assumption|right; fold U; lia]]. fold U.
        destruct (efor _ _ k) as [[[]| | |] k1]; cbn [ebind]; try reflexivity. do 2 f_equal. lia.
Qed.

Lemma labelled_range (labels : gmap Z str) : forall images i, len (omap (fun ix => match labels !! Z.of_nat ix.1 with Some l => None | None => Some ix.2 end) (enum i images)) +
   len (omap (fun ix => match labels !! Z.of_nat ix.1 with Some l => Some (ix.1, ix.2, l) | None => None end) (enum i images)) = len images.
Proof.
  induction images as [|im images IH]; intros i; [reflexivity|]. rewrite enum_cons. cbn [omap list_omap fst snd]. specialize (IH (S i)).
  destruct (labels !! Z.of_nat i); unfold len in *; cbn [length]; lia.
Qed.
Lemma enum0 images : enum 0 images = imap pair images. Proof. reflexivity. Qed.
Lemma unlabelled_len labels images : len (unlabelled labels images) + len (labelled labels images) = len images.
Proof. apply (labelled_range labels images 0). Qed.
Lemma labelled_elem labels images i im l : (i, im, l) ∈ labelled labels images <-> images !! i = Some im /\ labels !! Z.of_nat i = Some l.
Proof.
  unfold labelled. rewrite elem_of_list_omap. split.
  - intros ([n x] & Hx & H). apply elem_of_lookup_imap in Hx as (n' & x' & Hn & Hx). injection Hn as -> ->. cbn in H. destruct (labels !! Z.of_nat n') eqn:E; [|discriminate]. injection H as <- <- <-. auto.
  - intros [Hi Hl]. exists (i, im). split; [apply elem_of_lookup_imap; exists i, im; auto|]. cbn. rewrite Hl. reflexivity.
Qed.
Lemma labelled_NoDup (labels : gmap Z str) images : NoDup ((fun x => (Z.of_nat x.1.1, x.2)) <$> labelled labels images).
Proof.
  apply NoDup_fmap_2_strong.
      + intros [[i x] l] [[i' x'] l'] H1 H2 E. cbn in E. injection E as E1 ->. assert (i = i') as -> by lia. apply labelled_elem in H1 as [H1 _], H2 as [H2 _]. congruence.
      + unfold labelled.
        assert (forall images i, NoDup (omap (fun ix => match labels !! Z.of_nat ix.1 with Some l => Some (ix.1, ix.2, l) | None => None end) (enum i images)) /\
           Forall (fun x => (i <= x.1.1)%nat) (omap (fun ix => match labels !! Z.of_nat ix.1 with Some l => Some (ix.1, ix.2, l) | None => None end) (enum i images))) as Hnd.
        { clear. induction images as [|im images IH]; intros i; [split; constructor|]. rewrite enum_cons. cbn [omap list_omap fst snd]. destruct (IH (S i)) as [I1 I2].
          assert (I3 : Forall (fun x : nat * image * str => (i <= x.1.1)%nat) (omap (fun ix => match labels !! Z.of_nat ix.1 with Some l => Some (ix.1, ix.2, l) | None => None end) (enum (S i) images))) by (eapply Forall_impl; [exact I2|]; intros; cbv beta in *; lia).
          destruct (labels !! Z.of_nat i); [|split; assumption]. split; [|apply Forall_cons; split; [cbn; lia|exact I3]].
          apply NoDup_cons. split; [|assumption]. intros Hin. rewrite Forall_forall in I2. specialize (I2 _ Hin). cbn in I2. lia. }
        apply (Hnd images 0%nat).
Qed.
(** Every key in range: as many labelled images as labels. *)
Lemma labelled_size labels images : (forall i l, labels !! i = Some l -> 0 <= i < len images) -> len (labelled labels images) = Z.of_nat (size labels).
Proof.
  intros H. unfold len. f_equal.
  assert (Hp : (fun x => (Z.of_nat x.1.1, x.2)) <$> labelled labels images ≡ₚ map_to_list labels).
  { apply NoDup_Permutation.
    - apply labelled_NoDup.
    - apply NoDup_map_to_list.
    - intros [i l]. rewrite elem_of_map_to_list, elem_of_list_fmap. split.
      + intros ([[n x] l'] & E & Hx). cbn in E. injection E as -> ->. apply labelled_elem in Hx. apply Hx.
      + intros Hl. destruct (H _ _ Hl) as [H0 H1]. destruct (lookup_lt_is_Some_2 images (Z.to_nat i)) as [x Hx]; [unfold len in H1; lia|].
        exists (Z.to_nat i, x, l). cbn. split; [f_equal; lia|]. apply labelled_elem. split; [assumption|]. rewrite Z2Nat.id by assumption. assumption. }
  apply Permutation_length in Hp. rewrite fmap_length in Hp. exact Hp.
Qed.

Lemma labelled_le labels images : len (labelled labels images) <= Z.of_nat (size labels).
Proof.
  assert (Hp : (fun x => (Z.of_nat x.1.1, x.2)) <$> labelled labels images ⊆+ map_to_list labels).
  { apply NoDup_submseteq; [apply labelled_NoDup|]. intros [i l]. rewrite elem_of_map_to_list, elem_of_list_fmap.
    intros ([[n x] l'] & E & Hx). cbn in E. injection E as -> ->. apply labelled_elem in Hx. apply Hx. }
  apply submseteq_length in Hp. rewrite fmap_length in Hp. unfold len, size, map_size. lia.
Qed.
(** What the two loops do, exactly. *)
Lemma semi_unlabelled_spec lhs env images n k : 0 <= n <= len images ->
  semi_unlabelled lhs env images n k =
  efor (fun k ix => clus_train_unlabelled lhs (env ix.1) k ix.2) (imap pair (take (Z.to_nat n) images)) k.
Proof.
  intros Hn. unfold semi_unlabelled. assert (Hle : (Z.to_nat n <= length images)%nat) by (unfold len in Hn; lia). clear Hn. revert Hle. generalize (Z.to_nat n) as m. clear n. intros m Hm.
  change (imap pair (take m images)) with (enum 0 (take m images)).
  assert (H : forall m i, (i + m <= length images)%nat -> forall k, efor (fun k j => ebind (elift k (vget images (Z.of_nat j))) (fun im k => clus_train_unlabelled lhs (env j) k im)) (seq i m) k =
    efor (fun k ix => clus_train_unlabelled lhs (env ix.1) k ix.2) (enum i (take m (drop i images))) k); [|exact (H m 0%nat Hm k)].
  clear. induction m as [|m IH]; intros i Hi k; [reflexivity|].
  destruct (lookup_lt_is_Some_2 images i) as [x Hx]; [lia|]. rewrite (drop_S _ _ _ Hx). cbn [take seq]. rewrite enum_cons. cbn [efor fst snd].
  assert (vget images (Z.of_nat i) = Ok x) as ->. { unfold vget. rewrite (proj2 (Z.leb_le _ _)) by lia. rewrite Nat2Z.id, Hx. reflexivity. }
  cbn [elift ebind]. destruct (clus_train_unlabelled _ _ _ _) as [[[]| | |] k1]; cbn [ebind]; try reflexivity. apply IH. lia.
Qed.

Lemma elift_bind_k {A B} (k : cluswisard) (r : res A) (f : A -> cluswisard -> eff cluswisard B) :
  ebind (elift k r) f = match r with Ok a => f a k | Throw e => (Throw e, k) | UB u => (UB u, k) | Hang => (Hang, k) end.
Proof. destruct r; reflexivity. Qed.
Lemma semi_exact lhs env env2 k im0 rest labels : let images := im0 :: rest in
  len images <= INT_MAX -> Z.of_nat (size labels) <= len images ->
  (Z.of_nat (size labels) < len images \/ forall i l, labels !! i = Some l -> 0 <= i < len images) ->
  clus_train_semi lhs env env2 k images labels =
  ebind (elift k (clus_first_checks k im0)) (fun _ k =>
  ebind (efor (fun k x => clus_train1 lhs (env x.1.1) k x.1.2 x.2) (labelled labels images) k) (fun _ k =>
    match labelled labels images with
    | [] => (Throw no_index_exn, k)
    | _ => efor (fun k ix => clus_train_unlabelled lhs (env2 ix.1) k ix.2)
             (imap pair (take (length (unlabelled labels images)) images)) k
    end)).
Proof.
  intros images Hlen Hsz Hc. unfold clus_train_semi. fold images. unfold images at 1. fold images.
  assert (Hs : 0 <= Z.of_nat (size labels)) by lia.
  rewrite !elift_bind_k. destruct (clus_first_checks k im0) as [[]| | |]; cbn [rbind]; try reflexivity.
  rewrite !s32_small by lia. rewrite (proj2 (Z.ltb_ge _ _)) by lia.
  assert (u32 (len images - Z.of_nat (size labels)) = len images - Z.of_nat (size labels)) as ->.
  { unfold u32. apply Z.mod_small. unfold INT_MAX in *. unfold W32. lia. }
  pose proof (unlabelled_len labels images) as Hu. pose proof (labelled_le labels images) as Hl.
  assert (0 <= len (labelled labels images)) by (unfold len; lia). assert (0 <= len (unlabelled labels images)) by (unfold len; lia).
  rewrite semi_loop_spec; [|cbn; lia|lia|unfold W64, INT_MAX in *; lia|].
  2: { rewrite enum0. fold (unlabelled labels images). destruct Hc as [Hc|Hc]; [left; lia|right]. apply labelled_size in Hc. lia. }
  rewrite !enum0. fold (labelled labels images). fold (unlabelled labels images).
  rewrite Z.add_0_l, Z.max_r by lia.
  destruct (efor _ (labelled labels images) k) as [[[]| | |] k1]; cbn [ebind]; try reflexivity.
  rewrite !s32_small by lia. destruct (labelled labels images) as [|x ls] eqn:El.
  - rewrite (proj2 (Z.eqb_eq _ _)); [reflexivity|]. unfold len in *. cbn in *. lia.
  - rewrite (proj2 (Z.eqb_neq _ _)); [|unfold len in *; cbn [length] in *; lia].
    rewrite semi_unlabelled_spec by lia. unfold len. rewrite Nat2Z.id. reflexivity.
Qed.
Lemma unlabelled_first labels images m : (forall i, 0 <= i < len images -> labels !! i = None <-> i < Z.of_nat m) ->
  unlabelled labels images = take m images.
Proof.
  unfold unlabelled. rewrite <- enum0. intros H.
  assert (G : forall l i, (forall j, Z.of_nat i <= j < Z.of_nat i + len l -> labels !! j = None <-> j < Z.of_nat m) ->
    omap (fun ix => match labels !! Z.of_nat ix.1 with Some l => None | None => Some ix.2 end) (enum i l) = take (m - i) l).
  2: { rewrite G; [rewrite Nat.sub_0_r; reflexivity|]. intros j Hj. apply H. lia. }
  clear. induction l as [|x l IH]; intros i H; [rewrite take_nil; reflexivity|]. rewrite enum_cons. cbn [omap list_omap fst snd].
  assert (H0 : labels !! Z.of_nat i = None <-> Z.of_nat i < Z.of_nat m) by (apply H; unfold len; cbn [length]; lia).
  assert (IH' : omap (fun ix => match labels !! Z.of_nat ix.1 with Some l => None | None => Some ix.2 end) (enum (S i) l) = take (m - S i) l) by (apply IH; intros j Hj; apply H; unfold len in *; cbn [length]; lia).
  rewrite IH'. destruct (labels !! Z.of_nat i) eqn:E.
  - assert ((m - i = 0)%nat) as ->. { destruct (decide (Z.of_nat i < Z.of_nat m)) as [Hd|Hd]; [apply H0 in Hd; discriminate|lia]. }
    assert ((m - S i = 0)%nat) as ->; [|reflexivity]. destruct (decide (Z.of_nat i < Z.of_nat m)) as [Hd|Hd]; [apply H0 in Hd; discriminate|lia].
  - assert (Z.of_nat i < Z.of_nat m) by (apply H0; reflexivity). assert ((m - i = S (m - S i))%nat) as -> by lia. reflexivity.
Qed.
