(** Lemmas for C154: a ClusWisard recalls its training images. *)
From Verif Require Import Prelude Bytes Float32 Utils BinInput Bleaching Ram Disc Cluster ClusWisard.
From Verif Require Import SpecDisc SpecBleach SpecWisard SpecCluster SpecClus SpecLaw.
From Verif Require Import BytesProofs UtilsProofs TextProofs BleachProofs DiscCtorProofs CtorFacts DiscProofs Recall ClusProofs ClusterLaw.

(** What the slots of a label have seen. *)
Definition slot_law (p : cparams) (es : list event) (l : str) (s : slot) : Prop :=
  wired_by p (s_first s) /\ forall y, y ∈ s_seen s -> Given l y ∈ es \/ Guessed y ∈ es.
Lemma slot_law_mono p es es' l s : es ⊆ es' -> slot_law p es l s -> slot_law p es' l s.
Proof. intros H (Hw & Hy). split; [exact Hw|]. intros y Hys. destruct (Hy y Hys); auto. Qed.

Lemma learn_slots p x ss ss' (P Q : slot -> Prop) : learn p x ss ss' -> Forall P ss ->
  (forall s, P s -> Q s) -> (forall s, P s -> Q (feed x s)) -> (forall d, wired_by p d -> Q (Slot d [x])) -> Forall Q ss'.
Proof.
  intros H HP H1 H2 H3. destruct H as [_|d _ _ Hd|i s _ _ _ Hi].
  - apply Forall_fmap. eapply Forall_impl; [exact HP|]. intros s Hs. unfold compose. destruct (takes p x s); auto.
  - apply Forall_app. split; [eapply Forall_impl; [exact HP|exact H1]|]. apply Forall_cons_2; [apply H3, Hd|apply Forall_nil_2].
  - apply Forall_insert; [eapply Forall_impl; [exact HP|exact H1]|]. apply H2. rewrite Forall_forall in HP. apply HP. eapply elem_of_list_lookup_2, Hi.
Qed.
Lemma learn_learned p x ss ss' : learn p x ss ss' -> Exists (fun s => x ∈ s_seen s) ss'.
Proof.
  intros [He|d _ _ _|i s _ _ _ Hi].
  - apply Exists_fmap. eapply Exists_impl; [exact He|]. intros s Hs. unfold compose. rewrite Hs. cbn. apply elem_of_app. right. left.
  - apply Exists_app. right. apply Exists_cons_hd. cbn. left.
  - apply Exists_exists. exists (feed x s). split.
    + eapply elem_of_list_lookup_2. apply list_lookup_insert. eapply lookup_lt_Some, Hi.
    + cbn. apply elem_of_app. right. left.
Qed.
Lemma learn_keeps p x y ss ss' : learn p x ss ss' -> Exists (fun s => y ∈ s_seen s) ss -> Exists (fun s => y ∈ s_seen s) ss'.
Proof.
  intros H He. destruct H as [_|d _ _ _|i s _ _ _ Hi].
  - apply Exists_fmap. eapply Exists_impl; [exact He|]. intros s Hs. unfold compose. destruct (takes p x s); [|exact Hs]. cbn. apply elem_of_app. left. exact Hs.
  - apply Exists_app. left. exact He.
  - apply Exists_exists in He as (s' & Hs' & Hy). apply elem_of_list_lookup in Hs' as (j & Hj). apply Exists_exists. destruct (decide (i = j)) as [->|Hne].
    + assert (s' = s) as -> by congruence. exists (feed x s). split; [|cbn; apply elem_of_app; left; exact Hy]. eapply elem_of_list_lookup_2, list_lookup_insert, lookup_lt_Some, Hi.
    + exists s'. split; [|exact Hy]. apply (elem_of_list_lookup_2 _ j). rewrite list_lookup_insert_ne by exact Hne. exact Hj.
Qed.
Lemma learn_few p x ss ss' : p_limit p <= 1 -> learn p x ss ss' -> len ss <= 1 -> len ss' <= 1.
Proof.
  intros Hl H Hs. destruct H as [_|d _ Hd _|i s _ _ _ Hi].
  - unfold len in *. rewrite fmap_length. exact Hs.
  - rewrite len_app, len_cons. change (len (@nil slot)) with 0. destruct Hd as [->|Hd]; [vm_compute; discriminate|lia].
  - unfold len in *. rewrite insert_length. exact Hs.
Qed.

(** The invariant of a history. *)
Lemma law_slots k p es m : clus_law k p es m ->
  (forall l ss, m !! l = Some ss -> Forall (slot_law p es l) ss /\ exists y, Given l y ∈ es) /\
  (forall l x, Given l x ∈ es -> exists ss, m !! l = Some ss /\ Exists (fun s => x ∈ s_seen s) ss) /\
  (p_limit p <= 1 -> forall l ss, m !! l = Some ss -> len ss <= 1).
Proof.
  assert (Hstep : forall es (m : gmap str (list slot)) l (ss ss' : list slot) x e,
    (e = Given l x \/ (e = Guessed x /\ is_Some (m !! l))) -> learn p x ss ss' -> ss = default [] (m !! l) ->
    (forall l ss, m !! l = Some ss -> Forall (slot_law p es l) ss /\ exists y, Given l y ∈ es) ->
    (forall l x, Given l x ∈ es -> exists ss, m !! l = Some ss /\ Exists (fun s => x ∈ s_seen s) ss) ->
    (p_limit p <= 1 -> forall l ss, m !! l = Some ss -> len ss <= 1) ->
    (forall l0 ss0, (<[l:=ss']> m) !! l0 = Some ss0 -> Forall (slot_law p (es ++ [e]) l0) ss0 /\ exists y, Given l0 y ∈ es ++ [e]) /\
    (forall l0 x0, Given l0 x0 ∈ es ++ [e] -> exists ss0, (<[l:=ss']> m) !! l0 = Some ss0 /\ Exists (fun s => x0 ∈ s_seen s) ss0) /\
    (p_limit p <= 1 -> forall l0 ss0, (<[l:=ss']> m) !! l0 = Some ss0 -> len ss0 <= 1)).
  { clear es m. intros es m l ss ss' x e He Hle -> I1 I2 I3.
    assert (Hsub : es ⊆ es ++ [e]) by (intros z Hz; apply elem_of_app; auto).
    assert (Hin : e ∈ es ++ [e]) by (apply elem_of_app; right; left).
    assert (Hx : Given l x ∈ es ++ [e] \/ Guessed x ∈ es ++ [e]) by (destruct He as [<- | [<- _]]; auto).
    split; [|split].
    - intros l0 ss0 H0. destruct (decide (l = l0)) as [<-|Hne].
      + rewrite lookup_insert in H0. injection H0 as <-. split.
        * refine (learn_slots p x _ _ (slot_law p es l) _ Hle _ _ _ _).
          -- destruct (m !! l) as [ss|] eqn:E; cbn [default]; [apply (I1 l ss E)|apply Forall_nil_2].
          -- intros s. apply slot_law_mono, Hsub.
          -- intros s Hs. split; [apply Hs|]. intros y Hy. cbn in Hy. apply elem_of_app in Hy as [Hy|Hy].
             ++ apply (slot_law_mono p es (es ++ [e]) l s Hsub Hs); exact Hy.
             ++ apply elem_of_list_singleton in Hy as ->. exact Hx.
          -- intros d Hd. split; [exact Hd|]. intros y Hy. cbn in Hy. apply elem_of_list_singleton in Hy as ->. exact Hx.
        * destruct He as [-> | [-> [ss Hss]]]; [exists x; exact Hin|]. destruct (I1 l ss Hss) as (_ & y & Hy). exists y. apply Hsub, Hy.
      + rewrite lookup_insert_ne in H0 by exact Hne. destruct (I1 l0 ss0 H0) as (HF & y & Hy). split; [|exists y; apply Hsub, Hy].
        eapply Forall_impl; [exact HF|]. intros s. apply slot_law_mono, Hsub.
    - intros l0 x0 H0. apply elem_of_app in H0 as [H0|H0].
      + destruct (I2 l0 x0 H0) as (ss0 & Hss & Hex). destruct (decide (l = l0)) as [<-|Hne].
        * exists ss'. split; [apply lookup_insert|]. eapply learn_keeps; [exact Hle|]. rewrite Hss. exact Hex.
        * exists ss0. rewrite lookup_insert_ne by exact Hne. auto.
      + apply elem_of_list_singleton in H0. destruct He as [-> | [-> _]]; [|discriminate]. injection H0 as -> ->. exists ss'.
        split; [apply lookup_insert|]. eapply learn_learned, Hle.
    - intros Hlim l0 ss0 H0. destruct (decide (l = l0)) as [<-|Hne].
      + rewrite lookup_insert in H0. injection H0 as <-. eapply learn_few; [exact Hlim|exact Hle|]. destruct (m !! l) as [ss|] eqn:E; cbn [default]; [apply (I3 Hlim l ss E)|vm_compute; discriminate].
      + rewrite lookup_insert_ne in H0 by exact Hne. exact (I3 Hlim l0 ss0 H0). }
  induction 1 as [|es m l x ss _ (I1 & I2 & I3) Hle|es m l x ss ss' _ (I1 & I2 & I3) _ Hss Hle].
  - split; [|split]; [intros l ss H|intros l x H|intros _ l ss H]; [rewrite lookup_empty in H; discriminate|inversion H|rewrite lookup_empty in H; discriminate].
  - apply (Hstep es m l (default [] (m !! l)) ss x (Given l x)); auto.
  - apply (Hstep es m l ss ss' x (Guessed x)); try assumption; [right; split; [reflexivity|]|]; rewrite Hss; [eauto|reflexivity].
Qed.

(** The count of a slot for an image. *)
Section counts.
Context (p : cparams) (n : Z) (Hg : good_params p n) (Hz : p_ignoreZero p = false).
Lemma wired_layout d : wired_by p d ->
  len (d_rams d) = ram_count n (p_addressSize p) (p_complete p) /\ Forall (fun r => r_ignoreZero r = false) (d_rams d) /\
  (p_complete p = true \/ n mod p_addressSize p = 0 -> forall q, 0 <= q < n -> Exists (fun r => q ∈ r_addresses r) (d_rams d)).
Proof using Hg Hz.
  intros (dr & Hdr & E). destruct Hg as (He & Ha & Hn & Hb & Hf & _). rewrite He in E.
  destruct (shuffle_layout dr (p_addressSize p) n (p_ignoreZero p) (p_complete p) (p_base p) Hdr Ha Hb Hn Hf) as (d' & Hd & _ & _ & Hk & Hr & Hw & _).
  assert (d' = d) as -> by congruence. split; [exact Hk|]. split; [|exact Hw]. eapply Forall_impl; [exact Hr|]. cbn. intros r (_ & _ & _ & H & _). congruence.
Qed.
Lemma slot_full s x : wired_by p (s_first s) -> x ∈ s_seen s -> tally 1 (slot_votes s x) = ram_count n (p_addressSize p) (p_complete p).
Proof using Hg Hz.
  intros Hw Hx. destruct (wired_layout _ Hw) as (<- & Hr & _). rewrite tally_full; [unfold slot_votes, len; rewrite fmap_length; reflexivity|].
  apply Forall_fmap. eapply Forall_impl; [exact Hr|]. intros r H0. unfold compose. apply vote_seen; [exact H0|]. exists x. split; [exact Hx|]. apply Forall_true. reflexivity.
Qed.
Lemma slot_most s x : wired_by p (s_first s) -> tally 1 (slot_votes s x) <= ram_count n (p_addressSize p) (p_complete p).
Proof using Hg Hz.
  intros Hw. destruct (wired_layout _ Hw) as (<- & _). etransitivity; [apply tally_le|]. unfold slot_votes, len. rewrite fmap_length. lia.
Qed.
Lemma slot_short s x q : wired_by p (s_first s) -> p_complete p = true \/ n mod p_addressSize p = 0 -> 0 <= q < n ->
  (forall y, y ∈ s_seen s -> im_get y q <> im_get x q) -> tally 1 (slot_votes s x) < ram_count n (p_addressSize p) (p_complete p).
Proof using Hg Hz.
  intros Hw Hc Hq Hy. destruct (wired_layout _ Hw) as (Hk & Hr & He). rewrite <- Hk. replace (len (d_rams (s_first s))) with (len (slot_votes s x)) by (unfold slot_votes, len; rewrite fmap_length; reflexivity).
  apply tally_short. apply Exists_fmap. specialize (He Hc q Hq). apply Exists_exists in He as (r & Hin & Hqr). apply Exists_exists. exists r. split; [exact Hin|]. unfold compose.
  destruct (Z.lt_ge_cases (vote_due r (Train <$> s_seen s) x) 1) as [Hlt|Hge]; [exact Hlt|]. exfalso. rewrite Forall_forall in Hr.
  apply vote_seen in Hge as (y & Hys & Ha); [|apply Hr, Hin]. unfold agree in Ha. rewrite Forall_forall in Ha. apply (Hy y Hys). symmetry. apply Ha, Hqr.
Qed.
End counts.

Section recall.
Context (k0 : cluswisard) (n : Z) (es : list event) (m : gmap str (list slot)).
Context (Hc : configured_for k0 n) (Hz : k_ignoreZero k0 = false) (Hlaw : clus_law k0 (params_for k0 n) es m).
Let M := ram_count n (k_addressSize k0) (k_completeAddressing k0).
Lemma Hgood : good_params (params_for k0 n) n. Proof using Hc. apply Hc. Qed.

Lemma owed_counts x votes key v : owes m x votes -> tallies 1 votes !! key = Some v ->
  exists l ss j s, m !! l = Some ss /\ ss !! j = Some s /\ key = cluster_key l j /\ slot_law (params_for k0 n) es l s /\ v = tally 1 (slot_votes s x).
Proof using Hc Hz Hlaw.
  intros Ho Hv. unfold tallies in Hv. rewrite lookup_fmap in Hv. destruct (votes !! key) as [vs|] eqn:E; [|discriminate]. injection Hv as <-.
  apply Ho in E as (l & ss & j & s & Hl & Hj & Hk & ->). exists l, ss, j, s. split; [exact Hl|]. split; [exact Hj|]. split; [exact Hk|]. split; [|reflexivity].
  destruct (law_slots _ _ _ _ Hlaw) as (I1 & _). destruct (I1 l ss Hl) as (HF & _). rewrite Forall_forall in HF. apply HF. eapply elem_of_list_lookup_2, Hj.
Qed.
Lemma owed_full x l votes : owes m x votes -> Given l x ∈ es -> exists j, tallies 1 votes !! cluster_key l j = Some M.
Proof using Hc Hz Hlaw.
  intros Ho Hx. destruct (law_slots _ _ _ _ Hlaw) as (I1 & I2 & _). destruct (I2 l x Hx) as (ss & Hl & He). apply Exists_exists in He as (s & Hs & Hy).
  destruct (I1 l ss Hl) as (HF & _). rewrite Forall_forall in HF. destruct (HF s Hs) as (Hw & _). apply elem_of_list_lookup in Hs as (j & Hj). exists j.
  unfold tallies. rewrite lookup_fmap. assert (E : votes !! cluster_key l j = Some (slot_votes s x)) by (apply Ho; exists l, ss, j, s; auto). rewrite E. cbn. f_equal.
  exact (slot_full (params_for k0 n) n Hgood Hz s x Hw Hy).
Qed.
Lemma owed_most x votes : owes m x votes -> bounded_by (tallies 1 votes) M.
Proof using Hc Hz Hlaw.
  intros Ho key v Hv. destruct (owed_counts x votes key v Ho Hv) as (l & ss & j & s & _ & _ & _ & (Hw & _) & ->). exact (slot_most (params_for k0 n) n Hgood Hz s x Hw).
Qed.

(** The label owed to a training image. *)
Lemma recalled x l k : k_completeAddressing k0 = true \/ n mod k_addressSize k0 = 0 ->
  (k_bleachingActivated k0 = true -> k_confidence k0 <= 1 /\ k_limit k0 <= 1) ->
  Given l x ∈ es ->
  (forall l', l' <> l -> exists q, 0 <= q < n /\ forall y, Given l' y ∈ es \/ Guessed y ∈ es -> im_get y q <> im_get x q) ->
  label_due k0 m x k -> k = l.
Proof using Hc Hz Hlaw.
  intros Hwh Hbl Hx Hdiff (votes & cand & ss & j & Ho & Hcand & Hk & Hwin).
  destruct (owed_full x l votes Ho Hx) as (j0 & H0). pose proof (owed_most x votes Ho) as Hbd. set (t := tallies 1 votes) in *.
  assert (Hlow : forall key v, t !! key = Some v -> v < M \/ exists j, key = cluster_key l j).
  { intros key v Hv. destruct (owed_counts x votes key v Ho Hv) as (l' & ss' & j' & s & Hl & Hj & -> & (Hw & Hy) & ->).
    destruct (decide (l' = l)) as [->|Hne]; [eauto|]. left. destruct (Hdiff l' Hne) as (q & Hq & Hall).
    apply (slot_short (params_for k0 n) n Hgood Hz s x q Hw Hwh Hq). intros y Hys. apply Hall, Hy, Hys. }
  assert (HM : 0 <= M) by (eapply tallies_nonneg; exact H0).
  assert (Ec : cand = t).
  { destruct (k_bleachingActivated k0); [|exact Hcand]. destruct (Hbl eq_refl) as (Hconf & Hlim). destruct Hcand as (b & Hb & Eb & _ & Hmin).
    assert (Hone : forall key, t !! key = Some M -> key = cluster_key l j0).
    { intros key Hkey. destruct (Hlow key M Hkey) as [?|(j' & ->)]; [lia|].
      destruct (owed_counts x votes _ _ Ho Hkey) as (l1 & ss1 & j1 & s1 & Hl1 & Hj1 & E1 & _). apply cluster_key_inj in E1 as [<- ->].
      destruct (owed_counts x votes _ _ Ho H0) as (l2 & ss2 & j2 & s2 & Hl2 & Hj2 & E2 & _). apply cluster_key_inj in E2 as [<- ->].
      assert (ss2 = ss1) as -> by congruence. destruct (law_slots _ _ _ _ Hlaw) as (_ & _ & I3). specialize (I3 Hlim l ss1 Hl1). unfold len in I3.
      apply lookup_lt_Some in Hj1, Hj2. f_equal. lia. }
    destruct (Z.eq_dec b 1) as [->|Hb1]; [exact Eb|]. exfalso. apply (Hmin 1 ltac:(lia)). fold t.
    destruct (Z.eq_dec M 0) as [HM0|HM0]; [right; intros k1 v Hv; specialize (Hbd k1 v Hv); lia|].
    left. intros (M' & k1 & v & (_ & HB & HM') & Hv & Hmv & Hlt).
    assert (M' = M) as ->. { specialize (HB _ M H0). destruct HM' as [->|(k2 & Hk2)]; [lia|]. specialize (Hbd k2 M' Hk2). lia. }
    destruct Hlt as [?|(k2 & Hk2 & Hlt)]; [lia|]. apply Hone in Hk2 as ->.
    assert (v = M) as -> by (specialize (Hbd k1 v Hv); lia). apply Hone in Hv as ->. exact (str_lt_irrefl _ Hlt). }
  subst cand. destruct Hwin as (v & Hv & Hmax). change (k ++ lit "::" ++ to_string j) with (cluster_key k j) in *.
  destruct (Hmax _ _ H0) as [Hlt|[-> _]]; [specialize (Hbd _ _ Hv); lia|]. destruct (Hlow _ _ Hv) as [?|(j' & E)]; [lia|]. apply cluster_key_inj in E as [-> _]. reflexivity.
Qed.
End recall.
