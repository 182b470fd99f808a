(** Lemmas for C155: the discriminators limit matters only when it is reached. *)
From Verif Require Import Prelude Bytes Float32 BinInput Bleaching Ram Disc Wisard Cluster ClusWisard SpecClus SpecLimit.
From Verif Require Import TextProofs UtilsProofs BleachProofs ClusterProofs ClusOne.

Lemma ebind_inv {S A B} (m : eff S A) (f : A -> S -> eff S B) b s : ebind m f = (Ok b, s) -> exists a s', m = (Ok a, s') /\ f a s' = (Ok b, s).
Proof. destruct m as [[a|e|u|] s']; cbn; intros H; [eauto|discriminate..]. Qed.

Definition set_limit (L : Z) (p : cparams) : cparams :=
  CParams (p_addressSize p) (p_entrySize p) (p_minScore p) (p_threshold p) L (p_complete p) (p_ignoreZero p) (p_base p).
Lemma scan_limit L p im : forall ds i best bi t, cluster_scan (set_limit L p) im ds i best bi t = cluster_scan p im ds i best bi t.
Proof.
  induction ds as [|[d|] ds IH]; intros i best bi t; [reflexivity| |reflexivity]. cbn [cluster_scan]. destruct (disc_classify d im) as [v| | |]; [|reflexivity..].
  change (train_limit (set_limit L p) d) with (train_limit p d). destruct (f32_leb _ _); [destruct (disc_train d im) as [[]  d']; [|reflexivity..]|]; rewrite IH; reflexivity.
Qed.
Lemma scan_length p im : forall ds i best bi t, length (snd (cluster_scan p im ds i best bi t)) = length ds.
Proof.
  induction ds as [|[d|] ds IH]; intros i best bi t; [reflexivity| |reflexivity]. cbn [cluster_scan]. destruct (disc_classify d im) as [v| | |]; [|reflexivity..].
  destruct (f32_leb (train_limit p d) _).
  - destruct (disc_train d im) as [[] d']; [|reflexivity..]. match goal with |- context [cluster_scan p im ds ?i ?b ?c ?t] => specialize (IH i b c t); destruct (cluster_scan p im ds i b c t) as [r rest] end. cbn in *. lia.
  - match goal with |- context [cluster_scan p im ds ?i ?b ?c ?t] => specialize (IH i b c t); destruct (cluster_scan p im ds i b c t) as [r rest] end. cbn in *. lia.
Qed.
Lemma train_at_limit L c i im : cluster_train_at (relimit L c) i im = let '(o, c') := cluster_train_at c i im in (o, relimit L c').
Proof. unfold cluster_train_at. cbn [relimit c_discs]. destruct (c_discs c !! i) as [[d|]|]; [|reflexivity..]. destruct (disc_train d im) as [o d']. reflexivity. Qed.
Lemma train_at_keeps c i im o c' : cluster_train_at c i im = (o, c') -> length (c_discs c') = length (c_discs c) /\ c_params c' = c_params c.
Proof.
  unfold cluster_train_at. destruct (c_discs c !! i) as [[d|]|]; [|intros [= <- <-]; auto..]. destruct (disc_train d im) as [o1 d']. intros [= <- <-]. cbn. rewrite insert_length. auto.
Qed.
Lemma make_limit L lhs dr c : cluster_make lhs dr (relimit L c) = let '(o, c') := cluster_make lhs dr c in (o, relimit L c').
Proof.
  unfold cluster_make. cbn [relimit c_params]. destruct (c_params c) as [p|] eqn:E; cbn [fmap option_fmap option_map]; [|reflexivity]. cbn [p_entrySize p_addressSize p_ignoreZero p_complete p_base].
  destruct (setRAMShuffle _ _ _ _ _ _) as [d|e|u|]; try reflexivity. destruct lhs; reflexivity.
Qed.
Lemma make_keeps lhs dr c c' : cluster_make lhs dr c = (Ok tt, c') -> length (c_discs c') = S (length (c_discs c)) /\ c_params c' = c_params c.
Proof.
  unfold cluster_make. destruct (c_params c) as [p|] eqn:E; [|discriminate]. destruct (setRAMShuffle _ _ _ _ _ _) as [d|e|u|]; [|discriminate..].
  intros [= <-]. cbn. rewrite app_length. cbn. split; [lia|exact E].
Qed.

Section limits.
(** The two limits, and the counts for which they agree. *)
Context (L L' : Z) (Hmax : L <= INT_MAX) (Hmax' : L' <= INT_MAX).
Definition fine (n : Z) : Prop := n <= L' <= L \/ n < L <= L'.
Lemma fine_mono n n' : n <= n' -> fine n' -> fine n.
Proof. unfold fine. lia. Qed.
Definition limited (c : cluster) : Prop := forall p, c_params c = Some p -> p_limit p = L.

Lemma train_agrees lhs dr c im c' : limited c -> cluster_train lhs dr c im = (Ok tt, c') ->
  len (c_discs c) <= len (c_discs c') /\ c_params c' = c_params c /\
  (fine (len (c_discs c')) -> cluster_train lhs dr (relimit L' c) im = (Ok tt, relimit L' c')).
Proof using Hmax Hmax'.
  intros Hc E. unfold cluster_train in *. cbn [relimit c_discs]. destruct (c_discs c) as [|o ds] eqn:Ed.
  - apply ebind_inv in E as (u & c1 & E1 & E2). destruct u. destruct (make_keeps _ _ _ _ E1) as (Hl1 & Hp1). destruct (train_at_keeps _ _ _ _ _ E2) as (Hl2 & Hp2).
    split; [change (len (@nil (option disc))) with 0; apply len_nonneg|]. split; [congruence|]. intros _. rewrite make_limit, E1. cbn [ebind]. rewrite train_at_limit, E2. reflexivity.
  - rewrite <- Ed in *. cbn [relimit c_params]. destruct (c_params c) as [p|] eqn:Ep; [|discriminate]. cbn [fmap option_fmap option_map]. fold (set_limit L' p). rewrite scan_limit.
    pose proof (scan_length p im (c_discs c) 0 f32_zero None false) as Hsl. destruct (cluster_scan p im (c_discs c) 0 f32_zero None false) as [r ds'] eqn:Es. cbn [snd] in Hsl.
    destruct r as [[bi t]|e|u|]; [|discriminate..]. cbn [set_limit p_limit]. rewrite (Hc p Ep) in E.
    assert (Hw : with_discs (relimit L' c) ds' = relimit L' (with_discs c ds')) by reflexivity.
    assert (Hrl : Cluster (set_limit L' <$> c_params c) (c_discs c) = relimit L' c) by reflexivity.
    destruct t.
    + injection E as <-. cbn [c_discs with_discs c_params]. unfold len. rewrite Hsl. split; [lia|]. split; [exact Ep|]. reflexivity.
    + destruct (s32 (len ds') <? L) eqn:El.
      * apply ebind_inv in E as (u & c1 & E1 & E2). destruct u. destruct (make_keeps _ _ _ _ E1) as (Hl1 & Hp1). destruct (train_at_keeps _ _ _ _ _ E2) as (Hl2 & Hp2).
        cbn [with_discs c_discs c_params] in *. assert (Hn : len (c_discs c') = len ds' + 1) by (unfold len; lia). rewrite Hn. replace (len (c_discs c)) with (len ds') by (unfold len; lia). split; [lia|]. split; [congruence|]. intros Hf.
        assert (s32 (len ds') <? L' = true) as ->.
        { apply Z.ltb_lt. rewrite s32_small; unfold len, fine, INT_MAX, INT_MIN in *; lia. }

        change (with_discs _ ds') with (relimit L' (with_discs c ds')). rewrite make_limit, E1. cbn [ebind]. rewrite train_at_limit, E2. reflexivity.
      * assert (Hg : length (c_discs c') = length ds' /\ c_params c' = Some p).
        { destruct bi as [i|]; [|injection E as <-; auto]. destruct (train_at_keeps _ _ _ _ _ E) as (H1 & H2). cbn in H1, H2. rewrite Ep in H2. auto. }
        destruct Hg as (Hg1 & Hg2). assert (Hn : len (c_discs c') = len ds') by (unfold len; lia). rewrite Hn. replace (len (c_discs c)) with (len ds') by (unfold len; lia). split; [lia|]. split; [exact Hg2|]. intros Hf.
        assert (s32 (len ds') <? L' = false) as ->.
        { apply Z.ltb_ge in El. apply Z.ltb_ge. rewrite s32_small in * by (unfold len, fine, INT_MAX, INT_MIN in *; lia). unfold len, fine in *. lia. }
        change (with_discs _ ds') with (relimit L' (with_discs c ds')). destruct bi as [i|]; [rewrite train_at_limit, E; reflexivity|]. injection E as <-. reflexivity.
Qed.

(** The state of a ClusWisard. *)
Definition klimited (k : cluswisard) : Prop := k_limit k = L /\ (forall l c, k_clusters k !! l = Some c -> limited c) /\ limited (k_unsupervised k).
Definition kfine (k : cluswisard) : Prop := (forall l c, k_clusters k !! l = Some c -> fine (len (c_discs c))) /\ fine (len (c_discs (k_unsupervised k))).
Definition grown (k k1 : cluswisard) : Prop :=
  (forall l c, k_clusters k !! l = Some c -> exists c1, k_clusters k1 !! l = Some c1 /\ len (c_discs c) <= len (c_discs c1)) /\ k_unsupervised k1 = k_unsupervised k.
Lemma grown_refl k : grown k k. Proof. split; [|reflexivity]. intros l c H. exists c. split; [exact H|lia]. Qed.
Lemma grown_trans k k1 k2 : grown k k1 -> grown k1 k2 -> grown k k2.
Proof. intros (H1 & H2) (H3 & H4). split; [|congruence]. intros l c H. destruct (H1 l c H) as (c1 & Hc1 & ?). destruct (H3 l c1 Hc1) as (c2 & ? & ?). exists c2. split; [assumption|lia]. Qed.
Lemma grown_fine k k1 : grown k k1 -> kfine k1 -> kfine k.
Proof. intros (H1 & H2) (H3 & H4). split; [|rewrite <- H2; exact H4]. intros l c H. destruct (H1 l c H) as (c1 & Hc1 & Hle). eapply fine_mono; [exact Hle|eauto]. Qed.

(** A step of a training call agrees for both limits. *)
Definition agrees {A} (f : cluswisard -> eff cluswisard A) : Prop := forall k a k1, klimited k -> f k = (Ok a, k1) ->
  grown k k1 /\ klimited k1 /\ (kfine k1 -> f (with_limit L' k) = (Ok a, with_limit L' k1)).
Lemma agrees_bind {A B} (f : cluswisard -> eff cluswisard A) (g : A -> cluswisard -> eff cluswisard B) :
  agrees f -> (forall a, agrees (g a)) -> agrees (fun k => ebind (f k) g).
Proof.
  intros Hf Hg k b k2 Hk E. apply ebind_inv in E as (a & k1 & E1 & E2). destruct (Hf k a k1 Hk E1) as (G1 & K1 & F1). destruct (Hg a k1 b k2 K1 E2) as (G2 & K2 & F2).
  split; [eapply grown_trans; eassumption|]. split; [exact K2|]. intros Hfine. rewrite (F1 (grown_fine _ _ G2 Hfine)). cbn [ebind]. apply F2, Hfine.
Qed.
Lemma agrees_lift {A} (f : cluswisard -> res A) : (forall k, f (with_limit L' k) = f k) -> agrees (fun k => elift k (f k)).
Proof. intros H k a k1 Hk [= E <-]. split; [apply grown_refl|]. split; [exact Hk|]. intros _. unfold elift. rewrite H, E. reflexivity. Qed.
Lemma agrees_for {X} (f : cluswisard -> X -> eff cluswisard unit) l : (forall x, agrees (fun k => f k x)) -> agrees (efor f l).
Proof.
  intros H. induction l as [|x l IH].
  - intros k a k1 Hk [= <- <-]. split; [apply grown_refl|]. auto.
  - exact (agrees_bind (fun k => f k x) (fun _ => efor f l) (H x) (fun _ => IH)).
Qed.
Lemma agrees_at lhs dr im l : agrees (fun k => at_cluster (fun c => cluster_train lhs dr c im) k l).
Proof using Hmax Hmax'.
  intros k a k1 (K1 & K2 & K3) E. unfold at_cluster in E. destruct (cluster_train lhs dr (default cluster_default (k_clusters k !! l)) im) as [o c'] eqn:Ec. injection E as -> <-. destruct a.
  assert (Hl : limited (default cluster_default (k_clusters k !! l))).
  { destruct (k_clusters k !! l) as [c|] eqn:El; cbn [default]; [apply (K2 l c El)|intros p Hp; discriminate]. }
  destruct (train_agrees lhs dr _ im c' Hl Ec) as (Hlen & Hp & Hag). split; [|split].
  - split; [|reflexivity]. intros l0 c0 H0. cbn [with_clusters k_clusters]. destruct (decide (l = l0)) as [<-|Hne].
    + exists c'. split; [apply lookup_insert|]. rewrite H0 in Hlen. exact Hlen.
    + exists c0. split; [rewrite lookup_insert_ne by exact Hne; exact H0|lia].
  - split; [exact K1|]. split; [|exact K3]. intros l0 c0 H0. cbn [with_clusters k_clusters] in H0. destruct (decide (l = l0)) as [<-|Hne].
    + rewrite lookup_insert in H0. injection H0 as <-. intros p H. rewrite Hp in H. exact (Hl p H).
    + rewrite lookup_insert_ne in H0 by exact Hne. exact (K2 l0 c0 H0).
  - intros (F1 & _). specialize (F1 l c'). cbn [with_clusters k_clusters] in F1. specialize (F1 (lookup_insert _ _ _)). specialize (Hag F1).
    unfold at_cluster. cbn [with_limit k_clusters]. rewrite lookup_fmap.
    replace (default cluster_default (relimit L' <$> k_clusters k !! l)) with (relimit L' (default cluster_default (k_clusters k !! l))) by (destruct (k_clusters k !! l); reflexivity).
    rewrite Hag. f_equal. unfold with_clusters, with_limit. cbn. f_equal. symmetry. apply fmap_insert.
Qed.
Lemma agrees_train1 lhs dr im l : agrees (fun k => clus_train1 lhs dr k im l).
Proof using Hmax Hmax'.
  intros k a k1 Hk E. unfold clus_train1 in *. cbn [with_limit k_clusters]. rewrite lookup_fmap. destruct (k_clusters k !! l) as [c|] eqn:El; cbn [fmap option_fmap option_map].
  - exact (agrees_at lhs dr im l k a k1 Hk E).
  - assert (Hk' : klimited (makeClusters k l (s32 (im_size im)))).
    { destruct Hk as (K1 & K2 & K3). split; [exact K1|]. split; [|exact K3]. intros l0 c0 H0. cbn [makeClusters with_clusters k_clusters] in H0. destruct (decide (l = l0)) as [<-|Hne].
      - rewrite lookup_insert in H0. injection H0 as <-. intros p [= <-]. exact K1.
      - rewrite lookup_insert_ne in H0 by exact Hne. exact (K2 l0 c0 H0). }
    destruct (agrees_at lhs dr im l _ a k1 Hk' E) as (G & K & F). split; [|split; [exact K|]].
    + eapply grown_trans; [|exact G]. split; [|reflexivity]. intros l0 c0 H0. exists c0. split; [|lia]. cbn. rewrite lookup_insert_ne by congruence. exact H0.
    + intros Hf. rewrite <- (F Hf). f_equal. unfold makeClusters, with_clusters, with_limit. cbn. f_equal. rewrite fmap_insert. reflexivity.
Qed.
Lemma agrees_loop lhs env : forall images labels i, agrees (fun k => clus_train_loop lhs env i k images labels).
Proof using Hmax Hmax'.
  induction images as [|im images IH]; intros labels i.
  - intros k a k1 Hk [= <- <-]. split; [apply grown_refl|]. auto.
  - destruct labels as [|l labels]; [intros k a k1 _ E; discriminate|].
    exact (agrees_bind (fun k => clus_train1 lhs (env i) k im l) (fun _ k => clus_train_loop lhs env (S i) k images labels) (agrees_train1 lhs (env i) im l) (fun _ => IH labels (S i))).
Qed.
Lemma agrees_train lhs env images labels : agrees (fun k => clus_train lhs env k images labels).
Proof using Hmax Hmax'.
  destruct images as [|im images]; [intros k a k1 _ E; discriminate|].
  refine (agrees_bind (fun k => elift k _) (fun _ k => clus_train_loop lhs env 0 k (im :: images) labels) _ (fun _ => agrees_loop lhs env (im :: images) labels 0)).
  apply (agrees_lift (fun k => let* _ := clus_first_checks k im in checkInputSizes (len (im :: images)) (len labels))). reflexivity.
Qed.

(** Nothing but training reads the limit. *)
Lemma sorted_map {A B} (f : A -> B) (m : gmap str A) : sorted_items (f <$> m) = (fun x => (x.1, f x.2)) <$> sorted_items m.
Proof.
  apply sorted_by.
  - apply (sorted_fmap lt_key); [apply sorted_items_strict|]. intros [k a] [k' a'] _ _ H. exact H.
  - intros k v. rewrite elem_of_list_fmap, lookup_fmap. split.
    + intros ([k0 a] & [= -> ->] & Hin). apply sorted_items_elem in Hin. cbn in *. rewrite Hin. reflexivity.
    + intros H. destruct (m !! k) as [a|] eqn:E; [|discriminate]. injection H as <-. exists (k, a). split; [reflexivity|]. apply sorted_items_elem, E.
Qed.
Lemma rmapM_map {A B C} (f : A -> B) (g : B -> res C) l : rmapM g (f <$> l) = rmapM (fun x => g (f x)) l.
Proof. induction l as [|x l IH]; [reflexivity|]. cbn. rewrite IH. reflexivity. Qed.
Lemma votes_limit k im : clus_votes (k_clusters (with_limit L' k)) im = clus_votes (k_clusters k) im.
Proof. unfold clus_votes. cbn [with_limit k_clusters]. rewrite sorted_map, rmapM_map. reflexivity. Qed.
Lemma candidates_limit k im sb : clus_candidates (with_limit L' k) im sb = clus_candidates k im sb.
Proof. unfold clus_candidates. rewrite votes_limit. reflexivity. Qed.
Lemma classify_limit k xs : clus_classify (with_limit L' k) xs = clus_classify k xs.
Proof. unfold clus_classify, clus_classify1. induction xs as [|x xs IH]; [reflexivity|]. cbn [rmapM]. rewrite candidates_limit, IH. reflexivity. Qed.
Lemma mental_limit iter k : clus_mental iter (with_limit L' k) = clus_mental iter k.
Proof. unfold clus_mental. cbn [with_limit k_clusters]. rewrite sorted_map, rmapM_map. reflexivity. Qed.

Lemma agrees_unlabelled lhs dr im : agrees (fun k => clus_train_unlabelled lhs dr k im).
Proof using Hmax Hmax'.
  refine (agrees_bind (fun k => elift k (clus_candidates k im false)) (fun c k => at_cluster (fun c => cluster_train lhs dr c im) k (before_colons (getBiggestCandidate c))) _ _).
  - apply (agrees_lift (fun k => clus_candidates k im false)). intros k. apply candidates_limit.
  - intros c. apply agrees_at.
Qed.
Lemma agrees_semi_loop lhs env labels : forall images i ls j, agrees (semi_loop lhs env labels i ls j images).
Proof using Hmax Hmax'.
  induction images as [|im images IH]; intros i ls j.
  - intros k a k1 Hk [= <- <-]. split; [apply grown_refl|]. auto.
  - cbn [semi_loop]. destruct (labels !! s32 (Z.of_nat i)) as [l|].
    + exact (agrees_bind (fun k => clus_train1 lhs (env i) k im l) (fun _ k => semi_loop lhs env labels (S i) ls j images k) (agrees_train1 lhs (env i) im l) (fun _ => IH (S i) ls j)).
    + destruct (u64 (ls - 1) <? j); [apply IH|]. destruct (j <? ls); [apply IH|]. intros k a k1 _ E. discriminate.
Qed.
Lemma agrees_semi lhs env env2 images labels : agrees (fun k => clus_train_semi lhs env env2 k images labels).
Proof using Hmax Hmax'.
  destruct images as [|im images]; [intros k a k1 _ E; discriminate|].
  refine (agrees_bind (fun k => elift k _) _ _ (fun _ => agrees_bind _ _ (agrees_semi_loop lhs env labels (im :: images) 0 _ 0) _)).
  - match goal with |- agrees (fun k => elift k (@?f k)) => apply (agrees_lift f) end. reflexivity.
  - intros ls. destruct (s32 ls =? s32 (len (im :: images))); [intros k a k1 _ E; discriminate|]. unfold semi_unlabelled.
    apply agrees_for. intros i. apply (agrees_bind (fun k => elift k (vget (im :: images) (Z.of_nat i))) (fun x k => clus_train_unlabelled lhs (env2 i) k x)).
    + apply (agrees_lift (fun _ => vget (im :: images) (Z.of_nat i))). reflexivity.
    + intros x. apply agrees_unlabelled.
Qed.

(** trainUnsupervised may start its cluster anew, then it only grows. *)
Lemma cluster_for_agrees lhs env : forall (xs : list (nat * image)) c c', limited c ->
  efor (fun c iim => cluster_train lhs (env iim.1) c iim.2) xs c = (Ok tt, c') ->
  len (c_discs c) <= len (c_discs c') /\ c_params c' = c_params c /\
  (fine (len (c_discs c')) -> efor (fun c iim => cluster_train lhs (env iim.1) c iim.2) xs (relimit L' c) = (Ok tt, relimit L' c')).
Proof using Hmax Hmax'.
  induction xs as [|x xs IH]; intros c c' Hc E.
  - injection E as <-. split; [lia|]. auto.
  - cbn [efor] in *. apply ebind_inv in E as (u & c1 & E1 & E2). destruct u. destruct (train_agrees lhs _ _ _ _ Hc E1) as (H1 & H2 & H3).
    destruct (IH c1 c') as (H4 & H5 & H6); [intros p Hp; apply Hc; congruence|exact E2|]. split; [lia|]. split; [congruence|]. intros Hf.
    rewrite H3 by (eapply fine_mono; [exact H4|exact Hf]). cbn [ebind]. apply H6, Hf.
Qed.
Lemma call_agrees lhs c k k1 : klimited k -> kcall_run lhs k c = (Ok tt, k1) -> klimited k1 /\ (kfine k1 -> kcall_run lhs (with_limit L' k) c = (Ok tt, with_limit L' k1)).
Proof using Hmax Hmax'.
  intros Hk E. destruct c as [env images labels|env env2 images labels|env images]; cbn [kcall_run] in *.
  - exact (proj2 (agrees_train lhs env images labels k tt k1 Hk E)).
  - exact (proj2 (agrees_semi lhs env env2 images labels k tt k1 Hk E)).
  - assert (G : forall k k1, klimited k -> at_unsupervised (fun c => efor (fun c iim => cluster_train lhs (env iim.1) c iim.2) (imap pair images) c) k = (Ok tt, k1) ->
      klimited k1 /\ (kfine k1 -> at_unsupervised (fun c => efor (fun c iim => cluster_train lhs (env iim.1) c iim.2) (imap pair images) c) (with_limit L' k) = (Ok tt, with_limit L' k1))).
    { clear k k1 Hk E. intros k k1 (K1 & K2 & K3) E. unfold at_unsupervised in *.
      destruct (efor (fun c iim => cluster_train lhs (env iim.1) c iim.2) (imap pair images) (k_unsupervised k)) as [o c'] eqn:Ec. injection E as -> <-.
      destruct (cluster_for_agrees lhs env _ _ _ K3 Ec) as (H1 & H2 & H3). split.
      - split; [exact K1|]. split; [exact K2|]. intros p Hp. cbn in Hp. apply K3. congruence.
      - intros (_ & Hf). cbn [with_unsupervised k_unsupervised] in Hf. cbn [with_limit k_unsupervised]. rewrite (H3 Hf). reflexivity. }
    unfold trainUnsupervised in *. cbn [with_limit k_clusters]. rewrite map_size_fmap. destruct (Nat.eqb (size (k_clusters k)) 0); [|apply G; assumption].
    destruct images as [|im images]; [discriminate|]. apply G in E; [exact E|]. destruct Hk as (K1 & K2 & K3). split; [exact K1|]. split; [exact K2|]. intros p [= <-]. exact K1.
Qed.
Lemma krun_agrees lhs : forall cs k k1, klimited k -> krun lhs k cs = (Ok tt, k1) ->
  (forall cs1 cs2, cs = cs1 ++ cs2 -> kfine (snd (krun lhs k cs1))) ->
  krun lhs (with_limit L' k) cs = (Ok tt, with_limit L' k1).
Proof using Hmax Hmax'.
  unfold krun. induction cs as [|c cs IH]; intros k k1 Hk E Hf; [injection E as <-; reflexivity|]. cbn [efor] in *. apply ebind_inv in E as (u & k2 & E1 & E2). destruct u.
  destruct (call_agrees lhs c k k2 Hk E1) as (K & F). rewrite F.
  - cbn [ebind]. apply IH; [exact K|exact E2|]. intros cs1 cs2 ->. specialize (Hf (c :: cs1) cs2 eq_refl). cbn [efor] in Hf. rewrite E1 in Hf. exact Hf.
  - specialize (Hf [c] cs eq_refl). cbn [efor] in Hf. rewrite E1 in Hf. exact Hf.
Qed.
End limits.
