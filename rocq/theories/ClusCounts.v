(** The number of RAMs of the discriminators of a ClusWisard. *)
From Verif Require Import Prelude Bytes Float32 Utils BinInput Ram Disc Cluster ClusWisard.
From Verif Require Import BytesProofs SpecDisc SpecCluster SpecClus SpecWrapper CtorFacts WrapperProofs.

Definition kcounted (k0 : cluswisard) (d : disc) : Prop :=
  1 <= len (d_rams d) /\ calculateNumberOfRams (d_entrySize d) (k_addressSize k0) (k_completeAddressing k0) = Ok (len (d_rams d)).
Definition okc (P : disc -> Prop) (od : option disc) : Prop := match od with Some d => P d | None => True end.
Definition ccounted (k0 : cluswisard) (c : cluster) : Prop :=
  (forall p, c_params c = Some p -> p_addressSize p = u32 (k_addressSize k0) /\ p_complete p = k_completeAddressing k0) /\
  Forall (okc (kcounted k0)) (c_discs c).
Definition kinv (k0 k : cluswisard) : Prop :=
  k_addressSize k = k_addressSize k0 /\ k_completeAddressing k = k_completeAddressing k0 /\
  forall l c, k_clusters k !! l = Some c -> ccounted k0 c.

Lemma shuffle_counted dr e a iz c base d : valid_draw dr -> setRAMShuffle dr e a iz c base = Ok d ->
  1 <= len (d_rams d) /\ calculateNumberOfRams (d_entrySize d) a c = Ok (len (d_rams d)).
Proof.
  intros Hdr E.
  assert (E' : disc_new dr a e iz c [] [] base = Ok d) by exact E.
  pose proof (number_of_rams _ _ _ _ _ _ _ Hdr E') as Hn.
  assert (He : d_entrySize d = e /\ 2 <= a <= e).
  { unfold setRAMShuffle in E. destruct (checkAddressSize e a) eqn:Ec; try discriminate. cbn [rbind] in E.
    unfold checkAddressSize in Ec. destruct (Z.ltb_spec a 2); [discriminate|]. destruct (Z.ltb_spec e 2); [discriminate|].
    destruct (Z.ltb_spec e a); [discriminate|].
    destruct (checkBase _); try discriminate. cbn [rbind] in E. destruct (int_of _); try discriminate. cbn [rbind] in E.
    destruct (rmapM _ _); try discriminate. cbn [rbind] in E. destruct (make_rams _ _ _ _ _); try discriminate. cbn [rbind] in E. injection E as <-. cbn. lia. }
  destruct He as [He Ha]. rewrite He. split; [|exact Hn].
  unfold calculateNumberOfRams in Hn. destruct (Z.eqb_spec a 0); [lia|].
  assert (1 <= Z.quot e a). { rewrite Z.quot_div_nonneg by lia. apply Z.div_le_lower_bound; lia. }
  destruct (_ && _); injection Hn as Hn; lia.
Qed.
Lemma s32_u32_int z : is_int z -> s32 (u32 z) = z.
Proof. intros H. rewrite s32_u32. apply s32_id, H. Qed.
Lemma kcounted_train k0 d x : kcounted k0 d -> kcounted k0 (snd (disc_train d x)).
Proof. unfold kcounted, len. destruct (train_size d x) as [-> ->]. auto. Qed.
Lemma ccounted_discs k0 c ds : ccounted k0 c -> Forall (okc (kcounted k0)) ds -> ccounted k0 (with_discs c ds).
Proof. intros [H _] HF. split; assumption. Qed.
Lemma ccounted_train_at k0 c i x : ccounted k0 c -> ccounted k0 (snd (cluster_train_at c i x)).
Proof.
  intros Hc. unfold cluster_train_at. destruct (c_discs c !! i) as [[d|]|] eqn:E; try exact Hc.
  pose proof (kcounted_train k0 d x) as Ht. destruct (disc_train d x) as [o d']. cbn [snd] in *. apply ccounted_discs; [exact Hc|].
  destruct Hc as [_ HF]. apply Forall_insert; [exact HF|]. apply Ht. rewrite Forall_lookup in HF. exact (HF _ _ E).
Qed.
Lemma ccounted_make k0 lhs dr c : is_int (k_addressSize k0) -> valid_draw dr -> ccounted k0 c -> ccounted k0 (snd (cluster_make lhs dr c)).
Proof.
  intros Hi Hdr Hc. unfold cluster_make. destruct (c_params c) as [p|] eqn:Ep; [|exact Hc].
  destruct (proj1 Hc p Ep) as [Ha Hco].
  destruct (setRAMShuffle _ _ _ _ _ _) as [d| | |] eqn:E; cbn [snd]; try exact Hc.
  - apply ccounted_discs; [exact Hc|]. apply Forall_app. split; [apply Hc|]. constructor; [|constructor]. cbn.
    rewrite Ha, Hco, (s32_u32_int _ Hi) in E. exact (shuffle_counted _ _ _ _ _ _ _ Hdr E).
  - destruct lhs; [|exact Hc]. apply ccounted_discs; [exact Hc|]. apply Forall_app. split; [apply Hc|]. constructor; [exact I|constructor].
Qed.
Lemma scan_counted k0 p x : forall ds i best bi tr, Forall (okc (kcounted k0)) ds ->
  Forall (okc (kcounted k0)) (snd (cluster_scan p x ds i best bi tr)).
Proof.
  induction ds as [|[d|] ds IH]; intros i best bi tr HF; cbn [cluster_scan]; try exact HF.
  inversion HF as [|? ? Hd HF']; subst. cbn in Hd.
  destruct (disc_classify d x) as [vs| | |]; try exact HF.
  destruct (f32_leb (train_limit p d) (getScore vs)).
  - pose proof (kcounted_train k0 d x Hd) as Ht. destruct (disc_train d x) as [[[]| | |] d']; cbn [snd] in *; try (constructor; [exact Ht|exact HF']).
    match goal with |- context [cluster_scan p x ds ?a ?b ?c ?e] => pose proof (IH a b c e HF') as H1; destruct (cluster_scan p x ds a b c e) end.
    cbn [snd] in *. constructor; assumption.
  - match goal with |- context [cluster_scan p x ds ?a ?b ?c ?e] => pose proof (IH a b c e HF') as H1; destruct (cluster_scan p x ds a b c e) end.
    cbn [snd] in *. constructor; assumption.
Qed.
Lemma ccounted_train k0 lhs dr c x : is_int (k_addressSize k0) -> valid_draw dr -> ccounted k0 c -> ccounted k0 (snd (cluster_train lhs dr c x)).
Proof.
  intros Hi Hdr Hc. unfold cluster_train.
  assert (Hmk : forall c i, ccounted k0 c -> ccounted k0 (snd (ebind (cluster_make lhs dr c) (fun _ c => cluster_train_at c i x)))).
  { intros c1 i H1. pose proof (ccounted_make k0 lhs dr c1 Hi Hdr H1) as H2. destruct (cluster_make lhs dr c1) as [[[]| | |] c2]; cbn [ebind snd] in *; try exact H2.
    apply ccounted_train_at, H2. }
  destruct (c_discs c) as [|od ds] eqn:Ed; [apply Hmk, Hc|]. destruct (c_params c) as [p|]; [|exact Hc].
  pose proof (scan_counted k0 p x (od :: ds) 0 f32_zero None false) as Hs. destruct (cluster_scan _ _ _ _ _ _ _) as [r ds'].
  assert (Hc' : ccounted k0 (with_discs c ds')) by (apply ccounted_discs; [exact Hc|apply Hs; rewrite <- Ed; apply Hc]).
  destruct r as [[bi tr]| | |]; try exact Hc'. destruct tr; [exact Hc'|]. destruct (_ <? _); [apply Hmk, Hc'|].
  destruct bi; [apply ccounted_train_at, Hc'|exact Hc'].
Qed.
Lemma kinv_insert k0 k l c : kinv k0 k -> ccounted k0 c -> kinv k0 (with_clusters k (<[l := c]> (k_clusters k))).
Proof.
  intros (H1 & H2 & H3) Hc. split; [exact H1|]. split; [exact H2|]. intros l' c'. cbn. destruct (decide (l = l')) as [<-|Hn].
  - rewrite lookup_insert. intros [= <-]. exact Hc.
  - rewrite lookup_insert_ne by exact Hn. apply H3.
Qed.
Lemma default_counted k0 : ccounted k0 cluster_default.
Proof. split; [intros p; discriminate|constructor]. Qed.
Lemma kinv_at k0 f k l : (forall c, ccounted k0 c -> ccounted k0 (snd (f c))) -> kinv k0 k -> kinv k0 (snd (at_cluster f k l)).
Proof.
  intros Hf Hk. unfold at_cluster.
  assert (Hd : ccounted k0 (default cluster_default (k_clusters k !! l))).
  { destruct (k_clusters k !! l) as [c|] eqn:E; cbn [from_option id]; [exact (proj2 (proj2 Hk) _ _ E)|apply default_counted]. }
  pose proof (Hf _ Hd) as H. destruct (f _) as [o c']. cbn [snd] in *. apply kinv_insert; assumption.
Qed.
Section Calls.
Context (k0 : cluswisard) (lhs : bool) (Hi : is_int (k_addressSize k0)).
Lemma kinv_train1 dr k x l : valid_draw dr -> kinv k0 k -> kinv k0 (snd (clus_train1 lhs dr k x l)).
Proof.
  intros Hdr Hk. unfold clus_train1. apply kinv_at; [intros c; apply ccounted_train; assumption|].
  destruct (k_clusters k !! l); [exact Hk|]. apply kinv_insert; [exact Hk|].
  destruct Hk as (H1 & H2 & _). split; [|constructor]. intros p [= <-]. cbn. rewrite H1, H2. split; reflexivity.
Qed.
Lemma kinv_unlabelled dr k x : valid_draw dr -> kinv k0 k -> kinv k0 (snd (clus_train_unlabelled lhs dr k x)).
Proof.
  intros Hdr Hk. unfold clus_train_unlabelled, elift. destruct (clus_candidates k x false); cbn [ebind]; try exact Hk.
  apply kinv_at; [intros c; apply ccounted_train; assumption|exact Hk].
Qed.
Lemma kinv_loop env : (forall i : nat, valid_draw (env i)) -> forall images labels i k, kinv k0 k -> kinv k0 (snd (clus_train_loop lhs env i k images labels)).
Proof.
  intros Henv. induction images as [|x xs IH]; intros [|l ls] i k Hk; cbn [clus_train_loop]; try exact Hk.
  pose proof (kinv_train1 (env i) k x l (Henv i) Hk) as H1. destruct (clus_train1 lhs (env i) k x l) as [[[]| | |] k1]; cbn [ebind snd] in *; try exact H1.
  apply IH, H1.
Qed.
Lemma kinv_semi_loop env labels : (forall i : nat, valid_draw (env i)) -> forall images i ls j k, kinv k0 k -> kinv k0 (snd (semi_loop lhs env labels i ls j images k)).
Proof.
  intros Henv. induction images as [|x xs IH]; intros i ls j k Hk; cbn [semi_loop]; [exact Hk|].
  destruct (labels !! _) as [l|].
  - pose proof (kinv_train1 (env i) k x l (Henv i) Hk) as H1. destruct (clus_train1 lhs (env i) k x l) as [[[]| | |] k1]; cbn [ebind snd] in *; try exact H1.
    apply IH, H1.
  - destruct (_ <? _); [apply IH, Hk|]. destruct (_ <? _); [apply IH, Hk|exact Hk].
Qed.
Lemma kinv_semi_unl env images : (forall i : nat, valid_draw (env i)) -> forall l k, kinv k0 k ->
  kinv k0 (snd (efor (fun k i => ebind (elift k (vget images (Z.of_nat i))) (fun im k => clus_train_unlabelled lhs (env i) k im)) l k)).
Proof.
  intros Henv. induction l as [|i l IH]; intros k Hk; cbn [efor]; [exact Hk|]. unfold elift at 1.
  destruct (vget images (Z.of_nat i)) as [x| | |]; cbn [ebind]; try exact Hk.
  pose proof (kinv_unlabelled (env i) k x (Henv i) Hk) as H1. destruct (clus_train_unlabelled _ _ _ _) as [[[]| | |] k1]; cbn [ebind snd] in *; try exact H1. apply IH, H1.
Qed.
Lemma kinv_call k c : kdrawn c -> kinv k0 k -> kinv k0 (snd (kcall_run lhs k c)).
Proof.
  intros Hd Hk. destruct c as [env images labels|env env2 images labels|env images]; cbn [kcall_run kdrawn] in *.
  - unfold clus_train. destruct images as [|x xs]; [exact Hk|]. unfold elift. destruct (let* _ := _ in _); cbn [ebind]; try exact Hk. apply kinv_loop; assumption.
  - unfold clus_train_semi. destruct images as [|x xs]; [exact Hk|]. unfold elift at 1. destruct (let* _ := _ in _); cbn [ebind]; try exact Hk.
    match goal with |- context [semi_loop lhs env labels 0 ?a 0 ?b k] => pose proof (kinv_semi_loop env labels (fun i => proj1 (Hd i)) b 0%nat a 0 k Hk) as H1; destruct (semi_loop lhs env labels 0 a 0 b k) as [[ls| | |] k1] end; cbn [ebind snd] in *; try exact H1.
    destruct (_ =? _); [exact H1|]. apply kinv_semi_unl; [intros i; apply Hd|exact H1].
  - unfold trainUnsupervised. assert (Hg : forall k, kinv k0 k -> kinv k0 (snd (at_unsupervised (fun c => efor (fun c iim => cluster_train lhs (env iim.1) c iim.2) (imap pair images) c) k))).
    { intros k1 (H1 & H2 & H3). unfold at_unsupervised. destruct (efor _ _ _). split; [exact H1|]. split; [exact H2|exact H3]. }
    destruct (Nat.eqb _ _); [|apply Hg, Hk]. destruct images as [|x xs]; [exact Hk|]. apply Hg. exact Hk.
Qed.
Lemma kinv_reaches k : k_clusters k0 = ∅ -> kreaches lhs k0 k -> kinv k0 k.
Proof.
  intros H0 H. induction H as [|k c o k' _ IH Hd E _].
  - split; [reflexivity|]. split; [reflexivity|]. intros l c. rewrite H0, lookup_empty. discriminate.
  - assert (E' : k' = snd (kcall_run lhs k c)) by (rewrite E; reflexivity). rewrite E'. apply kinv_call; assumption.
Qed.
End Calls.

(** Counts against RAMs. *)
Lemma clus_cand_bound k im sbc cand key v : clus_candidates k im sbc = Ok cand -> cand !! key = Some v ->
  exists l c j d, k_clusters k !! l = Some c /\ c_discs c !! j = Some (Some d) /\ key = cluster_key l j /\
    d_entrySize d = s32 (im_size im) /\ 0 <= v <= len (d_rams d).
Proof.
  unfold clus_candidates. destruct (clus_votes _ im) as [votes| | |] eqn:E; try discriminate. cbn [rbind]. intros H.
  apply bleach_counts in H as [b ->]. unfold Bleaching.counts_at. rewrite lookup_fmap. destruct (votes !! key) as [vs|] eqn:Ev; [|discriminate]. intros [= <-].
  apply (proj2 (Verif.ClusProofs.clus_votes_spec _ _ _ E)) in Ev as (l & c & vss & j & Hl & Ec & Hj & ->).
  unfold cluster_classify, on_discs in Ec. apply DiscCtorProofs.rmapM_ok in Ec. destruct (Forall2_lookup_r _ _ _ _ _ Ec Hj) as ([d|] & Hd & Hc); [|discriminate].
  apply classify_len in Hc as [He Hlen]. exists l, c, j, d. split; [exact Hl|]. split; [exact Hd|]. split; [reflexivity|]. split; [exact He|].
  pose proof (count_ge_bounds b vs). unfold len in *. lia.
Qed.
