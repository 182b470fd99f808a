(** Property theorems C174: no sequence of list images runs a ClusWisard into undefined behaviour. *)
From Verif Require Import Prelude Bytes Bleaching Utils BinInput Float32 Ram Disc DataSet Wisard Cluster ClusWisard.
From Verif Require Import SpecBin SpecDisc SpecBleach SpecWisard SpecClus SpecValues BytesProofs BinProofs UtilsProofs TextProofs BleachProofs DiscCtorProofs CtorFacts RamProofs DiscProofs DiscFacts WisardProofs WisardFacts WisardSafety ClusProofs ClusMore.
From Verif Require Import PropsWisard PropsCluster PropsClus PropsDefined.

(** A discriminator of a cluster for images of e pixels can be built with every draw. *)
Definition buildable (a base e : Z) : Prop := 2 <= a <= e /\ 2 <= base /\ (base = 2 -> a <= 64).
(** e pixels: the random wiring stays in the machine's numbers; and, when the compiler creates the map
    entry before it calls the constructor, the constructor must not refuse. *)
Definition fair_size (lhs_first : bool) (a base e : Z) : Prop :=
  0 <= e <= INT_MAX /\ e + a <= INT_MAX /\ addressable base a /\ (lhs_first = false \/ buildable a base e).

(** [setRAMShuffle] through a Wisard without options. *)
Definition as_wisard (a : Z) (iz c : bool) (base : Z) : wisard := Wisard a true false ∅ [] iz c base false false false false 0 ∅.
Lemma shuffle_as dr e a iz c base : setRAMShuffle dr e a iz c base = construct_discriminator dr (as_wisard a iz c base) [] e.
Proof. unfold construct_discriminator, as_wisard. cbn [w_mapping w_indexes w_addressSize w_ignoreZero w_completeAddressing w_base]. rewrite lookup_empty. reflexivity. Qed.
Lemma as_wiring lhs a iz c base e : fair_size lhs a base e -> safe_wiring (as_wisard a iz c base) e [].
Proof.
  intros (He & Hea & Hb & _). unfold safe_wiring, as_wisard. cbn [w_mapping w_indexes w_addressSize w_base]. rewrite lookup_empty.
  split; [exact Hb|]. split; [change (len (A:=Z) []) with 0; unfold INT_MAX; lia|]. split; [constructor|]. intros _. exact Hea.
Qed.
Lemma shuffle_cases lhs dr e a iz c base : valid_draw dr -> fair_size lhs a base e ->
  (exists d, setRAMShuffle dr e a iz c base = Ok d /\ sound 0 d) \/ (lhs = false /\ exists x, setRAMShuffle dr e a iz c base = Throw x).
Proof.
  intros Hdr Hf. pose proof (as_wiring lhs a iz c base e Hf) as Hw. destruct Hf as (He & Hea & Hb & Hl).
  pose proof (construct_served dr (as_wisard a iz c base) [] e Hdr He Hw) as Hs. rewrite <- shuffle_as in Hs.
  destruct Hl as [Hl|(H1 & H2 & H3)].
  - destruct (setRAMShuffle dr e a iz c base) as [d|x| |] eqn:E; try contradiction; [left|right; eauto]. exists d. split; [reflexivity|].
    eapply new_sound; [exact Hdr|exact He|exact Hw|]. rewrite <- shuffle_as. exact E.
  - left. destruct (shuffle_layout dr a e iz c base Hdr H1 H2 Hea) as (d & E & _).
    { split; [exact H3|]. intros Hn. destruct Hb; [lia|assumption]. }
    unfold disc_new in E. cbn [length Nat.eqb negb] in E. exists d. split; [exact E|]. eapply new_sound; [exact Hdr|exact He|exact Hw|]. rewrite <- shuffle_as. exact E.
Qed.

(** ** Clusters *)
Definition slot_sound (N : Z) (o : option disc) : Prop := exists d, o = Some d /\ sound N d.
Definition slots_sound (N : Z) (c : cluster) : Prop := Forall (slot_sound N) (c_discs c).
Definition cluster_sound (lhs : bool) (N : Z) (c : cluster) : Prop :=
  slots_sound N c /\ exists p, c_params c = Some p /\ fair_size lhs (s32 (p_addressSize p)) (p_base p) (s32 (p_entrySize p)).
Lemma slots_le N M ds : N <= M -> Forall (slot_sound N) ds -> Forall (slot_sound M) ds.
Proof. intros H HF. eapply Forall_impl; [exact HF|]. intros o (d & -> & Hd). exists d. split; [reflexivity|]. eapply sound_le; eassumption. Qed.
Lemma cluster_sound_le lhs N M c : N <= M -> cluster_sound lhs N c -> cluster_sound lhs M c.
Proof. intros H [H1 H2]. split; [eapply slots_le; eassumption|exact H2]. Qed.
Lemma make_sound lhs dr N c : valid_draw dr -> 0 <= N -> cluster_sound lhs N c ->
  (exists d, cluster_make lhs dr c = (Ok tt, with_discs c (c_discs c ++ [Some d])) /\ sound N d) \/ (exists x, cluster_make lhs dr c = (Throw x, c)).
Proof.
  intros Hdr HN [Hs (p & Ep & Hf)]. unfold cluster_make. rewrite Ep. destruct (shuffle_cases lhs dr _ _ (p_ignoreZero p) (p_complete p) _ Hdr Hf) as [(d & -> & Hd)|(-> & x & ->)].
  - left. exists d. split; [reflexivity|]. eapply sound_le; [exact HN|exact Hd].
  - right. exists x. reflexivity.
Qed.
Lemma train_at_sound lhs N c i x d : readable x -> 0 <= N < INT_MAX -> cluster_sound lhs N c -> c_discs c !! i = Some (Some d) ->
  served (fst (cluster_train_at c i x)) /\ cluster_sound lhs (N + 1) (snd (cluster_train_at c i x)).
Proof.
  intros Hx HN [Hs Hp] E. unfold cluster_train_at. rewrite E. unfold slots_sound in Hs. assert (sound N d) as Hd.
  { rewrite Forall_forall in Hs. destruct (Hs _ (elem_of_list_lookup_2 _ _ _ E)) as (d' & [= <-] & H). exact H. }
  destruct (disc_op_sound N d x Hx HN Hd) as [[H1 H2] _]. destruct (disc_train d x) as [o d']. cbn [fst snd] in *. split; [exact H1|]. split; [|exact Hp].
  apply Forall_insert; [eapply slots_le; [|exact Hs]; lia|exists d'; auto].
Qed.
Lemma scan_sound p x N : readable x -> 0 <= N < INT_MAX -> forall ds i best bi tr, Forall (slot_sound N) ds ->
  served (fst (cluster_scan p x ds i best bi tr)) /\ Forall (slot_sound (N + 1)) (snd (cluster_scan p x ds i best bi tr)) /\
  forall bi' tr', fst (cluster_scan p x ds i best bi tr) = Ok (bi', tr') ->
    (tr' = false -> tr = false /\ snd (cluster_scan p x ds i best bi tr) = ds) /\ (bi' = bi \/ exists j, bi' = Some (i + j)%nat /\ (j < length ds)%nat).
Proof.
  intros Hx HN. induction ds as [|o ds IH]; intros i best bi tr HF; cbn [cluster_scan].
  - split; [exact I|]. split; [constructor|]. intros bi' tr' [= <- <-]. split; [|auto]. intros ->. split; reflexivity.
  - pose proof (slots_le N (N + 1) _ ltac:(lia) HF) as HF'. apply Forall_cons in HF as [(d & -> & Hd) HF].
    destruct (disc_classify_sound N d x Hx Hd) as [Hc _]. destruct (disc_classify d x) as [votes|e| |]; try contradiction; [|split; [exact I|]; split; [exact HF'|]; discriminate].
    assert (HF1 : Forall (slot_sound (N + 1)) ds) by (apply Forall_cons in HF' as [_ H]; exact H).
    destruct (f32_leb (train_limit p d) (getScore votes)).
    + destruct (disc_op_sound N d x Hx HN Hd) as [[H1 H2] _]. destruct (disc_train d x) as [o d']. cbn [fst snd] in *. destruct o as [[]|e| |]; try contradiction.
      * cbv zeta. match goal with |- context [cluster_scan p x ds (S i) ?b ?c true] => destruct (IH (S i) b c true HF) as (I1 & I2 & I3); destruct (cluster_scan p x ds (S i) b c true) as [r rest] end. cbn [fst snd] in *.
        split; [exact I1|]. split; [apply Forall_cons; split; [exists d'; auto|exact I2]|]. intros bi' tr' E. destruct (I3 bi' tr' E) as [J1 J2]. split; [intros Ht; destruct (J1 Ht); discriminate|].
        destruct J2 as [-> | (j & -> & Hj)]; [|right; exists (S j); split; [f_equal; lia|cbn; lia]]. destruct (f32_leb best _); [right; exists 0%nat; split; [f_equal; lia|cbn; lia]|left; reflexivity].
      * split; [exact I|]. split; [apply Forall_cons; split; [exists d'; auto|exact HF1]|]. discriminate.
    + cbv zeta. match goal with |- context [cluster_scan p x ds (S i) ?b ?c tr] => destruct (IH (S i) b c tr HF) as (I1 & I2 & I3); destruct (cluster_scan p x ds (S i) b c tr) as [r rest] end. cbn [fst snd] in *.
      split; [exact I1|]. split; [apply Forall_cons; split; [apply Forall_cons in HF' as [H _]; exact H|exact I2]|]. intros bi' tr' E. destruct (I3 bi' tr' E) as [J1 J2]. split; [intros Ht; destruct (J1 Ht) as [-> ->]; auto|].
      destruct J2 as [-> | (j & -> & Hj)]; [|right; exists (S j); split; [f_equal; lia|cbn; lia]]. destruct (f32_leb best _); [right; exists 0%nat; split; [f_equal; lia|cbn; lia]|left; reflexivity].
Qed.
Lemma cluster_train_sound lhs dr N c x : valid_draw dr -> readable x -> 0 <= N < INT_MAX -> cluster_sound lhs N c ->
  served (fst (cluster_train lhs dr c x)) /\ cluster_sound lhs (N + 1) (snd (cluster_train lhs dr c x)).
Proof.
  intros Hdr Hx HN Hc.
  assert (Hmk : forall i, i = length (c_discs c) -> served (fst (ebind (cluster_make lhs dr c) (fun _ c => cluster_train_at c i x))) /\ cluster_sound lhs (N + 1) (snd (ebind (cluster_make lhs dr c) (fun _ c => cluster_train_at c i x)))).
  { intros i ->. destruct (make_sound lhs dr N c Hdr ltac:(lia) Hc) as [(d & -> & Hd)|(e & ->)]; cbn [ebind].
    - eapply train_at_sound; [exact Hx|exact HN| |].
      + destruct Hc as [Hs Hp]. split; [|exact Hp]. apply Forall_app. split; [exact Hs|]. apply Forall_cons. split; [exists d; auto|constructor].
      + apply list_lookup_middle. reflexivity.
    - split; [exact I|]. eapply cluster_sound_le; [|exact Hc]. cbn. lia. }
  unfold cluster_train. case_eq (c_discs c); [intros Ed; apply (Hmk 0%nat); rewrite ?Ed; reflexivity|intros o ds Ed]. rewrite <- ?Ed. clear o ds Ed.
  pose proof Hc as [Hs (p & Ep & Hf)]. rewrite Ep. destruct (scan_sound p x N Hx HN (c_discs c) 0 f32_zero None false Hs) as (S1 & S2 & S3).
  destruct (cluster_scan p x (c_discs c) 0 f32_zero None false) as [r ds']. cbn [fst snd] in *.
  assert (Hc' : cluster_sound lhs (N + 1) (with_discs c ds')) by (split; [exact S2|exists p; split; [exact Ep|exact Hf]]).
  destruct r as [[bi tr]|e| |]; try contradiction; [|split; [exact I|exact Hc']]. destruct (S3 bi tr eq_refl) as [T1 T2]. destruct tr; [split; [exact I|exact Hc']|].
  destruct (T1 eq_refl) as [_ ->]. replace (with_discs c (c_discs c)) with c in * by (destruct c; reflexivity).
  destruct (_ <? _); [apply Hmk; reflexivity|]. destruct bi as [i|]; [|split; [exact I|exact Hc']]. destruct T2 as [T2|(j & [= ->] & Hj)]; [discriminate|].
  destruct (lookup_lt_is_Some_2 (c_discs c) j Hj) as [o Eo]. unfold slots_sound in Hs. rewrite Forall_forall in Hs. destruct (Hs o (elem_of_list_lookup_2 _ _ _ Eo)) as (d & -> & _).
  eapply train_at_sound; [exact Hx|exact HN|exact Hc|exact Eo].
Qed.
Lemma cluster_train_params lhs dr c x : c_params (snd (cluster_train lhs dr c x)) = c_params c.
Proof.
  assert (Hat : forall c i, c_params (snd (cluster_train_at c i x)) = c_params c).
  { intros c' i. unfold cluster_train_at. destruct (c_discs c' !! i) as [[d|]|]; try reflexivity. destruct (disc_train d x). reflexivity. }
  assert (Hmk : forall c i, c_params (snd (ebind (cluster_make lhs dr c) (fun _ c => cluster_train_at c i x))) = c_params c).
  { intros c' i. unfold cluster_make. destruct (c_params c') as [p|] eqn:E; [|exact E]. destruct (setRAMShuffle _ _ _ _ _ _); cbn [ebind]; [rewrite Hat; exact E| |exact E|exact E]. destruct lhs; exact E. }
  unfold cluster_train. destruct (c_discs c) as [|o ds]; [apply Hmk|]. destruct (c_params c) as [p|] eqn:E; [|exact E]. destruct (cluster_scan _ _ _ _ _ _ _) as [r ds'].
  destruct r as [[bi tr]| | |]; try exact E. destruct tr; [exact E|]. destruct (_ <? _); [rewrite Hmk; exact E|]. destruct bi; [rewrite Hat; exact E|exact E].
Qed.

(** ** A ClusWisard *)
Definition clusters_sound (lhs : bool) (N : Z) (k : cluswisard) : Prop :=
  (forall l c, k_clusters k !! l = Some c -> cluster_sound lhs N c) /\ slots_sound N (k_unsupervised k).
Definition same_options (k k' : cluswisard) : Prop := k' = with_unsupervised (with_clusters k (k_clusters k')) (k_unsupervised k').
Lemma same_options_refl k : same_options k k. Proof. destruct k. reflexivity. Qed.
Lemma same_options_trans k1 k2 k3 : same_options k1 k2 -> same_options k2 k3 -> same_options k1 k3.
Proof. unfold same_options. intros E1 E2. rewrite E2. rewrite E1 at 1. reflexivity. Qed.
Lemma clusters_sound_le lhs N M k : N <= M -> clusters_sound lhs N k -> clusters_sound lhs M k.
Proof. intros H [H1 H2]. split; [intros l c E; eapply cluster_sound_le; [exact H|exact (H1 l c E)]|eapply slots_le; eassumption]. Qed.
Definition kfine (lhs : bool) (N : Z) (k : cluswisard) (p : eff cluswisard unit) : Prop :=
  served (fst p) /\ clusters_sound lhs N (snd p) /\ same_options k (snd p).

(** Images a ClusWisard with these options can meet. *)
Definition fair_image (lhs : bool) (k : cluswisard) (base : Z) (x : image) : Prop := readable x /\ fair_size lhs (k_addressSize k) base (im_size x).
Definition fair_call (lhs : bool) (k : cluswisard) (c : kcall) : Prop :=
  match c with
  | KTrain env xs ls => xs <> [] /\ len xs <= INT_MAX /\ len ls <= INT_MAX /\ (forall i, valid_draw (env i)) /\ Forall (fair_image lhs k (k_base k)) xs
  | KUnsupervised env xs => xs <> [] /\ (forall i, valid_draw (env i)) /\ Forall (fair_image lhs k 2) xs
  | KSemi _ _ _ _ => False
  end.
Definition handed_over (c : kcall) : Z := match c with KTrain _ xs _ | KSemi _ _ xs _ | KUnsupervised _ xs => len xs end.
Definition is_unsupervised (c : kcall) : Prop := match c with KUnsupervised _ _ => True | _ => False end.
Definition is_supervised (c : kcall) : Prop := match c with KTrain _ _ _ => True | _ => False end.
Lemma fair_same lhs k k' : same_options k k' -> fair_call lhs k' = fair_call lhs k. Proof. intros ->. reflexivity. Qed.

Lemma new_cluster_sound lhs N k base e : is_int (k_addressSize k) -> fair_size lhs (k_addressSize k) base e -> cluster_sound lhs N (new_cluster k e base).
Proof.
  intros Ha Hf. split; [constructor|]. eexists. split; [reflexivity|]. cbn [p_addressSize p_base p_entrySize]. rewrite !s32_u32, !s32_id; [exact Hf| |exact Ha]. destruct Hf as [He _]. unfold INT_MIN. lia.
Qed.
Lemma at_cluster_fine lhs N f k l c : 0 <= N -> clusters_sound lhs N k -> k_clusters k !! l = Some c -> served (fst (f c)) -> cluster_sound lhs (N + 1) (snd (f c)) -> kfine lhs (N + 1) k (at_cluster f k l).
Proof.
  intros HN [Hk Hu] E H1 H2. unfold at_cluster. rewrite E. cbn [default from_option]. unfold default, from_option, id. destruct (f c) as [o c']. cbn [fst snd] in *. split; [exact H1|]. split; [|destruct k; reflexivity]. split.
  - intros m b. cbn. rewrite lookup_insert_Some. intros [[_ <-]|[_ Hb]]; [exact H2|]. eapply cluster_sound_le; [|exact (Hk m b Hb)]. lia.
  - eapply slots_le; [|exact Hu]. lia.
Qed.
Lemma ktrain1_fine lhs dr N k x l : valid_draw dr -> is_int (k_addressSize k) -> fair_image lhs k (k_base k) x -> 0 <= N < INT_MAX -> clusters_sound lhs N k -> kfine lhs (N + 1) k (clus_train1 lhs dr k x l).
Proof.
  intros Hdr Ha [Hx Hf] HN Hk. unfold clus_train1. destruct (k_clusters k !! l) as [c|] eqn:E.
  - destruct (cluster_train_sound lhs dr N c x Hdr Hx HN (proj1 Hk l c E)) as [H1 H2]. eapply at_cluster_fine; [lia|exact Hk|exact E|exact H1|exact H2].
  - rewrite s32_id by (destruct Hx as [Hx _]; unfold INT_MIN; lia). pose proof (new_cluster_sound lhs N k (k_base k) (im_size x) Ha Hf) as Hc.
    destruct (cluster_train_sound lhs dr N _ x Hdr Hx HN Hc) as [H1 H2].
    destruct (at_cluster_fine lhs N (fun c => cluster_train lhs dr c x) (makeClusters k l (im_size x)) l (new_cluster k (im_size x) (k_base k)) ltac:(lia)) as (F1 & F2 & F3); [| |exact H1|exact H2|split; [exact F1|split; [exact F2|]]].
    + split; [|apply Hk]. intros m b. cbn. rewrite lookup_insert_Some. intros [[_ <-]|[_ Hb]]; [exact Hc|exact (proj1 Hk m b Hb)].
    + cbn. apply lookup_insert.
    + eapply same_options_trans; [|exact F3]. destruct k; reflexivity.
Qed.
Lemma ktrain_loop_fine lhs env : (forall i, valid_draw (env i)) -> forall xs ls i N k, length xs = length ls -> is_int (k_addressSize k) -> Forall (fair_image lhs k (k_base k)) xs -> 0 <= N -> N + len xs <= INT_MAX ->
  clusters_sound lhs N k -> kfine lhs (N + len xs) k (clus_train_loop lhs env i k xs ls).
Proof.
  intros Hdr. induction xs as [|x xs IH]; intros [|l ls] i N k Hlen Ha Hx HN HM Hk; try discriminate; cbn [clus_train_loop].
  - split; [exact I|]. split; [eapply clusters_sound_le; [|exact Hk]; change (len (A:=image) []) with 0; lia|apply same_options_refl].
  - rewrite len_cons in *. pose proof (len_nonneg xs). apply Forall_cons in Hx as [Hx Hxs].
    destruct (ktrain1_fine lhs (env i) N k x l (Hdr i) Ha Hx ltac:(lia) Hk) as (F1 & F2 & F3). destruct (clus_train1 lhs (env i) k x l) as [[[]| | |] k1]; cbn [ebind fst snd] in *; try contradiction.
    + destruct (IH ls (S i) (N + 1) k1) as (G1 & G2 & G3); [cbn in Hlen; lia|rewrite F3; exact Ha|rewrite F3; exact Hxs|lia|lia|exact F2|].
      split; [exact G1|]. split; [eapply clusters_sound_le; [|exact G2]; lia|eapply same_options_trans; eassumption].
    + split; [exact I|]. split; [eapply clusters_sound_le; [|exact F2]; lia|exact F3].
Qed.
Lemma unsup_loop_fine lhs env : (forall i, valid_draw (env i)) -> forall (ims : list (nat * image)) N c, Forall (fun ix => readable ix.2) ims -> 0 <= N -> N + len ims <= INT_MAX -> cluster_sound lhs N c ->
  let p := efor (fun c ix => cluster_train lhs (env ix.1) c ix.2) ims c in served (fst p) /\ cluster_sound lhs (N + len ims) (snd p).
Proof.
  intros Hdr. induction ims as [|[i x] ims IH]; intros N c Hx HN HM Hc; cbv zeta; cbn [efor].
  - split; [exact I|]. eapply cluster_sound_le; [|exact Hc]. change (len (A:=nat * image) []) with 0. lia.
  - rewrite len_cons in *. pose proof (len_nonneg ims). apply Forall_cons in Hx as [Hx Hxs]. cbn [fst snd] in *.
    destruct (cluster_train_sound lhs (env i) N c x (Hdr i) Hx ltac:(lia) Hc) as [H1 H2]. destruct (cluster_train lhs (env i) c x) as [[[]| | |] c1]; cbn [ebind fst snd] in *; try contradiction.
    + destruct (IH (N + 1) c1 Hxs ltac:(lia) ltac:(lia) H2) as [G1 G2]. split; [exact G1|]. eapply cluster_sound_le; [|exact G2]. lia.
    + split; [exact I|]. eapply cluster_sound_le; [|exact H2]. lia.
Qed.
Lemma handed_over_nonneg c : 0 <= handed_over c.
Proof. destruct c as [? xs ?|? ? xs ?|? xs]; cbn; pose proof (len_nonneg xs); lia. Qed.
Lemma kcall_fine lhs N k c : is_int (k_addressSize k) -> k_addressSize k <> 0 -> 0 <= N -> N + handed_over c <= INT_MAX -> clusters_sound lhs N k -> fair_call lhs k c ->
  (is_unsupervised c -> k_clusters k = ∅) -> kfine lhs (N + handed_over c) k (kcall_run lhs k c) /\ (is_unsupervised c -> k_clusters (snd (kcall_run lhs k c)) = ∅).
Proof.
  intros Ha Ha0 HN HM Hk Hc Hu. pose proof (handed_over_nonneg c). assert (Hstay : forall e, kfine lhs (N + handed_over c) k (Throw e, k)).
  { intros e. split; [exact I|]. split; [eapply clusters_sound_le; [|exact Hk]; lia|apply same_options_refl]. }
  destruct c as [env xs ls|? ? ? ?|env xs]; cbn [kcall_run handed_over fair_call is_unsupervised] in *; [|contradiction|].
  - split; [|tauto]. destruct Hc as (Hne & H1 & H2 & Hdr & Hx). unfold clus_train. destruct xs as [|x xs]; [congruence|]. unfold clus_first_checks, calculateNumberOfRams. replace (_ =? 0) with false by lia. cbv zeta.
    assert (Hgo : forall n, kfine lhs (N + len (x :: xs)) k (ebind (elift k (let* _ := (let* n := Ok n in checkConfidence (k_confidence k) n) in checkInputSizes (len (x :: xs)) (len ls))) (fun _ k => clus_train_loop lhs env 0 k (x :: xs) ls))).
    { intros n. cbn [rbind]. unfold checkConfidence. destruct (_ <? _); [apply Hstay|]. cbn [rbind]. unfold checkInputSizes. rewrite s32_len_eq by assumption. destruct (Z.eqb_spec (len (x :: xs)) (len ls)) as [He|]; [|apply Hstay].
      unfold elift. cbn [ebind]. apply ktrain_loop_fine; auto. apply len_length, He. }
    destruct (_ && _); apply Hgo.
  - destruct Hc as (Hne & Hdr & Hx). unfold trainUnsupervised. rewrite (Hu I). replace (size ∅ =? 0)%nat with true by reflexivity. cbv zeta.
    destruct xs as [|x xs]; [congruence|]. unfold at_unsupervised. cbn [k_unsupervised with_unsupervised]. pose proof (Forall_inv Hx) as [Hx0 Hf]. rewrite s32_id by (destruct Hx0 as [Hx0 _]; unfold INT_MIN; lia).
    pose proof (new_cluster_sound lhs 0 k 2 (im_size x) Ha Hf) as Hnew.
    assert (Hxs : Forall (fun ix : nat * image => readable ix.2) (imap pair (x :: xs))).
    { apply Forall_forall. intros [j y] Hy. apply elem_of_lookup_imap in Hy as (j' & y' & [= -> ->] & Hy). apply elem_of_list_lookup_2 in Hy. rewrite Forall_forall in Hx. apply (Hx _ Hy). }
    assert (Hli : len (imap pair (x :: xs)) = len (x :: xs)) by (unfold len; rewrite imap_length; reflexivity).
    destruct (unsup_loop_fine lhs env Hdr (imap pair (x :: xs)) 0 (new_cluster k (im_size x) 2) Hxs ltac:(lia) ltac:(lia) Hnew) as [G1 G2]. rewrite Hli in G2.
    destruct (efor _ _ _) as [o c']. cbn [fst snd] in *. split; [|cbn; apply Hu; exact I]. split; [exact G1|]. split; [|destruct k; reflexivity]. split.
    + intros l c. cbn. rewrite (Hu I), lookup_empty. discriminate.
    + cbn. destruct (cluster_sound_le lhs (0 + len (x :: xs)) (N + len (x :: xs)) c' ltac:(lia) G2) as [Hs _]. exact Hs.
Qed.
Lemma total_nonneg cs : 0 <= zsum (handed_over <$> cs).
Proof. induction cs as [|c cs IH]; [reflexivity|]. rewrite fmap_cons. unfold zsum in *. cbn [foldr]. pose proof (handed_over_nonneg c). lia. Qed.
Lemma koutcomes_fine lhs k0 : is_int (k_addressSize k0) -> k_addressSize k0 <> 0 -> forall us ts N k, same_options k0 k -> 0 <= N -> N + zsum (handed_over <$> (us ++ ts)) <= INT_MAX -> clusters_sound lhs N k ->
  (us <> [] -> k_clusters k = ∅) -> Forall is_unsupervised us -> Forall is_supervised ts -> Forall (fair_call lhs k0) (us ++ ts) ->
  let '(os, k') := outcomes (kcall_run lhs) k (us ++ ts) in length os = length (us ++ ts) /\ Forall served os /\ clusters_sound lhs (N + zsum (handed_over <$> (us ++ ts))) k'.
Proof.
  intros Ha Ha0.
  assert (Hstep : forall us ts c cs N k, us ++ ts = c :: cs -> same_options k0 k -> 0 <= N -> N + zsum (handed_over <$> (c :: cs)) <= INT_MAX -> clusters_sound lhs N k -> fair_call lhs k0 c -> (is_unsupervised c -> k_clusters k = ∅) ->
    (forall k1, same_options k0 k1 -> clusters_sound lhs (N + handed_over c) k1 -> (is_unsupervised c -> k_clusters k1 = ∅) ->
       let '(os, k') := outcomes (kcall_run lhs) k1 cs in length os = length cs /\ Forall served os /\ clusters_sound lhs (N + handed_over c + zsum (handed_over <$> cs)) k') ->
    let '(os, k') := outcomes (kcall_run lhs) k (c :: cs) in length os = length (c :: cs) /\ Forall served os /\ clusters_sound lhs (N + zsum (handed_over <$> (c :: cs))) k').
  { intros us ts c cs N k _ Hsm HN HM Hk Hc Hu IH. cbn [outcomes]. rewrite fmap_cons in *. unfold zsum in *. cbn [foldr] in *. fold (zsum (handed_over <$> cs)) in *. pose proof (handed_over_nonneg c). pose proof (total_nonneg cs).
    destruct (kcall_fine lhs N k c) as [(F1 & F2 & F3) F4]; [rewrite Hsm; exact Ha|rewrite Hsm; exact Ha0|exact HN|lia|exact Hk|rewrite (fair_same lhs k0 k Hsm); exact Hc|exact Hu|].
    destruct (kcall_run lhs k c) as [o k1]. cbn [fst snd] in *. specialize (IH k1 (same_options_trans _ _ _ Hsm F3) F2 F4).
    destruct o as [[]| | |]; try contradiction; destruct (outcomes (kcall_run lhs) k1 cs) as [os k2]; destruct IH as (I1 & I2 & I3);
      (split; [cbn; congruence|]; split; [apply Forall_cons; auto|]; eapply clusters_sound_le; [|exact I3]; lia). }
  induction us as [|c us IH]; intros ts N k Hsm HN HM Hk He Hu Ht Hc.
  - cbn [app] in *. clear He Hu. revert N k Hsm HN HM Hk. induction ts as [|c ts IH]; intros N k Hsm HN HM Hk.
    + cbn [outcomes]. split; [reflexivity|]. split; [constructor|]. eapply clusters_sound_le; [|exact Hk]. cbn. lia.
    + apply Forall_cons in Hc as [Hc Hcs]. apply Forall_cons in Ht as [Ht Hts]. apply (Hstep [] (c :: ts) c ts N k eq_refl Hsm HN HM Hk Hc); [destruct c; cbn in *; tauto|].
      intros k1 S1 S2 _. pose proof (handed_over_nonneg c). apply IH; auto; [lia|]. rewrite fmap_cons in HM. unfold zsum in *. cbn [foldr] in HM. lia.
  - rewrite <- app_comm_cons in *. apply Forall_cons in Hc as [Hc Hcs]. apply Forall_cons in Hu as [Hu Hus].
    apply (Hstep (c :: us) ts c (us ++ ts) N k eq_refl Hsm HN HM Hk Hc); [intros _; apply He; discriminate|].
    intros k1 S1 S2 S3. pose proof (handed_over_nonneg c). apply IH; auto; [lia|]. rewrite fmap_cons in HM. unfold zsum in *. cbn [foldr] in HM. lia.
Qed.

(** ** Classification *)
Lemma slots_classify N c x : readable x -> slots_sound N c -> served (cluster_classify c x) /\ (forall vss, cluster_classify c x = Ok vss -> 0 <= N -> Forall (Forall (fun v => v <= N)) vss).
Proof.
  intros Hx Hs. unfold cluster_classify, on_discs. split.
  - apply rmapM_served. eapply Forall_impl; [exact Hs|]. intros o (d & -> & Hd). eapply disc_classify_sound; eassumption.
  - intros vss E HN. apply DiscCtorProofs.rmapM_ok in E. unfold slots_sound in Hs. clear -E Hs HN Hx. induction E as [|o vs os vss Hv _ IH]; [constructor|]. apply Forall_cons in Hs as [(d & -> & Hd) Hs]. apply Forall_cons. split; [|exact (IH Hs)].
    eapply disc_classify_sound; eassumption.
Qed.
Lemma make_served votes on sb c : votes_below (INT_MAX - 1) votes -> served (bleaching_make votes on sb c).
Proof.
  intros Hv. destruct on; [destruct (bleach_terminates votes sb c Hv) as (out & -> & _); exact I|]. unfold bleaching_make, makeWithConfidence, makeConfidenceless. destruct sb; exact I.
Qed.
Lemma kclassify_served lhs N k xs : 0 <= N < INT_MAX - 1 -> clusters_sound lhs N k -> Forall readable xs -> served (clus_classify k xs) /\ served (clus_classifyUnsupervised k xs).
Proof.
  intros HN [Hk Hu] Hx. split.
  - apply rmapM_served. eapply Forall_impl; [exact Hx|]. clear xs Hx. intros x Hx. unfold clus_classify1, clus_candidates. apply rbind_served; [|intros; exact I]. unfold clus_votes. apply rbind_served.
    + apply rbind_served; [|intros; exact I]. apply rmapM_served, Forall_forall. intros [l c] Hin. apply sorted_items_elem in Hin. cbn [fst snd]. apply rbind_served; [|intros; exact I]. eapply slots_classify; [exact Hx|exact (proj1 (Hk l c Hin))].
    + intros m Em. destruct (rmapM _ _) as [vss| | |] eqn:Ev; cbn [rbind] in Em; try discriminate. injection Em as <-. apply make_served.
      intros key us Hkey. apply elem_of_list_to_map_2 in Hkey. apply elem_of_list_In, in_rev, in_concat in Hkey as (vl & Hvl & Hin). apply elem_of_list_In in Hvl, Hin.
      apply DiscCtorProofs.rmapM_ok in Ev. apply elem_of_list_lookup in Hvl as (i & Hi). destruct (Forall2_lookup_r _ _ _ _ _ Ev Hi) as ([l c] & Hd & E). cbn [fst snd] in E.
      apply elem_of_list_lookup_2, sorted_items_elem in Hd. destruct (cluster_classify c x) as [vs| | |] eqn:Ed; cbn [rbind] in E; try discriminate. injection E as <-.
      destruct (slots_classify N c x Hx (proj1 (Hk l c Hd))) as [_ H]. specialize (H _ Ed ltac:(lia)). apply elem_of_lookup_imap in Hin as (j & v & [= -> ->] & Hj). rewrite Forall_forall in H.
      eapply Forall_impl; [exact (H v (elem_of_list_lookup_2 _ _ _ Hj))|]. cbn. lia.
  - apply rmapM_served. eapply Forall_impl; [exact Hx|]. clear xs Hx. intros x Hx. unfold clus_classifyUnsupervised1. destruct (slots_classify N _ x Hx Hu) as [H1 H2]. apply rbind_served; [exact H1|]. intros vs Ev. apply rbind_served; [|intros; exact I].
    apply make_served. intros key us Hkey. apply elem_of_list_to_map_2 in Hkey. apply elem_of_list_In, in_rev in Hkey. apply elem_of_list_In in Hkey. apply elem_of_lookup_imap in Hkey as (j & v & [= -> ->] & Hj).
    specialize (H2 _ Ev ltac:(lia)). rewrite Forall_forall in H2. eapply Forall_impl; [exact (H2 v (elem_of_list_lookup_2 _ _ _ Hj))|]. cbn. lia.
Qed.

(** C174: unsupervised calls and then supervised ones, by a program that goes on after exceptions: every
    call and every later classification answers or throws; nothing is undefined. [fair_size] asks, of a
    compiler that creates the map entry first, that images are not narrower than the address size. *)
Theorem C174_never_undefined : forall lhs_first k0 us ts,
  k_clusters k0 = ∅ -> k_unsupervised k0 = cluster_default -> is_int (k_addressSize k0) -> k_addressSize k0 <> 0 ->
  Forall is_unsupervised us -> Forall is_supervised ts -> Forall (fair_call lhs_first k0) (us ++ ts) -> zsum (handed_over <$> (us ++ ts)) < INT_MAX - 1 ->
  let '(os, k) := outcomes (kcall_run lhs_first) k0 (us ++ ts) in
  length os = length (us ++ ts) /\ Forall served os /\
  forall xs, Forall readable xs -> served (clus_classify k xs) /\ served (clus_classifyUnsupervised k xs).
Proof.
  intros lhs k0 us ts H0 Hu0 Ha Ha0 Hus Hts Hc HM. pose proof (total_nonneg (us ++ ts)).
  assert (Hk : clusters_sound lhs 0 k0) by (split; [intros l c; rewrite H0, lookup_empty; discriminate|rewrite Hu0; constructor]).
  pose proof (koutcomes_fine lhs k0 Ha Ha0 us ts 0 k0 (same_options_refl k0) ltac:(lia) ltac:(lia) Hk (fun _ => H0) Hus Hts Hc) as Hgo.
  destruct (outcomes (kcall_run lhs) k0 (us ++ ts)) as [os k]. destruct Hgo as (H1 & H2 & H3). split; [exact H1|]. split; [exact H2|]. intros xs Hx. eapply kclassify_served; [|exact H3|exact Hx]. lia.
Qed.
Print Assumptions C174_never_undefined.
(** With the constructor evaluated first, any lists will do. *)
Theorem C174_list_images : forall k base v, base <= 2 \/ base ^ k_addressSize k <= LL_MAX -> 0 <= k_addressSize k -> len v + k_addressSize k <= INT_MAX -> fair_image false k base (vec_image v).
Proof.
  intros k base v Hb Ha Hv. pose proof (len_nonneg v). split; [apply list_readable; lia|]. cbn [im_size vec_image]. split; [lia|]. split; [lia|]. split; [exact Hb|left; reflexivity].
Qed.
Print Assumptions C174_list_images.
Definition wild_train : list kcall :=
  [KTrain envs (vec_image <$> [[1; 0; 1; 1]; [7; -9; 1; 1]]) [ka; kb]; KTrain envs (vec_image <$> [[1]]) [lit "odd"]; KTrain envs (vec_image <$> [[1; 0; 1; 1]]) [];
   KTrain envs (vec_image <$> [[1; 1; 1; 1]; []; [0; 0; 0; 0]]) [ka; ka; ka]].
Example C174_witness : Forall (fair_call false (kfg 2)) ([KUnsupervised envs (vec_image <$> [[5; 0; 1; 1]])] ++ wild_train) /\
  fst (outcomes (kcall_run false) (kfg 2) ([KUnsupervised envs (vec_image <$> [[5; 0; 1; 1]])] ++ wild_train)) =
    [Throw pos_exn; Throw pos_exn; Throw entry_small_exn; Throw sizes_exn; Throw entry_exn] /\
  kcounters (snd (outcomes (kcall_run false) (kfg 2) ([KUnsupervised envs (vec_image <$> [[5; 0; 1; 1]])] ++ wild_train))) = [(ka, [1; 1]); (kb, [1]); (lit "odd", [])] /\
  clus_classify (snd (outcomes (kcall_run false) (kfg 2) ([KUnsupervised envs (vec_image <$> [[5; 0; 1; 1]])] ++ wild_train))) [vec_image [1; 0; 1; 1]] = Ok [ka].
Proof.
  assert (Hd : forall i, valid_draw (envs i)) by (intros; apply some_draw_valid).
  assert (Hl : forall v : list Z, (length v <= 4)%nat -> fair_image false (kfg 2) 2 (vec_image v)).
  { intros v Hv. apply C174_list_images; [left; lia|cbn; lia|]. cbn. unfold len, INT_MAX. lia. }
  assert (Ht : forall vs ls, vs <> [] -> (length vs <= 4)%nat -> (length ls <= 4)%nat -> Forall (fun v : list Z => (length v <= 4)%nat) vs -> fair_call false (kfg 2) (KTrain envs (vec_image <$> vs) ls)).
  { intros vs ls H1 H2 H3 H4. cbn [fair_call]. split; [destruct vs; [congruence|discriminate]|]. split; [unfold len, INT_MAX; rewrite fmap_length; lia|]. split; [unfold len, INT_MAX; lia|]. split; [exact Hd|].
    apply Forall_fmap. eapply Forall_impl; [exact H4|]. exact Hl. }
  assert (Hs : forall vs : list (list Z), forallb (fun v => (length v <=? 4)%nat) vs = true -> Forall (fun v : list Z => (length v <= 4)%nat) vs).
  { intros vs Hv. apply Forall_forall. intros v Hin. apply elem_of_list_In in Hin. rewrite forallb_forall in Hv. specialize (Hv v Hin). lia. }
  split.
  { cbn [app]. unfold wild_train. apply Forall_cons. split.
    - cbn [fair_call]. split; [discriminate|]. split; [exact Hd|]. apply Forall_fmap. apply Forall_cons. split; [apply (Hl [5; 0; 1; 1]); cbn; lia|constructor].
    - repeat (apply Forall_cons; split); [..|constructor]; (apply Ht; [discriminate|cbn; lia|cbn; lia|apply Hs; reflexivity]). }
  split; [vm_compute; reflexivity|]. split; vm_compute; reflexivity.
Qed.
(** Outside: an unsupervised call after a supervised one, and (with the map entry first) going on after a
    refused construction (C85). *)
Example C174_outside :
  fst (outcomes (kcall_run false) (kfg 2) [KTrain envs (vec_image <$> [[1; 0; 1; 1]]) [ka]; KUnsupervised envs (vec_image <$> [[1; 0; 1; 1]])]) = [Ok tt; UB UBUninit] /\
  fst (outcomes (kcall_run true) (kfg 2) [KTrain envs (vec_image <$> [[1]]) [ka]; KTrain envs (vec_image <$> [[1; 0; 1; 1]]) [ka]]) = [Throw entry_small_exn; UB UBNull].
Proof. split; vm_compute; reflexivity. Qed.

(** ** Semi-supervised calls *)
Definition plain_keys (k : cluswisard) : Prop := forall l, is_Some (k_clusters k !! l) -> plain_label l.
Definition some_slot (k : cluswisard) : Prop := exists l c, k_clusters k !! l = Some c /\ c_discs c <> [].
(** Dictionaries: more entries than images are refused; as many as images must name images. *)
Definition fair_given (lhs : bool) (k : cluswisard) (c : kcall) : Prop :=
  match c with
  | KTrain env xs ls => fair_call lhs k c /\ Forall plain_label ls
  | KSemi env env2 xs m => xs <> [] /\ len xs <= INT_MAX /\ Z.of_nat (size m) <= INT_MAX /\ (forall i, valid_draw (env i)) /\ (forall i, valid_draw (env2 i)) /\ Forall (fair_image lhs k (k_base k)) xs /\
      (forall i l, m !! i = Some l -> plain_label l) /\ (Z.of_nat (size m) = len xs -> forall i l, m !! i = Some l -> 0 <= i < len xs)
  | KUnsupervised _ _ => False
  end.
Definition state_fine (lhs : bool) (k0 : cluswisard) (N : Z) (k : cluswisard) : Prop := clusters_sound lhs N k /\ same_options k0 k /\ plain_keys k.
Lemma state_fine_le lhs k0 N M k : N <= M -> state_fine lhs k0 N k -> state_fine lhs k0 M k.
Proof. intros H (H1 & H2). split; [eapply clusters_sound_le; eassumption|exact H2]. Qed.

Lemma candidates_served lhs N k x sb : 0 <= N < INT_MAX - 1 -> clusters_sound lhs N k -> readable x -> served (clus_candidates k x sb).
Proof.
  intros HN Hk Hx. destruct (kclassify_served lhs N (ClusWisard (k_addressSize k) (k_minScore k) (k_threshold k) (k_limit k) (k_bleachingActivated k)
    (k_verbose k) (k_completeAddressing k) (k_ignoreZero k) (k_base k) sb (k_returnConfidence k) (k_returnActivationDegree k) (k_returnClassesDegrees k) (k_confidence k) (k_clusters k) (k_unsupervised k)) [x] HN Hk) as [H _]; [constructor; [exact Hx|constructor]|].
  unfold clus_classify, clus_classify1 in H. cbn [rmapM k_searchBestConfidence] in H. unfold clus_candidates in *. cbn [k_clusters k_bleachingActivated k_confidence] in H. destruct (let* allvotes := clus_votes (k_clusters k) x in _); cbn in *; auto.
Qed.
Lemma winner_cluster k x sb cand : clus_candidates k x sb = Ok cand -> plain_keys k -> some_slot k -> exists c, k_clusters k !! before_colons (getBiggestCandidate cand) = Some c.
Proof.
  unfold clus_candidates. destruct (clus_votes (k_clusters k) x) as [vts| | |] eqn:Hv; cbn [rbind]; [|discriminate..].
  intros H Hpl (l & c & Hl & Hd). destruct (clus_votes_spec _ _ _ Hv) as [Hc Hs].
  assert (vts <> ∅).
  { intros ->. destruct (Hc _ _ Hl) as [vs Hvs]. destruct vs as [|v vs].
    - unfold cluster_classify, on_discs in Hvs. apply DiscCtorProofs.rmapM_ok in Hvs. inversion Hvs. congruence.
    - specialize (Hs (cluster_key l O) v). rewrite lookup_empty in Hs. destruct Hs as [_ Hs]. discriminate Hs. exists l, c, (v :: vs), O. auto. }
  destruct (biggest_key _ _ _ _ _ H ltac:(assumption)) as [v Hbk]. apply Hs in Hbk as (l' & c' & vs & j & Hl' & _ & _ & Hk).
  assert (Hp : plain_label l') by (apply Hpl; eauto). rewrite Hk. unfold cluster_key. rewrite before_colons_key by assumption. eauto.
Qed.
Lemma train1_keys lhs dr k x l l' : is_Some (k_clusters (snd (clus_train1 lhs dr k x l)) !! l') -> is_Some (k_clusters k !! l') \/ l' = l.
Proof.
  unfold clus_train1. destruct (at_cluster _ _ _) as [o k'] eqn:E. apply at_cluster_clusters in E as (c' & _ & ->). cbn [snd with_clusters k_clusters].
  destruct (decide (l' = l)) as [->|Hn]; [auto|]. rewrite lookup_insert_ne by congruence. left. destruct (k_clusters k !! l); [assumption|]. cbn in H. rewrite lookup_insert_ne in H by congruence. exact H.
Qed.
Lemma train1_state lhs k0 dr N k x l : valid_draw dr -> is_int (k_addressSize k0) -> fair_image lhs k0 (k_base k0) x -> plain_label l -> 0 <= N < INT_MAX -> state_fine lhs k0 N k ->
  served (fst (clus_train1 lhs dr k x l)) /\ state_fine lhs k0 (N + 1) (snd (clus_train1 lhs dr k x l)) /\ (forall u, fst (clus_train1 lhs dr k x l) = Ok u -> some_slot (snd (clus_train1 lhs dr k x l))).
Proof.
  intros Hdr Ha Hx Hl HN (Hk & Hs & Hp). destruct (ktrain1_fine lhs dr N k x l Hdr) as (F1 & F2 & F3); [rewrite Hs; exact Ha|rewrite Hs; exact Hx|exact HN|exact Hk|].
  split; [exact F1|]. split.
  - split; [exact F2|]. split; [eapply same_options_trans; eassumption|]. intros l' H. apply train1_keys in H as [H| ->]; [apply Hp, H|exact Hl].
  - intros [] E. unfold clus_train1 in *. destruct (at_cluster _ _ _) as [o k'] eqn:E'. cbn [fst snd] in *. subst o. apply at_cluster_clusters in E' as (c' & Ht & ->). apply train_nonempty in Ht. exists l, c'. split; [cbn; apply lookup_insert|exact Ht].
Qed.
Lemma unlabelled_state lhs k0 dr N k x : valid_draw dr -> fair_image lhs k0 (k_base k0) x -> 0 <= N < INT_MAX - 1 -> state_fine lhs k0 N k -> some_slot k ->
  served (fst (clus_train_unlabelled lhs dr k x)) /\ state_fine lhs k0 (N + 1) (snd (clus_train_unlabelled lhs dr k x)) /\ (forall u, fst (clus_train_unlabelled lhs dr k x) = Ok u -> some_slot (snd (clus_train_unlabelled lhs dr k x))).
Proof.
  intros Hdr [Hx Hf] HN (Hk & Hs & Hp) Hq. unfold clus_train_unlabelled. pose proof (candidates_served lhs N k x false HN Hk Hx) as Hc. unfold elift. destruct (clus_candidates k x false) as [cand|e| |] eqn:Ec; cbn [ebind]; try contradiction.
  - destruct (winner_cluster k x false cand Ec Hp Hq) as (c & El). set (l := before_colons _) in *.
    destruct (cluster_train_sound lhs dr N c x Hdr Hx ltac:(lia) (proj1 Hk l c El)) as [H1 H2]. destruct (at_cluster_fine lhs N (fun c => cluster_train lhs dr c x) k l c ltac:(lia) Hk El H1 H2) as (F1 & F2 & F3).
    split; [exact F1|]. destruct (at_cluster _ k l) as [o k'] eqn:E'. cbn [fst snd] in *. apply at_cluster_clusters in E' as (c' & Ht & ->). split.
    + split; [exact F2|]. split; [eapply same_options_trans; eassumption|]. intros l' H. cbn in H. apply Hp. destruct (decide (l' = l)) as [->|Hn]; [rewrite El; eauto|rewrite lookup_insert_ne in H by congruence; exact H].
    + intros [] ->. apply train_nonempty in Ht. exists l, c'. split; [cbn; apply lookup_insert|exact Ht].
  - split; [exact I|]. split; [split; [eapply clusters_sound_le; [|exact Hk]; cbn; lia|split; assumption]|discriminate].
Qed.
Lemma efor_state {X} (f : cluswisard -> X -> eff cluswisard unit) lhs k0 M (J : cluswisard -> Prop) (xs : list X) :
  (forall N k x, x ∈ xs -> 0 <= N -> N + 1 <= M -> state_fine lhs k0 N k -> J k -> served (fst (f k x)) /\ state_fine lhs k0 (N + 1) (snd (f k x)) /\ (forall u, fst (f k x) = Ok u -> J (snd (f k x)))) ->
  forall N k, 0 <= N -> N + len xs <= M -> state_fine lhs k0 N k -> J k ->
    served (fst (efor f xs k)) /\ state_fine lhs k0 (N + len xs) (snd (efor f xs k)) /\ (forall u, fst (efor f xs k) = Ok u -> J (snd (efor f xs k))).
Proof.
  intros Hf. induction xs as [|x xs IH]; intros N k HN HM Hk HJ; cbn [efor].
  - split; [exact I|]. split; [eapply state_fine_le; [|exact Hk]; change (len (A:=X) []) with 0; lia|auto].
  - rewrite len_cons in *. pose proof (len_nonneg xs). destruct (Hf N k x ltac:(left) HN ltac:(lia) Hk HJ) as (F1 & F2 & F3). destruct (f k x) as [[u| | |] k1]; cbn [ebind fst snd] in *; try contradiction.
    + destruct (IH ltac:(intros; apply Hf; auto; right; assumption) (N + 1) k1 ltac:(lia) ltac:(lia) F2 (F3 _ eq_refl)) as (G1 & G2 & G3). split; [exact G1|]. split; [eapply state_fine_le; [|exact G2]; lia|exact G3].
    + split; [exact I|]. split; [eapply state_fine_le; [|exact F2]; lia|discriminate].
Qed.
Lemma train_loop_efor lhs env : forall xs ls i k, length xs = length ls -> clus_train_loop lhs env i k xs ls = efor (fun k x => clus_train1 lhs (env x.1) k x.2.1 x.2.2) (zip (seq i (length xs)) (zip xs ls)) k.
Proof.
  induction xs as [|x xs IH]; intros [|l ls] i k Hlen; try discriminate; [reflexivity|]. cbn [clus_train_loop length seq zip zip_with efor fst snd].
  destruct (clus_train1 lhs (env i) k x l) as [[[]| | |] k1]; cbn [ebind]; try reflexivity. apply IH. cbn in Hlen. lia.
Qed.
Lemma given_state lhs k0 N k c : is_int (k_addressSize k0) -> k_addressSize k0 <> 0 -> 0 <= N -> N + handed_over c < INT_MAX - 1 -> state_fine lhs k0 N k -> fair_given lhs k0 c ->
  served (fst (kcall_run lhs k c)) /\ state_fine lhs k0 (N + handed_over c) (snd (kcall_run lhs k c)).
Proof.
  intros Ha Ha0 HN HM Hk Hc. pose proof (handed_over_nonneg c). assert (Hstay : forall e, served (fst ((Throw e, k) : eff cluswisard unit)) /\ state_fine lhs k0 (N + handed_over c) (snd ((Throw e, k) : eff cluswisard unit))).
  { intros e. split; [exact I|]. eapply state_fine_le; [|exact Hk]. lia. }
  assert (Hfirst : forall x, exists n, clus_first_checks k x = checkConfidence (k_confidence k) n).
  { intros x. unfold clus_first_checks, calculateNumberOfRams. destruct Hk as (_ & Hs & _). replace (k_addressSize k) with (k_addressSize k0) by (rewrite Hs; reflexivity). replace (_ =? 0) with false by lia. cbv zeta. destruct (_ && _); eauto. }
  destruct c as [env xs ls|env env2 xs m|env xs]; cbn [kcall_run handed_over fair_given] in *; [| |contradiction].
  - destruct Hc as [(Hne & H1 & H2 & Hdr & Hx) Hp]. unfold clus_train. destruct xs as [|x xs]; [congruence|]. destruct (Hfirst x) as (n & ->). unfold checkConfidence. destruct (_ <? _); [apply Hstay|]. cbn [rbind]. unfold checkInputSizes. rewrite s32_len_eq by assumption.
    destruct (Z.eqb_spec (len (x :: xs)) (len ls)) as [He|]; [|apply Hstay]. unfold elift. cbn [ebind]. apply len_length in He. rewrite train_loop_efor by exact He.
    set (L := zip _ (zip _ _)). assert (HL : len L = len (x :: xs)). { unfold L, len. rewrite !zip_with_length, seq_length, <- He. lia. }
    destruct (efor_state (fun k x => clus_train1 lhs (env x.1) k x.2.1 x.2.2) lhs k0 INT_MAX (fun _ => True) L) with (N := N) (k := k) as (G1 & G2 & _); auto; [|lia|split; [exact G1|rewrite <- HL; exact G2]].
    intros N' k' [i [y l]] Hin HN' HM' Hk' _. cbn [fst snd]. unfold L in Hin. apply elem_of_zip_r in Hin. pose proof (elem_of_zip_l _ _ _ _ Hin) as Hy. apply elem_of_zip_r in Hin. pose proof (proj1 (Forall_forall _ _) Hx y Hy) as Hy'. pose proof (proj1 (List.Forall_forall plain_label ls) Hp l (proj1 (elem_of_list_In _ _) Hin)) as Hl'.
    destruct (train1_state lhs k0 (env i) N' k' y l (Hdr i) Ha Hy' Hl' ltac:(lia) Hk') as (T1 & T2 & _). auto.
  - destruct Hc as (Hne & H1 & H2 & Hdr & Hdr2 & Hx & Hp & Hr). destruct xs as [|x xs]; [congruence|].
    destruct (Z.le_gt_cases (Z.of_nat (size m)) (len (x :: xs))) as [Hsz|Hsz].
    + rewrite (semi_exact lhs env env2 k x xs m H1 Hsz); [|destruct (Z.eq_dec (Z.of_nat (size m)) (len (x :: xs))) as [He|He]; [right; apply Hr, He|left; lia]].
      destruct (Hfirst x) as (n & ->). unfold checkConfidence. destruct (_ <? _); [apply Hstay|]. unfold elift. cbn [ebind]. pose proof (unlabelled_len m (x :: xs)) as Hul. pose proof (len_nonneg (unlabelled m (x :: xs))).
      assert (Hlab : forall y, y ∈ labelled m (x :: xs) -> fair_image lhs k0 (k_base k0) y.1.2 /\ plain_label y.2).
      { intros [[i y] l] Hin. apply labelled_elem in Hin as [Hi Hm]. cbn [fst snd]. apply elem_of_list_lookup_2 in Hi. rewrite Forall_forall in Hx. split; [exact (Hx y Hi)|exact (Hp _ l Hm)]. }
      destruct (labelled m (x :: xs)) as [|y ys] eqn:El; [cbn [efor ebind]; apply Hstay|]. rewrite len_cons in Hul. pose proof (len_nonneg ys). cbn [efor].
      destruct (Hlab y ltac:(left)) as [Hy1 Hy2]. destruct (train1_state lhs k0 (env y.1.1) N k y.1.2 y.2 (Hdr _) Ha Hy1 Hy2 ltac:(lia) Hk) as (F1 & F2 & F3).
      destruct (clus_train1 lhs (env y.1.1) k y.1.2 y.2) as [[u| | |] k1]; cbn [ebind fst snd] in *; try contradiction; [|split; [exact I|eapply state_fine_le; [|exact F2]; lia]].
      destruct (efor_state (fun k x => clus_train1 lhs (env x.1.1) k x.1.2 x.2) lhs k0 INT_MAX some_slot ys) with (N := N + 1) (k := k1) as (G1 & G2 & G3); [|lia|lia|exact F2|exact (F3 _ eq_refl)|].
      { intros N' k' z Hin HN' HM' Hk' _. destruct (Hlab z ltac:(right; exact Hin)) as [Hz1 Hz2]. apply train1_state; auto. lia. }
      destruct (efor _ ys k1) as [[u'| | |] k2]; cbn [ebind fst snd] in *; try contradiction; [|split; [exact I|eapply state_fine_le; [|exact G2]; lia]].
      set (L := imap pair _). assert (HL : len L <= len (unlabelled m (x :: xs))). { unfold L, len. rewrite imap_length, take_length. lia. } pose proof (len_nonneg L).
      destruct (efor_state (fun k ix => clus_train_unlabelled lhs (env2 ix.1) k ix.2) lhs k0 (INT_MAX - 2) some_slot L) with (N := N + 1 + len ys) (k := k2) as (K1 & K2 & _); [|lia|lia|exact G2|exact (G3 _ eq_refl)|].
      { intros N' k' [i z] Hin HN' HM' Hk' Hq. cbn [fst snd]. unfold L in Hin. apply elem_of_lookup_imap in Hin as (j & z' & [= -> ->] & Hj). apply elem_of_list_lookup_2, elem_of_take in Hj as (j' & Hj & _). apply elem_of_list_lookup_2 in Hj.
        rewrite Forall_forall in Hx. apply unlabelled_state; auto. lia. }
      split; [exact K1|]. eapply state_fine_le; [|exact K2]. lia.
    + unfold clus_train_semi. destruct (Hfirst x) as (n & ->). unfold checkConfidence. destruct (_ <? _); [apply Hstay|]. cbn [rbind]. rewrite !s32_id by (pose proof (len_nonneg (x :: xs)); unfold INT_MIN; lia). replace (_ <? _) with true by lia. apply Hstay.
Qed.
Lemma given_outcomes lhs k0 cs : k_clusters k0 = ∅ -> k_unsupervised k0 = cluster_default -> is_int (k_addressSize k0) -> k_addressSize k0 <> 0 ->
  Forall (fair_given lhs k0) cs -> zsum (handed_over <$> cs) < INT_MAX - 1 ->
  let '(os, k) := outcomes (kcall_run lhs) k0 cs in length os = length cs /\ Forall served os /\ state_fine lhs k0 (zsum (handed_over <$> cs)) k.
Proof.
  intros H0 Hu0 Ha Ha0 Hc HM.
  assert (Hgo : forall cs N k, Forall (fair_given lhs k0) cs -> 0 <= N -> N + zsum (handed_over <$> cs) < INT_MAX - 1 -> state_fine lhs k0 N k ->
    let '(os, k') := outcomes (kcall_run lhs) k cs in length os = length cs /\ Forall served os /\ state_fine lhs k0 (N + zsum (handed_over <$> cs)) k').
  { clear cs Hc HM. induction cs as [|c cs IH]; intros N k Hc HN HM Hk; cbn [outcomes].
    - split; [reflexivity|]. split; [constructor|]. eapply state_fine_le; [|exact Hk]. cbn. lia.
    - apply Forall_cons in Hc as [Hc Hcs]. rewrite fmap_cons in *. unfold zsum in *. cbn [foldr] in *. fold (zsum (handed_over <$> cs)) in *. pose proof (handed_over_nonneg c). pose proof (total_nonneg cs).
      destruct (given_state lhs k0 N k c Ha Ha0 HN ltac:(lia) Hk Hc) as [F1 F2]. destruct (kcall_run lhs k c) as [o k1]. cbn [fst snd] in *. specialize (IH (N + handed_over c) k1 Hcs ltac:(lia) ltac:(lia) F2).
      destruct o as [[]| | |]; try contradiction; destruct (outcomes (kcall_run lhs) k1 cs) as [os k2]; destruct IH as (I1 & I2 & I3);
        (split; [cbn; congruence|]; split; [apply Forall_cons; auto|]; eapply state_fine_le; [|exact I3]; lia). }
  pose proof (total_nonneg cs). apply (Hgo cs 0 k0 Hc ltac:(lia) ltac:(lia)).
  split; [split; [intros l c; rewrite H0, lookup_empty; discriminate|rewrite Hu0; constructor]|]. split; [apply same_options_refl|]. intros l. rewrite H0, lookup_empty. intros [? ?]. discriminate.
Qed.
(** Supervised and semi-supervised calls mixed: the labels are plain (C68), and a dictionary with as many
    entries as there are images names images. *)
Theorem C174_semisupervised : forall lhs_first k0 cs,
  k_clusters k0 = ∅ -> k_unsupervised k0 = cluster_default -> is_int (k_addressSize k0) -> k_addressSize k0 <> 0 ->
  Forall (fair_given lhs_first k0) cs -> zsum (handed_over <$> cs) < INT_MAX - 1 ->
  let '(os, k) := outcomes (kcall_run lhs_first) k0 cs in
  length os = length cs /\ Forall served os /\ forall xs, Forall readable xs -> served (clus_classify k xs).
Proof.
  intros lhs k0 cs H0 Hu0 Ha Ha0 Hc HM. pose proof (total_nonneg cs). pose proof (given_outcomes lhs k0 cs H0 Hu0 Ha Ha0 Hc HM) as Hgo. destruct (outcomes (kcall_run lhs) k0 cs) as [os k]. destruct Hgo as (H1 & H2 & H3 & _).
  split; [exact H1|]. split; [exact H2|]. intros xs Hx. eapply kclassify_served; [|exact H3|exact Hx]. lia.
Qed.
Print Assumptions C174_semisupervised.
Definition wild_semi : list kcall :=
  [KSemi envs envs (vec_image <$> [[1; 0; 1; 1]; [9; 9; 9; 9]; [0; 0; 1; 1]]) {[ 0 := ka ]}; KSemi envs envs (vec_image <$> [[1; 0; 1; 1]; [1; 0]]) {[ 0 := ka; 1 := kb ]};
   KSemi envs envs (vec_image <$> [[1; 0; 1; 1]; [1; 0; 0; 1]]) ∅; KSemi envs envs (vec_image <$> [[1; 0; 1; 1]; [1; 0; 0; 1]]) {[ 7 := ka ]}; KSemi envs envs (vec_image <$> [[1; 0; 1; 1]]) {[ 7 := ka; 0 := ka ]}].
Example C174_semi_witness : Forall (fair_given false (kfg 2)) wild_semi /\
  fst (outcomes (kcall_run false) (kfg 2) wild_semi) = [Throw pos_exn; Ok tt; Throw no_index_exn; Throw no_index_exn; Throw many_labels_exn].
Proof.
  assert (Hd : forall i, valid_draw (envs i)) by (intros; apply some_draw_valid).
  assert (Hl : forall v : list Z, (length v <= 4)%nat -> fair_image false (kfg 2) 2 (vec_image v)).
  { intros v Hv. apply C174_list_images; [left; lia|cbn; lia|]. cbn. unfold len, INT_MAX. lia. }
  assert (Hs : forall vs : list (list Z), forallb (fun v => (length v <=? 4)%nat) vs = true -> Forall (fair_image false (kfg 2) 2) (vec_image <$> vs)).
  { intros vs Hv. apply Forall_fmap, Forall_forall. intros v Hin. apply elem_of_list_In in Hin. rewrite forallb_forall in Hv. specialize (Hv v Hin). apply Hl. lia. }
  assert (Ht : forall vs (m : gmap Z str), vs <> [] -> (length vs <= 4)%nat -> (size m <= 4)%nat -> forallb (fun v => (length v <=? 4)%nat) vs = true -> map_Forall (fun i l => l = ka \/ l = kb) m -> (size m <> length vs \/ map_Forall (fun i l => 0 <= i < Z.of_nat (length vs)) m) ->
    fair_given false (kfg 2) (KSemi envs envs (vec_image <$> vs) m)).
  { intros vs m H1 H2 H3 H4 H5 H6. cbn [fair_given]. assert (Hlen : len (vec_image <$> vs) = Z.of_nat (length vs)) by (unfold len; rewrite fmap_length; reflexivity).
    split; [destruct vs; [congruence|discriminate]|]. split; [rewrite Hlen; unfold INT_MAX; lia|]. split; [unfold INT_MAX; lia|]. split; [exact Hd|]. split; [exact Hd|]. split; [apply Hs, H4|]. split.
    - intros i l E. destruct (H5 i l E) as [-> | ->]; apply plain_a; auto.
    - rewrite Hlen. intros He i l E. destruct H6 as [H6|H6]; [lia|]. exact (H6 i l E). }
  split; [|vm_compute; reflexivity]. unfold wild_semi.
  repeat (apply Forall_cons; split); [..|constructor]; (apply Ht; [discriminate|cbn; lia|vm_compute; lia|reflexivity|refine (bool_decide_unpack _ _); vm_compute; exact I|]);
    first [left; vm_compute; discriminate|right; refine (bool_decide_unpack _ _); vm_compute; exact I].
Qed.
