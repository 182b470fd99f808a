(** Mental images of a ClusWisard. *)
From Verif Require Import Prelude Bytes Utils Float32 BinInput Bleaching Ram Disc Wisard Cluster ClusWisard SpecDisc SpecBleach SpecWisard SpecCluster SpecClus SpecLaw.
From Verif Require Import BytesProofs UtilsProofs TextProofs CtorFacts RamProofs DiscProofs DiscFacts MentalHistory DiscCtorProofs ClusterProofs WisardProofs ClusProofs ClusMore ClusterLaw.

Lemma len_concat_const {A} (a : Z) (ls : list (list A)) : Forall (fun l => len l = a) ls -> len (List.concat ls) = len ls * a.
Proof. induction 1 as [|l ls H _ IH]; [reflexivity|]. cbn [List.concat]. rewrite len_app, len_cons, IH. lia. Qed.

(** Sizes of a discriminator a cluster creates. *)
Lemma wired_sizes p n d : good_params p n -> wired_by p d -> p_base p ^ p_addressSize p <= 2147483648 ->
  Forall small (d_rams d) /\ total_inputs d = ram_count n (p_addressSize p) (p_complete p) * p_addressSize p.
Proof.
  intros (He & Ha & Hn & Hb & Hf & _) (dr & Hdr & E) Hs.
  destruct (shuffle_layout dr (p_addressSize p) n (p_ignoreZero p) (p_complete p) (p_base p) Hdr Ha Hb Hn Hf) as (d' & E' & _ & _ & Hl & HF & _).
  rewrite He, E' in E. injection E as <-. split.
  - eapply Forall_impl; [exact HF|]. intros r (H1 & _ & H2 & _). unfold small. rewrite H1, H2. exact Hs.
  - unfold total_inputs, disc_mapping. rewrite (len_concat_const (p_addressSize p)).
    + rewrite len_fmap, Hl. reflexivity.
    + apply Forall_fmap. eapply Forall_impl; [exact HF|]. intros r (H1 & _). exact H1.
Qed.
Definition picture (n : Z) (s : slot) (img : list Z) : Prop :=
  len img = n /\ forall p, 0 <= p < n -> img !! Z.to_nat p = Some (wires (s_first s) p * active p (s_seen s)).
Lemma slot_picture iter p n N s o : good_iter iter -> good_params p n -> p_base p ^ p_addressSize p <= 2147483648 ->
  N <= INT_MAX -> N * (ram_count n (p_addressSize p) (p_complete p) * p_addressSize p) <= INT_MAX -> slot_ok p n N s o ->
  exists img, match o with Some d => disc_mental iter d | None => UB UBNull end = Ok img /\ picture n s img.
Proof.
  intros Hit Hg Hs HN Hb (d & -> & Hsh & Hw & Hl & Hpl & Ha & _). pose proof Hg as (_ & Ha' & Hn & _).
  destruct (wired_sizes p n _ Hg Hw Hs) as [Hsm Ht]. pose proof Hsh as (Hf & He & Hwi & _).
  assert (Hv : Forall (valid_image (s_first s)) (s_seen s)) by (eapply Forall_impl; [exact Hpl|]; intros x Hx; eapply plain_valid; [|exact Hsh|exact Hx]; lia).
  assert (0 <= total_inputs (s_first s)) by apply len_nonneg. pose proof (len_nonneg (s_seen s)).
  destruct (mental_after iter (s_first s) (Train <$> s_seen s) d Hit Hf) as (img & Em & Hli & _ & Hgt); auto; try lia.
  - apply valid_train, Hv.
  - rewrite len_fmap. lia.
  - rewrite len_fmap. rewrite Ht in *. nia.
  - exists img. split; [exact Em|]. rewrite He in Hli, Hgt. split; [exact Hli|]. intros q Hq. rewrite (Hgt Hsm q Hq), mental_due_law, mental_law_train. reflexivity.
Qed.
Lemma slots_pictures iter p n N ss ds : good_iter iter -> good_params p n -> p_base p ^ p_addressSize p <= 2147483648 ->
  N <= INT_MAX -> N * (ram_count n (p_addressSize p) (p_complete p) * p_addressSize p) <= INT_MAX -> Forall2 (slot_ok p n N) ss ds ->
  exists imgs, rmapM (fun o => match o with Some d => disc_mental iter d | None => UB UBNull end) ds = Ok imgs /\ Forall2 (picture n) ss imgs.
Proof.
  intros Hit Hg Hs HN Hb. induction 1 as [|s o ss ds H _ (imgs & E & IH)]; [exists []; split; [reflexivity|constructor]|].
  destruct (slot_picture iter p n N s o Hit Hg Hs HN Hb H) as (img & Ei & Hp). exists (img :: imgs). cbn [rmapM]. rewrite Ei. cbn [rbind]. rewrite E. cbn [rbind]. split; [reflexivity|constructor; assumption].
Qed.

Theorem clus_mental_law lhs k0 n cs : k_clusters k0 = ∅ -> configured_for k0 n -> Forall (proper_kcall k0 n) cs -> len (all_events cs) <= INT_MAX - 2 ->
  exists k m, krun lhs k0 cs = (Ok tt, k) /\ clus_law k0 (params_for k0 n) (all_events cs) m /\
    forall iter, good_iter iter -> k_base k0 ^ k_addressSize k0 <= 2147483648 ->
      len (all_events cs) * (ram_count n (k_addressSize k0) (k_completeAddressing k0) * k_addressSize k0) <= INT_MAX ->
      exists M, clus_mental iter k = Ok M /\
        forall l, match m !! l with
          | None => M !! l = None
          | Some ss => exists imgs, M !! l = Some imgs /\ clus_mental1 iter k l = (Ok imgs, k) /\
              Forall2 (fun s img => len img = n /\ forall p, 0 <= p < n -> img !! Z.to_nat p = Some (wires (s_first s) p * active p (s_seen s))) ss imgs
          end.
Proof.
  intros H0 Hcf HF Hl. destruct (clus_reach lhs k0 n cs H0 Hcf HF Hl) as (k & m & E & [[Hk Hst] Hlaw] & _).
  exists k, m. split; [exact E|]. split; [exact Hlaw|]. intros iter Hit Hs Hb. pose proof Hcf as (Hg & _).
  assert (Hc : forall l ss c, m !! l = Some ss -> k_clusters k !! l = Some c -> exists imgs, cluster_mental iter c = Ok imgs /\ Forall2 (picture n) ss imgs).
  { intros l ss c El Ec. specialize (Hst l). rewrite El, Ec in Hst. destruct Hst as ([_ _ Hsl _] & _).
    apply (slots_pictures iter (params_for k0 n) n (len (all_events cs))); [exact Hit|exact Hg|exact Hs|unfold INT_MAX in *; lia|exact Hb|exact Hsl]. }
  set (M := map_imap (fun l c => match cluster_mental iter c with Ok x => Some x | _ => None end) (k_clusters k)).
  exists M. split.
  - unfold clus_mental. apply (keyed_ok (cluster_mental iter)). intros l. unfold M. rewrite map_lookup_imap.
    destruct (k_clusters k !! l) as [c|] eqn:Ec; cbn [mbind option_bind]; [|reflexivity].
    pose proof (Hst l) as Hx. rewrite Ec in Hx. destruct (m !! l) as [ss|] eqn:El; [|destruct Hx]. destruct (Hc l ss c El Ec) as (imgs & -> & _). eauto.
  - intros l. unfold M. rewrite map_lookup_imap. pose proof (Hst l) as Hx. destruct (m !! l) as [ss|] eqn:El; destruct (k_clusters k !! l) as [c|] eqn:Ec; try contradiction; cbn [mbind option_bind]; [|reflexivity].
    destruct (Hc l ss c El Ec) as (imgs & Ei & HP). exists imgs. rewrite Ei. split; [reflexivity|]. split; [|exact HP].
    unfold clus_mental1. rewrite Ec. cbn [from_option id]. rewrite Ei, insert_id by exact Ec. f_equal. destruct k. reflexivity.
Qed.
