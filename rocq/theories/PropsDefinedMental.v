(** Property theorems C175: mental images of every model that list images can bring about are defined. *)
From Verif Require Import Prelude Bytes Bleaching Utils BinInput Ram Disc DataSet Wisard Cluster ClusWisard.
From Verif Require Import SpecBin SpecDisc SpecBleach SpecWisard SpecCluster SpecClus SpecLaw SpecValues BytesProofs BinProofs UtilsProofs TextProofs BleachProofs DiscCtorProofs CtorFacts RamProofs DiscProofs DiscFacts MentalHistory WisardProofs WisardFacts WisardSafety SizesProofs.
From Verif Require Import PropsUnread PropsWisard PropsClus PropsDefined PropsClusDefined.

(** ** One RAM *)
Definition within_by (A : Z) (ps : list (Z * Z)) : Prop := Forall (fun q : Z * Z => Z.abs q.2 <= A) ps.
Lemma add_digits_ok c : forall ps ds A, within_by A ps -> 0 <= A -> A + Z.abs c <= INT_MAX ->
  exists ps', add_digits ps ds c = Ok ps' /\ ps'.*1 = ps.*1 /\ within_by (A + Z.abs c) ps'.
Proof.
  induction ps as [|[a acc] ps IH]; intros ds A Hw HA HM.
  - exists []. destruct ds; (split; [reflexivity|]; split; [reflexivity|constructor]).
  - destruct ds as [|d ds].
    + exists ((a, acc) :: ps). split; [reflexivity|]. split; [reflexivity|]. eapply Forall_impl; [exact Hw|]. cbn. lia.
    + apply Forall_cons in Hw as [Hq Hw]. cbn [snd] in Hq. destruct (IH ds A Hw HA HM) as (ps' & E & H1 & H2). cbn [add_digits].
      assert (Hacc : exists v, (if 0 <? d then int_of (acc + c) else Ok acc) = Ok v /\ Z.abs v <= A + Z.abs c).
      { destruct (0 <? d); [|exists acc; split; [reflexivity|lia]]. exists (acc + c). rewrite int_of_ok by (unfold INT_MIN, INT_MAX in *; lia). split; [reflexivity|lia]. }
      destruct Hacc as (v & -> & Hv). cbn [rbind]. rewrite E. cbn [rbind]. exists ((a, v) :: ps'). split; [reflexivity|]. split; [rewrite !fmap_cons; cbn [fst]; congruence|]. apply Forall_cons. auto.
Qed.
Lemma mental_loop_ok r : r_base r <> 0 -> forall es ps A, within_by A ps -> 0 <= A -> A + zsum ((fun kv : Z * Z => Z.abs kv.2) <$> es) <= INT_MAX ->
  exists ps', mental_loop r es ps = Ok ps' /\ ps'.*1 = ps.*1 /\ within_by (A + zsum ((fun kv : Z * Z => Z.abs kv.2) <$> es)) ps'.
Proof.
  intros Hb. induction es as [|[a v] es IH]; intros ps A Hw HA HM.
  - exists ps. split; [reflexivity|]. split; [reflexivity|]. eapply Forall_impl; [exact Hw|]. cbn. lia.
  - assert (Hz : 0 <= zsum ((fun kv : Z * Z => Z.abs kv.2) <$> es)) by (apply zsum_nonneg, Forall_fmap, Forall_true; cbn; lia).
    rewrite fmap_cons in HM |- *. unfold zsum in *. cbn [foldr] in *. fold (zsum ((fun kv : Z * Z => Z.abs kv.2) <$> es)) in *. cbn [snd] in *. cbn [mental_loop]. destruct (a =? 0).
    + destruct (IH ps A Hw HA ltac:(lia)) as (ps' & E & H1 & H2). exists ps'. split; [exact E|]. split; [exact H1|]. eapply Forall_impl; [exact H2|]. cbn. lia.
    + unfold convertToBase. replace (r_base r =? 0) with false by lia. cbn [andb rbind].
      destruct (add_digits_ok v ps (digits_c (length (r_addresses r)) (s32 a) (r_base r)) A Hw HA ltac:(lia)) as (q & -> & H1 & H2). cbn [rbind].
      destruct (IH q (A + Z.abs v) H2 ltac:(lia) ltac:(lia)) as (ps' & E & H3 & H4). exists ps'. split; [exact E|]. split; [congruence|]. eapply Forall_impl; [exact H4|]. cbn. lia.
Qed.
Lemma ram_mental_ok iter N r : good_iter iter -> bounded N r -> 0 <= N <= INT_MAX ->
  exists ps, ram_mental iter r = Ok ps /\ ps.*1 = r_addresses r /\ within_by N ps.
Proof.
  intros Hi [Hw Hb] HN. unfold ram_mental. assert (Hz : zsum ((fun kv : Z * Z => Z.abs kv.2) <$> iter (r_positions r)) = weight r) by (apply zsum_perm, fmap_Permutation, Hi).
  destruct (mental_loop_ok r ltac:(lia) (iter (r_positions r)) ((fun a => (a, 0)) <$> r_addresses r) 0) as (ps & E & H1 & H2); [apply Forall_fmap, Forall_true; cbn; lia|lia|rewrite Hz; lia|].
  exists ps. split; [exact E|]. split; [rewrite H1, <- list_fmap_compose; apply list_fmap_id|]. rewrite Hz in H2. eapply Forall_impl; [exact H2|]. cbn. lia.
Qed.

(** ** Adding up the pieces *)
Definition under (A : Z -> Z) (l : list Z) : Prop := forall p v, 0 <= p -> l !! Z.to_nat p = Some v -> Z.abs v <= A p.
Definition hits (p : Z) (l : list Z) : Z := count_if (fun a => a =? p) l.
Lemma vadds_ok N : 0 <= N -> forall ps l A, Forall (fun q : Z * Z => 0 <= q.1 < len l) ps -> within_by N ps -> under A l -> (forall p, 0 <= p < len l -> A p + N * hits p ps.*1 <= INT_MAX) ->
  exists l', vadds l ps = Ok l' /\ length l' = length l /\ under (fun p => A p + N * hits p ps.*1) l'.
Proof.
  intros HN. induction ps as [|[a v] ps IH]; intros l A Hin Hw Hu HM.
  - exists l. split; [reflexivity|]. split; [reflexivity|]. intros p u Hp E. specialize (Hu p u Hp E). unfold hits. rewrite fmap_nil, count_if_nil. lia.
  - apply Forall_cons in Hin as [Ha Hin]. apply Forall_cons in Hw as [Hv Hw]. cbn [fst snd] in *. cbn [vadds].
    assert (Hhit : forall p, hits p (a :: ps.*1) = (if a =? p then 1 else 0) + hits p ps.*1) by (intros p; apply (count_if_cons (fun b => b =? p))).
    assert (Hpos : forall p, 0 <= hits p ps.*1) by (intros p; apply (count_if_range (fun b => b =? p))).
    rewrite fmap_cons in *. cbn [fst] in *.
    destruct (lookup_lt_is_Some_2 l (Z.to_nat a)) as [u Eu]; [unfold len in *; lia|]. pose proof (Hu a u ltac:(lia) Eu) as Hau. pose proof (HM a Ha) as HMa. rewrite Hhit, Z.eqb_refl in HMa.
    assert (Hone : vadd l (a, v) = Ok (<[Z.to_nat a := u + v]> l)).
    { unfold vadd, vget. cbn [fst snd]. replace (0 <=? a) with true by lia. rewrite Eu. cbn [rbind]. specialize (Hpos a). rewrite int_of_ok by (unfold INT_MIN, INT_MAX in *; nia). reflexivity. }
    rewrite Hone. cbn [rbind]. destruct (IH (<[Z.to_nat a := u + v]> l) (fun p => A p + (if a =? p then N else 0))) as (l' & E & H1 & H2).
    + unfold len. rewrite insert_length. exact Hin.
    + exact Hw.
    + intros p w Hp E. destruct (Z.eqb_spec a p) as [-> |Hne].
      * rewrite list_lookup_insert in E by (eapply lookup_lt_Some, Eu). injection E as <-. lia.
      * rewrite list_lookup_insert_ne in E by lia. specialize (Hu p w Hp E). lia.
    + intros p Hp. unfold len in Hp. rewrite insert_length in Hp. specialize (HM p Hp). rewrite Hhit in HM. destruct (a =? p); lia.
    + exists l'. split; [exact E|]. split; [rewrite H1; apply insert_length|]. intros p w Hp Ew. specialize (H2 p w Hp Ew). cbn beta in H2. rewrite Hhit. destruct (a =? p); lia.
Qed.
Lemma hits_concat p r rs : hits p (List.concat (r_addresses <$> (r :: rs))) = hits p (r_addresses r) + hits p (List.concat (r_addresses <$> rs)).
Proof. rewrite fmap_cons. cbn [List.concat]. apply (count_if_app (fun b => b =? p)). Qed.
Lemma mental_rams_ok iter N : good_iter iter -> 0 <= N <= INT_MAX -> forall rs l A, Forall (bounded N) rs -> Forall (fun r => Forall (fun a => 0 <= a < len l) (r_addresses r)) rs -> under A l ->
  (forall p, 0 <= p < len l -> A p + N * hits p (List.concat (r_addresses <$> rs)) <= INT_MAX) -> exists l', mental_rams iter rs l = Ok l'.
Proof.
  intros Hi HN. induction rs as [|r rs IH]; intros l A Hb Hin Hu HM; [exists l; reflexivity|].
  apply Forall_cons in Hb as [Hr Hb]. apply Forall_cons in Hin as [Ha Hin]. cbn [mental_rams]. destruct (ram_mental_ok iter N r Hi Hr HN) as (ps & -> & H1 & H2). cbn [rbind].
  assert (Hpos : forall p, 0 <= hits p (List.concat (r_addresses <$> rs))) by (intros p; apply (count_if_range (fun b => b =? p))).
  destruct (vadds_ok N ltac:(lia) ps l A) as (l' & -> & H3 & H4); [|exact H2|exact Hu| |].
  - rewrite <- H1 in Ha. apply Forall_fmap in Ha. exact Ha.
  - intros p Hp. specialize (HM p Hp). rewrite hits_concat in HM. rewrite H1. specialize (Hpos p). nia.
  - cbn [rbind]. rewrite H1 in H4. eapply IH; [exact Hb| |exact H4|].
    + unfold len in *. rewrite H3. exact Hin.
    + intros p Hp. unfold len in *. rewrite H3 in Hp. specialize (HM p Hp). rewrite hits_concat in HM. cbn beta. lia.
Qed.
(** A sound discriminator whose pixels are not read too often has a mental image (or, for an entry size
    below zero, an exception). *)
Lemma disc_mental_served iter N d : good_iter iter -> 0 <= N <= INT_MAX -> sound N d -> (forall p, N * wires d p <= INT_MAX) -> served (disc_mental iter d).
Proof.
  intros Hi HN (Hw & _ & Hb) HM. unfold disc_mental. destruct (Z.ltb_spec (d_entrySize d) 0); [exact I|].
  assert (Hl : len (replicate (Z.to_nat (d_entrySize d)) 0) = d_entrySize d) by (unfold len; rewrite replicate_length; lia).
  destruct (mental_rams_ok iter N Hi HN (d_rams d) (replicate (Z.to_nat (d_entrySize d)) 0) (fun _ => 0)) as (l & ->); [exact Hb| | | |exact I].
  - rewrite Hl. exact Hw.
  - intros p v _ E. apply lookup_replicate in E as [-> _]. lia.
  - intros p _. specialize (HM p). unfold wires, disc_mapping in HM. unfold hits. lia.
Qed.

(** ** A Wisard *)
(** C175: after any program as in C173 (calls that fail included), the mental images can be asked for: the
    answer is defined if no pixel is wired so often that (images handed over) x (RAM inputs wired to it)
    passes the largest int. *)
Theorem C175_mental_defined : forall iter lhs_first w0 cs,
  good_iter iter -> w_discriminators w0 = ∅ -> w_addressSize w0 <> 0 -> Forall (safe_call w0) cs -> zsum (handed <$> cs) < INT_MAX - 1 ->
  let '(os, w) := outcomes (wcall_run lhs_first) w0 cs in
  (forall l d p, w_discriminators w !! l = Some d -> zsum (handed <$> cs) * wires d p <= INT_MAX) -> served (wisard_mental iter w).
Proof.
  intros iter lhs w0 cs Hi H0 Ha Hc HM. assert (Hz : 0 <= zsum (handed <$> cs)) by (clear; induction cs as [|c cs IH]; [reflexivity|]; rewrite fmap_cons; unfold zsum in *; cbn [foldr]; pose proof (handed_nonneg c); lia).
  pose proof (outcomes_fine lhs w0 cs 0 w0 Ha (same_refl w0) ltac:(lia) ltac:(lia)) as H. specialize (H ltac:(intros l d; rewrite H0, lookup_empty; discriminate) Hc).
  destruct (outcomes (wcall_run lhs) w0 cs) as [os w]. destruct H as (_ & _ & H3 & _). intros Hw. unfold wisard_mental. apply rbind_served; [|intros; exact I].
  apply rmapM_served, Forall_forall. intros [l d] Hin. apply sorted_items_elem in Hin. cbn [fst snd]. apply rbind_served; [|intros; exact I]. eapply (disc_mental_served iter _ d Hi); [|exact (H3 l d Hin)|intros p; exact (Hw l d p Hin)]. lia.
Qed.
Print Assumptions C175_mental_defined.

(** ** The wiring a user gets without options *)
Lemma make_rams_addr idx a n iz b rs : make_rams idx a n iz b = Ok rs -> r_addresses <$> rs = sub_indexes idx a <$> seq 0 (Z.to_nat n).
Proof.
  unfold make_rams. intros E. apply DiscCtorProofs.rmapM_ok in E. induction E as [|i r is rs Hr _ IH]; [reflexivity|]. rewrite !fmap_cons. f_equal; [|exact IH]. apply ram_new_addr in Hr. exact Hr.
Qed.
Lemma hits_take k p l : hits p (take k l) <= hits p l.
Proof. unfold hits. rewrite <- (take_drop k l) at 2. rewrite count_if_app. pose proof (count_if_range (fun a => a =? p) (drop k l)). lia. Qed.
Lemma hits_seq p n : hits p (Z.of_nat <$> seq 0 n) <= 1.
Proof.
  assert (Hnd : NoDup (Z.of_nat <$> seq 0 n)) by (apply NoDup_fmap_2; [apply _|apply NoDup_seq]). induction Hnd as [|a l Ha _ IH]; [unfold hits; rewrite count_if_nil; lia|].
  unfold hits in *. rewrite count_if_cons. destruct (Z.eqb_spec a p) as [-> |]; [|lia]. rewrite count_if_false; [lia|]. intros x Hx. apply Z.eqb_neq. congruence.
Qed.
Lemma shuffle_wires dr n a iz c b d p : valid_draw dr -> setRAMShuffle dr n a iz c b = Ok d -> wires d p <= if c then a else 1.
Proof.
  intros [_ Hp] E. unfold setRAMShuffle in E. destruct (checkAddressSize _ _) eqn:Ea; cbn [rbind] in E; try discriminate. destruct (checkBase _); cbn [rbind] in E; try discriminate. cbv zeta in E.
  assert (Ha : 2 <= a <= n).
  { unfold checkAddressSize in Ea. destruct (Z.ltb_spec a 2); [discriminate|]. destruct (_ <? _); [discriminate|]. destruct (Z.ltb_spec n a); [discriminate|lia]. }
  destruct (count_extra n a c Ha) as (_ & Hx & _). fold (extra_of n a c) in E.
  destruct (int_of _); cbn [rbind] in E; try discriminate. destruct (rmapM _ _) as [fs| | |] eqn:Ef; cbn [rbind] in E; try discriminate. destruct (make_rams _ _ _ _ _) as [rs| | |] eqn:Er; cbn [rbind] in E; try discriminate.
  injection E as <-. apply make_rams_addr in Er. unfold wires, disc_mapping. cbn [d_rams]. rewrite Er, concat_sub by lia. etransitivity; [apply hits_take|].
  unfold hits. rewrite (count_if_perm _ _ _ (Hp _)), count_if_app. pose proof (hits_seq p (Z.to_nat n)) as Hs. unfold hits in Hs. pose proof (count_if_range (fun a => a =? p) fs) as Hr.
  apply DiscCtorProofs.rmapM_ok, Forall2_length in Ef. rewrite seq_length in Ef. unfold len in Hr. destruct c; [lia|]. unfold extra_of in *. cbn [andb] in *. lia.
Qed.
(** A property of wirings every discriminator of the model has. *)
Definition all_wired (w0 : wisard) (Q : list (list Z) -> Prop) (w : wisard) : Prop :=
  with_discriminators w ∅ = with_discriminators w0 ∅ /\ forall l d, w_discriminators w !! l = Some d -> Q (disc_mapping d).
Definition makes (w0 : wisard) (Q : list (list Z) -> Prop) : Prop :=
  Q [] /\ forall dr w l n d, valid_draw dr -> with_discriminators w ∅ = with_discriminators w0 ∅ -> construct_discriminator dr w l n = Ok d -> Q (disc_mapping d).
Lemma all_wired_put w0 Q w l d : all_wired w0 Q w -> Q (disc_mapping d) -> all_wired w0 Q (with_discriminators w (<[l := d]> (w_discriminators w))).
Proof. intros [Ho H] Hd. split; [exact Ho|]. intros k e. cbn. rewrite lookup_insert_Some. intros [[_ <-]|[_ He]]; [exact Hd|exact (H k e He)]. Qed.
Lemma at_label_wired w0 Q w (f : disc -> eff disc unit) l : all_wired w0 Q w -> (forall d, disc_mapping (snd (f d)) = disc_mapping d) -> all_wired w0 Q (snd (at_label f w l)).
Proof.
  intros H Hf. unfold at_label. destruct (w_discriminators w !! l) as [d|] eqn:E; [|exact H]. specialize (Hf d). destruct (f d) as [o d']. cbn [snd] in *. apply all_wired_put; [exact H|]. rewrite Hf. exact (proj2 H l d E).
Qed.
Lemma make_wired w0 Q lhs dr w l n : valid_draw dr -> makes w0 Q -> all_wired w0 Q w -> all_wired w0 Q (snd (makeDiscriminator lhs dr w l n)).
Proof.
  intros Hdr [Hn HQ] H. unfold makeDiscriminator. destruct (construct_discriminator dr w l n) as [d| | |] eqn:E; cbn [snd]; try exact H.
  - apply all_wired_put; [exact H|]. eapply HQ; [exact Hdr|exact (proj1 H)|exact E].
  - destruct lhs; [|exact H]. apply all_wired_put; [exact H|exact Hn].
Qed.
Lemma train1_wired w0 Q lhs env w x l : valid_draw (env l) -> makes w0 Q -> all_wired w0 Q w -> all_wired w0 Q (snd (wisard_train1 lhs env w x l)).
Proof.
  intros Hdr HQ H. unfold wisard_train1. destruct (w_discriminators w !! l); [apply at_label_wired; [exact H|intros; apply train_mapping]|].
  apply (ebind_snd _ _ (all_wired w0 Q)); [apply make_wired; assumption|]. intros [] s Es. apply at_label_wired; [|intros; apply train_mapping].
  pose proof (make_wired w0 Q lhs (env l) w l (s32 (im_size x)) Hdr HQ H) as K. rewrite Es in K. exact K.
Qed.
Lemma loop_wired w0 Q lhs env : (forall l, valid_draw (env l)) -> makes w0 Q -> forall xs ls w, all_wired w0 Q w -> all_wired w0 Q (snd (wisard_train_loop lhs env w xs ls)).
Proof.
  intros Hdr HQ. induction xs as [|x xs IH]; intros ls w H; [destruct ls; exact H|]. destruct ls as [|l ls]; [exact H|]. cbn [wisard_train_loop].
  apply (ebind_snd _ _ (all_wired w0 Q)); [apply train1_wired; auto|]. intros [] s Es. apply IH. pose proof (train1_wired w0 Q lhs env w x l (Hdr l) HQ H) as K. rewrite Es in K. exact K.
Qed.
Lemma leave1_wired w0 Q w x l : all_wired w0 Q w -> all_wired w0 Q (snd (leaveOneOut w x l)).
Proof. intros H. unfold leaveOneOut. destruct (w_discriminators w !! l); [|exact H]. apply at_label_wired; [exact H|intros; apply untrain_mapping]. Qed.
Lemma leaves_wired w0 Q : forall xs ls w, all_wired w0 Q w -> all_wired w0 Q (snd (leaveMoreOut_loop w xs ls)).
Proof.
  induction xs as [|x xs IH]; intros ls w H; [destruct ls; exact H|]. destruct ls as [|l ls]; [exact H|]. cbn [leaveMoreOut_loop].
  apply (ebind_snd _ _ (all_wired w0 Q)); [apply leave1_wired, H|]. intros [] s Es. apply IH. pose proof (leave1_wired w0 Q w x l H) as K. rewrite Es in K. exact K.
Qed.
Definition drawn (c : wcall) : Prop := match c with CTrain env _ _ => forall l, valid_draw (env l) | _ => True end.
Lemma outcomes_wired w0 Q lhs : makes w0 Q -> forall cs w, Forall drawn cs -> all_wired w0 Q w -> all_wired w0 Q (snd (outcomes (wcall_run lhs) w cs)).
Proof.
  intros HQ. induction cs as [|c cs IH]; intros w Hc H; [exact H|]. apply Forall_cons in Hc as [Hd Hc]. cbn [outcomes].
  assert (H1 : all_wired w0 Q (snd (wcall_run lhs w c))).
  { destruct c as [env xs ls|x l|xs ls]; cbn [wcall_run drawn] in *.
    - unfold wisard_train. destruct xs; [exact H|]. destruct (calculateNumberOfRams _ _ _); try exact H. destruct (checkConfidence _ _); try exact H. destruct (checkInputSizes _ _); try exact H. apply loop_wired; assumption.
    - apply leave1_wired, H.
    - unfold leaveMoreOut. destruct (checkInputSizes _ _); try exact H. apply leaves_wired, H. }
  destruct (wcall_run lhs w c) as [o w1]. cbn [snd] in H1. specialize (IH w1 Hc H1). destruct (outcomes (wcall_run lhs) w1 cs) as [os w2]. destruct o; cbn [snd] in *; first [exact IH|exact H1].
Qed.

(** Without a mapping and without indexes the images handed over, times the address size if the wiring is
    completed, need only fit in an int. *)
Theorem C175_default_wiring : forall iter lhs_first w0 cs,
  good_iter iter -> w_discriminators w0 = ∅ -> w_mapping w0 = ∅ -> w_indexes w0 = [] -> 1 <= w_addressSize w0 -> addressable (w_base w0) (w_addressSize w0) ->
  Forall (list_call (w_addressSize w0)) cs -> zsum (handed <$> cs) * (if w_completeAddressing w0 then w_addressSize w0 else 1) < INT_MAX - 1 ->
  served (wisard_mental iter (snd (outcomes (wcall_run lhs_first) w0 cs))).
Proof.
  intros iter lhs w0 cs Hi H0 Hm Hix Ha Hb Hc HM. assert (Hz : 0 <= zsum (handed <$> cs)) by (clear; induction cs as [|c cs IH]; [reflexivity|]; rewrite fmap_cons; unfold zsum in *; cbn [foldr]; pose proof (handed_nonneg c); lia).
  set (K := if w_completeAddressing w0 then w_addressSize w0 else 1) in *. assert (HK : 1 <= K) by (unfold K; destruct (w_completeAddressing w0); lia).
  assert (HQ : makes w0 (fun m => forall p, hits p (List.concat m) <= K)).
  { split; [intros p; unfold hits; cbn [List.concat]; rewrite count_if_nil; lia|]. intros dr w l n d Hdr Eo E p. unfold construct_discriminator in E.
    pose proof (f_equal w_mapping Eo) as E1. pose proof (f_equal w_indexes Eo) as E2. pose proof (f_equal w_addressSize Eo) as E3. pose proof (f_equal w_completeAddressing Eo) as E4. cbn in E1, E2, E3, E4.
    rewrite E1, Hm, lookup_empty, E2, Hix in E. cbn [length Nat.eqb negb] in E. pose proof (shuffle_wires _ _ _ _ _ _ _ p Hdr E) as Hs. rewrite E3, E4 in Hs. exact Hs. }
  assert (Hd : Forall drawn cs) by (eapply Forall_impl; [exact Hc|]; intros [env xs ls|x l|xs ls]; cbn; tauto).
  pose proof (outcomes_wired w0 _ lhs HQ cs w0 Hd) as Hw. specialize (Hw ltac:(split; [reflexivity|]; intros l d; rewrite H0, lookup_empty; discriminate)).
  pose proof (C175_mental_defined iter lhs w0 cs Hi H0 ltac:(lia)) as H. specialize (fun A => H A ltac:(nia)). destruct (outcomes (wcall_run lhs) w0 cs) as [os w]. cbn [snd] in *. apply H.
  - eapply Forall_impl; [exact Hc|]. intros c Hl. destruct c as [env xs ls|x l|xs ls]; cbn [list_call safe_call] in *.
    + destruct Hl as (K1 & K2 & K3 & K4 & K5). repeat (split; [assumption|]). split; [eapply Forall_impl; [exact K5|]; intros x; apply list_image_readable; lia|]. split; [exact K4|].
      intros x l Hx _. rewrite Forall_forall in K5. destruct (K5 x Hx) as (v & -> & Hv). unfold safe_wiring. rewrite Hm, lookup_empty, Hix. split; [exact Hb|]. split; [change (len (A:=Z) []) with 0; unfold INT_MAX; lia|]. split; [constructor|]. intros _. exact Hv.
    + eapply list_image_readable; [|exact Hl]. lia.
    + destruct Hl as (K1 & K2 & K3). split; [exact K1|]. split; [exact K2|]. eapply Forall_impl; [exact K3|]. intros x; apply list_image_readable; lia.
  - intros l d p E. pose proof (proj2 Hw l d E p) as Hh. unfold wires. unfold hits in Hh. nia.
Qed.
Print Assumptions C175_default_wiring.

(** ** A ClusWisard *)
Lemma slots_mental iter N c : good_iter iter -> 0 <= N <= INT_MAX -> slots_sound N c -> (forall d p, Some d ∈ c_discs c -> N * wires d p <= INT_MAX) -> served (cluster_mental iter c).
Proof.
  intros Hi HN Hs HM. unfold cluster_mental, on_discs. apply rmapM_served, Forall_forall. intros o Ho. unfold slots_sound in Hs. rewrite Forall_forall in Hs. destruct (Hs o Ho) as (d & -> & Hd).
  eapply disc_mental_served; [exact Hi|exact HN|exact Hd|]. intros p. apply HM, Ho.
Qed.
Lemma clus_mental_served iter lhs N k : good_iter iter -> 0 <= N <= INT_MAX -> clusters_sound lhs N k ->
  (forall l c d p, k_clusters k !! l = Some c -> Some d ∈ c_discs c -> N * wires d p <= INT_MAX) ->
  served (clus_mental iter k) /\ forall l, served (fst (clus_mental1 iter k l)).
Proof.
  intros Hi HN [Hk _] HM. split.
  - unfold clus_mental. apply rbind_served; [|intros; exact I]. apply rmapM_served, Forall_forall. intros [l c] Hin. apply sorted_items_elem in Hin. cbn [fst snd]. apply rbind_served; [|intros; exact I].
    eapply (slots_mental iter N c Hi HN); [exact (proj1 (Hk l c Hin))|]. intros d p. exact (HM l c d p Hin).
  - intros l. unfold clus_mental1. cbn [fst]. destruct (k_clusters k !! l) as [c|] eqn:E; cbn [default].
    + eapply (slots_mental iter N c Hi HN); [exact (proj1 (Hk l c E))|]. intros d p. exact (HM l c d p E).
    + exact I.
Qed.
(** C175, ClusWisard: after any program as in C174 the mental images of all labels, and those of any one
    label, are defined, under the same condition on how often a pixel is wired. *)
Theorem C175_clus_mental_defined : forall iter lhs_first k0 us ts,
  good_iter iter -> k_clusters k0 = ∅ -> k_unsupervised k0 = cluster_default -> is_int (k_addressSize k0) -> k_addressSize k0 <> 0 ->
  Forall is_unsupervised us -> Forall is_supervised ts -> Forall (fair_call lhs_first k0) (us ++ ts) -> zsum (handed_over <$> (us ++ ts)) < INT_MAX - 1 ->
  let k := snd (outcomes (kcall_run lhs_first) k0 (us ++ ts)) in
  (forall l c d p, k_clusters k !! l = Some c -> Some d ∈ c_discs c -> zsum (handed_over <$> (us ++ ts)) * wires d p <= INT_MAX) ->
  served (clus_mental iter k) /\ forall l, served (fst (clus_mental1 iter k l)).
Proof.
  intros iter lhs k0 us ts Hi H0 Hu0 Ha Ha0 Hus Hts Hc HM. pose proof (total_nonneg (us ++ ts)).
  assert (Hk : clusters_sound lhs 0 k0) by (split; [intros l c; rewrite H0, lookup_empty; discriminate|rewrite Hu0; constructor]).
  pose proof (koutcomes_fine lhs k0 Ha Ha0 us ts 0 k0 (same_options_refl k0) ltac:(lia) ltac:(lia) Hk (fun _ => H0) Hus Hts Hc) as Hgo.
  destruct (outcomes (kcall_run lhs) k0 (us ++ ts)) as [os k]. destruct Hgo as (_ & _ & H3). cbn [snd]. intros Hw. eapply clus_mental_served; [exact Hi| |exact H3|exact Hw]. lia.
Qed.
Print Assumptions C175_clus_mental_defined.
(** The same after supervised and semi-supervised calls. *)
Theorem C175_semi_mental_defined : forall iter lhs_first k0 cs,
  good_iter iter -> k_clusters k0 = ∅ -> k_unsupervised k0 = cluster_default -> is_int (k_addressSize k0) -> k_addressSize k0 <> 0 ->
  Forall (fair_given lhs_first k0) cs -> zsum (handed_over <$> cs) < INT_MAX - 1 ->
  let k := snd (outcomes (kcall_run lhs_first) k0 cs) in
  (forall l c d p, k_clusters k !! l = Some c -> Some d ∈ c_discs c -> zsum (handed_over <$> cs) * wires d p <= INT_MAX) ->
  served (clus_mental iter k) /\ forall l, served (fst (clus_mental1 iter k l)).
Proof.
  intros iter lhs k0 cs Hi H0 Hu0 Ha Ha0 Hc HM. pose proof (total_nonneg cs). pose proof (given_outcomes lhs k0 cs H0 Hu0 Ha Ha0 Hc HM) as Hgo.
  destruct (outcomes (kcall_run lhs) k0 cs) as [os k]. destruct Hgo as (_ & _ & H3 & _). cbn [snd]. intros Hw. eapply clus_mental_served; [exact Hi| |exact H3|exact Hw]. lia.
Qed.
Print Assumptions C175_semi_mental_defined.

(** The hypotheses are met by the calls of C173, of which all but the last fail. *)
Example C175_witness : Forall (list_call 2) wild_calls /\ zsum (handed <$> wild_calls) * 2 < INT_MAX - 1 /\
  wisard_mental (fun m => map_to_list m) (snd (outcomes (wcall_run true) wild [CTrain (fun _ => some_draw) [vec_image [1; 0; 1; 1]; vec_image [1; 0; 0]] [hot; hot]])) = Ok {[ hot := [1; 0; 1; 1] ]}.
Proof. split; [exact (proj1 C173_witness)|]. split; [vm_compute; reflexivity|]. vm_compute. reflexivity. Qed.
(** Beyond the bound it is undefined: a model (here loaded, since training it so often takes long) whose
    two RAMs look at one pixel seen INT_MAX times. *)
Example C175_outside : disc_mental (fun m => map_to_list m) (Disc 2 INT_MAX [Ram [0; 1] {[ 1 := INT_MAX ]} false 2; Ram [0; 1] {[ 1 := 1 ]} false 2]) = UB UBOverflow.
Proof. vm_compute. reflexivity. Qed.
