(** Property theorems C173: no sequence of list images runs into undefined behaviour. *)
From Verif Require Import Prelude Bytes Bleaching Utils BinInput Ram Disc DataSet Wisard.
From Verif Require Import SpecBin SpecDisc SpecBleach SpecWisard SpecValues BytesProofs BinProofs UtilsProofs TextProofs BleachProofs DiscCtorProofs CtorFacts RamProofs DiscProofs DiscFacts MentalHistory WisardProofs WisardFacts WisardSafety.
From Verif Require Import SizesProofs PropsWisard.

(** The call returns or throws an exception. *)
Definition served {A} (r : res A) : Prop := match r with Ok _ | Throw _ => True | _ => False end.
(** An image whose pixels can be read: any list, whatever its values. *)
Definition readable (x : image) : Prop :=
  0 <= im_size x <= INT_MAX /\ forall a, 0 <= a < im_size x -> served (im_get x a).
Lemma list_readable v : len v <= INT_MAX -> readable (vec_image v).
Proof.
  intros Hl. split; [cbn; pose proof (len_nonneg v); lia|]. intros a Ha. cbn [im_get im_size vec_image] in *. unfold vget. replace (0 <=? a) with true by lia.
  destruct (lookup_lt_is_Some_2 v (Z.to_nat a)) as [z ->]; [unfold len in *; lia|exact I].
Qed.
(** A RAM of n positions can be addressed (or is refused). *)
Definition addressable (base n : Z) : Prop := base <= 2 \/ base ^ n <= LL_MAX.
(** The wiring for label l is safe for images of n pixels. *)
Definition safe_wiring (w : wisard) (n : Z) (l : str) : Prop :=
  match w_mapping w !! l with
  | Some m => Forall (fun addrs => len addrs <= INT_MAX /\ addressable (w_base w) (len addrs) /\ Forall (fun p => 0 <= p < n) addrs) m
  | None => addressable (w_base w) (w_addressSize w) /\ len (w_indexes w) <= INT_MAX /\ Forall (fun p => 0 <= p) (w_indexes w) /\
            (w_indexes w = [] -> n + w_addressSize w <= INT_MAX)
  end.
(** Calls with readable images: a batch to train is not empty, and every label is wired safely. *)
Definition safe_call (w : wisard) (c : wcall) : Prop :=
  match c with
  | CTrain env xs ls => xs <> [] /\ len xs <= INT_MAX /\ len ls <= INT_MAX /\ Forall readable xs /\ (forall l, valid_draw (env l)) /\
                        (forall x l, x ∈ xs -> l ∈ ls -> safe_wiring w (im_size x) l)
  | CLeaveOne x _ => readable x
  | CLeaveMore xs ls => len xs <= INT_MAX /\ len ls <= INT_MAX /\ Forall readable xs
  end.
(** How many images a call hands over. *)
Definition handed (c : wcall) : Z := match c with CTrain _ xs _ | CLeaveMore xs _ => len xs | CLeaveOne _ _ => 1 end.

Lemma rbind_served {A B} (m : res A) (k : A -> res B) : served m -> (forall a, m = Ok a -> served (k a)) -> served (rbind m k).
Proof. destruct m; cbn; intros H1 H2; auto. Qed.
Lemma rmapM_served {A B} (f : A -> res B) l : Forall (fun x => served (f x)) l -> served (rmapM f l).
Proof.
  induction 1 as [|x l Hx _ IH]; cbn [rmapM]; [exact I|]. apply rbind_served; [exact Hx|]. intros y _. apply rbind_served; [exact IH|]. intros; exact I.
Qed.
Lemma ram_new_served addrs iz base : 2 <= base -> len addrs <= INT_MAX -> addressable base (len addrs) -> served (ram_new addrs iz base).
Proof.
  intros Hb Hl Ha. rewrite ram_new_spec by assumption. destruct (Z.eqb_spec base 2); [destruct (_ <=? _); exact I|].
  destruct Ha as [Ha|Ha]; [lia|]. replace (_ <=? _) with true by lia. exact I.
Qed.
Lemma sub_len idx a i : 0 <= a -> len (sub_indexes idx a i) <= a.
Proof. intros Ha. unfold sub_indexes, len. rewrite take_length. lia. Qed.
Lemma make_rams_served idx a n iz base : 2 <= base -> 2 <= a <= INT_MAX -> addressable base a -> served (make_rams idx a n iz base).
Proof.
  intros Hb Ha Hw. apply rmapM_served, Forall_true. intros i. pose proof (sub_len idx a i). pose proof (len_nonneg (sub_indexes idx a i)). apply ram_new_served; [exact Hb|lia|].
  destruct Hw as [|Hw]; [left; assumption|right]. etransitivity; [|exact Hw]. apply Z.pow_le_mono_r; lia.
Qed.
Lemma construct_served dr w l n : valid_draw dr -> 0 <= n <= INT_MAX -> safe_wiring w n l -> served (construct_discriminator dr w l n).
Proof.
  intros Hdr Hn Hs. unfold safe_wiring in Hs. unfold construct_discriminator. destruct (w_mapping w !! l) as [m|].
  - unfold setRAMByMapping. apply rbind_served; [unfold checkBase; destruct (_ <? _); exact I|]. intros ? Eb.
    assert (Hb : 2 <= w_base w) by (unfold checkBase in Eb; destruct (Z.ltb_spec (w_base w) 2); [discriminate|lia]).
    apply rbind_served; [|intros; exact I]. apply rmapM_served. eapply Forall_impl; [exact Hs|]. intros addrs (H1 & H2 & _). apply ram_new_served; assumption.
  - destruct Hs as (Hw & _ & _ & Hi). destruct (w_indexes w) as [|i idx] eqn:Ei.
    + cbn [length Nat.eqb negb]. specialize (Hi eq_refl). unfold setRAMShuffle. apply rbind_served; [unfold checkAddressSize; repeat (destruct (_ <? _); try exact I)|]. intros ? Ea.
      assert (Ha : 2 <= w_addressSize w <= n).
      { unfold checkAddressSize in Ea. destruct (Z.ltb_spec (w_addressSize w) 2); [discriminate|]. destruct (_ <? _); [discriminate|]. destruct (Z.ltb_spec n (w_addressSize w)); [discriminate|lia]. }
      apply rbind_served; [unfold checkBase; destruct (_ <? _); exact I|]. intros ? Eb.
      assert (Hb : 2 <= w_base w) by (unfold checkBase in Eb; destruct (Z.ltb_spec (w_base w) 2); [discriminate|lia]).
      cbv zeta. match goal with |- context [int_of (n + ?e)] => set (ex := e) end. assert (Hx : 0 <= ex <= w_addressSize w).
      { unfold ex. pose proof (Z.rem_bound_pos n (w_addressSize w)). destruct (_ && _); lia. }
      rewrite int_of_ok by (unfold INT_MIN, INT_MAX in *; lia). cbn [rbind]. apply rbind_served.
      { apply rmapM_served, Forall_true. intros k. destruct Hdr as [Hr _]. destruct (randint_ok n (dr_rand dr k)) as (v & -> & _); [lia|apply Hr|exact I]. }
      intros fl _. apply rbind_served; [|intros; exact I]. apply make_rams_served; [exact Hb|lia|exact Hw].
    + cbn [length Nat.eqb negb]. unfold setRAMByIndex. apply rbind_served; [unfold checkAddressSize; repeat (destruct (_ <? _); try exact I)|]. intros ? Ea.
      assert (Ha : 2 <= w_addressSize w <= n).
      { unfold checkAddressSize in Ea. destruct (Z.ltb_spec (w_addressSize w) 2); [discriminate|]. destruct (_ <? _); [discriminate|]. destruct (Z.ltb_spec n (w_addressSize w)); [discriminate|lia]. }
      apply rbind_served; [unfold checkBase; destruct (_ <? _); exact I|]. intros ? Eb.
      assert (Hb : 2 <= w_base w) by (unfold checkBase in Eb; destruct (Z.ltb_spec (w_base w) 2); [discriminate|lia]).
      apply rbind_served.
      { unfold checkListOfIndexes. destruct (negb _); [exact I|]. generalize (@nil Z). generalize (i :: idx). induction l0 as [|z is IH]; intros seen; cbn; [exact I|].
        destruct (_ <=? _); [exact I|]. destruct (decide _); [exact I|apply IH]. }
      intros _ _. apply rbind_served; [|intros; exact I]. apply make_rams_served; [exact Hb|lia|exact Hw].
Qed.

(** ** One discriminator *)
(** The contents of a RAM, added up without their signs. *)
Definition weight (r : ram) : Z := zsum ((fun kv : Z * Z => Z.abs kv.2) <$> map_to_list (r_positions r)).
Definition bounded (N : Z) (r : ram) : Prop := weight r <= N /\ 2 <= r_base r.
Definition sound (N : Z) (d : disc) : Prop := wired_inside d /\ - N <= d_count d <= N /\ Forall (bounded N) (d_rams d).
Lemma bounded_le N M r : N <= M -> bounded N r -> bounded M r.
Proof. unfold bounded. intros H Hb. lia. Qed.
Lemma weight_insert a (m : gmap Z Z) v : m !! a = None ->
  zsum ((fun kv : Z * Z => Z.abs kv.2) <$> map_to_list (<[a := v]> m)) = Z.abs v + zsum ((fun kv : Z * Z => Z.abs kv.2) <$> map_to_list m).
Proof. intros E. rewrite (zsum_perm _ _ (fmap_Permutation _ _ _ (map_to_list_insert m a v E))). reflexivity. Qed.
Lemma weight_some a (m : gmap Z Z) v : m !! a = Some v ->
  zsum ((fun kv : Z * Z => Z.abs kv.2) <$> map_to_list m) = Z.abs v + zsum ((fun kv : Z * Z => Z.abs kv.2) <$> map_to_list (delete a m)).
Proof. intros E. rewrite <- (insert_delete m a v E) at 1. apply weight_insert, lookup_delete. Qed.
Lemma weight_change a (m : gmap Z Z) v u : m !! a = Some v ->
  zsum ((fun kv : Z * Z => Z.abs kv.2) <$> map_to_list (<[a := u]> m)) = Z.abs u - Z.abs v + zsum ((fun kv : Z * Z => Z.abs kv.2) <$> map_to_list m).
Proof. intros E. rewrite (weight_some a m v E), <- (insert_delete_insert m), weight_insert by apply lookup_delete. lia. Qed.
Lemma weight_nonneg (m : gmap Z Z) : 0 <= zsum ((fun kv : Z * Z => Z.abs kv.2) <$> map_to_list m).
Proof. apply zsum_nonneg, Forall_fmap, Forall_true. cbn. lia. Qed.
Lemma bounded_at N r a v : bounded N r -> r_positions r !! a = Some v -> - N <= v <= N.
Proof. intros [H _] E. unfold weight in H. rewrite (weight_some _ _ _ E) in H. pose proof (weight_nonneg (delete a (r_positions r))). lia. Qed.
Lemma bounded_set N r a u m : bounded N r -> (match r_positions r !! a with Some v => Z.abs u <= Z.abs v + 1 | None => Z.abs u <= 1 end) ->
  m = <[a := u]> (r_positions r) -> bounded (N + 1) (with_positions r m).
Proof.
  intros [H Hb] Hu ->. split; [|exact Hb]. unfold weight, with_positions in *. cbn [r_positions]. destruct (r_positions r !! a) as [v|] eqn:E; [rewrite (weight_change a _ v u E)|rewrite (weight_insert a _ u E)]; lia.
Qed.
Lemma sound_le N M d : N <= M -> sound N d -> sound M d.
Proof. intros H (H1 & H2 & H3). split; [exact H1|]. split; [lia|]. eapply Forall_impl; [exact H3|]. intros r. apply bounded_le, H. Qed.
Lemma getIndex_served r x : Forall (fun a => served (im_get x a)) (r_addresses r) -> served (getIndex r x).
Proof.
  unfold getIndex. generalize 1 as p, 0 as i. intros p i. revert p i. induction (r_addresses r) as [|a l IH]; intros p i H; cbn [getIndex_loop]; [exact I|].
  apply Forall_cons in H as [Ha H]. apply rbind_served; [exact Ha|]. intros v _.
  apply rbind_served; [unfold checkPos; destruct (_ <=? _); exact I|]. intros _ _. apply IH, H.
Qed.
Definition good_op (N : Z) (f : ram -> eff ram unit) (r : ram) : Prop :=
  served (fst (f r)) /\ r_addresses (snd (f r)) = r_addresses r /\ bounded (N + 1) (snd (f r)).
Lemma train_good N r x : 0 <= N < INT_MAX -> bounded N r -> Forall (fun a => served (im_get x a)) (r_addresses r) -> good_op N (fun r => ram_train r x) r.
Proof.
  intros HN Hb H. pose proof (bounded_le N (N + 1) r ltac:(lia) Hb) as Hb'. apply getIndex_served in H. unfold good_op, ram_train. destruct (getIndex r x) as [i| | |]; cbn [fst snd]; try contradiction; [|auto].
  destruct (r_positions r !! i) as [v|] eqn:E.
  - pose proof (bounded_at N r i v Hb E). rewrite int_of_ok by (unfold INT_MIN, INT_MAX in *; lia). split; [exact I|]. split; [reflexivity|]. eapply bounded_set; [exact Hb| |reflexivity]. rewrite E. lia.
  - split; [exact I|]. split; [reflexivity|]. eapply bounded_set; [exact Hb| |reflexivity]. rewrite E. lia.
Qed.
Lemma untrain_good N r x : 0 <= N < INT_MAX -> bounded N r -> Forall (fun a => served (im_get x a)) (r_addresses r) -> good_op N (fun r => ram_untrain r x) r.
Proof.
  intros HN Hb H. pose proof (bounded_le N (N + 1) r ltac:(lia) Hb) as Hb'. apply getIndex_served in H. unfold good_op, ram_untrain. destruct (getIndex r x) as [i| | |]; cbn [fst snd]; try contradiction; [|auto].
  destruct (r_positions r !! i) as [v|] eqn:E; [|auto].
  pose proof (bounded_at N r i v Hb E). rewrite int_of_ok by (unfold INT_MIN, INT_MAX in *; lia). split; [exact I|]. split; [reflexivity|]. eapply bounded_set; [exact Hb| |reflexivity]. rewrite E. lia.
Qed.
Lemma update_good N f rs : Forall (bounded (N + 1)) rs -> Forall (good_op N f) rs ->
  served (fst (rams_update f rs)) /\ r_addresses <$> snd (rams_update f rs) = r_addresses <$> rs /\ Forall (bounded (N + 1)) (snd (rams_update f rs)).
Proof.
  intros Hb Hg. induction Hg as [|r rs (H1 & H2 & H3) _ IH]; cbn [rams_update]; [split; [exact I|split; [reflexivity|constructor]]|].
  apply Forall_cons in Hb as [Hr Hb]. specialize (IH Hb). destruct (f r) as [[[]| | |] r']; cbn [fst snd] in *; try contradiction.
  - destruct (rams_update f rs) as [o rs']. cbn [fst snd] in *. destruct IH as (I1 & I2 & I3). split; [exact I1|]. split; [rewrite !fmap_cons; congruence|]. apply Forall_cons. auto.
  - split; [exact I|]. split; [rewrite !fmap_cons; congruence|]. apply Forall_cons. auto.
Qed.
Lemma wired_same d c rs : r_addresses <$> rs = r_addresses <$> d_rams d -> wired_inside d -> wired_inside (Disc (d_entrySize d) c rs).
Proof. intros E. rewrite !wired_mapping. unfold disc_mapping. cbn [d_rams d_entrySize]. rewrite E. auto. Qed.
Lemma readable_here d x r : readable x -> d_entrySize d = im_size x -> wired_inside d -> r ∈ d_rams d -> Forall (fun a => served (im_get x a)) (r_addresses r).
Proof.
  intros [_ Hx] He Hw Hr. unfold wired_inside in Hw. rewrite Forall_forall in Hw. eapply Forall_impl; [exact (Hw r Hr)|]. intros a Ha. cbn beta in Ha. apply Hx. lia.
Qed.
Lemma check_served d x : readable x -> (exists e, checkEntrySize (d_entrySize d) (im_size x) = Throw e) \/ (checkEntrySize (d_entrySize d) (im_size x) = Ok tt /\ d_entrySize d = im_size x).
Proof.
  intros [Hx _]. unfold checkEntrySize. rewrite s32_id by (unfold INT_MIN, INT_MAX in *; lia). destruct (Z.eqb_spec (d_entrySize d) (im_size x)); eauto.
Qed.
Lemma disc_op_sound N d x : readable x -> 0 <= N < INT_MAX -> sound N d ->
  (served (fst (disc_train d x)) /\ sound (N + 1) (snd (disc_train d x))) /\ (served (fst (disc_untrain d x)) /\ sound (N + 1) (snd (disc_untrain d x))).
Proof.
  intros Hx HN Hs. pose proof (sound_le N (N + 1) d ltac:(lia) Hs) as Hs'. destruct Hs as (Hw & Hc & Hb). unfold disc_train, disc_untrain.
  destruct (check_served d x Hx) as [(e & ->)|(-> & He)]; [split; (split; [exact I|exact Hs'])|]. rewrite !int_of_ok by (unfold INT_MIN, INT_MAX in *; lia).
  assert (Hb' : Forall (bounded (N + 1)) (d_rams d)) by apply Hs'. split.
  - destruct (update_good N (fun r => ram_train r x) (d_rams d) Hb') as (H1 & H2 & H3).
    { apply Forall_forall. intros r Hr. rewrite Forall_forall in Hb. apply train_good; [exact HN|exact (Hb r Hr)|]. eapply readable_here; eassumption. }
    destruct (rams_update _ _) as [o rs]. cbn [fst snd] in *. split; [exact H1|]. split; [apply wired_same; assumption|]. split; [cbn; lia|exact H3].
  - destruct (update_good N (fun r => ram_untrain r x) (d_rams d) Hb') as (H1 & H2 & H3).
    { apply Forall_forall. intros r Hr. rewrite Forall_forall in Hb. apply untrain_good; [exact HN|exact (Hb r Hr)|]. eapply readable_here; eassumption. }
    destruct (rams_update _ _) as [o rs]. cbn [fst snd] in *. split; [exact H1|]. split; [apply wired_same; assumption|]. split; [cbn; lia|exact H3].
Qed.
Lemma new_sound dr w l n d : valid_draw dr -> 0 <= n <= INT_MAX -> safe_wiring w n l -> construct_discriminator dr w l n = Ok d -> sound 0 d.
Proof.
  intros Hdr Hn Hs E. assert (Hin : inside w n l).
  { unfold safe_wiring in Hs. unfold inside. destruct (w_mapping w !! l); [|tauto]. eapply Forall_impl; [exact Hs|]. cbn. tauto. }
  split; [eapply construct_inside; eassumption|].
  assert (Hf : forall idx a k iz base rs, 2 <= base -> make_rams idx a k iz base = Ok rs -> Forall (bounded 0) rs).
  { intros idx a k iz base rs Hb2 Er. apply DiscCtorProofs.rmapM_ok in Er. clear -Er Hb2. induction Er as [|x r xs rs Hr _ IH]; [constructor|]. apply Forall_cons. split; [|exact IH].
    unfold ram_new in Hr. destruct (checkLimitAddressSize _ _); try discriminate. cbn in Hr. injection Hr as <-. split; [reflexivity|exact Hb2]. }
  assert (Hm : forall m iz base rs, 2 <= base -> rmapM (fun addrs => ram_new addrs iz base) m = Ok rs -> Forall (bounded 0) rs).
  { intros m iz base rs Hb2 Er. apply DiscCtorProofs.rmapM_ok in Er. clear -Er Hb2. induction Er as [|x r xs rs Hr _ IH]; [constructor|]. apply Forall_cons. split; [|exact IH].
    unfold ram_new in Hr. destruct (checkLimitAddressSize _ _); try discriminate. cbn in Hr. injection Hr as <-. split; [reflexivity|exact Hb2]. }
  assert (Hck : forall b u, checkBase b = Ok u -> 2 <= b) by (intros b u; unfold checkBase; destruct (Z.ltb_spec b 2); [discriminate|intros _; lia]).
  unfold construct_discriminator in E. destruct (w_mapping w !! l); [|destruct (negb _)].
  - unfold setRAMByMapping in E. destruct (checkBase _) eqn:Eb; cbn [rbind] in E; try discriminate. destruct (rmapM _ _) as [rs| | |] eqn:Er; cbn [rbind] in E; try discriminate.
    injection E as <-. split; [cbn; lia|]. eapply Hm; [|exact Er]. exact (Hck _ _ Eb).
  - unfold setRAMByIndex in E. destruct (checkAddressSize _ _); cbn [rbind] in E; try discriminate. destruct (checkBase _) eqn:Eb; cbn [rbind] in E; try discriminate.
    destruct (checkListOfIndexes _ _); cbn [rbind] in E; try discriminate. destruct (make_rams _ _ _ _ _) as [rs| | |] eqn:Er; cbn [rbind] in E; try discriminate.
    injection E as <-. split; [cbn; lia|]. eapply Hf; [|exact Er]. exact (Hck _ _ Eb).
  - unfold setRAMShuffle in E. destruct (checkAddressSize _ _); cbn [rbind] in E; try discriminate. destruct (checkBase _) eqn:Eb; cbn [rbind] in E; try discriminate. cbv zeta in E.
    destruct (int_of _); cbn [rbind] in E; try discriminate. destruct (rmapM _ _); cbn [rbind] in E; try discriminate. destruct (make_rams _ _ _ _ _) as [rs| | |] eqn:Er; cbn [rbind] in E; try discriminate.
    injection E as <-. split; [cbn; lia|]. eapply Hf; [|exact Er]. exact (Hck _ _ Eb).
Qed.

(** ** A Wisard *)
Definition all_sound (N : Z) (w : wisard) : Prop := forall l d, w_discriminators w !! l = Some d -> sound N d.
Definition same_setup (w w' : wisard) : Prop := w' = with_discriminators w (w_discriminators w').
Lemma same_refl w : same_setup w w. Proof. destruct w. reflexivity. Qed.
Lemma same_trans w1 w2 w3 : same_setup w1 w2 -> same_setup w2 w3 -> same_setup w1 w3.
Proof. unfold same_setup. intros E1 E2. rewrite E2. rewrite E1 at 1. reflexivity. Qed.
Lemma same_with w m : same_setup w (with_discriminators w m). Proof. reflexivity. Qed.
Lemma same_wiring w w' : same_setup w w' -> safe_wiring w' = safe_wiring w. Proof. intros ->. reflexivity. Qed.
Lemma all_sound_le N M w : N <= M -> all_sound N w -> all_sound M w.
Proof. intros H Hs l d E. eapply sound_le; [exact H|exact (Hs l d E)]. Qed.
Definition fine (N : Z) (w : wisard) (p : eff wisard unit) : Prop := served (fst p) /\ all_sound N (snd p) /\ same_setup w (snd p).
Lemma at_label_fine N f w l d : 0 <= N -> all_sound N w -> w_discriminators w !! l = Some d -> served (fst (f d)) -> sound (N + 1) (snd (f d)) -> fine (N + 1) w (at_label f w l).
Proof.
  intros HN Hw E H1 H2. unfold at_label. rewrite E. destruct (f d) as [o d']. cbn [fst snd] in *. split; [exact H1|]. split; [|apply same_with].
  intros k e. cbn. rewrite lookup_insert_Some. intros [[_ <-]|[_ He]]; [exact H2|]. eapply sound_le; [|exact (Hw k e He)]. lia.
Qed.
Lemma train1_fine lhs env N w x l : valid_draw (env l) -> readable x -> 0 <= N < INT_MAX -> all_sound N w -> safe_wiring w (im_size x) l -> fine (N + 1) w (wisard_train1 lhs env w x l).
Proof.
  intros Hdr Hx HN Hw Hs. unfold wisard_train1. destruct (w_discriminators w !! l) as [d|] eqn:E.
  - destruct (disc_op_sound N d x Hx HN (Hw l d E)) as [[H1 H2] _]. eapply at_label_fine; eauto; lia.
  - destruct Hx as [Hsz Hg]. unfold makeDiscriminator. rewrite s32_id by (unfold INT_MIN; lia).
    pose proof (construct_served (env l) w l (im_size x) Hdr Hsz Hs) as Hc. destruct (construct_discriminator _ _ _ _) as [d|e| |] eqn:Ec; try contradiction.
    + cbn [ebind]. pose proof (new_sound _ _ _ _ _ Hdr Hsz Hs Ec) as Hd. apply (sound_le 0 N) in Hd; [|lia].
      destruct (disc_op_sound N d x (conj Hsz Hg) HN Hd) as [[H1 H2] _].
      assert (Hw' : all_sound N (with_discriminators w (<[l := d]> (w_discriminators w)))).
      { intros k e. cbn. rewrite lookup_insert_Some. intros [[_ <-]|[_ He]]; [exact Hd|exact (Hw k e He)]. }
      destruct (at_label_fine N (fun d => disc_train d x) _ l d ltac:(lia) Hw' (lookup_insert _ _ _) H1 H2) as (F1 & F2 & F3). split; [exact F1|]. split; [exact F2|]. eapply same_trans; [apply same_with|exact F3].
    + cbn [ebind]. split; [exact I|]. destruct lhs; cbn [snd]; [|split; [eapply all_sound_le; [|exact Hw]; lia|apply same_refl]]. split; [|apply same_with].
      intros k d. cbn. rewrite lookup_insert_Some. intros [[_ <-]|[_ Hd]]; [|eapply sound_le; [|exact (Hw k d Hd)]; lia]. split; [constructor|]. split; [cbn; lia|constructor].
Qed.
Lemma leave1_fine N w x l : readable x -> 0 <= N < INT_MAX -> all_sound N w -> fine (N + 1) w (leaveOneOut w x l).
Proof.
  intros Hx HN Hw. unfold leaveOneOut. destruct (w_discriminators w !! l) as [d|] eqn:E.
  - destruct (disc_op_sound N d x Hx HN (Hw l d E)) as [_ [H1 H2]]. eapply at_label_fine; eauto; lia.
  - split; [exact I|]. split; [eapply all_sound_le; [|exact Hw]; lia|apply same_refl].
Qed.
Lemma train_loop_fine lhs env : (forall l, valid_draw (env l)) -> forall xs ls N w, length xs = length ls -> Forall readable xs -> 0 <= N -> N + len xs <= INT_MAX -> all_sound N w ->
  (forall x l, x ∈ xs -> l ∈ ls -> safe_wiring w (im_size x) l) -> fine (N + len xs) w (wisard_train_loop lhs env w xs ls).
Proof.
  intros Hdr. induction xs as [|x xs IH]; intros [|l ls] N w Hlen Hx HN HM Hw Hs; try discriminate; cbn [wisard_train_loop].
  - split; [exact I|]. split; [eapply all_sound_le; [|exact Hw]; change (len (A:=image) []) with 0; lia|apply same_refl].
  - rewrite len_cons in *. pose proof (len_nonneg xs). apply Forall_cons in Hx as [Hx Hxs].
    destruct (train1_fine lhs env N w x l (Hdr l) Hx ltac:(lia) Hw ltac:(apply Hs; left)) as (F1 & F2 & F3). destruct (wisard_train1 lhs env w x l) as [[[]| | |] w1]; cbn [ebind fst snd] in *; try contradiction.
    + destruct (IH ls (N + 1) w1) as (G1 & G2 & G3); [cbn in Hlen; lia|exact Hxs|lia|lia|exact F2| |].
      { intros x' l' Hx' Hl'. rewrite (same_wiring w w1 F3). apply Hs; right; assumption. }
      split; [exact G1|]. split; [eapply all_sound_le; [|exact G2]; lia|eapply same_trans; eassumption].
    + split; [exact I|]. split; [eapply all_sound_le; [|exact F2]; lia|exact F3].
Qed.
Lemma leave_loop_fine : forall xs ls N w, length xs = length ls -> Forall readable xs -> 0 <= N -> N + len xs <= INT_MAX -> all_sound N w -> fine (N + len xs) w (leaveMoreOut_loop w xs ls).
Proof.
  induction xs as [|x xs IH]; intros [|l ls] N w Hlen Hx HN HM Hw; try discriminate; cbn [leaveMoreOut_loop].
  - split; [exact I|]. split; [eapply all_sound_le; [|exact Hw]; change (len (A:=image) []) with 0; lia|apply same_refl].
  - rewrite len_cons in *. pose proof (len_nonneg xs). apply Forall_cons in Hx as [Hx Hxs].
    destruct (leave1_fine N w x l Hx ltac:(lia) Hw) as (F1 & F2 & F3). destruct (leaveOneOut w x l) as [[[]| | |] w1]; cbn [ebind fst snd] in *; try contradiction.
    + destruct (IH ls (N + 1) w1) as (G1 & G2 & G3); [cbn in Hlen; lia|exact Hxs|lia|lia|exact F2|].
      split; [exact G1|]. split; [eapply all_sound_le; [|exact G2]; lia|eapply same_trans; eassumption].
    + split; [exact I|]. split; [eapply all_sound_le; [|exact F2]; lia|exact F3].
Qed.
Lemma handed_nonneg c : 0 <= handed c.
Proof. destruct c as [? xs ?| |xs ?]; cbn; try (pose proof (len_nonneg xs)); lia. Qed.
Lemma call_fine lhs N w c : w_addressSize w <> 0 -> 0 <= N -> N + handed c <= INT_MAX -> all_sound N w -> safe_call w c -> fine (N + handed c) w (wcall_run lhs w c).
Proof.
  intros Ha HN HM Hw Hc. pose proof (handed_nonneg c). assert (Hstay : forall e, fine (N + handed c) w (Throw e, w)).
  { intros e. split; [exact I|]. split; [eapply all_sound_le; [|exact Hw]; lia|apply same_refl]. }
  destruct c as [env xs ls|x l|xs ls]; cbn [wcall_run handed safe_call] in *.
  - destruct Hc as (Hne & H1 & H2 & Hx & Hdr & Hs). unfold wisard_train. destruct xs as [|x xs]; [congruence|]. unfold calculateNumberOfRams. replace (_ =? 0) with false by lia. cbv zeta.
    assert (Hgo : forall k, fine (N + len (x :: xs)) w match checkConfidence (w_confidence w) k with Ok _ => match checkInputSizes (len (x :: xs)) (len ls) with Ok _ => wisard_train_loop lhs env w (x :: xs) ls | _ => (Throw sizes_exn, w) end | _ => (Throw confidence_exn, w) end).
    { intros k. unfold checkConfidence. destruct (_ <? _); [apply Hstay|]. unfold checkInputSizes. rewrite s32_len_eq by assumption. destruct (Z.eqb_spec (len (x :: xs)) (len ls)) as [He|]; [|apply Hstay].
      apply train_loop_fine; auto. apply len_length, He. }
    destruct (_ && _); apply Hgo.
  - apply leave1_fine; [exact Hc|lia|exact Hw].
  - destruct Hc as (H1 & H2 & Hx). unfold leaveMoreOut, checkInputSizes. rewrite s32_len_eq by assumption. destruct (Z.eqb_spec (len xs) (len ls)) as [He|]; [|apply Hstay].
    apply leave_loop_fine; auto. apply len_length, He.
Qed.
Lemma outcomes_fine lhs w0 : forall cs N w, w_addressSize w0 <> 0 -> same_setup w0 w -> 0 <= N -> N + zsum (handed <$> cs) <= INT_MAX -> all_sound N w -> Forall (safe_call w0) cs ->
  let '(os, w') := outcomes (wcall_run lhs) w cs in length os = length cs /\ Forall served os /\ all_sound (N + zsum (handed <$> cs)) w' /\ same_setup w0 w'.
Proof.
  induction cs as [|c cs IH]; intros N w Ha Hsm HN HM Hw Hc; cbn [outcomes].
  - split; [reflexivity|]. split; [constructor|]. split; [eapply all_sound_le; [|exact Hw]; cbn; lia|exact Hsm].
  - apply Forall_cons in Hc as [Hc Hcs]. rewrite fmap_cons in *. unfold zsum in *. cbn [foldr] in *. fold (zsum (handed <$> cs)) in *. pose proof (handed_nonneg c).
    assert (0 <= zsum (handed <$> cs)) by (clear; induction cs as [|c cs IH]; [reflexivity|]; rewrite fmap_cons; unfold zsum in *; cbn [foldr]; pose proof (handed_nonneg c); lia).
    destruct (call_fine lhs N w c) as (F1 & F2 & F3); [rewrite Hsm; exact Ha|exact HN|lia|exact Hw| |].
    { rewrite Hsm. exact Hc. }
    destruct (wcall_run lhs w c) as [o w1]. cbn [fst snd] in *. specialize (IH (N + handed c) w1 Ha (same_trans _ _ _ Hsm F3) ltac:(lia) ltac:(lia) F2 Hcs).
    destruct o as [[]| | |]; try contradiction; destruct (outcomes (wcall_run lhs) w1 cs) as [os w2]; destruct IH as (I1 & I2 & I3 & I4);
      (split; [cbn; congruence|]; split; [apply Forall_cons; auto|]; split; [eapply all_sound_le; [|exact I3]; lia|exact I4]).
Qed.

(** ** Classification *)
Lemma disc_classify_sound N d x : readable x -> sound N d -> served (disc_classify d x) /\ (forall vs, disc_classify d x = Ok vs -> 0 <= N -> Forall (fun v => v <= N) vs).
Proof.
  intros Hx (Hw & _ & Hb). unfold disc_classify. destruct (check_served d x Hx) as [(e & ->)|(-> & He)]; cbn [rbind]; [split; [exact I|discriminate]|]. split.
  - apply rmapM_served, Forall_forall. intros r Hr. unfold getVote. apply rbind_served; [apply getIndex_served; eapply readable_here; eassumption|].
    intros i _. destruct (_ && _); [exact I|]. destruct (_ !! _); exact I.
  - intros vs E HN. apply DiscCtorProofs.rmapM_ok in E. clear -E Hb HN. induction E as [|r v rs vs Hv _ IH]; [constructor|]. apply Forall_cons in Hb as [Hr Hb]. apply Forall_cons. split; [|exact (IH Hb)].
    unfold getVote in Hv. destruct (getIndex r x) as [i| | |]; cbn [rbind] in Hv; try discriminate. destruct (_ && _); [injection Hv as <-; lia|]. destruct (r_positions r !! i) as [u|] eqn:Eu; injection Hv as <-; [apply (bounded_at N r i u Hr Eu)|lia].
Qed.
Lemma classify_served N w xs : 0 <= N < INT_MAX - 1 -> all_sound N w -> Forall readable xs -> served (wisard_classify w xs).
Proof.
  intros HN Hw Hx. apply rmapM_served. eapply Forall_impl; [exact Hx|]. clear xs Hx. intros x Hx. unfold wisard_classify1, wisard_candidates. apply rbind_served; [|intros; exact I].
  unfold all_votes. apply rbind_served.
  - apply rbind_served; [|intros; exact I]. apply rmapM_served, Forall_forall. intros [k d] Hin. apply sorted_items_elem in Hin. cbn [fst snd]. apply rbind_served; [|intros; exact I]. eapply disc_classify_sound; [exact Hx|exact (Hw k d Hin)].
  - intros m Em. destruct (rmapM _ _) as [vs| | |] eqn:Ev; cbn [rbind] in Em; try discriminate. injection Em as <-.
    assert (Hvb : votes_below (INT_MAX - 1) (list_to_map vs)).
    { intros k us Hk. apply elem_of_list_to_map_2 in Hk. apply DiscCtorProofs.rmapM_ok in Ev. apply elem_of_list_lookup in Hk as (i & Hi). destruct (Forall2_lookup_r _ _ _ _ _ Ev Hi) as ([k' d] & Hd & E). cbn [fst snd] in E.
      apply elem_of_list_lookup_2, sorted_items_elem in Hd. destruct (disc_classify d x) as [us'| | |] eqn:Ed; cbn [rbind] in E; try discriminate. injection E as <- <-.
      destruct (disc_classify_sound N d x Hx (Hw _ _ Hd)) as [_ H]. eapply Forall_impl; [exact (H _ Ed ltac:(lia))|]. cbn. lia. }
    destruct (w_bleachingActivated w).
    + destruct (bleach_terminates (list_to_map vs) (w_searchBestConfidence w) (w_confidence w) Hvb) as (out & -> & _). exact I.
    + unfold bleaching_make, makeWithConfidence, makeConfidenceless. destruct (w_searchBestConfidence w); exact I.
Qed.

(** C173: a program that goes on after exceptions gets an answer or an exception for every call, and for
    every classification after it: whatever the images (list images of any values, of any sizes, unequal
    numbers of images and labels, labels with ghost entries), nothing is undefined. *)
Theorem C173_never_undefined : forall lhs_first w0 cs,
  w_discriminators w0 = ∅ -> w_addressSize w0 <> 0 -> Forall (safe_call w0) cs -> zsum (handed <$> cs) < INT_MAX - 1 ->
  let '(os, w) := outcomes (wcall_run lhs_first) w0 cs in
  length os = length cs /\ Forall served os /\ forall xs, Forall readable xs -> served (wisard_classify w xs).
Proof.
  intros lhs w0 cs H0 Ha Hc HM. assert (Hz : 0 <= zsum (handed <$> cs)) by (clear; induction cs as [|c cs IH]; [reflexivity|]; rewrite fmap_cons; unfold zsum in *; cbn [foldr]; pose proof (handed_nonneg c); lia).
  pose proof (outcomes_fine lhs w0 cs 0 w0 Ha (same_refl w0) ltac:(lia) ltac:(lia)) as H. specialize (H ltac:(intros l d; rewrite H0, lookup_empty; discriminate) Hc).
  destruct (outcomes (wcall_run lhs) w0 cs) as [os w]. destruct H as (H1 & H2 & H3 & _). split; [exact H1|]. split; [exact H2|]. intros xs Hx. eapply classify_served; [|exact H3|exact Hx]. lia.
Qed.
Print Assumptions C173_never_undefined.
(** The wiring a user gets without options: images of any lists, any labels. *)
Definition list_call (a : Z) (c : wcall) : Prop :=
  match c with
  | CTrain env xs ls => xs <> [] /\ len xs <= INT_MAX /\ len ls <= INT_MAX /\ (forall l, valid_draw (env l)) /\ Forall (fun x => exists v, x = vec_image v /\ len v + a <= INT_MAX) xs
  | CLeaveOne x _ => exists v, x = vec_image v /\ len v + a <= INT_MAX
  | CLeaveMore xs ls => len xs <= INT_MAX /\ len ls <= INT_MAX /\ Forall (fun x => exists v, x = vec_image v /\ len v + a <= INT_MAX) xs
  end.
Lemma list_image_readable a x : 0 <= a -> (exists v, x = vec_image v /\ len v + a <= INT_MAX) -> readable x.
Proof. intros Ha (v & -> & Hv). apply list_readable. lia. Qed.
Theorem C173_default_wiring : forall lhs_first w0 cs,
  w_discriminators w0 = ∅ -> w_mapping w0 = ∅ -> w_indexes w0 = [] -> 1 <= w_addressSize w0 -> addressable (w_base w0) (w_addressSize w0) ->
  Forall (list_call (w_addressSize w0)) cs -> zsum (handed <$> cs) < INT_MAX - 1 ->
  let '(os, w) := outcomes (wcall_run lhs_first) w0 cs in
  length os = length cs /\ Forall served os /\ forall vs, Forall (fun v => len v <= INT_MAX) vs -> served (wisard_classify w (vec_image <$> vs)).
Proof.
  intros lhs w0 cs H0 Hm Hi Ha Hb Hc HM.
  pose proof (C173_never_undefined lhs w0 cs H0 ltac:(lia)) as H. specialize (fun K => H K HM). destruct (outcomes _ _ _) as [os w]. destruct H as (H1 & H2 & H3).
  - eapply Forall_impl; [exact Hc|]. intros c Hl. destruct c as [env xs ls|x l|xs ls]; cbn [list_call safe_call] in *.
    + destruct Hl as (K1 & K2 & K3 & K4 & K5). repeat (split; [assumption|]). split; [eapply Forall_impl; [exact K5|]; intros x; apply list_image_readable; lia|]. split; [exact K4|].
      intros x l Hx _. rewrite Forall_forall in K5. destruct (K5 x Hx) as (v & -> & Hv). unfold safe_wiring. rewrite Hm, lookup_empty, Hi. split; [exact Hb|]. split; [change (len (A:=Z) []) with 0; unfold INT_MAX; lia|]. split; [constructor|]. intros _. exact Hv.
    + eapply list_image_readable; [|exact Hl]. lia.
    + destruct Hl as (K1 & K2 & K3). split; [exact K1|]. split; [exact K2|]. eapply Forall_impl; [exact K3|]. intros x; apply list_image_readable; lia.
  - split; [exact H1|]. split; [exact H2|]. intros vs Hv. apply H3, Forall_fmap. eapply Forall_impl; [exact Hv|]. intros v. apply list_readable.
Qed.
Print Assumptions C173_default_wiring.
(** Packed images are readable too. *)
Theorem C173_packed : forall b, 0 <= b_remain b <= 8 * len (b_input b) -> 8 * len (b_input b) <= INT_MAX -> readable (bin_image b).
Proof.
  intros b Hr Hl. assert (Hs : bin_size b = len (b_input b) * 8 - b_remain b) by (unfold bin_size; apply u64_id; unfold INT_MAX, W64 in *; lia).
  split; [cbn; rewrite Hs; lia|]. intros a Ha. cbn [im_get im_size bin_image] in *. rewrite Hs in Ha. unfold bin_get. rewrite u64_id by (unfold INT_MAX, W64 in *; lia). rewrite Hs. replace (_ <=? a) with false by lia. cbv zeta.
  assert (0 <= a / 8 < len (b_input b)) as Hd by (split; [apply Z.div_pos; lia|apply Z.div_lt_upper_bound; lia]).
  rewrite s32_id by (unfold INT_MIN, INT_MAX in *; lia). apply rbind_served; [|intros; exact I]. destruct (_ =? _); [exact I|]. unfold vget. replace (0 <=? a / 8) with true by lia.
  destruct (lookup_lt_is_Some_2 (b_input b) (Z.to_nat (a / 8))) as [z ->]; [unfold len in *; lia|exact I].
Qed.
Print Assumptions C173_packed.
(** The hypotheses are met by calls that fail in every way: values that are no bits, images of other sizes,
    too few labels, a ghost label; the outcomes are answers and exceptions. *)
Definition wild : wisard := Wisard 2 true false ∅ [] false true 2 false false false false 0 ∅.
Definition wild_calls : list wcall :=
  [CTrain (fun _ => some_draw) [vec_image [1; 0; 1; 1]; vec_image [7; -9; 1; 1]] [hot; cold]; CTrain (fun _ => some_draw) [vec_image [1]] [lit "odd"];
   CTrain (fun _ => some_draw) [vec_image [1; 0; 1; 1]] []; CLeaveMore [vec_image [-5; 0; 1; 1]; vec_image []] [hot; hot]; CLeaveOne (vec_image [0; 0; 0; 0]) cold].
Example C173_witness : Forall (list_call 2) wild_calls /\ zsum (handed <$> wild_calls) < INT_MAX - 1 /\
  fst (outcomes (wcall_run true) wild wild_calls) = [Throw pos_exn; Throw entry_small_exn; Throw sizes_exn; Throw entry_exn; Ok tt] /\
  wisard_classify (snd (outcomes (wcall_run true) wild wild_calls)) [vec_image [1; 0; 1; 1]] = Throw entry_exn /\
  wisard_classify (snd (outcomes (wcall_run false) wild wild_calls)) [vec_image [1; 0; 1; 1]] = Ok [hot].
Proof.
  assert (Hl : forall v : list Z, (length v <= 4)%nat -> exists u, vec_image v = vec_image u /\ len u + 2 <= INT_MAX).
  { intros v Hv. exists v. split; [reflexivity|]. unfold len, INT_MAX. lia. }
  split.
  { unfold wild_calls. repeat (apply Forall_cons; split); [..|constructor]; cbn [list_call];
      try (split; [discriminate|]; split; [vm_compute; congruence|]; split; [vm_compute; congruence|]; split; [intros l; apply some_draw_valid|]; repeat (apply Forall_cons; split); [..|constructor]; apply Hl; cbn; lia);
      try (split; [vm_compute; congruence|]; split; [vm_compute; congruence|]; repeat (apply Forall_cons; split); [..|constructor]; apply Hl; cbn; lia).
    apply Hl; cbn; lia. }
  split; [vm_compute; reflexivity|]. split; [vm_compute; reflexivity|]. split; vm_compute; reflexivity.
Qed.
(** Outside the hypotheses calls are undefined: an empty batch, address size 0, a base whose power does not
    fit, a negative position in a mapping. *)
Example C173_outside :
  fst (wisard_train true (fun _ => some_draw) wild [] []) = UB UBIndex /\
  fst (wisard_train true (fun _ => some_draw) (Wisard 0 true false ∅ [] false true 2 false false false false 0 ∅) [vec_image [1; 0]] [hot]) = UB UBDivZero /\
  fst (wisard_train true (fun _ => some_draw) (Wisard 4 true false ∅ [] false true 100000 false false false false 0 ∅) [vec_image [1; 0; 1; 0]] [hot]) = UB UBOverflow /\
  fst (wisard_train true (fun _ => some_draw) (Wisard 2 true false {[hot := [[-1; 0]]]} [] false true 2 false false false false 0 ∅) [vec_image [1; 0; 1; 0]] [hot]) = UB UBIndex.
Proof. split; [vm_compute; reflexivity|]. split; [vm_compute; reflexivity|]. split; vm_compute; reflexivity. Qed.
