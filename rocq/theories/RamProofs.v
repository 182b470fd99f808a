(** The RAM cell selected by an image. *)
From Verif Require Import Prelude Bytes Utils BinInput Ram Disc SpecDisc.
From Verif Require Import SpecBin BytesProofs BinProofs UtilsProofs TextProofs DiscCtorProofs.

(** Little-endian number in base [base]. *)
Fixpoint enc (base : Z) (ds : list Z) : Z :=
  match ds with [] => 0 | d :: ds' => d + base * enc base ds' end.

Lemma enc_range base ds : 2 <= base -> Forall (fun d => 0 <= d < base) ds -> 0 <= enc base ds < base ^ len ds.
Proof.
  intros Hb. induction 1 as [|d ds Hd Hds IH]; [change (0 <= 0 < base ^ 0); rewrite Z.pow_0_r; lia|]. cbn [enc]. rewrite len_cons.
  rewrite Z.pow_add_r, Z.pow_1_r by (try apply len_nonneg; lia).
  assert (base * (enc base ds + 1) <= base * base ^ len ds) by (apply Z.mul_le_mono_nonneg_l; lia).
  assert (0 <= base * enc base ds) by (apply Z.mul_nonneg_nonneg; lia). lia.
Qed.
Lemma digit_split base d d' E E' : 2 <= base -> 0 <= d < base -> 0 <= d' < base -> d + base * E = d' + base * E' -> d = d' /\ E = E'.
Proof.
  intros Hb Hd Hd' H. assert (E = E') as ->; [|lia].
  assert ((d + base * E) / base = (d' + base * E') / base) as HH by (f_equal; lia).
  rewrite (Z.mul_comm base E), (Z.mul_comm base E'), !Z.div_add in HH by lia. rewrite !Z.div_small in HH by lia. lia.
Qed.
Lemma enc_inj base ds ds' : 2 <= base -> Forall (fun d => 0 <= d < base) ds -> Forall (fun d => 0 <= d < base) ds' ->
  length ds = length ds' -> enc base ds = enc base ds' -> ds = ds'.
Proof.
  intros Hb H. revert ds'. induction H as [|d ds Hd Hds IH]; intros ds' H' Hl E.
  - destruct ds'; [reflexivity|discriminate].
  - destruct H' as [|d' ds' Hd' Hds']; [discriminate|]. cbn [enc length] in *.
    apply digit_split in E as [-> E']; auto.
    f_equal. apply IH; auto.
Qed.
Lemma enc_zero base ds : 2 <= base -> Forall (fun d => 0 <= d < base) ds -> enc base ds = 0 <-> Forall (fun d => d = 0) ds.
Proof.
  intros Hb. induction 1 as [|d ds Hd Hds IH]; [split; [constructor|reflexivity]|]. cbn [enc].
  split.
  - intros E. destruct (digit_split base d 0 (enc base ds) 0) as [-> E']; [lia..|]. constructor; [reflexivity|]. apply IH, E'.
  - inversion 1; subst. rewrite (proj2 IH) by assumption. lia.
Qed.

Definition reads (x : image) (addrs ds : list Z) : Prop := Forall2 (fun a d => im_get x a = Ok d) addrs ds.

Lemma u64_u64 z : u64 (u64 z) = u64 z.
Proof. apply Z.mod_mod. discriminate. Qed.
Lemma u64_add_cong a b c d : u64 a = u64 b -> u64 c = u64 d -> u64 (a + c) = u64 (b + d).
Proof. unfold u64. intros H1 H2. rewrite Z.add_mod, H1, H2, <- Z.add_mod by discriminate. reflexivity. Qed.
Lemma u64_mul_cong a b c d : u64 a = u64 b -> u64 c = u64 d -> u64 (a * c) = u64 (b * d).
Proof. unfold u64. intros H1 H2. rewrite Z.mul_mod, H1, H2, <- Z.mul_mod by discriminate. reflexivity. Qed.

Lemma getIndex_loop_spec x base addrs ds : reads x addrs ds -> forall index p,
  (Forall (fun d => d < base) ds -> 0 <= index < W64 -> getIndex_loop addrs base x index p = Ok (u64 (index + p * enc base ds))) /\
  (Exists (fun d => base <= d) ds -> getIndex_loop addrs base x index p = Throw pos_exn).
Proof.
  induction 1 as [|a d addrs ds Ha Hds IH]; intros index p.
  - split; [|inversion 1]. intros _ Hi. cbn. rewrite Z.mul_0_r, Z.add_0_r, u64_id by exact Hi. reflexivity.
  - cbn [getIndex_loop]. rewrite Ha. cbn [rbind]. unfold checkPos. destruct (Z.leb_spec base d) as [Hge|Hlt]; cbn [rbind].
    + split; [|reflexivity]. intros Hf. inversion Hf; lia.
    + destruct (IH (u64 (index + u64 d * p)) (u64 (p * u64 base))) as [IH1 IH2]. split.
      * intros Hf Hi. inversion Hf; subst. rewrite IH1 by (auto using u64_range). f_equal. cbn [enc].
        replace (index + p * (d + base * enc base ds)) with ((index + d * p) + (p * base) * enc base ds) by lia.
        apply u64_add_cong; [rewrite u64_u64; apply u64_add_cong; [reflexivity|]; apply u64_mul_cong; [apply u64_u64|reflexivity]|].
        apply u64_mul_cong; [|reflexivity]. rewrite u64_u64. apply u64_mul_cong; [reflexivity|apply u64_u64].
      * intros He. apply IH2. inversion He; [lia|assumption].
Qed.

(** Images whose read pixels are in range. *)
Definition valid_on (r : ram) (x : image) : Prop :=
  Forall (fun a => exists v, im_get x a = Ok v /\ 0 <= v < r_base r) (r_addresses r).

Lemma valid_reads x base addrs : Forall (fun a => exists v, im_get x a = Ok v /\ 0 <= v < base) addrs ->
  exists ds, reads x addrs ds /\ Forall (fun d => 0 <= d < base) ds.
Proof.
  induction 1 as [|a addrs (v & Ha & Hv) _ (ds & H1 & H2)]; [exists []; split; constructor|].
  exists (v :: ds). split; constructor; auto.
Qed.

Lemma valid_index r x : ram_shape r -> valid_on r x ->
  exists ds, reads x (r_addresses r) ds /\ Forall (fun d => 0 <= d < r_base r) ds /\
    getIndex r x = Ok (enc (r_base r) ds) /\ 0 <= enc (r_base r) ds < r_base r ^ len (r_addresses r).
Proof.
  intros [Hb Hw] Hv. destruct (valid_reads x _ _ Hv) as (ds & Hr & Hd). exists ds. split; [exact Hr|]. split; [exact Hd|].
  pose proof (enc_range _ ds Hb Hd) as Hrg. pose proof (Forall2_length _ _ _ Hr) as Hl.
  assert (len ds = len (r_addresses r)) as Hl' by (unfold len; lia). rewrite Hl' in Hrg. split; [|exact Hrg].
  unfold getIndex. destruct (getIndex_loop_spec x (r_base r) _ _ Hr 0 1) as [H1 _].
  rewrite H1; [|eapply Forall_impl; [exact Hd|]; cbn; lia|unfold W64; lia].
  f_equal. rewrite Z.mul_1_l, Z.add_0_l. apply u64_id.
  pose proof (width_pow _ _ Hb (len_nonneg _) Hw). lia.
Qed.

Lemma reads_agree x y addrs ds : reads x addrs ds -> agree addrs x y <-> reads y addrs ds.
Proof.
  unfold reads, agree. induction 1 as [|a d addrs ds Ha Hds IH].
  - split; intros _; constructor.
  - rewrite Forall_cons. split.
    + intros [E H]. constructor; [congruence|]. apply IH, H.
    + inversion 1; subst. split; [congruence|]. apply IH. assumption.
Qed.
Lemma reads_det x addrs ds ds' : reads x addrs ds -> reads x addrs ds' -> ds = ds'.
Proof.
  unfold reads. intros H. revert ds'. induction H as [|a d addrs ds Ha Hds IH]; intros ds' H'; inversion H'; subst; [reflexivity|].
  f_equal; [congruence|]. apply IH. assumption.
Qed.

Theorem index_agree r x y : ram_shape r -> valid_on r x -> valid_on r y ->
  getIndex r x = getIndex r y <-> agree (r_addresses r) x y.
Proof.
  intros Hs Hx Hy. destruct (valid_index r x Hs Hx) as (ds & Hr & Hd & -> & _).
  destruct (valid_index r y Hs Hy) as (ds' & Hr' & Hd' & -> & _). rewrite (reads_agree _ _ _ _ Hr). split.
  - intros E. injection E as E. apply enc_inj in E; auto; [subst; exact Hr'|apply Hs|].
    rewrite <- (Forall2_length _ _ _ Hr), <- (Forall2_length _ _ _ Hr'). reflexivity.
  - intros H. rewrite (reads_det _ _ _ _ H Hr'). reflexivity.
Qed.

Theorem index_zero r x : ram_shape r -> valid_on r x -> getIndex r x = Ok 0 <-> all_zero (r_addresses r) x.
Proof.
  intros Hs Hx. destruct (valid_index r x Hs Hx) as (ds & Hr & Hd & -> & _).
  assert (all_zero (r_addresses r) x <-> Forall (fun d => d = 0) ds) as ->.
  { unfold all_zero. clear -Hr. induction Hr as [|a d addrs ds Ha Hds IH].
    - split; intros _; constructor.
    - rewrite !Forall_cons, IH, Ha. split; intros [E ?]; (split; [congruence|assumption]). }
  rewrite <- (enc_zero (r_base r)); [|apply Hs|exact Hd]. split; [injection 1; auto|congruence].
Qed.

Lemma agree_refl addrs x : agree addrs x x.
Proof. apply Forall_true. reflexivity. Qed.
Lemma agree_sym addrs x y : agree addrs x y -> agree addrs y x.
Proof. intros H. eapply Forall_impl; [exact H|]. cbn. intros a E. congruence. Qed.
Lemma agree_trans addrs x y z : agree addrs x y -> agree addrs y z -> agree addrs x z.
Proof. unfold agree. rewrite !Forall_forall. intros H1 H2 a Ha. rewrite H1 by exact Ha. auto. Qed.

(** Images are read without undefined behaviour and give a digit below the base or throw. *)
Lemma getIndex_safe r x : (forall a, a ∈ r_addresses r -> exists v, im_get x a = Ok v \/ exists e, im_get x a = Throw e) ->
  (exists i, getIndex r x = Ok i) \/ (exists e, getIndex r x = Throw e).
Proof.
  unfold getIndex. intros H. assert (forall i p, (exists v, getIndex_loop (r_addresses r) (r_base r) x i p = Ok v) \/
    exists e, getIndex_loop (r_addresses r) (r_base r) x i p = Throw e) as HH; [|apply HH].
  revert H. induction (r_addresses r) as [|a l IH]; intros H i p; cbn [getIndex_loop]; [eauto|].
  destruct (H a) as (v & [E|[e E]]); [left| |]; rewrite E; cbn [rbind]; [|eauto].
  unfold checkPos. destruct (_ <=? _); cbn [rbind]; [eauto|]. apply IH. intros b Hb. apply H. right. exact Hb.
Qed.

Lemma bin_image_total b a : bin_made b -> (exists v, im_get (bin_image b) a = Ok v) \/ im_get (bin_image b) a = Throw index_exn.
Proof.
  intros Hb. apply bin_made_wf in Hb. cbn. pose proof (u64_range a).
  destruct (Z_lt_le_dec (u64 a) (bin_size b)) as [Hlt|Hge].
  - left. destruct (bin_get_ok b (u64 a) Hb ltac:(lia)) as (c & _ & E). eauto.
  - right. apply bin_get_out, Hge.
Qed.
Lemma getIndex_bin_safe r b : bin_made b ->
  (exists i, getIndex r (bin_image b) = Ok i) \/ (exists e, getIndex r (bin_image b) = Throw e).
Proof.
  intros Hb. apply getIndex_safe. intros a _. destruct (bin_image_total b a Hb) as [[v E]|E]; [exists v; auto|exists 0; right; eauto].
Qed.
Lemma disc_classify_bin_safe d b : bin_made b ->
  (exists v, disc_classify d (bin_image b) = Ok v) \/ (exists e, disc_classify d (bin_image b) = Throw e).
Proof.
  intros Hb. unfold disc_classify, checkEntrySize. destruct (_ =? _); cbn [rbind]; [|eauto].
  induction (d_rams d) as [|r rs IH]; cbn [rmapM]; [eauto|].
  assert ((exists v, getVote r (bin_image b) = Ok v) \/ (exists e, getVote r (bin_image b) = Throw e)) as [[v ->]|[e ->]]; [|cbn [rbind]; eauto..].
  - unfold getVote. destruct (getIndex_bin_safe r b Hb) as [[i E]|[e E]]; rewrite E; cbn [rbind]; [left|eauto].
    destruct (_ && _); [eauto|]. destruct (_ !! _); eauto.
  - cbn [rbind]. destruct IH as [[vs E']|[e E']]; rewrite E'; cbn [rbind]; eauto.
Qed.
Lemma ram_train_bin_safe r b : bin_made b -> fst (ram_train r (bin_image b)) <> UB UBIndex.
Proof.
  intros Hb. unfold ram_train. destruct (getIndex_bin_safe r b Hb) as [[i E]|[e E]]; rewrite E; [|discriminate].
  destruct (_ !! _); [|discriminate]. destruct (int_of _); discriminate.
Qed.
Lemma disc_train_bin_safe d b : bin_made b -> fst (disc_train d (bin_image b)) <> UB UBIndex.
Proof.
  intros Hb. unfold disc_train, checkEntrySize. destruct (_ =? _); [|discriminate].
  destruct (int_of _); try discriminate.
  assert (fst (rams_update (fun r => ram_train r (bin_image b)) (d_rams d)) <> UB UBIndex) as H.
  { induction (d_rams d) as [|r rs IH]; cbn [rams_update]; [discriminate|].
    pose proof (ram_train_bin_safe r b Hb) as Hr.
    destruct (ram_train r (bin_image b)) as [[| | |] r']; try exact Hr.
    destruct (rams_update _ rs) as [o rs']. exact IH. }
  destruct (rams_update _ _) as [o rs]. exact H.
Qed.
Lemma bin_safe d b : bin_made b ->
  ((exists v, disc_classify d (bin_image b) = Ok v) \/ (exists e, disc_classify d (bin_image b) = Throw e)) /\
  fst (disc_train d (bin_image b)) <> UB UBIndex.
Proof. intros Hb. split; [apply disc_classify_bin_safe, Hb|apply disc_train_bin_safe, Hb]. Qed.

Lemma addresses_injective d r x y : constructed d -> r ∈ d_rams d -> valid_image d x -> valid_image d y ->
  (exists i, getIndex r x = Ok i) /\ (getIndex r x = getIndex r y <-> agree (r_addresses r) x y).
Proof.
  intros Hc Hr [_ Hx] [_ Hy]. apply constructed_fresh in Hc as [_ Hs]. rewrite Forall_forall in Hs, Hx, Hy.
  destruct (Hs r Hr) as [Hs' _]. split; [|apply index_agree; auto; [apply Hx|apply Hy]; exact Hr].
  destruct (valid_index r x Hs' (Hx r Hr)) as (ds & _ & _ & -> & _). eauto.
Qed.
