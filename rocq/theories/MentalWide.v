(** Mental images of RAMs of any width (C37). *)
From Verif Require Import Prelude Bytes Utils BinInput Ram Disc SpecDisc SpecMental.
From Verif Require Import BytesProofs UtilsProofs TextProofs DiscCtorProofs RamProofs DiscProofs MentalProofs MentalHistory.

Lemma signed32_eq z : signed32 z = s32 z.
Proof. reflexivity || (unfold signed32, s32; cbn; reflexivity). Qed.
Lemma number_enc x base addrs ds : reads x addrs ds -> number_at base x addrs = enc base ds.
Proof. induction 1 as [|a d addrs ds Ha H IH]; [reflexivity|]. change (number_at base x (a :: addrs)) with (pixel x a + base * number_at base x addrs). cbn [enc]. unfold pixel. rewrite Ha, IH. reflexivity. Qed.

Lemma digits_neg base : 2 <= base -> forall n z, z <= 0 -> Forall (fun d => d <= 0) (digits_c n z base).
Proof.
  intros Hb. induction n as [|n IH]; intros z Hz; cbn [digits_c]; constructor.
  - assert (Z.rem (- - z) base = - Z.rem (- z) base) by (apply Z.rem_opp_l; lia). rewrite Z.opp_involutive in H. pose proof (Z.rem_nonneg (- z) base ltac:(lia) ltac:(lia)). lia.
  - apply IH. assert (Z.quot (- - z) base = - Z.quot (- z) base) by (apply Z.quot_opp_l; lia). rewrite Z.opp_involutive in H. pose proof (Z.quot_pos (- z) base ltac:(lia) ltac:(lia)). lia.
Qed.
Lemma digits_pos base : 2 <= base -> forall n z j, 0 <= z -> (j < n)%nat -> digits_c n z base !! j = Some ((z / base ^ Z.of_nat j) mod base).
Proof.
  intros Hb. induction n as [|n IH]; intros z j Hz Hj; [lia|]. cbn [digits_c]. destruct j as [|j].
  - cbn [lookup list_lookup]. rewrite Z.rem_mod_nonneg by lia. change (Z.of_nat 0) with 0. rewrite Z.pow_0_r, Z.div_1_r. reflexivity.
  - cbn [lookup list_lookup]. rewrite Z.quot_div_nonneg by lia. rewrite IH; [|apply Z.div_pos; lia|lia]. f_equal. f_equal.
    rewrite Nat2Z.inj_succ, Z.pow_succ_r by lia. rewrite Z.div_div; [reflexivity|lia|]. apply Z.pow_pos_nonneg; lia.
Qed.

Lemma lit_shown r x j a i : ram_shape r -> valid_on r x -> getIndex r x = Ok i -> r_addresses r !! j = Some a -> lit_digit r j i = shown r j x.
Proof.
  intros Hs Hv Hi Hj. destruct (valid_index r x Hs Hv) as (ds & Hr & Hd & Ei & Hrg). rewrite Ei in Hi. injection Hi as <-.
  unfold lit_digit, shown. rewrite (number_enc _ _ _ _ Hr). change (signed32 (enc (r_base r) ds)) with (s32 (enc (r_base r) ds)). set (z := s32 _). pose proof (lookup_lt_Some _ _ _ Hj) as Hlt. destruct Hs as (Hb & _).
  destruct (Z.ltb_spec 0 z) as [Hz|Hz]; cbn [andb].
  - rewrite (digits_pos _ Hb) by lia. reflexivity.
  - pose proof (digits_neg _ Hb (length (r_addresses r)) z Hz) as Hn. destruct (digits_c _ _ _ !! j) as [d|] eqn:Ed; [|reflexivity].
    pose proof (Forall_lookup_1 _ _ _ _ Hn Ed) as Hd'. cbv beta in Hd'. destruct (Z.ltb_spec 0 d); [lia|reflexivity].
Qed.

Lemma train_sums r0 xs : ram_shape r0 -> r_positions r0 = ∅ -> Forall (valid_on r0) xs -> len xs <= INT_MAX ->
  exists m, cell_state r0 (Train <$> xs) m /\
    forall j a, r_addresses r0 !! j = Some a -> msum (share r0 j) m = count_if (shown r0 j) xs.
Proof.
  intros Hs H0. induction xs as [|y xs IH] using rev_ind; intros Hv Hl.
  - exists ∅. split; [split; [intros; rewrite lookup_empty; reflexivity|intros i v; rewrite lookup_empty; discriminate]|].
    intros. apply msum_empty.
  - apply Forall_app in Hv as [Hv Ho]. apply Forall_cons in Ho as [Ho _]. rewrite len_app, len_cons, len_nil in *.
    destruct IH as (m & Hst & Hnet); [exact Hv|lia|]. rewrite fmap_app. cbn [fmap list_fmap].
    destruct (ram_step_spec r0 (Train <$> xs) (with_positions r0 m) (Train y) Hs) as (m' & E & Hst'); [split; reflexivity|exact Hst|exact Ho|unfold len in *; rewrite fmap_length; lia|].
    exists m'. split; [exact Hst'|].
    destruct (valid_index r0 _ Hs Ho) as (ds & _ & _ & Ei & _). set (i := enc (r_base r0) ds) in *.
    assert (getIndex (with_positions r0 m) y = Ok i) as Ei' by exact Ei. cbn [ram_step op_image] in *.
    assert (m' = <[i := default 0 (m !! i) + 1]> m) as ->.
    { unfold ram_train in E. rewrite Ei' in E. cbn [with_positions r_positions] in E.
      destruct (m !! i) as [v|] eqn:Em; [|injection E as <-; reflexivity]. cbn.
      destruct (int_of_cases (v + 1)) as [Ev|Ev]; rewrite Ev in E; [|discriminate]. injection E as <-. reflexivity. }
    intros j a Hj. rewrite msum_insert, count_if_app, count_if_cons, count_if_nil, (Hnet j a Hj). unfold share. rewrite (lit_shown r0 y j a i Hs Ho Ei Hj).
    destruct (shown r0 j y); destruct (m !! i); cbn; lia.
Qed.

Lemma wide_pieces d0 xs d : fresh d0 -> Forall (valid_image d0) xs -> len xs <= INT_MAX -> after d0 (Train <$> xs) d ->
  forall p, at_pos p (List.concat (pieces_of <$> d_rams d)) = wide_law d0 xs p.
Proof.
  intros [_ Hs] Hv Hl [_ _ Hr] p. unfold wide_law.
  assert (Hv' : Forall (fun x => Forall (fun r => valid_on r x) (d_rams d0)) xs).
  { eapply Forall_impl; [exact Hv|]. intros o [_ H]. exact H. }
  clear Hv. induction Hr as [|r0 r rs0 rs [Hsame Hst] Hr IH]; [reflexivity|].
  apply Forall_cons in Hs as [[Hs0 H0] Hs]. rewrite !fmap_cons. cbn [List.concat zsum foldr]. unfold at_pos in *. rewrite lsum_app, IH; [|exact Hs|].
  2:{ eapply Forall_impl; [exact Hv'|]. intros o H. apply Forall_cons in H. apply H. }
  unfold zsum. f_equal. destruct (train_sums r0 xs Hs0 H0) as (m & Hst' & Hsum); [eapply Forall_impl; [exact Hv'|]; intros o H; apply Forall_cons in H; apply H|exact Hl|].
  rewrite (cell_state_det _ _ _ _ Hst' Hst) in *. unfold pieces_of. rewrite (sr_addresses _ _ Hsame).
  assert (G : forall (l : list Z) (k : nat), (forall j a, l !! j = Some a -> r_addresses r0 !! (k + j)%nat = Some a) ->
    lsum (fun a v => if a =? p then v else 0) (imap (fun j a => (a, msum (share r (k + j)) (r_positions r))) l) =
    foldr Z.add 0 (imap (fun j a => if a =? p then count_if (shown r0 (k + j)) xs else 0) l)).
  { induction l as [|a l IHl]; intros k Hk; [reflexivity|]. rewrite !imap_cons. cbn [lsum foldr]. f_equal.
    - destruct (a =? p); [|reflexivity]. rewrite (share_same _ _ _ Hsame). apply (Hsum _ a). apply (Hk 0%nat). reflexivity.
    - specialize (IHl (S k)). etransitivity; [|etransitivity; [apply IHl|]].
      + f_equal. apply imap_ext. intros j b _. unfold compose. rewrite Nat.add_succ_r. reflexivity.
      + intros j b Hj. replace (S k + j)%nat with (k + S j)%nat by lia. apply Hk. exact Hj.
      + f_equal. apply imap_ext. intros j b _. unfold compose. rewrite Nat.add_succ_r. reflexivity. }
  exact (G (r_addresses r0) 0%nat (fun j a H => H)).
Qed.

(** ** Base 2 *)
Lemma number_bits x addrs : Forall (fun a => exists v, im_get x a = Ok v /\ 0 <= v < 2) addrs ->
  0 <= number_at 2 x addrs /\ forall j, Z.testbit (number_at 2 x addrs) (Z.of_nat j) = match addrs !! j with Some a => on a x | None => false end.
Proof.
  induction 1 as [|a addrs (v & Ev & Hv) H IH]; [split; [reflexivity|]; intros j; rewrite Z.bits_0; reflexivity|].
  change (number_at 2 x (a :: addrs)) with (pixel x a + 2 * number_at 2 x addrs). unfold pixel. rewrite Ev. destruct IH as (H0 & IH). split; [lia|].
  assert (Hon : on a x = (v =? 1)).
  { unfold on. rewrite Ev. destruct (Z.eqb_spec v 1).
    - rewrite bool_decide_eq_false_2; [reflexivity|]. injection 1. lia.
    - rewrite bool_decide_eq_true_2; [reflexivity|]. f_equal. lia. }
  assert (E : v + 2 * number_at 2 x addrs = 2 * number_at 2 x addrs + Z.b2z (v =? 1)) by (destruct (Z.eqb_spec v 1); cbn; lia).
  intros [|j].
  - cbn [lookup list_lookup]. rewrite E, Hon. apply Z.testbit_0_r.
  - cbn [lookup list_lookup]. rewrite <- IH, E, Nat2Z.inj_succ. rewrite Z.testbit_succ_r by lia. reflexivity.
Qed.
Lemma signed_bits z : 0 <= z -> (Z.testbit z 31 = true -> signed32 z < 0) /\ (Z.testbit z 31 = false -> signed32 z = z mod 2 ^ 31).
Proof.
  intros Hz. unfold signed32. pose proof (Z.testbit_spec' z 31 ltac:(lia)) as Hb.
  assert (Hm : z mod 2 ^ 32 = z mod 2 ^ 31 + 2 ^ 31 * ((z / 2 ^ 31) mod 2)) by (apply (Z.rem_mul_r z (2 ^ 31) 2); lia).
  pose proof (Z.mod_pos_bound z (2 ^ 31) ltac:(lia)) as Hl.
  assert (Hs : (z + 2 ^ 31) mod 2 ^ 32 = (z mod 2 ^ 32 + 2 ^ 31) mod 2 ^ 32) by (rewrite Zplus_mod_idemp_l; reflexivity).
  rewrite Hs, Hm, <- Hb. split; intros ->; cbn [Z.b2z].
  - rewrite (Z.mod_eq _ (2 ^ 32)) by lia. rewrite (Z.div_unique (z mod 2 ^ 31 + 2 ^ 31 * 1 + 2 ^ 31) (2 ^ 32) 1 (z mod 2 ^ 31)); lia.
  - rewrite Z.mul_0_r, Z.add_0_r, Z.mod_small; lia.
Qed.
Lemma shown_binary r j x a : r_base r = 2 -> valid_on r x -> r_addresses r !! j = Some a ->
  shown r j x = on a x && (j <=? 30)%nat && match r_addresses r !! 31%nat with Some q => negb (on q x) | None => true end.
Proof.
  intros Hb Hv Hj. unfold valid_on in Hv. unfold shown. rewrite Hb in *. destruct (number_bits x _ Hv) as (H0 & Hbit). set (z := number_at 2 x (r_addresses r)) in *.
  destruct (signed_bits z H0) as (S1 & S2). pose proof (Hbit j) as Bj. rewrite Hj in Bj. pose proof (Hbit 31%nat) as B31. change (Z.of_nat 31) with 31 in B31.
  destruct (Z.testbit z 31) eqn:E31.
  - specialize (S1 eq_refl). destruct (Z.ltb_spec 0 (signed32 z)); [lia|]. cbn [andb]. destruct (r_addresses r !! 31%nat); [|discriminate]. rewrite <- B31. cbn [negb]. rewrite andb_false_r. reflexivity.
  - specialize (S2 eq_refl). rewrite S2. assert (match r_addresses r !! 31%nat with Some q => negb (on q x) | None => true end = true) as ->.
    { destruct (r_addresses r !! 31%nat); [rewrite <- B31|]; reflexivity. }
    rewrite andb_true_r. rewrite <- Bj. pose proof (Z.mod_pos_bound z (2 ^ 31) ltac:(lia)) as Hl.
    pose proof (Z.testbit_spec' (z mod 2 ^ 31) (Z.of_nat j) ltac:(lia)) as Hd.
    assert (Ht : Z.testbit (z mod 2 ^ 31) (Z.of_nat j) = Z.testbit z (Z.of_nat j) && (j <=? 30)%nat).
    { destruct (Nat.leb_spec j 30).
      - rewrite Z.mod_pow2_bits_low by lia. rewrite andb_true_r. reflexivity.
      - rewrite Z.mod_pow2_bits_high by lia. rewrite andb_false_r. reflexivity. }
    rewrite <- Ht, <- Hd. destruct (Z.testbit (z mod 2 ^ 31) (Z.of_nat j)) eqn:Eb; cbn [Z.b2z].
    + destruct (Z.ltb_spec 0 (z mod 2 ^ 31)); [reflexivity|]. replace (z mod 2 ^ 31) with 0 in Eb by lia. rewrite Z.bits_0 in Eb. discriminate.
    + destruct (0 <? z mod 2 ^ 31); reflexivity.
Qed.
