(** Proofs about BBleaching. *)
From Verif Require Import Prelude Bytes Bleaching BBleaching SpecDisc SpecBleach SpecBBleach BleachProofs.

Lemma biggest_value_spec vs : forall b, b <= biggest_value vs b /\ Forall (fun v => v <= biggest_value vs b) vs /\
  (biggest_value vs b = b \/ biggest_value vs b ∈ vs).
Proof.
  induction vs as [|v vs IH]; intros b; cbn [biggest_value].
  { split; [lia|]. split; [constructor|]. auto. }
  destruct (IH (if b <? v then v else b)) as (H1 & H2 & H3). destruct (b <? v) eqn:E.
  - split; [lia|]. split; [constructor; [lia|exact H2]|]. right. destruct H3 as [H3|H3]; [rewrite H3; left|right; exact H3].
  - split; [lia|]. split; [constructor; [lia|exact H2]|]. destruct H3 as [H3|H3]; [left; exact H3|right; right; exact H3].
Qed.
Lemma biggest_fold (l : list (str * list Z)) : forall b, let B := fold_left (fun b kv => biggest_value kv.2 b) l b in
  b <= B /\ (forall k vs v, (k, vs) ∈ l -> v ∈ vs -> v <= B) /\ (B = b \/ exists k vs, (k, vs) ∈ l /\ B ∈ vs).
Proof.
  induction l as [|[k0 vs0] l IH]; intros b; cbn [fold_left snd].
  { split; [lia|]. split; [|auto]. intros k vs v H. apply elem_of_nil in H. destruct H. }
  destruct (biggest_value_spec vs0 b) as (G1 & G2 & G3). destruct (IH (biggest_value vs0 b)) as (H1 & H2 & H3).
  split; [lia|]. split.
  - intros k vs v H Hv. apply elem_of_cons in H as [[= -> ->]|H]; [|exact (H2 _ _ _ H Hv)].
    rewrite Forall_forall in G2. specialize (G2 _ Hv). cbn in G2. lia.
  - destruct H3 as [H3|(k & vs & H & H3)].
    + rewrite H3. destruct G3 as [G3|G3]; [left; exact G3|]. right. exists k0, vs0. split; [left|exact G3].
    + right. exists k, vs. split; [right; exact H|exact H3].
Qed.
Lemma getBiggestValue_spec votes : highest_vote votes (getBiggestValue votes).
Proof.
  unfold highest_vote, getBiggestValue. destruct (biggest_fold (sorted_items votes) 0) as (H1 & H2 & H3).
  split; [exact H1|]. split.
  - intros k vs v Hk. apply H2 with k, sorted_items_elem, Hk.
  - destruct H3 as [H3|(k & vs & H & H3)]; [auto|]. right. exists k, vs. split; [apply sorted_items_elem, H|exact H3].
Qed.
Lemma highest_vote_unique votes B B' : highest_vote votes B -> highest_vote votes B' -> B = B'.
Proof.
  intros (H0 & H1 & H2) (G0 & G1 & G2). apply Z.le_antisymm.
  - destruct H2 as [->|(k & vs & H & H2)]; [lia|]. exact (G1 _ _ _ H H2).
  - destruct G2 as [->|(k & vs & H & G2)]; [lia|]. exact (H1 _ _ _ H G2).
Qed.

(** ** The tie test *)
Lemma tie_scan_spec (l : list (str * Z)) : forall b0 a0, NoDup (l.*1) ->
  exists a M, tie_scan l b0 a0 = (a, M) /\ b0 <= M /\ Forall (fun kv => kv.2 <= M) l /\
    (M = b0 \/ exists k, (k, M) ∈ l) /\
    (a = true <-> (M = b0 /\ (a0 = true \/ exists k, (k, M) ∈ l)) \/
       (b0 < M /\ exists k k', k <> k' /\ (k, M) ∈ l /\ (k', M) ∈ l)).
Proof.
  induction l as [|[k v] l IH]; intros b0 a0 Hn; cbn [tie_scan].
  { exists a0, b0. split; [reflexivity|]. split; [lia|]. split; [constructor|]. split; [auto|].
    split; [auto|]. intros [[_ [H|[k H]]]|[H _]]; [exact H|apply elem_of_nil in H; destruct H|lia]. }
  rewrite fmap_cons in Hn. apply NoDup_cons in Hn as [Hk Hn]. cbn [fst] in Hk.
  assert (Hne : forall k' v', (k', v') ∈ l -> k <> k').
  { intros k' v' H ->. apply Hk, elem_of_list_fmap. exists (k', v'). auto. }
  destruct (b0 <? v) eqn:E1.
  - destruct (IH v false Hn) as (a & M & E & HM & Hall & Hin & Ha). exists a, M.
    split; [exact E|]. split; [lia|]. split; [constructor; [cbn; lia|exact Hall]|].
    split. { right. destruct Hin as [->|[k' H]]; [exists k; left|exists k'; right; exact H]. }
    rewrite Ha. split.
    + intros [[-> [H|[k' H]]]|[H (k1 & k2 & H1 & H2 & H3)]]; [congruence|..].
      * right. split; [lia|]. exists k, k'. split; [exact (Hne _ _ H)|]. split; [left|right; exact H].
      * right. split; [lia|]. exists k1, k2. split; [exact H1|]. split; right; assumption.
    + intros [[H _]|[_ (k1 & k2 & H1 & H2 & H3)]]; [lia|].
      apply elem_of_cons in H2 as [H2|H2]; apply elem_of_cons in H3 as [H3|H3].
      * congruence.
      * injection H2 as E2 E3. left. split; [exact E3|]. right. exists k2. exact H3.
      * injection H3 as E2 E3. left. split; [exact E3|]. right. exists k1. exact H2.
      * destruct (decide (M = v)) as [->|]; [left; split; [reflexivity|right; exists k1; exact H2]|].
        right. split; [lia|]. exists k1, k2. auto.
  - set (a1 := if v =? b0 then true else a0).
    destruct (IH b0 a1 Hn) as (a & M & E & HM & Hall & Hin & Ha). exists a, M.
    split. { rewrite <- E. unfold a1. destruct (v =? b0); reflexivity. }
    split; [lia|]. split; [constructor; [cbn; lia|exact Hall]|].
    split. { destruct Hin as [->|[k' H]]; [auto|right; exists k'; right; exact H]. }
    rewrite Ha. unfold a1. split.
    + intros [[-> H]|[H (k1 & k2 & H1 & H2 & H3)]].
      * left. split; [reflexivity|]. destruct H as [H|[k' H]]; [|right; exists k'; right; exact H].
        destruct (v =? b0) eqn:E2; [|auto]. right. exists k. replace v with b0 by lia. left.
      * right. split; [exact H|]. exists k1, k2. split; [exact H1|]. split; right; assumption.
    + intros [[-> H]|[H (k1 & k2 & H1 & H2 & H3)]].
      * left. split; [reflexivity|]. destruct H as [H|[k' H]]; [left; rewrite H; destruct (v =? b0); reflexivity|].
        apply elem_of_cons in H as [[= -> ->]|H]; [left; rewrite Z.eqb_refl; reflexivity|right; exists k'; exact H].
      * right. split; [exact H|]. exists k1, k2. split; [exact H1|].
        apply elem_of_cons in H2 as [[= -> ->]|H2]; [lia|]. apply elem_of_cons in H3 as [[= -> ->]|H3]; [lia|]. auto.
Qed.
Lemma isThereTie_spec m : fst (isThereTie m) && (0 <? snd (isThereTie m)) = true <-> shared_top m.
Proof.
  unfold isThereTie. destruct (tie_scan_spec (sorted_items m) 0 false (sorted_items_nodup m)) as (a & M & E & HM & Hall & Hin & Ha).
  rewrite E. cbn [fst snd]. rewrite andb_true_iff, Z.ltb_lt, Ha. rewrite Forall_forall in Hall.
  unfold shared_top. split.
  - intros [[[-> _]|[_ (k & k' & Hn & H1 & H2)]] H]; [lia|]. exists M, k, k'. split; [lia|]. split.
    { intros k0 v0 H0. apply sorted_items_elem in H0. exact (Hall _ H0). }
    split; [exact Hn|]. split; apply sorted_items_elem; assumption.
  - intros (M' & k & k' & H0 & Hb & Hn & H1 & H2).
    assert (M' = M) as ->.
    { apply sorted_items_elem in H1. pose proof (Hall _ H1) as G. cbn in G.
      destruct Hin as [->|[k0 Hin]]; [lia|]. apply sorted_items_elem in Hin. specialize (Hb _ _ Hin). lia. }
    split; [|lia]. right. split; [lia|]. exists k, k'. split; [exact Hn|]. split; apply sorted_items_elem; assumption.
Qed.

(** ** The loop *)
Lemma halving_bounds B n : 0 <= B -> 0 <= halving B n /\ halving B n + B / 2 ^ Z.of_nat n <= B.
Proof.
  intros HB. induction n as [|n [IH1 IH2]]; cbn [halving]; [rewrite Z.pow_0_r, Z.div_1_r; lia|].
  assert (Hp : 0 < 2 ^ Z.of_nat n) by (apply Z.pow_pos_nonneg; lia).
  rewrite Nat2Z.inj_succ, Z.pow_succ_r by lia.
  rewrite (Z.mul_comm 2), <- Z.div_div by lia.
  set (q := B / 2 ^ Z.of_nat n) in *. assert (0 <= q) by (apply Z.div_pos; lia).
  pose proof (Z.div_mod q 2 ltac:(lia)). pose proof (Z.mod_pos_bound q 2 ltac:(lia)). lia.
Qed.
Lemma halving_mono B n : 0 <= B -> (1 <= n)%nat -> B / 2 <= halving B n.
Proof.
  intros HB Hn. induction n as [|n IH]; [lia|]. destruct n as [|n]; [cbn; lia|].
  change (halving B (Datatypes.S (Datatypes.S n))) with (halving B (Datatypes.S n) + B / 2 ^ Z.of_nat (Datatypes.S (Datatypes.S n))).
  specialize (IH ltac:(lia)).
  assert (0 <= B / 2 ^ Z.of_nat (Datatypes.S (Datatypes.S n))); [|lia].
  apply Z.div_pos; [lia|]. apply Z.pow_pos_nonneg; lia.
Qed.
Lemma loop_spec votes B : 0 <= B <= INT_MAX -> forall fuel n, (1 <= n)%nat -> (n + fuel = 32)%nat ->
  (forall n', (1 <= n' < n)%nat -> shared_top (tallies (halving B n') votes) /\ 2 ^ (Z.of_nat n' + 1) <= B) ->
  (exists m, (n <= m <= 29)%nat /\
     bbleach_loop fuel votes true B (Z.of_nat n) (halving B n) = Ok (tallies (halving B m) votes) /\
     (~ shared_top (tallies (halving B m) votes) \/ B < 2 ^ (Z.of_nat m + 1)) /\
     (forall n', (1 <= n' < m)%nat -> shared_top (tallies (halving B n') votes) /\ 2 ^ (Z.of_nat n' + 1) <= B)) \/
  (2 ^ 30 <= B /\ bbleach_loop fuel votes true B (Z.of_nat n) (halving B n) = UB UBCast /\
     (forall n', (1 <= n' < 30)%nat -> shared_top (tallies (halving B n') votes))).
Proof.
  intros HB. assert (HBp : forall k, 0 <= k -> 0 < 2 ^ k) by (intros; apply Z.pow_pos_nonneg; lia).
  induction fuel as [|fuel IH]; intros n Hn Hf Hprev.
  { exfalso. destruct (Hprev 31%nat ltac:(lia)) as [_ H]. unfold INT_MAX in HB.
    replace (2 ^ (Z.of_nat 31 + 1)) with 4294967296 in H by reflexivity. lia. }
  cbn [bbleach_loop]. rewrite counts_at_tallies. cbn [negb]. set (T := tallies (halving B n) votes).
  unfold pow2_int. destruct (Z.of_nat n + 1 <=? 30) eqn:E1.
  2:{ cbn [rbind]. right. destruct (decide (n = 30%nat)) as [->|Hne].
      - split; [|split; [reflexivity|]].
        + destruct (Hprev 29%nat ltac:(lia)) as [_ H]. exact H.
        + intros n' Hn'. apply (Hprev n' Hn').
      - split; [|split; [reflexivity|]].
        + destruct (Hprev 29%nat ltac:(lia)) as [_ H]. exact H.
        + intros n' Hn'. apply (Hprev n' ltac:(lia)). }
  cbn [rbind]. assert (Hp : 0 < 2 ^ (Z.of_nat n + 1)) by (apply HBp; lia).
  rewrite Z.quot_div_nonneg by lia.
  destruct (B / 2 ^ (Z.of_nat n + 1) =? 0) eqn:E2.
  { left. exists n. split; [lia|]. split; [reflexivity|]. split; [|exact Hprev].
    right. apply Z.eqb_eq, Z.div_small_iff in E2; lia. }
  assert (H2 : 2 ^ (Z.of_nat n + 1) <= B).
  { apply Z.le_ngt. intros G. rewrite Z.div_small in E2 by lia. discriminate. }
  destruct (halving_bounds B n ltac:(lia)) as [Hh1 Hh2].
  assert (Hq : 0 <= B / 2 ^ (Z.of_nat n + 1) <= B / 2).
  { split; [apply Z.div_pos; lia|]. apply Z.div_le_compat_l; [lia|].
    split; [lia|]. change 2 with (2 ^ 1) at 1. apply Z.pow_le_mono_r; lia. }
  pose proof (halving_mono B n ltac:(lia) Hn) as Hm.
  assert (Hnext : halving B n + B / 2 ^ (Z.of_nat n + 1) = halving B (Datatypes.S n)).
  { cbn [halving]. rewrite Nat2Z.inj_succ. reflexivity. }
  destruct (halving_bounds B (Datatypes.S n) ltac:(lia)) as [Hk1 Hk2].
  assert (0 <= B / 2 ^ Z.of_nat (Datatypes.S n)) by (apply Z.div_pos; [lia|apply HBp; lia]).
  pose proof (isThereTie_spec T) as Ht. unfold int_of.
  destruct (0 <? snd (isThereTie T)) eqn:E3.
  - replace (in_int (halving B n + B / 2 ^ (Z.of_nat n + 1))) with true
      by (symmetry; unfold in_int, INT_MIN, INT_MAX in *; lia).
    cbn [rbind]. destruct (fst (isThereTie T)) eqn:E4.
    + cbn [andb] in *. rewrite Hnext. replace (Z.of_nat n + 1) with (Z.of_nat (Datatypes.S n)) by lia.
      assert (HT : shared_top T) by (apply Ht; reflexivity).
      destruct (IH (Datatypes.S n) ltac:(lia) ltac:(lia)) as [(m & Hm1 & Hm2 & Hm3 & Hm4)|Hu].
      { intros n' Hn'. destruct (decide (n' = n)) as [->|]; [split; assumption|apply Hprev; lia]. }
      * left. exists m. split; [lia|]. split; [exact Hm2|]. split; [exact Hm3|exact Hm4].
      * right. exact Hu.
    + cbn [andb] in *. left. exists n. split; [lia|]. split; [reflexivity|]. split; [|exact Hprev].
      left. intros G. apply Ht in G. discriminate.
  - replace (in_int (halving B n - B / 2 ^ (Z.of_nat n + 1))) with true
      by (symmetry; unfold in_int, INT_MIN, INT_MAX in *; lia).
    cbn [rbind]. rewrite andb_false_r in *. left. exists n. split; [lia|]. split; [reflexivity|]. split; [|exact Hprev].
    left. intros G. apply Ht in G. discriminate.
Qed.

Lemma make_start votes act B : getBiggestValue votes = B -> 0 <= B ->
  bbleaching_make votes act = bbleach_loop 31 votes act B (Z.of_nat 1) (halving B 1).
Proof.
  intros E HB. unfold bbleaching_make. rewrite E. unfold pow2_int. cbn [Z.leb Z.compare Pos.compare Pos.compare_cont rbind].
  change (halving B 1) with (0 + B / 2 ^ 1). rewrite Z.quot_div_nonneg by (try lia; cbn; lia). rewrite Z.add_0_l. reflexivity.
Qed.
Lemma votes_below_top N votes : 0 < N -> votes_below N votes -> 0 <= getBiggestValue votes < N.
Proof.
  intros HN H. destruct (getBiggestValue_spec votes) as (H0 & _ & [H2|(k & vs & H1 & H2)]); [lia|].
  specialize (H k vs H1). rewrite Forall_forall in H. specialize (H _ H2). cbn in H. lia.
Qed.
Theorem bbleach_on votes : votes_below (2 ^ 30) votes ->
  exists out, bbleaching_make votes true = Ok out /\ halved votes out.
Proof.
  intros H. apply (votes_below_top (2 ^ 30) votes ltac:(lia)) in H.
  rewrite (make_start votes true _ eq_refl) by lia.
  destruct (loop_spec votes (getBiggestValue votes) ltac:(unfold INT_MAX; lia) 31 1 ltac:(lia) ltac:(lia)) as [(m & H1 & H2 & H3 & H4)|(Hb & _)].
  - intros n' Hn'. lia.
  - eexists. split; [exact H2|]. exists (getBiggestValue votes), m. split; [apply getBiggestValue_spec|]. split; [lia|].
    split; [reflexivity|]. split; [exact H3|exact H4].
  - lia.
Qed.
Theorem bbleach_off votes : exists B, highest_vote votes B /\ bbleaching_make votes false = Ok (tallies (B / 2) votes).
Proof.
  exists (getBiggestValue votes). pose proof (getBiggestValue_spec votes) as G. split; [exact G|]. destruct G as [G _].
  rewrite (make_start votes false _ eq_refl) by exact G. cbn [bbleach_loop negb]. rewrite counts_at_tallies.
  change (halving (getBiggestValue votes) 1) with (getBiggestValue votes / 2). reflexivity.
Qed.
Theorem bbleach_any votes : votes_below (INT_MAX + 1) votes ->
  (exists out, bbleaching_make votes true = Ok out /\ halved votes out) \/
  (bbleaching_make votes true = UB UBCast /\ exists B, highest_vote votes B /\ 2 ^ 30 <= B /\
     forall n, (1 <= n < 30)%nat -> shared_top (tallies (halving B n) votes)).
Proof.
  intros H. apply (votes_below_top (INT_MAX + 1) votes ltac:(unfold INT_MAX; lia)) in H.
  rewrite (make_start votes true _ eq_refl) by lia.
  destruct (loop_spec votes (getBiggestValue votes) ltac:(lia) 31 1 ltac:(lia) ltac:(lia)) as [(m & H1 & H2 & H3 & H4)|(Hb & Hu & Ht)].
  - intros n' Hn'. lia.
  - left. eexists. split; [exact H2|]. exists (getBiggestValue votes), m. split; [apply getBiggestValue_spec|]. split; [lia|].
    split; [reflexivity|]. split; [exact H3|exact H4].
  - right. split; [exact Hu|]. exists (getBiggestValue votes). split; [apply getBiggestValue_spec|]. split; [exact Hb|exact Ht].
Qed.
Theorem halved_unique votes out out' : halved votes out -> halved votes out' -> out = out'.
Proof.
  intros (B & n & HB & Hn & -> & Hs & Hp) (B' & n' & HB' & Hn' & -> & Hs' & Hp').
  pose proof (highest_vote_unique _ _ _ HB HB') as ->.
  assert (n = n') as ->; [|reflexivity]. destruct (Nat.lt_trichotomy n n') as [H|[H|H]]; [exfalso|exact H|exfalso].
  - destruct (Hp' n ltac:(lia)) as [G1 G2]. destruct Hs as [Hs|Hs]; [exact (Hs G1)|lia].
  - destruct (Hp n' ltac:(lia)) as [G1 G2]. destruct Hs' as [Hs'|Hs']; [exact (Hs' G1)|lia].
Qed.
