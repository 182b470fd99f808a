(** Proofs about the bleaching rule. *)
From Verif Require Import Prelude Bytes Bleaching SpecDisc SpecBleach.

(** ** The string order *)
Lemma byte_inj a b : byte a = byte b -> a = b.
Proof.
  unfold byte. intros H. apply N2Z.inj in H. rewrite <- (ascii_N_embedding a), <- (ascii_N_embedding b), H. reflexivity.
Qed.
Lemma str_le_refl a : str_le a a.
Proof.
  unfold str_le. induction a as [|x a IH]; cbn; [reflexivity|].
  rewrite Z.ltb_irrefl, Z.eqb_refl. exact IH.
Qed.
Lemma str_le_total a b : str_le a b \/ str_le b a.
Proof.
  unfold str_le. revert b. induction a as [|x a IH]; intros [|y b]; cbn; auto.
  destruct (byte x <? byte y) eqn:E1; [auto|]. destruct (byte y <? byte x) eqn:E2; [auto|].
  replace (byte x =? byte y) with true by lia. replace (byte y =? byte x) with true by lia. apply IH.
Qed.
Lemma str_le_antisym a b : str_le a b -> str_le b a -> a = b.
Proof.
  unfold str_le. revert b. induction a as [|x a IH]; intros [|y b]; cbn; try congruence.
  destruct (byte x <? byte y) eqn:E1.
  - replace (byte y <? byte x) with false by lia. replace (byte y =? byte x) with false by lia. congruence.
  - destruct (byte x =? byte y) eqn:E2; [|congruence].
    replace (byte y <? byte x) with false by lia. replace (byte y =? byte x) with true by lia.
    intros H1 H2. f_equal; [apply byte_inj; lia|]. auto.
Qed.
Lemma str_le_trans a b c : str_le a b -> str_le b c -> str_le a c.
Proof.
  unfold str_le. revert b c. induction a as [|x a IH]; intros [|y b] [|z c]; cbn; try congruence.
  destruct (byte x <? byte y) eqn:E1.
  - intros _. destruct (byte y <? byte z) eqn:E2.
    + intros _. replace (byte x <? byte z) with true by lia. reflexivity.
    + destruct (byte y =? byte z) eqn:E3; [|congruence]. intros _.
      replace (byte x <? byte z) with true by lia. reflexivity.
  - destruct (byte x =? byte y) eqn:E2; [|congruence]. intros H1.
    destruct (byte y <? byte z) eqn:E3.
    + intros _. replace (byte x <? byte z) with true by lia. reflexivity.
    + destruct (byte y =? byte z) eqn:E4; [|congruence]. intros H2.
      replace (byte x <? byte z) with false by lia. replace (byte x =? byte z) with true by lia. eauto.
Qed.
Lemma str_lt_le a b : str_lt a b -> str_le a b.
Proof. unfold str_lt. destruct (str_le_total a b) as [H|H]; [auto|]. unfold str_le in H. congruence. Qed.
Lemma str_le_lt a b : str_le a b -> a <> b -> str_lt a b.
Proof.
  unfold str_lt. intros H Hn. destruct (str_leb b a) eqn:E; [|reflexivity].
  exfalso. apply Hn, str_le_antisym; assumption.
Qed.
Lemma str_lt_irrefl a : ~ str_lt a a.
Proof. unfold str_lt. pose proof (str_le_refl a) as H. unfold str_le in H. congruence. Qed.
Lemma str_lt_nle a b : str_lt a b <-> ~ str_le b a.
Proof. unfold str_lt, str_le. destruct (str_leb b a); split; congruence. Qed.
Lemma str_le_nlt a b : str_le a b <-> ~ str_lt b a.
Proof. unfold str_lt, str_le. destruct (str_leb a b); split; congruence. Qed.

Global Instance key_le_total {A} : Total (@key_le A).
Proof. intros x y. apply str_le_total. Qed.
Global Instance key_le_trans {A} : Transitive (@key_le A).
Proof. intros x y z. apply str_le_trans. Qed.

(** ** Enumeration of a std::map in key order *)
Lemma sorted_items_perm {A} (m : gmap str A) : sorted_items m ≡ₚ map_to_list m.
Proof. apply merge_sort_Permutation. Qed.
Lemma sorted_items_elem {A} (m : gmap str A) k v : (k, v) ∈ sorted_items m <-> m !! k = Some v.
Proof. rewrite sorted_items_perm. apply elem_of_map_to_list. Qed.
Lemma sorted_items_nodup {A} (m : gmap str A) : NoDup ((sorted_items m).*1).
Proof. rewrite sorted_items_perm. apply NoDup_fst_map_to_list. Qed.
Lemma sorted_items_map {A} (m : gmap str A) : list_to_map (sorted_items m) = m.
Proof.
  rewrite <- (list_to_map_to_list m) at 2. apply list_to_map_proper; [apply sorted_items_nodup|apply sorted_items_perm].
Qed.
Lemma sorted_items_sorted {A} (m : gmap str A) : StronglySorted key_le (sorted_items m).
Proof. apply StronglySorted_merge_sort; apply _. Qed.
Definition lt_key {A} (x y : str * A) : Prop := str_lt x.1 y.1.
Lemma sorted_strict {A} (l : list (str * A)) :
  StronglySorted key_le l -> NoDup (l.*1) -> StronglySorted lt_key l.
Proof.
  induction 1 as [|x l Hl IH Hx]; intros Hn; [constructor|].
  rewrite fmap_cons in Hn. apply NoDup_cons in Hn as [Hn Hd]. constructor; [auto|].
  apply List.Forall_forall. intros y Hy. rewrite List.Forall_forall in Hx.
  apply str_le_lt; [apply Hx, Hy|]. intros E. apply Hn. rewrite E.
  apply elem_of_list_fmap. exists y. split; [reflexivity|]. apply elem_of_list_In, Hy.
Qed.
Lemma sorted_items_strict {A} (m : gmap str A) : StronglySorted lt_key (sorted_items m).
Proof. apply sorted_strict; [apply sorted_items_sorted|apply sorted_items_nodup]. Qed.

(** ** Counting *)
Lemma count_ge_tally b vs : count_ge b vs = tally b vs.
Proof.
  unfold tally, count_if. induction vs as [|v vs IH]; [reflexivity|]. cbn [count_ge].
  rewrite filter_cons, IH. destruct (b <=? v) eqn:E.
  - rewrite decide_True by reflexivity. unfold len. cbn [length]. lia.
  - rewrite decide_False by congruence. lia.
Qed.
Lemma counts_at_tallies b m : counts_at b m = tallies b m.
Proof. unfold counts_at, tallies. apply map_fmap_ext. intros. apply count_ge_tally. Qed.
Lemma tally_nonneg b vs : 0 <= tally b vs.
Proof. unfold tally, count_if, len. lia. Qed.
Lemma tallies_nonneg b m k v : tallies b m !! k = Some v -> 0 <= v.
Proof. unfold tallies. rewrite lookup_fmap. destruct (m !! k); cbn; [|congruence]. intros [= <-]. apply tally_nonneg. Qed.
Lemma tally_above b vs : Forall (fun v => v < b) vs -> tally b vs = 0.
Proof.
  unfold tally, count_if. induction 1 as [|v vs H Hvs IH]; [reflexivity|].
  rewrite filter_cons, decide_False by lia. exact IH.
Qed.

(** ** The ambiguity scan *)
Lemma ambiguity_scan_spec c l : forall b0 a0,
  StronglySorted lt_key l ->
  exists a M, ambiguity_scan c l b0 a0 = (a, M) /\ b0 <= M /\ Forall (fun kv => kv.2 <= M) l /\
    (M = b0 \/ exists k, (k, M) ∈ l) /\
    (a = true <->
       (M = b0 /\ a0 = true) \/
       (exists k v, (k, v) ∈ l /\ M - v < c /\ M - v >= 0 /\ M = b0) \/
       (exists k0 k v, b0 < M /\ (k0, M) ∈ l /\ (k, v) ∈ l /\ M - v < c /\ str_lt k0 k)).
Proof.
  induction l as [|[k v] l IH]; intros b0 a0 Hs; cbn [ambiguity_scan].
  { exists a0, b0. split; [reflexivity|]. split; [lia|]. split; [constructor|]. split; [auto|].
    split; [intros ->; left; auto|]. intros [[_ H]|[(k & v & H & _)|(k0 & k & v & _ & H & _)]];
      [exact H|apply elem_of_nil in H; destruct H|apply elem_of_nil in H; destruct H]. }
  apply StronglySorted_inv in Hs as [Hs Hf]. rewrite List.Forall_forall in Hf.
  assert (Hlt : forall k' v', (k', v') ∈ l -> str_lt k k').
  { intros k' v' H. apply elem_of_list_In in H. apply (Hf _ H). }
  destruct (b0 <? v) eqn:E1.
  - destruct (IH v false Hs) as (a & M & E & HM & Hall & Hin & Ha). exists a, M.
    split; [exact E|]. split; [lia|]. split; [constructor; [cbn; lia|exact Hall]|].
    split. { right. destruct Hin as [->|[k' H]]; [exists k; left|exists k'; right; exact H]. }
    rewrite Ha. rewrite Forall_forall in Hall. split.
    + intros [[_ H]|[(k1 & v1 & H & H1 & _ & ->)|(k0 & k1 & v1 & Hb & H0 & H1 & H2 & H3)]]; [congruence|..].
      * right. right. exists k, k1, v1. repeat split; try lia; [left|right; exact H|exact (Hlt _ _ H)].
      * right. right. exists k0, k1, v1. repeat split; try lia; [right; exact H0|right; exact H1|exact H3].
    + intros [[H _]|[(k1 & v1 & _ & _ & _ & H)|(k0 & k1 & v1 & Hb & H0 & H1 & H2 & H3)]]; [lia|lia|].
      right. apply elem_of_cons in H1 as [[= -> ->]|H1].
      { exfalso. apply elem_of_cons in H0 as [[= -> _]|H0]; [apply (str_lt_irrefl _ H3)|].
        apply (str_lt_irrefl k). apply str_le_lt; [|].
        { apply str_le_trans with k0; [apply str_lt_le, (Hlt _ _ H0)|apply str_lt_le, H3]. }
        intros _. apply str_lt_nle in H3. apply H3. apply str_lt_le, (Hlt _ _ H0). }
      destruct (decide (M = v)) as [->|Hn].
      * left. exists k1, v1. pose proof (Hall _ H1). cbn in *. repeat split; try lia. exact H1.
      * right. apply elem_of_cons in H0 as [[= -> ->]|H0]; [congruence|].
        exists k0, k1, v1. repeat split; try lia; assumption.
  - set (a1 := if b0 - v <? c then true else a0).
    destruct (IH b0 a1 Hs) as (a & M & E & HM & Hall & Hin & Ha). exists a, M.
    split. { rewrite <- E. unfold a1. destruct (b0 - v <? c); reflexivity. }
    split; [lia|]. split; [constructor; [cbn; lia|exact Hall]|].
    split. { destruct Hin as [->|[k' H]]; [auto|right; exists k'; right; exact H]. }
    rewrite Ha. rewrite Forall_forall in Hall. unfold a1. split.
    + intros [[-> H]|[(k1 & v1 & H & H1 & H2 & ->)|(k0 & k1 & v1 & Hb & H0 & H1 & H2 & H3)]].
      * destruct (b0 - v <? c) eqn:E2; [|auto]. right. left. exists k, v. repeat split; try lia. left.
      * right. left. exists k1, v1. repeat split; try lia. right; exact H.
      * right. right. exists k0, k1, v1. repeat split; try lia; [right; exact H0|right; exact H1|exact H3].
    + intros [[-> ->]|[(k1 & v1 & H & H1 & H2 & ->)|(k0 & k1 & v1 & Hb & H0 & H1 & H2 & H3)]].
      * left. split; [reflexivity|]. destruct (b0 - v <? c); reflexivity.
      * apply elem_of_cons in H as [[= -> ->]|H].
        { left. split; [reflexivity|]. replace (b0 - v <? c) with true by lia. reflexivity. }
        right. left. exists k1, v1. repeat split; try lia. exact H.
      * apply elem_of_cons in H0 as [[= -> ->]|H0]; [lia|].
        apply elem_of_cons in H1 as [[= -> ->]|H1].
        { exfalso. apply str_lt_nle in H3. apply H3. apply str_lt_le, (Hlt _ _ H0). }
        right. right. exists k0, k1, v1. repeat split; try lia; assumption.
Qed.

Lemma highest_unique m M M' : highest m M -> highest m M' -> M = M'.
Proof.
  intros (H0 & Hb & [->|[k Hk]]) (H0' & Hb' & [->|[k' Hk']]).
  - reflexivity.
  - pose proof (Hb _ _ Hk'). lia.
  - pose proof (Hb' _ _ Hk). lia.
  - pose proof (Hb _ _ Hk'). pose proof (Hb' _ _ Hk). lia.
Qed.

Lemma isThereAmbiguity_spec m c :
  exists a M, isThereAmbiguity m c = (a, M) /\ highest m M /\ (a = true <-> ambiguous c m).
Proof.
  unfold isThereAmbiguity.
  destruct (ambiguity_scan_spec c (sorted_items m) 0 false (sorted_items_strict m)) as (a & M & E & HM & Hall & Hin & Ha).
  exists a, M. split; [exact E|].
  assert (Hh : highest m M).
  { split; [exact HM|]. split.
    - intros k v H. apply sorted_items_elem in H. rewrite Forall_forall in Hall. apply (Hall _ H).
    - destruct Hin as [H|[k H]]; [left; exact H|right; exists k; apply sorted_items_elem, H]. }
  split; [exact Hh|]. rewrite Ha. unfold ambiguous. split.
  - intros [[_ H]|[(k & v & H & H1 & H2 & ->)|(k0 & k & v & Hb & H0 & H1 & H2 & H3)]]; [congruence|..].
    + exists 0, k, v. split; [exact Hh|]. split; [apply sorted_items_elem, H|]. split; [exact H1|]. left; reflexivity.
    + exists M, k, v. split; [exact Hh|]. split; [apply sorted_items_elem, H1|]. split; [exact H2|].
      right. exists k0. split; [apply sorted_items_elem, H0|exact H3].
  - intros (M' & k & v & Hh' & H1 & H2 & H3). rewrite <- (highest_unique _ _ _ Hh Hh') in *. clear M' Hh'.
    pose proof (proj1 (proj2 Hh) _ _ H1) as Hv.
    apply sorted_items_elem in H1. destruct (decide (M = 0)) as [HM0|Hn].
    + right. left. exists k, v. repeat split; try lia. exact H1.
    + right. right. destruct H3 as [H3|(k0 & H3 & H4)]; [congruence|]. exists k0, k, v.
      repeat split; try lia; [apply sorted_items_elem, H3|exact H1|exact H4].
Qed.

Lemma settled_test m c a M : isThereAmbiguity m c = (a, M) ->
  (a && (1 <? M) = false <-> settled c m).
Proof.
  destruct (isThereAmbiguity_spec m c) as (a' & M' & E & (H0 & Hb & Hex) & Ha). rewrite E. intros [= <- <-].
  unfold settled. destruct a'; cbn [andb].
  - split.
    + intros H. right. intros k v Hk. pose proof (Hb _ _ Hk). lia.
    + intros [H|H]; [exfalso; apply H, Ha; reflexivity|].
      destruct Hex as [->|[k Hk]]; [reflexivity|]. pose proof (H _ _ Hk). lia.
  - split; [intros _; left; intros H; apply Ha in H; discriminate|reflexivity].
Qed.

(** ** The threshold search *)
Lemma max_vote_ge vs : Forall (fun v => v <= max_vote vs) vs /\ 0 <= max_vote vs.
Proof.
  induction vs as [|v vs [IH H]]; cbn [max_vote]; [split; [constructor|lia]|].
  split; [|lia]. constructor; [lia|]. eapply Forall_impl; [exact IH|]. cbn. lia.
Qed.
Lemma max_vote_lub N vs : 0 <= N -> Forall (fun v => v <= N) vs -> max_vote vs <= N.
Proof. intros HN. induction 1; cbn [max_vote]; lia. Qed.
Definition top_vote (m : gmap str (list Z)) : Z := max_vote (List.concat (snd <$> map_to_list m)).
Lemma top_vote_ge m k vs : m !! k = Some vs -> Forall (fun v => v <= top_vote m) vs.
Proof.
  intros H. apply elem_of_map_to_list in H. unfold top_vote.
  destruct (max_vote_ge (List.concat (snd <$> map_to_list m))) as [HF _].
  rewrite List.Forall_forall in HF. apply List.Forall_forall. intros v Hv. apply HF.
  apply in_concat. exists vs. split; [|exact Hv]. apply elem_of_list_In, elem_of_list_fmap. exists (k, vs). auto.
Qed.
Lemma top_vote_lub N m : 0 <= N -> votes_below (N + 1) m -> top_vote m <= N.
Proof.
  intros HN Hb. apply max_vote_lub; [exact HN|]. apply List.Forall_forall. intros v Hv.
  apply in_concat in Hv as (vs & Hvs & Hv). apply elem_of_list_In, elem_of_list_fmap in Hvs as ([k vs'] & -> & Hvs).
  apply elem_of_map_to_list in Hvs. specialize (Hb _ _ Hvs). rewrite List.Forall_forall in Hb.
  specialize (Hb _ Hv). lia.
Qed.
Lemma settled_above m c b : top_vote m < b -> settled c (tallies b m).
Proof.
  intros Hb. right. intros k v. unfold tallies. rewrite lookup_fmap. destruct (m !! k) as [vs|] eqn:E; cbn; [|congruence].
  intros [= <-]. rewrite tally_above; [lia|]. eapply Forall_impl; [apply (top_vote_ge _ _ _ E)|]. cbn. lia.
Qed.

Lemma bleach_loop_spec m c : top_vote m <= INT_MAX - 2 -> forall fuel b,
  1 <= b <= top_vote m + 1 -> Z.of_nat fuel > top_vote m + 1 - b ->
  (forall b', 1 <= b' < b -> ~ settled c (tallies b' m)) ->
  exists out, bleach_loop fuel m true c b = Ok out /\ bleached c m out.
Proof.
  intros Htop. induction fuel as [|fuel IH]; intros b Hb Hfuel Hprev; [lia|].
  cbn [bleach_loop negb]. unfold int_of. replace (in_int (b + 1)) with true by (unfold in_int, INT_MIN, INT_MAX in *; lia).
  cbn [rbind]. rewrite counts_at_tallies.
  destruct (isThereAmbiguity (tallies b m) c) as [a M] eqn:E. cbn [fst snd].
  pose proof (settled_test _ _ _ _ E) as Hs. destruct (a && (1 <? M)) eqn:E2.
  - assert (Hn : ~ settled c (tallies b m)) by (intros H; apply Hs in H; discriminate).
    assert (b <> top_vote m + 1) by (intros ->; apply Hn, settled_above; lia).
    apply IH; [lia|lia|]. intros b' Hb'. destruct (decide (b' = b)) as [->|]; [exact Hn|]. apply Hprev; lia.
  - eexists. split; [reflexivity|]. exists b. split; [lia|]. split; [reflexivity|].
    split; [apply Hs; reflexivity|exact Hprev].
Qed.

Theorem bleach_terminates votes sbc c :
  votes_below (INT_MAX - 1) votes ->
  exists out, bleaching_make votes true sbc c = Ok out /\ bleached c votes out.
Proof.
  intros Hv. assert (Ht : top_vote votes <= INT_MAX - 2) by (apply top_vote_lub; [unfold INT_MAX; lia|exact Hv]).
  assert (H0 : 0 <= top_vote votes) by apply (proj2 (max_vote_ge _)).
  destruct (bleach_loop_spec votes c Ht (bleach_fuel votes) 1) as (out & E & Hb); [lia| |intros; lia|].
  { unfold bleach_fuel. fold (top_vote votes). lia. }
  exists out. split; [|exact Hb]. unfold bleaching_make, makeWithConfidence, makeConfidenceless. destruct sbc; exact E.
Qed.

Theorem bleach_unique c votes out out' : bleached c votes out -> bleached c votes out' -> out = out'.
Proof.
  intros (b & Hb & -> & Hs & Hm) (b' & Hb' & -> & Hs' & Hm'). f_equal.
  destruct (Z.lt_trichotomy b b') as [H|[H|H]]; [|exact H|]; exfalso.
  - apply (Hm' b); [lia|exact Hs].
  - apply (Hm b'); [lia|exact Hs'].
Qed.

Theorem bleach_off votes sbc c : bleaching_make votes false sbc c = Ok (tallies 1 votes).
Proof.
  unfold bleaching_make, makeWithConfidence, makeConfidenceless, bleach_fuel.
  destruct sbc; cbn [bleach_loop negb]; rewrite counts_at_tallies; reflexivity.
Qed.

Theorem bleach_sbc votes act s1 s2 c : bleaching_make votes act s1 c = bleaching_make votes act s2 c.
Proof. destruct s1, s2; reflexivity. Qed.

(** Past INT_MAX - 2 the threshold counter can overflow. *)
Lemma tally_const2 V b : b <= V -> tally b [V; V] = 2.
Proof.
  intros H. unfold tally, count_if. rewrite !filter_cons, !decide_True by lia. reflexivity.
Qed.
Definition tied (V : Z) : gmap str (list Z) := {[ lit "a" := [V; V]; lit "b" := [V; V] ]}.
Lemma tied_unsettled V b : b <= V -> isThereAmbiguity (counts_at b (tied V)) 1 = (true, 2).
Proof.
  intros H. rewrite counts_at_tallies. unfold tied, tallies. rewrite fmap_insert, map_fmap_singleton, tally_const2 by exact H.
  vm_compute. reflexivity.
Qed.
Lemma tied_loop : forall fuel b, 1 <= b <= INT_MAX -> Z.of_nat fuel > INT_MAX - b ->
  bleach_loop fuel (tied INT_MAX) true 1 b = UB UBOverflow.
Proof.
  induction fuel as [|fuel IH]; intros b Hb Hf; [lia|]. cbn [bleach_loop negb].
  unfold int_of. destruct (in_int (b + 1)) eqn:E.
  - cbn [rbind]. rewrite tied_unsettled by lia. cbn [fst snd andb]. apply IH; unfold in_int in E; lia.
  - reflexivity.
Qed.
Theorem bleach_overflow : bleaching_make (tied INT_MAX) true false 1 = UB UBOverflow.
Proof.
  unfold bleaching_make, makeConfidenceless. apply tied_loop; [unfold INT_MAX; lia|].
  unfold bleach_fuel. fold (top_vote (tied INT_MAX)).
  assert (H : INT_MAX <= top_vote (tied INT_MAX)).
  { assert (Hl : tied INT_MAX !! lit "a" = Some [INT_MAX; INT_MAX]) by reflexivity.
    apply top_vote_ge in Hl. inversion Hl; assumption. }
  unfold INT_MAX in *. lia.
Qed.

(** ** The winner *)
Lemma biggest_scan_spec l : forall b k0, StronglySorted lt_key l -> Forall (fun kv => 0 <= kv.2) l ->
  let k := biggest_scan l b k0 in
  (k = k0 /\ Forall (fun kv => kv.2 < b) l) \/
  (exists v, (k, v) ∈ l /\ b <= v /\ Forall (fun kv => kv.2 < v \/ (kv.2 = v /\ str_le kv.1 k)) l).
Proof.
  induction l as [|[k1 v1] l IH]; intros b k0 Hs Hp; cbn zeta; cbn [biggest_scan]; [left; auto|].
  apply StronglySorted_inv in Hs as [Hs Hf]. apply Forall_cons in Hp as [Hp1 Hp].
  destruct (b <=? v1) eqn:E.
  - right. destruct (IH v1 k1 Hs Hp) as [[-> H]|(v & Hv & Hle & H)].
    + exists v1. split; [left|]. split; [lia|]. constructor; [right; split; [reflexivity|apply str_le_refl]|].
      eapply Forall_impl; [exact H|]. cbn. auto.
    + exists v. split; [right; exact Hv|]. split; [lia|]. constructor; [|exact H]. cbn [fst snd].
      destruct (decide (v1 = v)) as [->|]; [right|left; lia]. split; [reflexivity|].
      rewrite List.Forall_forall in Hf. apply elem_of_list_In in Hv. apply str_lt_le, (Hf _ Hv).
  - destruct (IH b k0 Hs Hp) as [[-> H]|(v & Hv & Hle & H)].
    + left. split; [reflexivity|]. constructor; [cbn; lia|exact H].
    + right. exists v. split; [right; exact Hv|]. split; [lia|]. constructor; [left; cbn; lia|exact H].
Qed.

Theorem biggest_winner m : (forall k v, m !! k = Some v -> 0 <= v) -> m <> ∅ ->
  winner m (getBiggestCandidate m).
Proof.
  intros Hp Hne. unfold getBiggestCandidate.
  destruct (biggest_scan_spec (sorted_items m) 0 [] (sorted_items_strict m)) as [[_ H]|(v & Hv & _ & H)].
  { apply Forall_forall. intros [k v] Hk. cbn. apply (Hp k). apply sorted_items_elem, Hk. }
  - exfalso. apply map_choose in Hne as (k & v & Hk). pose proof (Hp _ _ Hk). apply sorted_items_elem in Hk.
    rewrite Forall_forall in H. specialize (H _ Hk). cbn in H. lia.
  - exists v. split; [apply sorted_items_elem, Hv|]. intros k' v' Hk'. apply sorted_items_elem in Hk'.
    rewrite Forall_forall in H. apply (H _ Hk').
Qed.
Lemma winner_unique m k k' : winner m k -> winner m k' -> k = k'.
Proof.
  intros (v & Hv & H) (v' & Hv' & H').
  destruct (H _ _ Hv') as [?|[-> ?]], (H' _ _ Hv) as [?|[? ?]]; try lia. apply str_le_antisym; assumption.
Qed.
Theorem biggest_empty : getBiggestCandidate ∅ = [].
Proof. reflexivity. Qed.

(** ** Margin of the winner *)
Theorem decided_unique c votes out k v : 1 <= c -> bleached c votes out -> winner out k -> out !! k = Some v -> 1 < v ->
  forall k' v', out !! k' = Some v' -> k' <> k -> v' < v.
Proof.
  intros Hc (b & Hb & -> & Hs & _) (v0 & Hv0 & Hw) Hk Hv k' v' Hk' Hn.
  rewrite Hk in Hv0. injection Hv0 as <-. destruct (Hw _ _ Hk') as [H|[-> H]]; [exact H|]. exfalso.
  destruct Hs as [Hs|Hs]; [|pose proof (Hs _ _ Hk); lia].
  apply Hs. exists v, k, v. split.
  { split; [lia|]. split; [|right; exists k; exact Hk]. intros k1 v1 H1. destruct (Hw _ _ H1); lia. }
  split; [exact Hk|]. split; [lia|]. right. exists k'. split; [exact Hk'|]. apply str_le_lt; assumption.
Qed.
(** The margin only holds over the labels after the winner. *)
Theorem margin_after c votes out k v : bleached c votes out -> winner out k -> out !! k = Some v -> 1 < v ->
  forall k' v', out !! k' = Some v' -> str_lt k k' -> c <= v - v'.
Proof.
  intros (b & Hb & -> & Hs & _) (v0 & Hv0 & Hw) Hk Hv k' v' Hk' Hlt.
  rewrite Hk in Hv0. injection Hv0 as <-.
  destruct Hs as [Hs|Hs]; [|pose proof (Hs _ _ Hk); lia].
  destruct (decide (c <= v - v')) as [|Hc]; [assumption|]. exfalso. apply Hs. exists v, k', v'. split.
  { split; [lia|]. split; [|right; exists k; exact Hk]. intros k1 v1 H1. destruct (Hw _ _ H1); lia. }
  split; [exact Hk'|]. split; [lia|]. right. exists k. auto.
Qed.
