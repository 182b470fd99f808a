(** Facts behind the property theorems of PropsCtor.v. *)
From Verif Require Import Prelude Bytes Base64 Utils BinInput Float32 Ram Json Fs RamData Disc SpecBin SpecDisc.
From Verif Require Import BytesProofs BinProofs UtilsProofs TextProofs DiscCtorProofs.

Lemma concat_sub idx n k : 0 <= n ->
  List.concat ((fun i => sub_indexes idx n i) <$> seq 0 k) = take (k * Z.to_nat n) idx.
Proof.
  intros Hn. induction k as [|k IH]; [reflexivity|].
  rewrite seq_S, fmap_app, List.concat_app, IH. cbn [fmap list_fmap List.concat]. rewrite app_nil_r.
  unfold sub_indexes. cbn [Nat.add].
  replace (S k * Z.to_nat n)%nat with (k * Z.to_nat n + Z.to_nat n)%nat by lia.
  rewrite <- (take_drop (k * Z.to_nat n) (take (k * Z.to_nat n + Z.to_nat n) idx)).
  f_equal; [rewrite take_take; f_equal; lia|].
  rewrite skipn_firstn_comm. f_equal. lia.
Qed.

Lemma rams_of_mapping idx n k iz base : r_addresses <$> rams_of idx n k iz base = sub_indexes idx n <$> seq 0 (Z.to_nat k).
Proof. unfold rams_of. rewrite <- list_fmap_compose. reflexivity. Qed.

Lemma elem_rams_of idx n k iz base r : r ∈ rams_of idx n k iz base ->
  exists i, (i < Z.to_nat k)%nat /\ r = Ram (sub_indexes idx n i) ∅ iz base.
Proof.
  unfold rams_of. intros H. apply elem_of_list_fmap in H as (i & -> & Hi). apply elem_of_seq in Hi. exists i. split; [lia|reflexivity].
Qed.

Lemma in_concat_take {A} (ls : list (list A)) x : x ∈ List.concat ls -> exists l, l ∈ ls /\ x ∈ l.
Proof.
  induction ls as [|l ls IH]; cbn [List.concat]; intros H; [inversion H|].
  apply elem_of_app in H as [H|H]; [exists l; split; [left|exact H]|].
  destruct (IH H) as (l' & H1 & H2). exists l'. split; [right; exact H1|exact H2].
Qed.

Definition fits (base addressSize : Z) : Prop :=
  (base = 2 -> addressSize <= 64) /\ (base <> 2 -> base ^ addressSize <= LL_MAX).
Lemma fits_width base a : fits base a <-> width_ok base a.
Proof.
  unfold fits, width_ok. destruct (Z.eqb_spec base 2); split; intuition.
Qed.

Lemma shuffle_layout dr a e iz c base : valid_draw dr -> 2 <= a <= e -> 2 <= base -> e + a <= INT_MAX -> fits base a ->
  exists d, disc_new dr a e iz c [] [] base = Ok d /\
    d_entrySize d = e /\ d_count d = 0 /\
    len (d_rams d) = e / a + (if c && negb (e mod a =? 0) then 1 else 0) /\
    Forall (fun r => len (r_addresses r) = a /\ Forall (fun p => 0 <= p < e) (r_addresses r) /\
                     r_base r = base /\ r_ignoreZero r = iz /\ r_positions r = ∅) (d_rams d) /\
    (c = true \/ e mod a = 0 -> forall p, 0 <= p < e -> Exists (fun r => p ∈ r_addresses r) (d_rams d)) /\
    (c = false \/ e mod a = 0 -> NoDup (List.concat (r_addresses <$> d_rams d))).
Proof.
  intros Hdr Ha Hb He Hf. apply fits_width in Hf.
  destruct (setRAMShuffle_spec dr e a iz c base Hdr Ha Hb He) as (idx & fs & Hp & Hfl & Hfr & Heq).
  destruct (count_extra e a c Ha) as (Hk & Hx & Hle & Hexact & Hnone & Hcount).
  exists (Disc e 0 (rams_of idx a (rams_count e a c) iz base)).
  split.
  { unfold disc_new. cbn [length Nat.eqb negb]. rewrite Heq. unfold width_ok in Hf.
    destruct (base =? 2); [destruct (Z.leb_spec a 64)|destruct (Z.leb_spec (base ^ a) LL_MAX)]; (reflexivity || lia). }
  cbn [d_entrySize d_count d_rams]. split; [reflexivity|]. split; [reflexivity|].
  assert (length idx = Z.to_nat (e + extra_of e a c)) as Hlen.
  { rewrite (Permutation_length Hp), app_length, fmap_length, seq_length. unfold len in Hfl. lia. }
  assert (forall p, p ∈ idx -> 0 <= p < e) as Hrange.
  { intros p Hin. rewrite Hp in Hin. apply elem_of_app in Hin as [Hin|Hin].
    - apply elem_of_list_fmap in Hin as (n & -> & Hn). apply elem_of_seq in Hn. lia.
    - rewrite Forall_forall in Hfr. apply Hfr, Hin. }
  split; [unfold rams_of, len; rewrite fmap_length, seq_length; lia|].
  split; [|split].
  - apply Forall_forall. intros r Hr. apply elem_rams_of in Hr as (i & Hi & ->). cbn.
    split; [apply sub_indexes_length; [lia|nia]|]. split; [|auto].
    apply Forall_forall. intros p Hin. apply Hrange. unfold sub_indexes in Hin.
    apply (elem_of_list_lookup_1) in Hin as [j Hj].
    destruct (decide (j < Z.to_nat a)%nat); [|rewrite lookup_take_ge in Hj by lia; discriminate].
    rewrite lookup_take, lookup_drop in Hj by assumption. eapply elem_of_list_lookup_2, Hj.
  - intros Hc p Hrg. specialize (Hexact Hc).
    assert (p ∈ List.concat (r_addresses <$> rams_of idx a (rams_count e a c) iz base)) as Hin.
    { rewrite rams_of_mapping, concat_sub by lia. rewrite take_ge by nia. rewrite Hp. apply elem_of_app. left.
      apply elem_of_list_fmap. exists (Z.to_nat p). split; [lia|]. apply elem_of_seq. lia. }
    apply in_concat_take in Hin as (l & Hl & Hpl). apply elem_of_list_fmap in Hl as (r & -> & Hr).
    apply Exists_exists. exists r. auto.
  - intros Hc. rewrite rams_of_mapping, concat_sub by lia.
    assert (extra_of e a c = 0) as E0.
    { destruct Hc as [->|Hc]; [reflexivity|apply Hnone, Hc]. }
    assert (NoDup idx) as Hnd.
    { rewrite Hp. assert (fs = []) as ->. { destruct fs; [reflexivity|]. rewrite len_cons in Hfl. pose proof (len_nonneg fs). lia. }
      rewrite app_nil_r. apply NoDup_fmap_2; [apply _|apply NoDup_seq]. }
    rewrite <- (take_drop (Z.to_nat (rams_count e a c) * Z.to_nat a) idx) in Hnd. apply NoDup_app in Hnd. apply Hnd.
Qed.

Lemma index_layout dr a e iz c indexes base : indexes <> [] -> len indexes <= INT_MAX -> 2 <= a <= e -> 2 <= base -> fits base a ->
  indexes ≡ₚ (Z.of_nat <$> seq 0 (Z.to_nat e)) ->
  exists d, disc_new dr a e iz c indexes [] base = Ok d /\
    d_entrySize d = e /\ d_count d = 0 /\ len (d_rams d) = e / a /\
    forall k r, d_rams d !! k = Some r ->
      r_base r = base /\ r_ignoreZero r = iz /\ r_positions r = ∅ /\ len (r_addresses r) = a /\
      forall j, (j < Z.to_nat a)%nat -> r_addresses r !! j = indexes !! (k * Z.to_nat a + j)%nat.
Proof.
  intros Hne Hl Ha Hb Hf Hp. apply fits_width in Hf.
  assert (len indexes = e) as Hlen by (unfold len; rewrite (Permutation_length Hp), fmap_length, seq_length; lia).
  assert (good_indexes indexes e) as Hg.
  { split; [exact Hlen|]. split.
    - apply Forall_forall. intros i Hi. rewrite Hp in Hi. apply elem_of_list_fmap in Hi as (n & -> & Hn). apply elem_of_seq in Hn. lia.
    - rewrite Hp. apply NoDup_fmap_2; [apply _|apply NoDup_seq]. }
  exists (Disc e 0 (rams_of indexes a (e / a) iz base)). split.
  { unfold disc_new. destruct indexes; [congruence|]. cbn [length Nat.eqb negb].
    rewrite setRAMByIndex_spec by assumption. unfold width_ok in Hf.
    destruct (base =? 2); [destruct (Z.leb_spec a 64)|destruct (Z.leb_spec (base ^ a) LL_MAX)]; (reflexivity || lia). }
  cbn [d_entrySize d_count d_rams]. split; [reflexivity|]. split; [reflexivity|].
  pose proof (Z.div_mod e a ltac:(lia)). pose proof (Z.mod_pos_bound e a ltac:(lia)).
  assert (0 <= e / a) by (apply Z.div_pos; lia).
  split; [unfold rams_of, len; rewrite fmap_length, seq_length; lia|].
  intros k r Hk. unfold rams_of in Hk. rewrite list_lookup_fmap in Hk.
  destruct (decide (k < Z.to_nat (e / a))%nat) as [Hlt|Hge]; [|rewrite lookup_seq_ge in Hk by lia; discriminate].
  rewrite lookup_seq_lt in Hk by exact Hlt. cbn in Hk. injection Hk as <-. cbn.
  repeat split; auto.
  - apply sub_indexes_length; [lia|]. unfold len in Hlen. nia.
  - intros j Hj. apply sub_indexes_lookup, Hj.
Qed.

Lemma mapping_layout dr a e iz c indexes mapping base : mapping <> [] -> Forall (fun m => len m <= INT_MAX) mapping ->
  2 <= base -> Forall (fun m => fits base (len m)) mapping ->
  exists d, disc_new dr a e iz c indexes mapping base = Ok d /\
    d_entrySize d = e /\ d_count d = 0 /\ r_addresses <$> d_rams d = mapping /\
    Forall (fun r => r_base r = base /\ r_ignoreZero r = iz /\ r_positions r = ∅) (d_rams d).
Proof.
  intros Hne Hl Hb Hf. exists (Disc e 0 (rams_map mapping iz base)). split.
  { unfold disc_new. destruct mapping; [congruence|]. cbn [length Nat.eqb negb].
    apply setRAMByMapping_ok; auto. eapply Forall_impl; [exact Hf|]. intros m Hm. apply fits_width, Hm. }
  cbn. repeat split.
  - unfold rams_map. rewrite <- list_fmap_compose. apply list_fmap_id.
  - unfold rams_map. apply Forall_fmap. apply Forall_true. intros x. unfold compose. cbn. auto.
Qed.

(** What the saved texts report as mapping. *)
Lemma retext_jints l : retext (jints l) = Ok (jints l).
Proof.
  unfold jints. cbn [retext]. induction l as [|x l IH]; [reflexivity|].
  cbn [fmap list_fmap]. cbn [retext rbind].
  match type of IH with (let* l' := ?g in _) = _ => destruct g as [l0| | |] eqn:E end; cbn [rbind] in *; try discriminate.
  injection IH as ->. reflexivity.
Qed.
Lemma retext_jintss l : retext (jintss l) = Ok (jintss l).
Proof.
  unfold jintss. cbn [retext]. induction l as [|x l IH]; [reflexivity|].
  cbn [fmap list_fmap]. rewrite retext_jints. cbn [rbind].
  match type of IH with (let* l' := ?g in _) = _ => destruct g as [l0| | |] eqn:E end; cbn [rbind] in *; try discriminate.
  injection IH as ->. reflexivity.
Qed.

(** All exceptions of construction. *)
Definition bad_parameters (a e : Z) (indexes : list Z) (mapping : list (list Z)) (base : Z) : Prop :=
  base < 2 \/
  (mapping <> [] /\ base = 2 /\ Exists (fun m => 64 < len m) mapping) \/
  (mapping = [] /\
    (a < 2 \/ e < 2 \/ e < a \/
     (indexes <> [] /\ (len indexes <> e \/ Exists (fun i => e <= i) indexes \/ ~ NoDup indexes)) \/
     (base = 2 /\ 64 < a))).

Lemma not_good_indexes l e : ~ good_indexes l e <-> len l <> e \/ Exists (fun i => e <= i) l \/ ~ NoDup l.
Proof.
  unfold good_indexes. split.
  - intros H. destruct (decide (len l = e)) as [E|]; [|auto].
    destruct (decide (Exists (fun i => e <= i) l)) as [|Hn]; [auto|].
    right. right. intros Hnd. apply H. split; [exact E|]. split; [|exact Hnd].
    apply Forall_forall. intros x Hx. destruct (Z_lt_le_dec x e); [assumption|]. exfalso. apply Hn, Exists_exists. eauto.
  - intros Hor (H1 & H2 & H3). destruct Hor as [?|[He|?]]; [contradiction| |contradiction].
    apply Exists_exists in He as (x & Hx & Hge). rewrite Forall_forall in H2. specialize (H2 x Hx). lia.
Qed.

Lemma rmapM_ram_throw mapping iz base : 2 <= base -> Forall (fun m => len m <= INT_MAX) mapping ->
  (exists e, rmapM (fun addrs => ram_new addrs iz base) mapping = Throw e) <-> base = 2 /\ Exists (fun m => 64 < len m) mapping.
Proof.
  intros Hb. induction 1 as [|m mapping Hm Hall IH]; cbn [rmapM].
  - split; [intros [e H]; discriminate|]. intros [_ H]. inversion H.
  - rewrite ram_new_spec by assumption. destruct (Z.eqb_spec base 2) as [->|Hne].
    + destruct (Z.leb_spec (len m) 64) as [Hle|Hgt]; cbn [rbind].
      * split.
        -- intros [e H]. split; [reflexivity|]. right. apply IH. destruct (rmapM _ mapping); try discriminate. eauto.
        -- intros [_ H]. apply Exists_cons in H as [?|H]; [lia|].
           destruct (proj2 IH (conj eq_refl H)) as [e ->]. exists e. reflexivity.
      * split; [|eauto]. intros _. split; [reflexivity|]. left. exact Hgt.
    + split.
      * intros [e H]. exfalso. destruct (base ^ len m <=? LL_MAX); [|discriminate]. cbn [rbind] in H.
        destruct (rmapM _ mapping) eqn:E; try discriminate. destruct (proj1 IH) as [? _]; [eauto|]. contradiction.
      * intros [? _]. contradiction.
Qed.

Lemma rmapM_ram_exn mapping iz base e : 2 <= base -> Forall (fun m => len m <= INT_MAX) mapping ->
  rmapM (fun addrs => ram_new addrs iz base) mapping = Throw e -> e = limit_exn.
Proof.
  intros Hb Hl H. destruct (rmapM_fail (fun addrs => ram_new addrs iz base) mapping) as (x & Hx & _ & H2 & _).
  { intros ys E. congruence. }
  rewrite Forall_forall in Hl. specialize (H2 e H). apply ram_new_throw in H2; auto. apply H2.
Qed.

Lemma throw_exactly dr a e iz c indexes mapping base : valid_draw dr -> len indexes <= INT_MAX ->
  Forall (fun m => len m <= INT_MAX) mapping -> e + a <= INT_MAX ->
  ((exists x, disc_new dr a e iz c indexes mapping base = Throw x) <-> bad_parameters a e indexes mapping base) /\
  (forall x, disc_new dr a e iz c indexes mapping base = Throw x -> exists m, x = EWisard m) /\
  disc_new dr a e iz c indexes mapping base <> Hang.
Proof.
  intros Hdr Hl Hlm Hea. unfold disc_new, bad_parameters.
  destruct mapping as [|m0 mapping]; cbn [length Nat.eqb negb].
  - destruct indexes as [|i0 indexes]; cbn [length Nat.eqb negb].
    + (* shuffle *)
      destruct (checkAddressSize_cases e a) as [E|[m E]].
      * pose proof E as Ha. apply checkAddressSize_ok in Ha.
        destruct (checkBase_cases base) as [Eb|[m Eb]].
        -- pose proof Eb as Hb. apply checkBase_ok in Hb.
           destruct (setRAMShuffle_spec dr e a iz c base Hdr Ha Hb Hea) as (idx & fs & _ & _ & _ & ->).
           destruct (Z.eqb_spec base 2) as [->|Hne]; [destruct (Z.leb_spec a 64)|destruct (Z.leb_spec (base ^ a) LL_MAX)];
             (split; [split; [intros [x Hx]; try discriminate|intros Hbad]|split; [intros x Hx; try discriminate|discriminate]]).
           ++ exfalso. destruct Hbad as [?|[(? & _)|(_ & [?|[?|[?|[(? & _)|(_ & ?)]]]])]]; (lia || congruence).
           ++ right. right. split; [reflexivity|]. right. right. right. right. auto.
           ++ eauto.
           ++ injection Hx as <-. unfold limit_exn. eauto.
           ++ exfalso. destruct Hbad as [?|[(? & _)|(_ & [?|[?|[?|[(? & _)|(? & ?)]]]])]]; (lia || congruence).
           ++ exfalso. destruct Hbad as [?|[(? & _)|(_ & [?|[?|[?|[(? & _)|(? & ?)]]]])]]; (lia || congruence).
        -- unfold setRAMShuffle. rewrite E, Eb. cbn [rbind]. split; [split; [|eauto]|split; [|discriminate]].
           ++ intros _. left. destruct (Z_lt_le_dec base 2) as [|Hge]; [assumption|]. apply checkBase_ok in Hge. congruence.
           ++ injection 1 as <-. eauto.
      * unfold setRAMShuffle. rewrite E. cbn [rbind]. split; [split; [|eauto]|split; [|discriminate]].
        -- intros _. right. right. split; [reflexivity|].
           destruct (Z_lt_le_dec a 2); [auto|]. destruct (Z_lt_le_dec e 2); [auto|]. destruct (Z_lt_le_dec e a); [auto|].
           assert (2 <= a <= e) as Ha by lia. apply checkAddressSize_ok in Ha. congruence.
        -- injection 1 as <-. eauto.
    + (* by index *)
      unfold setRAMByIndex.
      destruct (checkAddressSize_cases e a) as [E|[m E]]; rewrite E; cbn [rbind].
      2:{ split; [split; [|eauto]|split; [|discriminate]].
        -- intros _. right. right. split; [reflexivity|].
           destruct (Z_lt_le_dec a 2); [auto|]. destruct (Z_lt_le_dec e 2); [auto|]. destruct (Z_lt_le_dec e a); [auto|].
           assert (2 <= a <= e) as Ha by lia. apply checkAddressSize_ok in Ha. congruence.
        -- injection 1 as <-. eauto. }
      pose proof E as Ha. apply checkAddressSize_ok in Ha.
      destruct (checkBase_cases base) as [Eb|[m Eb]]; rewrite Eb; cbn [rbind].
      2:{ split; [split; [|eauto]|split; [|discriminate]].
          ++ intros _. left. destruct (Z_lt_le_dec base 2) as [|Hge]; [assumption|]. apply checkBase_ok in Hge. congruence.
          ++ injection 1 as <-. eauto. }
      pose proof Eb as Hb. apply checkBase_ok in Hb.
      destruct (checkList_cases (i0 :: indexes) e Hl) as [[El Hg]|[[m El] Hn]]; rewrite El; cbn [rbind].
      2:{ split; [split; [|eauto]|split; [|discriminate]].
          ++ intros _. right. right. split; [reflexivity|]. right. right. right. left. split; [congruence|].
             apply not_good_indexes, Hn.
          ++ injection 1 as <-. eauto. }
      pose proof (setRAMByIndex_spec (i0 :: indexes) e a iz base Hl Ha Hb Hg) as Hs.
      unfold setRAMByIndex in Hs. rewrite E, Eb, El in Hs. cbn [rbind] in Hs. rewrite Hs. clear Hs.
      destruct (Z.eqb_spec base 2) as [->|Hne]; [destruct (Z.leb_spec a 64)|destruct (Z.leb_spec (base ^ a) LL_MAX)];
             (split; [split; [intros [x Hx]; try discriminate|intros Hbad]|split; [intros x Hx; try discriminate|discriminate]]).
      * exfalso. destruct Hbad as [?|[(? & _)|(_ & [?|[?|[?|[(_ & Hbad)|(_ & ?)]]]])]]; try (lia || congruence).
        apply not_good_indexes in Hbad. contradiction.
      * right. right. split; [reflexivity|]. right. right. right. right. auto.
      * eauto.
      * injection Hx as <-. unfold limit_exn. eauto.
      * exfalso. destruct Hbad as [?|[(? & _)|(_ & [?|[?|[?|[(_ & Hbad)|(? & ?)]]]])]]; try (lia || congruence).
        apply not_good_indexes in Hbad. contradiction.
      * exfalso. destruct Hbad as [?|[(? & _)|(_ & [?|[?|[?|[(_ & Hbad)|(? & ?)]]]])]]; try (lia || congruence).
        apply not_good_indexes in Hbad. contradiction.
  - (* mapping *)
    unfold setRAMByMapping. destruct (checkBase_cases base) as [Eb|[m Eb]]; rewrite Eb; cbn [rbind].
    2:{ split; [split; [|eauto]|split; [|discriminate]].
          ++ intros _. left. destruct (Z_lt_le_dec base 2) as [|Hge]; [assumption|]. apply checkBase_ok in Hge. congruence.
          ++ injection 1 as <-. eauto. }
    pose proof Eb as Hb. apply checkBase_ok in Hb.
    pose proof (rmapM_ram_throw (m0 :: mapping) iz base Hb Hlm) as Hiff.
    destruct (rmapM _ _) as [rs|x|u|] eqn:Er; cbn [rbind].
    + split; [split; [intros [? ?]; discriminate|]|split; [intros ? ?; discriminate|discriminate]].
      intros [?|[(_ & H2)|(? & _)]]; [lia| |discriminate]. apply Hiff in H2 as [? ?]. discriminate.
    + split; [split; [|eauto]|split; [|discriminate]].
      * intros _. right. left. split; [congruence|]. apply Hiff. eauto.
      * intros x' H. injection H as <-. apply rmapM_ram_exn in Er; auto. subst x. unfold limit_exn. eauto.
    + split; [split; [intros [? ?]; discriminate|]|split; [intros ? ?; discriminate|discriminate]].
      intros [?|[(_ & H2)|(? & _)]]; [lia| |discriminate]. apply Hiff in H2 as [? ?]. discriminate.
    + exfalso. destruct (rmapM_fail (fun addrs => ram_new addrs iz base) (m0 :: mapping)) as (x & Hx & _ & _ & _ & H4).
      { intros ys E. congruence. }
      specialize (H4 Er). rewrite Forall_forall in Hlm. rewrite ram_new_spec in H4 by auto.
      destruct (base =? 2); [destruct (len x <=? 64)|destruct (base ^ len x <=? LL_MAX)]; discriminate.
Qed.

(** ** Address space *)
Definition some_draw : draw := Draw (fun _ => 0) (fun l => l).
Lemma some_draw_valid : valid_draw some_draw.
Proof. split; [intros i; cbn; unfold INT_MAX; lia|]. intros l. reflexivity. Qed.

Lemma limit_not_enforced : exists a e base, 2 <= a <= e /\ 2 <= base /\ W64 < base ^ a /\
  disc_new some_draw a e false true [] [] base = UB UBOverflow.
Proof. exists 41, 41, 3. split; [lia|]. split; [lia|]. split; vm_compute; reflexivity. Qed.

Lemma limit_base2 dr a e iz c indexes mapping d : valid_draw dr -> len indexes <= INT_MAX ->
  Forall (fun m => len m <= INT_MAX) mapping ->
  forall base, disc_new dr a e iz c indexes mapping base = Ok d ->
  Forall (fun r => r_base r = base /\ base ^ len (r_addresses r) <= W64) (d_rams d).
Proof.
  intros Hdr Hl Hlm base H.
  assert (forall r, r ∈ d_rams d -> r_base r = base) as Hbase.
  { apply disc_new_inv in H; auto. destruct H as (Hb & [(_ & Hw & ->)|(_ & Ha & Hw & [(_ & Hg & ->)|(_ & _ & idx & fs & Hp & Hll & _ & ->)])]); cbn [d_rams]; intros r Hr.
    - unfold rams_map in Hr. apply elem_of_list_fmap in Hr as (m & -> & _). reflexivity.
    - apply elem_rams_of in Hr as (i & _ & ->). reflexivity.
    - apply elem_rams_of in Hr as (i & _ & ->). reflexivity. }
  assert (Forall (fun r => ram_shape r /\ r_positions r = ∅) (d_rams d)) as Hs.
  { apply disc_new_inv in H; auto. destruct H as (Hb & [(_ & Hw & ->)|(_ & Ha & Hw & [(_ & Hg & ->)|(_ & _ & idx & fs & Hp & Hll & _ & ->)])]); cbn [d_rams].
    - unfold rams_map. apply Forall_fmap. eapply Forall_impl; [exact Hw|]. intros m Hm. unfold compose. split; [|reflexivity]. split; [exact Hb|exact Hm].
    - apply rams_of_fresh; auto; [lia|]. destruct Hg as (-> & _). pose proof (Z.div_mod e a ltac:(lia)). pose proof (Z.mod_pos_bound e a ltac:(lia)). lia.
    - destruct (count_extra e a c Ha) as (Hk & Hx & Hle & _). apply rams_of_fresh; auto; [lia|].
      unfold len. rewrite (Permutation_length Hp), app_length, fmap_length, seq_length. unfold len in Hll. lia. }
  apply Forall_forall. intros r Hr. split; [apply Hbase, Hr|]. rewrite Forall_forall in Hs.
  destruct (Hs r Hr) as [[Hb Hw] _]. rewrite (Hbase r Hr) in Hb, Hw. apply width_pow; [exact Hb|apply len_nonneg|exact Hw].
Qed.

Lemma negative_index_accepted : exists d, disc_new some_draw 2 4 false true [0; 1; 2; -1] [] 2 = Ok d.
Proof. eexists. vm_compute. reflexivity. Qed.

Lemma nodup_range_perm l n : NoDup l -> Forall (fun i => 0 <= i < Z.of_nat n) l -> length l = n ->
  l ≡ₚ (Z.of_nat <$> seq 0 n).
Proof.
  intros Hnd Hf Hl. apply submseteq_Permutation_length_le; [rewrite fmap_length, seq_length; lia|].
  - apply NoDup_submseteq; [exact Hnd|]. intros x Hx. rewrite Forall_forall in Hf. specialize (Hf x Hx).
    apply elem_of_list_fmap. exists (Z.to_nat x). split; [lia|]. apply elem_of_seq. lia.
Qed.

Lemma accepted_indexes dr a e iz c indexes base d : indexes <> [] -> len indexes <= INT_MAX ->
  valid_draw dr -> disc_new dr a e iz c indexes [] base = Ok d ->
  len indexes = e /\ NoDup indexes /\ Forall (fun i => i < e) indexes /\
  (Forall (fun i => 0 <= i) indexes -> indexes ≡ₚ (Z.of_nat <$> seq 0 (Z.to_nat e))).
Proof.
  intros Hne Hl Hdr H. apply disc_new_inv in H; auto.
  destruct H as (Hb & [(? & _)|(_ & Ha & Hw & [(_ & (H1 & H2 & H3) & _)|(? & _)])]); try congruence.
  repeat split; auto. intros Hpos. apply nodup_range_perm; auto.
  - apply Forall_forall. intros x Hx. rewrite Forall_forall in H2, Hpos. specialize (H2 x Hx). specialize (Hpos x Hx). cbn in *. lia.
  - unfold len in H1. lia.
Qed.

(** A mapping naming position 7 of a 2-pixel image. *)
Lemma mapping_unchecked : exists d, disc_new some_draw 2 2 false true [] [[0; 7]] 2 = Ok d /\
  fst (disc_train d (vec_image [1; 1])) = UB UBIndex /\ disc_classify d (vec_image [1; 1]) = UB UBIndex.
Proof. eexists. split; [vm_compute; reflexivity|]. vm_compute. auto. Qed.

(** RAM count helper *)
Lemma number_of_rams dr a e iz c base d : valid_draw dr -> disc_new dr a e iz c [] [] base = Ok d ->
  calculateNumberOfRams e a c = Ok (len (d_rams d)).
Proof.
  intros Hdr H. apply disc_new_inv in H; [|exact Hdr|vm_compute; congruence|constructor].
  destruct H as (Hb & [(? & _)|(_ & Ha & Hw & [(? & _)|(_ & _ & idx & fs & _ & _ & _ & ->)])]); try congruence.
  cbn [d_rams]. unfold rams_of, len. rewrite fmap_length, seq_length.
  destruct (count_extra e a c Ha) as (Hk & _). unfold calculateNumberOfRams. destruct (Z.eqb_spec a 0); [lia|].
  rewrite Z2Nat.id by lia. unfold rams_count. destruct (c && (0 <? Z.rem e a)); reflexivity.
Qed.
