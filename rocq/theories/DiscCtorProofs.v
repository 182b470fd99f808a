From Verif Require Import Prelude Bytes Base64 Utils BinInput Ram Json Fs RamData Disc SpecDisc.
From Verif Require Import BytesProofs UtilsProofs TextProofs.

(** ** rmapM *)
Lemma rmapM_ok {A B} (f : A -> res B) l ys : rmapM f l = Ok ys <-> Forall2 (fun x y => f x = Ok y) l ys.
Proof.
  split.
  - revert ys. induction l as [|x l IH]; intros ys; cbn [rmapM].
    + injection 1 as <-. constructor.
    + destruct (f x) as [y| | |] eqn:E; cbn [rbind]; try discriminate.
      destruct (rmapM f l) as [zs| | |]; cbn [rbind]; try discriminate.
      injection 1 as <-. constructor; auto.
  - induction 1 as [|x y l ys E H IH]; [reflexivity|]. cbn [rmapM]. rewrite E. cbn [rbind]. rewrite IH. reflexivity.
Qed.
Lemma rmapM_total {A B} (f : A -> res B) (g : A -> B) l : (forall x, x ∈ l -> f x = Ok (g x)) -> rmapM f l = Ok (g <$> l).
Proof.
  induction l as [|x l IH]; intros H; [reflexivity|]. cbn [rmapM fmap list_fmap].
  rewrite (H x) by left. cbn [rbind]. rewrite IH by (intros y Hy; apply H; right; exact Hy). reflexivity.
Qed.
Lemma rmapM_ext {A B} (f g : A -> res B) l : (forall x, x ∈ l -> f x = g x) -> rmapM f l = rmapM g l.
Proof.
  induction l as [|x l IH]; intros H; [reflexivity|]. cbn [rmapM]. rewrite (H x) by left.
  rewrite IH by (intros y Hy; apply H; right; exact Hy). reflexivity.
Qed.
(** First failure. *)
Lemma rmapM_fail {A B} (f : A -> res B) l : (forall ys, rmapM f l <> Ok ys) ->
  exists x, x ∈ l /\ (forall y, f x <> Ok y) /\
    (forall e, rmapM f l = Throw e -> f x = Throw e) /\ (forall u, rmapM f l = UB u -> f x = UB u) /\
    (rmapM f l = Hang -> f x = Hang).
Proof.
  induction l as [|x l IH]; cbn [rmapM]; intros H; [exfalso; apply (H []); reflexivity|].
  destruct (f x) as [y| | |] eqn:E; cbn [rbind] in *.
  - destruct IH as (z & Hz & H1 & H2 & H3 & H4).
    + intros ys Hys. rewrite Hys in H. apply (H (y :: ys)). reflexivity.
    + exists z. split; [right; exact Hz|]. split; [exact H1|]. destruct (rmapM f l); cbn [rbind]; repeat split; intros; try congruence; auto.
  - exists x. split; [left|]. rewrite E. repeat split; intros; congruence.
  - exists x. split; [left|]. rewrite E. repeat split; intros; congruence.
  - exists x. split; [left|]. rewrite E. repeat split; intros; congruence.
Qed.

(** ** ipow: success means the power fits *)
Lemma ll_of_inv z v : ll_of z = Ok v -> v = z /\ LL_MIN <= z <= LL_MAX.
Proof. unfold ll_of, in_ll. destruct (_ && _) eqn:E; [|discriminate]. injection 1 as <-. lia. Qed.

Lemma ipow_loop_sound fuel : forall result base exp v, 0 <= exp -> LL_MIN <= result <= LL_MAX ->
  ipow_loop fuel result base exp = Ok v -> v = result * base ^ exp /\ LL_MIN <= v <= LL_MAX.
Proof.
  induction fuel as [|fuel IH]; intros result base exp v He Hr; cbn [ipow_loop]; [discriminate|].
  assert (base ^ exp = (base ^ Z.b2z (Z.odd exp)) * (base * base) ^ (exp / 2)) as Hsplit.
  { rewrite <- Z.pow_2_r, <- Z.pow_mul_r by (try apply Z.div_pos; lia).
    rewrite <- Z.pow_add_r; [f_equal; pose proof (Z.div_mod exp 2 ltac:(lia)); rewrite Zmod_odd in *; destruct (Z.odd exp); cbn; lia| |].
    - destruct (Z.odd exp); cbn; lia.
    - pose proof (Z.div_pos exp 2); lia. }
  assert (forall r', (if Z.odd exp then ll_of (result * base) else Ok result) = Ok r' ->
            r' = result * base ^ Z.b2z (Z.odd exp) /\ LL_MIN <= r' <= LL_MAX) as Hres.
  { intros r'. destruct (Z.odd exp); cbn [Z.b2z].
    - intros H. apply ll_of_inv in H as [-> H]. rewrite Z.pow_1_r. auto.
    - injection 1 as <-. rewrite Z.pow_0_r, Z.mul_1_r. auto. }
  destruct (if Z.odd exp then _ else _) as [r'| | |]; cbn [rbind]; try discriminate.
  destruct (Hres r' eq_refl) as [Er' Hr'].
  rewrite Z.shiftr_div_pow2 by lia. change (2 ^ 1) with 2.
  destruct (Z.eqb_spec (exp / 2) 0) as [E0|E0].
  - injection 1 as <-. rewrite Hsplit, E0, Z.pow_0_r, Z.mul_1_r. auto.
  - destruct (ll_of (base * base)) as [b'| | |] eqn:Eb; cbn [rbind]; try discriminate.
    apply ll_of_inv in Eb as [-> _]. intros H. apply IH in H; [|apply Z.div_pos; lia|exact Hr'].
    destruct H as [-> H]. split; [|exact H]. rewrite Hsplit, Er'. rewrite <- Z.mul_assoc. reflexivity.
Qed.

Lemma ipow_sound b e v : 0 <= e -> ipow b e = Ok v -> v = b ^ e /\ LL_MIN <= b ^ e <= LL_MAX.
Proof.
  intros He H. apply ipow_loop_sound in H; [|exact He|unfold LL_MIN, LL_MAX; lia].
  destruct H as [-> H]. rewrite Z.mul_1_l in *. auto.
Qed.

(** ** One RAM *)
(** Numbers of positions a RAM of a given base may have. *)
Definition width_ok (base n : Z) : Prop := if base =? 2 then n <= 64 else base ^ n <= LL_MAX.

Lemma width_pow base n : 2 <= base -> 0 <= n -> width_ok base n -> base ^ n <= W64.
Proof.
  unfold width_ok. intros Hb Hn. destruct (Z.eqb_spec base 2) as [->|].
  - intros H. change W64 with (2 ^ 64). apply Z.pow_le_mono_r; lia.
  - unfold LL_MAX, W64. lia.
Qed.

Lemma checkLimit_spec n base : 2 <= base -> 0 <= n <= INT_MAX ->
  checkLimitAddressSize n base =
    if base =? 2 then if n <=? 64 then Ok tt else Throw limit_exn
    else if base ^ n <=? LL_MAX then Ok tt else UB UBOverflow.
Proof.
  intros Hb Hn. unfold checkLimitAddressSize. destruct (Z.eqb_spec base 2) as [->|Hne].
  - destruct (Z.ltb_spec 64 n), (Z.leb_spec n 64); (reflexivity || lia).
  - assert (1 <= base ^ n) as Hpos by (pose proof (Z.pow_pos_nonneg base n); lia).
    assert (0 <= n <= LL_MAX) as Hn' by (unfold LL_MAX, INT_MAX in *; lia).
    destruct (Z.leb_spec (base ^ n) LL_MAX) as [Hle|Hgt].
    + rewrite ipow_exact by (auto; unfold LL_MIN; lia). cbn [rbind].
      rewrite u64_id by (unfold W64, LL_MAX in *; lia).
      destruct (Z.ltb_spec (W64 - 1) (base ^ n)); [unfold W64, LL_MAX in *; lia|reflexivity].
    + destruct (ipow_total base n Hn') as [[v Hv]|Hv].
      * apply ipow_sound in Hv; lia.
      * rewrite Hv. reflexivity.
Qed.

Lemma ram_new_spec addrs iz base : 2 <= base -> len addrs <= INT_MAX ->
  ram_new addrs iz base =
    if base =? 2 then if len addrs <=? 64 then Ok (Ram addrs ∅ iz base) else Throw limit_exn
    else if base ^ len addrs <=? LL_MAX then Ok (Ram addrs ∅ iz base) else UB UBOverflow.
Proof.
  intros Hb Hl. unfold ram_new. pose proof (len_nonneg addrs).
  rewrite s32_id by (unfold INT_MIN; lia). rewrite checkLimit_spec by lia.
  destruct (base =? 2); [destruct (len addrs <=? 64)|destruct (base ^ len addrs <=? LL_MAX)]; reflexivity.
Qed.

Lemma ram_new_ok addrs iz base r : 2 <= base -> len addrs <= INT_MAX -> ram_new addrs iz base = Ok r ->
  r = Ram addrs ∅ iz base /\ width_ok base (len addrs).
Proof.
  intros Hb Hl. rewrite ram_new_spec by assumption. unfold width_ok.
  destruct (base =? 2).
  - destruct (Z.leb_spec (len addrs) 64); [|discriminate]. injection 1 as <-. auto.
  - destruct (Z.leb_spec (base ^ len addrs) LL_MAX); [|discriminate]. injection 1 as <-. auto.
Qed.
Lemma ram_new_width addrs iz base : 2 <= base -> len addrs <= INT_MAX -> width_ok base (len addrs) ->
  ram_new addrs iz base = Ok (Ram addrs ∅ iz base).
Proof.
  intros Hb Hl. rewrite ram_new_spec by assumption. unfold width_ok.
  destruct (base =? 2); [destruct (Z.leb_spec (len addrs) 64)|destruct (Z.leb_spec (base ^ len addrs) LL_MAX)]; (reflexivity || lia).
Qed.
Lemma ram_new_throw addrs iz base e : 2 <= base -> len addrs <= INT_MAX ->
  ram_new addrs iz base = Throw e <-> e = limit_exn /\ base = 2 /\ 64 < len addrs.
Proof.
  intros Hb Hl. rewrite ram_new_spec by assumption.
  destruct (Z.eqb_spec base 2); [destruct (Z.leb_spec (len addrs) 64)|destruct (Z.leb_spec (base ^ len addrs) LL_MAX)];
    (split; [intros; try discriminate; try (injection H as <-)|intros (-> & ? & ?)]; try lia; auto).
  all: intuition (try congruence; try lia).
Qed.

(** ** Layouts *)
Lemma sub_indexes_length indexes n i : 0 <= n -> (i * Z.to_nat n + Z.to_nat n <= length indexes)%nat ->
  len (sub_indexes indexes n i) = n.
Proof. intros Hn H. unfold sub_indexes, len. rewrite take_length, drop_length. lia. Qed.

Lemma sub_indexes_lookup indexes n i j : (j < Z.to_nat n)%nat ->
  sub_indexes indexes n i !! j = indexes !! (i * Z.to_nat n + j)%nat.
Proof. intros H. unfold sub_indexes. rewrite lookup_take by exact H. apply lookup_drop. Qed.

(** What make_rams does, for a vector with room for all the RAMs. *)
Definition rams_of (indexes : list Z) (n : Z) (k : Z) (iz : bool) (base : Z) : list ram :=
  (fun i => Ram (sub_indexes indexes n i) ∅ iz base) <$> seq 0 (Z.to_nat k).

Lemma make_rams_spec indexes n k iz base : 2 <= base -> 2 <= n <= INT_MAX -> 0 < k -> k * n <= len indexes ->
  make_rams indexes n k iz base =
    if base =? 2 then if n <=? 64 then Ok (rams_of indexes n k iz base) else Throw limit_exn
    else if base ^ n <=? LL_MAX then Ok (rams_of indexes n k iz base) else UB UBOverflow.
Proof.
  intros Hb Hn Hk Hlen. unfold make_rams.
  assert (forall i, (i < Z.to_nat k)%nat -> len (sub_indexes indexes n i) = n) as Hsub.
  { intros i Hi. apply sub_indexes_length; [lia|]. unfold len in Hlen.
    assert (Z.of_nat i + 1 <= k) by lia. nia. }
  assert (forall b, (b = true -> forall i, (i < Z.to_nat k)%nat -> ram_new (sub_indexes indexes n i) iz base = Ok (Ram (sub_indexes indexes n i) ∅ iz base)) ->
            b = true -> rmapM (fun i => ram_new (sub_indexes indexes n i) iz base) (seq 0 (Z.to_nat k)) = Ok (rams_of indexes n k iz base)) as Hok.
  { intros b Hi Eb. apply rmapM_total. intros i Hin. apply elem_of_seq in Hin. apply (Hi Eb). lia. }
  assert (seq 0 (Z.to_nat k) = 0%nat :: seq 1 (Z.to_nat k - 1)) as Hseq.
  { destruct (Z.to_nat k) eqn:E; [lia|]. cbn. rewrite Nat.sub_0_r. reflexivity. }
  destruct (base =? 2) eqn:E2; [destruct (n <=? 64) eqn:E64|destruct (base ^ n <=? LL_MAX) eqn:EL].
  - apply (Hok true); [|reflexivity]. intros _ i Hi. rewrite ram_new_spec by (rewrite ?Hsub; lia). rewrite E2, Hsub, E64 by exact Hi. reflexivity.
  - rewrite Hseq. cbn [rmapM]. rewrite ram_new_spec by (rewrite ?Hsub; lia). rewrite E2, Hsub, E64 by lia. reflexivity.
  - apply (Hok true); [|reflexivity]. intros _ i Hi. rewrite ram_new_spec by (rewrite ?Hsub; lia). rewrite E2, Hsub, EL by exact Hi. reflexivity.
  - rewrite Hseq. cbn [rmapM]. rewrite ram_new_spec by (rewrite ?Hsub; lia). rewrite E2, Hsub, EL by lia. reflexivity.
Qed.

(** check functions *)
Lemma checkAddressSize_ok e a : checkAddressSize e a = Ok tt <-> 2 <= a <= e.
Proof.
  unfold checkAddressSize. destruct (Z.ltb_spec a 2), (Z.ltb_spec e 2), (Z.ltb_spec e a); split; intros; try discriminate; try lia; reflexivity.
Qed.
Lemma checkAddressSize_cases e a : checkAddressSize e a = Ok tt \/ exists m, checkAddressSize e a = Throw (EWisard m).
Proof. unfold checkAddressSize, addr_small_exn, entry_small_exn, addr_big_exn. repeat destruct (_ <? _); eauto. Qed.
Lemma checkBase_ok b : checkBase b = Ok tt <-> 2 <= b.
Proof. unfold checkBase. destruct (Z.ltb_spec b 2); split; intros; try discriminate; try lia; reflexivity. Qed.
Lemma checkBase_cases b : checkBase b = Ok tt \/ exists m, checkBase b = Throw (EWisard m).
Proof. unfold checkBase, base_exn. destruct (_ <? _); eauto. Qed.

Lemma check_indexes_spec l e : forall seen,
  (check_indexes_loop l e seen = Ok tt /\ Forall (fun i => i < e) l /\ NoDup l /\ Forall (fun i => i ∉ seen) l) \/
  ((exists m, check_indexes_loop l e seen = Throw (EWisard m)) /\
   (Exists (fun i => e <= i) l \/ ~ (NoDup l /\ Forall (fun i => i ∉ seen) l))).
Proof.
  induction l as [|i l IH]; intros seen; cbn [check_indexes_loop].
  - left. repeat split; constructor.
  - destruct (Z.leb_spec e i) as [Hge|Hlt].
    + right. split; [unfold idx_range_exn; eauto|]. left. left. exact Hge.
    + destruct (decide (i ∈ seen)) as [Hin|Hnin].
      * right. split; [unfold idx_repeat_exn; eauto|]. right. intros [_ H]. inversion H; contradiction.
      * destruct (IH (i :: seen)) as [(H1 & H2 & H3 & H4)|[H1 H2]].
        -- left. split; [exact H1|]. split; [constructor; auto|]. split.
           ++ constructor; [|exact H3]. intros Hin. rewrite Forall_forall in H4. apply (H4 i Hin). left.
           ++ constructor; [exact Hnin|]. eapply Forall_impl; [exact H4|]. intros x Hx Hs. apply Hx. right. exact Hs.
        -- right. split; [exact H1|]. destruct H2 as [H2|H2]; [left; right; exact H2|]. right. intros [Hn Hs].
           apply H2. inversion Hn; subst. inversion Hs; subst. split; [assumption|].
           apply Forall_forall. intros x Hx Hin. apply elem_of_cons in Hin as [->|Hin]; [contradiction|].
           match goal with H : Forall _ l |- _ => rewrite Forall_forall in H; apply (H x Hx Hin) end.
Qed.

Definition good_indexes (l : list Z) (e : Z) : Prop := len l = e /\ Forall (fun i => i < e) l /\ NoDup l.
Lemma checkList_cases l e : len l <= INT_MAX ->
  (checkListOfIndexes l e = Ok tt /\ good_indexes l e) \/
  ((exists m, checkListOfIndexes l e = Throw (EWisard m)) /\ ~ good_indexes l e).
Proof.
  intros Hl. unfold checkListOfIndexes, good_indexes. pose proof (len_nonneg l). rewrite s32_id by (unfold INT_MIN; lia).
  destruct (Z.eqb_spec (len l) e) as [E|E]; cbn [negb].
  - destruct (check_indexes_spec l e []) as [(H1 & H2 & H3 & _)|[H1 H2]].
    + left. auto.
    + right. split; [exact H1|]. intros (_ & Hf & Hn). destruct H2 as [H2|H2].
      * apply Exists_exists in H2 as (x & Hx & Hge). rewrite Forall_forall in Hf. specialize (Hf x Hx). lia.
      * apply H2. split; [exact Hn|]. apply Forall_forall. intros x _ Hin. inversion Hin.
  - right. split; [unfold idx_len_exn; eauto|]. intros (? & _). contradiction.
Qed.

(** ** The three constructors *)
Definition extra_of (e a : Z) (complete : bool) : Z :=
  if complete && (0 <? Z.rem e a) then a - Z.rem e a else 0.
Definition rams_count (e a : Z) (complete : bool) : Z :=
  if complete && (0 <? Z.rem e a) then Z.quot e a + 1 else Z.quot e a.

Lemma count_extra e a c : 2 <= a <= e ->
  0 < rams_count e a c /\ 0 <= extra_of e a c < a /\ rams_count e a c * a <= e + extra_of e a c /\
  (c = true \/ e mod a = 0 -> rams_count e a c * a = e + extra_of e a c) /\
  (e mod a = 0 -> extra_of e a c = 0) /\
  rams_count e a c = e / a + (if c && negb (e mod a =? 0) then 1 else 0).
Proof.
  intros H. unfold rams_count, extra_of. rewrite Z.quot_div_nonneg, Z.rem_mod_nonneg by lia.
  pose proof (Z.div_mod e a ltac:(lia)). pose proof (Z.mod_pos_bound e a ltac:(lia)).
  assert (1 <= e / a) by (apply Z.div_le_lower_bound; lia).
  destruct c; cbn [andb].
  - destruct (Z.ltb_spec 0 (e mod a)), (Z.eqb_spec (e mod a) 0); cbn [negb]; repeat split; intros; try lia; nia.
  - repeat split; intros; try lia; try nia.
Qed.

Lemma randint_ok e r : 0 < e <= INT_MAX -> 0 <= r <= INT_MAX -> exists v, randint 0 (e - 1) r = Ok v /\ 0 <= v < e.
Proof.
  intros He Hr. unfold randint. replace (e - 1 - 0 + 1) with e by lia.
  rewrite int_of_ok by (unfold INT_MIN; lia). cbn [rbind].
  destruct (Z.eqb_spec e 0); [lia|]. rewrite Z.rem_mod_nonneg by lia. pose proof (Z.mod_pos_bound r e ltac:(lia)).
  exists (r mod e). rewrite Z.add_0_l, int_of_ok by (unfold INT_MIN; lia). auto.
Qed.

Lemma fillers_ok dr e n : valid_draw dr -> 0 < e <= INT_MAX ->
  exists fs, rmapM (fun i => randint 0 (e - 1) (dr_rand dr i)) (seq 0 n) = Ok fs /\ length fs = n /\ Forall (fun v => 0 <= v < e) fs.
Proof.
  intros [Hr _] He. generalize 0%nat as s. induction n as [|n IH]; intros s.
  - exists []. repeat split; constructor.
  - cbn [seq rmapM]. destruct (randint_ok e (dr_rand dr s) He (Hr s)) as (v & -> & Hv). cbn [rbind].
    destruct (IH (S s)) as (fs & -> & Hl & Hf). exists (v :: fs). cbn. repeat split; auto.
Qed.

Lemma setRAMShuffle_spec dr e a iz c base : valid_draw dr -> 2 <= a <= e -> 2 <= base -> e + a <= INT_MAX ->
  exists indexes fs, indexes ≡ₚ (Z.of_nat <$> seq 0 (Z.to_nat e)) ++ fs /\ len fs = extra_of e a c /\
    Forall (fun v => 0 <= v < e) fs /\
    setRAMShuffle dr e a iz c base =
      if base =? 2 then if a <=? 64 then Ok (Disc e 0 (rams_of indexes a (rams_count e a c) iz base)) else Throw limit_exn
      else if base ^ a <=? LL_MAX then Ok (Disc e 0 (rams_of indexes a (rams_count e a c) iz base)) else UB UBOverflow.
Proof.
  intros Hdr Ha Hb He. unfold setRAMShuffle.
  rewrite (proj2 (checkAddressSize_ok e a)) by exact Ha. rewrite (proj2 (checkBase_ok base)) by exact Hb. cbn [rbind].
  destruct (count_extra e a c Ha) as (Hk & Hx & Hle & _).
  fold (extra_of e a c). fold (rams_count e a c).
  rewrite int_of_ok by (unfold INT_MIN; lia). cbn [rbind].
  destruct (fillers_ok dr e (Z.to_nat (extra_of e a c)) Hdr ltac:(lia)) as (fs & -> & Hl & Hf). cbn [rbind].
  set (indexes := dr_shuffle dr _). exists indexes, fs.
  assert (indexes ≡ₚ (Z.of_nat <$> seq 0 (Z.to_nat e)) ++ fs) as Hp by apply Hdr.
  split; [exact Hp|]. split; [unfold len; lia|]. split; [exact Hf|].
  rewrite make_rams_spec; try lia.
  - destruct (base =? 2); [destruct (a <=? 64)|destruct (base ^ a <=? LL_MAX)]; reflexivity.
  - unfold len. rewrite (Permutation_length Hp), app_length, fmap_length, seq_length. lia.
Qed.

Lemma setRAMByIndex_spec indexes e a iz base : len indexes <= INT_MAX -> 2 <= a <= e -> 2 <= base -> good_indexes indexes e ->
  setRAMByIndex indexes e a iz base =
      if base =? 2 then if a <=? 64 then Ok (Disc e 0 (rams_of indexes a (e / a) iz base)) else Throw limit_exn
      else if base ^ a <=? LL_MAX then Ok (Disc e 0 (rams_of indexes a (e / a) iz base)) else UB UBOverflow.
Proof.
  intros Hl Ha Hb Hg. unfold setRAMByIndex.
  rewrite (proj2 (checkAddressSize_ok e a)) by exact Ha. rewrite (proj2 (checkBase_ok base)) by exact Hb. cbn [rbind].
  destruct (checkList_cases indexes e Hl) as [[-> _]|[_ Hn]]; [|contradiction]. cbn [rbind].
  rewrite Z.quot_div_nonneg by lia. destruct Hg as (Hlen & _).
  assert (1 <= e / a) by (apply Z.div_le_lower_bound; lia).
  assert (e / a * a <= e) by (pose proof (Z.div_mod e a ltac:(lia)); pose proof (Z.mod_pos_bound e a ltac:(lia)); lia).
  rewrite make_rams_spec by (unfold INT_MAX in *; lia).
  destruct (base =? 2); [destruct (a <=? 64)|destruct (base ^ a <=? LL_MAX)]; reflexivity.
Qed.

Definition rams_map (mapping : list (list Z)) (iz : bool) (base : Z) : list ram :=
  (fun m => Ram m ∅ iz base) <$> mapping.

Lemma setRAMByMapping_ok mapping e iz base : Forall (fun m => len m <= INT_MAX) mapping -> 2 <= base ->
  Forall (fun m => width_ok base (len m)) mapping ->
  setRAMByMapping mapping e iz base = Ok (Disc e 0 (rams_map mapping iz base)).
Proof.
  intros Hl Hb Hw. unfold setRAMByMapping. rewrite (proj2 (checkBase_ok base)) by exact Hb. cbn [rbind].
  rewrite (rmapM_total _ (fun m => Ram m ∅ iz base)); [reflexivity|].
  intros m Hm. rewrite Forall_forall in Hl, Hw. apply ram_new_width; auto.
Qed.
Lemma setRAMByMapping_inv mapping e iz base d : Forall (fun m => len m <= INT_MAX) mapping ->
  setRAMByMapping mapping e iz base = Ok d ->
  2 <= base /\ Forall (fun m => width_ok base (len m)) mapping /\ d = Disc e 0 (rams_map mapping iz base).
Proof.
  intros Hl. unfold setRAMByMapping. destruct (checkBase_cases base) as [E|[m E]]; rewrite E; cbn [rbind]; [|discriminate].
  apply checkBase_ok in E. destruct (rmapM _ mapping) as [rs| | |] eqn:Er; cbn [rbind]; try discriminate.
  injection 1 as <-. apply rmapM_ok in Er. split; [exact E|].
  assert (Forall (fun m => width_ok base (len m)) mapping /\ rs = rams_map mapping iz base) as [H1 ->]; [|auto].
  induction Er as [|m r mapping rs Hm Hrs IH]; [split; constructor|].
  inversion Hl; subst. apply ram_new_ok in Hm as [-> Hw]; auto. destruct (IH ltac:(assumption)) as [H3 ->].
  split; [constructor; assumption|reflexivity].
Qed.

(** ** Summary used by the behavioural proofs: what every constructed discriminator satisfies. *)
Definition ram_shape (r : ram) : Prop := 2 <= r_base r /\ width_ok (r_base r) (len (r_addresses r)).
Definition fresh (d : disc) : Prop := d_count d = 0 /\ Forall (fun r => ram_shape r /\ r_positions r = ∅) (d_rams d).

Lemma rams_of_fresh indexes n k iz base : 2 <= base -> 0 <= n -> k * n <= len indexes -> width_ok base n ->
  Forall (fun r => ram_shape r /\ r_positions r = ∅) (rams_of indexes n k iz base).
Proof.
  intros Hb Hn Hk Hw. unfold rams_of. apply Forall_fmap, Forall_forall. intros i Hi. apply elem_of_seq in Hi.
  unfold compose. split; [|reflexivity]. split; [exact Hb|]. cbn [r_base r_addresses].
  rewrite sub_indexes_length; [exact Hw|exact Hn|]. unfold len in Hk. nia.
Qed.

Lemma width_dec base n : 2 <= base ->
  (if base =? 2 then n <=? 64 else base ^ n <=? LL_MAX) = true <-> width_ok base n.
Proof. intros _. unfold width_ok. destruct (base =? 2); lia. Qed.

(** Shape of a successful construction. *)
Lemma disc_new_inv dr a e iz c indexes mapping base d :
  valid_draw dr -> len indexes <= INT_MAX -> Forall (fun m => len m <= INT_MAX) mapping ->
  disc_new dr a e iz c indexes mapping base = Ok d ->
  2 <= base /\
  ((mapping <> [] /\ Forall (fun m => width_ok base (len m)) mapping /\ d = Disc e 0 (rams_map mapping iz base)) \/
   (mapping = [] /\ 2 <= a <= e /\ width_ok base a /\
     ((indexes <> [] /\ good_indexes indexes e /\ d = Disc e 0 (rams_of indexes a (e / a) iz base)) \/
      (indexes = [] /\ (e + extra_of e a c <= INT_MAX) /\
        exists idx fs, idx ≡ₚ (Z.of_nat <$> seq 0 (Z.to_nat e)) ++ fs /\ len fs = extra_of e a c /\
          Forall (fun v => 0 <= v < e) fs /\ d = Disc e 0 (rams_of idx a (rams_count e a c) iz base))))).
Proof.
  intros Hdr Hli Hlm. unfold disc_new. destruct mapping as [|m0 mapping]; cbn [length Nat.eqb negb].
  2:{ intros H. apply setRAMByMapping_inv in H; [|exact Hlm]. destruct H as (H1 & H2 & H3). split; [exact H1|].
      left. split; [congruence|]. auto. }
  destruct indexes as [|i0 indexes]; cbn [length Nat.eqb negb].
  - intros H. 
    assert (2 <= a <= e) as Ha.
    { unfold setRAMShuffle in H. destruct (checkAddressSize_cases e a) as [E|[m E]]; rewrite E in H; [|discriminate]. apply checkAddressSize_ok, E. }
    unfold setRAMShuffle in H. rewrite (proj2 (checkAddressSize_ok e a) Ha) in H. cbn [rbind] in H.
    destruct (checkBase_cases base) as [E|[m E]]; rewrite E in H; [|discriminate]. apply checkBase_ok in E. cbn [rbind] in H.
    fold (extra_of e a c) in H. fold (rams_count e a c) in H.
    destruct (int_of (e + extra_of e a c)) eqn:Ei; cbn [rbind] in H; try discriminate. apply int_of_inv in Ei as [_ Hi].
    destruct (count_extra e a c Ha) as (Hk & Hx & Hle & _).
    destruct (fillers_ok dr e (Z.to_nat (extra_of e a c)) Hdr ltac:(lia)) as (fs & Hfs & Hl & Hf).
    rewrite Hfs in H. cbn [rbind] in H.
    set (idx := dr_shuffle dr _) in H.
    assert (idx ≡ₚ (Z.of_nat <$> seq 0 (Z.to_nat e)) ++ fs) as Hp by apply Hdr.
    assert (rams_count e a c * a <= len idx) as Hlen.
    { unfold len. rewrite (Permutation_length Hp), app_length, fmap_length, seq_length. lia. }
    rewrite make_rams_spec in H by lia.
    assert (width_ok base a /\ d = Disc e 0 (rams_of idx a (rams_count e a c) iz base)) as [Hw ->].
    { unfold width_ok. destruct (base =? 2); [destruct (Z.leb_spec a 64)|destruct (Z.leb_spec (base ^ a) LL_MAX)]; cbn [rbind] in H; try discriminate; injection H as <-; auto. }
    split; [exact E|]. right. split; [reflexivity|]. split; [exact Ha|]. split; [exact Hw|]. right.
    split; [reflexivity|]. split; [lia|]. exists idx, fs. repeat split; auto. unfold len. lia.
  - intros H.
    assert (2 <= a <= e) as Ha.
    { unfold setRAMByIndex in H. destruct (checkAddressSize_cases e a) as [E|[m E]]; rewrite E in H; [|discriminate]. apply checkAddressSize_ok, E. }
    assert (2 <= base) as Hb.
    { unfold setRAMByIndex in H. rewrite (proj2 (checkAddressSize_ok e a) Ha) in H. cbn [rbind] in H.
      destruct (checkBase_cases base) as [E|[m E]]; rewrite E in H; [|discriminate]. apply checkBase_ok, E. }
    destruct (checkList_cases (i0 :: indexes) e Hli) as [[_ Hg]|[[m E] _]].
    2:{ exfalso. unfold setRAMByIndex in H. rewrite (proj2 (checkAddressSize_ok e a) Ha), (proj2 (checkBase_ok base) Hb) in H.
        cbn [rbind] in H. rewrite E in H. discriminate. }
    rewrite setRAMByIndex_spec in H by auto.
    split; [exact Hb|]. right. split; [reflexivity|]. split; [exact Ha|].
    assert (width_ok base a /\ d = Disc e 0 (rams_of (i0 :: indexes) a (e / a) iz base)) as [Hw ->].
    { unfold width_ok. destruct (base =? 2); [destruct (Z.leb_spec a 64)|destruct (Z.leb_spec (base ^ a) LL_MAX)]; try discriminate; injection H as <-; auto. }
    split; [exact Hw|]. left. split; [congruence|]. auto.
Qed.

Lemma constructed_fresh d : constructed d -> fresh d.
Proof.
  intros (dr & a & e & iz & c & indexes & mapping & base & Hdr & _ & _ & _ & Hli & Hlm & H).
  apply disc_new_inv in H; auto. destruct H as (Hb & [(_ & Hw & ->)|(_ & Ha & Hw & [(_ & Hg & ->)|(_ & _ & idx & fs & Hp & Hl & _ & ->)])]).
  - split; [reflexivity|]. cbn [d_rams]. unfold rams_map. apply Forall_fmap. eapply Forall_impl; [exact Hw|].
    intros m Hm. unfold compose. split; [|reflexivity]. split; [exact Hb|exact Hm].
  - split; [reflexivity|]. cbn [d_rams]. apply rams_of_fresh; auto; [lia|]. destruct Hg as (-> & _).
    pose proof (Z.div_mod e a ltac:(lia)). pose proof (Z.mod_pos_bound e a ltac:(lia)). lia.
  - split; [reflexivity|]. cbn [d_rams]. destruct (count_extra e a c Ha) as (Hk & Hx & Hle & _).
    apply rams_of_fresh; auto; [lia|]. unfold len. rewrite (Permutation_length Hp), app_length, fmap_length, seq_length. unfold len in Hl. lia.
Qed.
