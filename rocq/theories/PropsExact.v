(** Exact outcomes for C22, C23, C24: what construction and use do with every kind of argument. *)
From Verif Require Import Prelude Bytes Utils BinInput Ram Disc SpecDisc BytesProofs UtilsProofs TextProofs BinProofs DiscCtorProofs CtorFacts.

(** ** C22 *)
(** The three outcomes of asking for RAMs of a inputs: base 2 is limited to 64 inputs by an
    exception; any other base is accepted up to 2^63-1 addresses and undefined beyond. *)
Definition limit_outcome (base a : Z) {A} (outcome : res A) : Prop :=
  (base = 2 -> a <= 64 -> exists d, outcome = Ok d) /\
  (base = 2 -> 64 < a -> outcome = Throw limit_exn) /\
  (base <> 2 -> base ^ a < 2 ^ 63 -> exists d, outcome = Ok d) /\
  (base <> 2 -> 2 ^ 63 <= base ^ a -> outcome = UB UBOverflow).
Lemma limit_cases base a {A} (d : A) : limit_outcome base a (if base =? 2 then if a <=? 64 then Ok d else Throw limit_exn else if base ^ a <=? LL_MAX then Ok d else UB UBOverflow).
Proof.
  unfold limit_outcome. change LL_MAX with (2 ^ 63 - 1). destruct (Z.eqb_spec base 2).
  - split; [intros _ H; destruct (Z.leb_spec a 64); [eauto|lia]|]. split; [intros _ H; destruct (Z.leb_spec a 64); [lia|reflexivity]|]. split; contradiction.
  - split; [contradiction|]. split; [contradiction|]. split; intros _ H; (destruct (Z.leb_spec (base ^ a) (2 ^ 63 - 1)); [|lia || reflexivity]); [eauto|lia].
Qed.
(** Exact outcome of the constructor with random wiring or an index list. *)
Theorem C22_limit_outcome_partial : forall dr a e iz c indexes base, valid_draw dr -> 2 <= a <= e -> 2 <= base -> e + a <= INT_MAX ->
  indexes = [] \/ indexes ≡ₚ (Z.of_nat <$> seq 0 (Z.to_nat e)) ->
  limit_outcome base a (disc_new dr a e iz c indexes [] base).
Proof.
  intros dr a e iz c indexes base Hdr Ha Hb He Hix. destruct Hix as [->|Hix].
  - unfold disc_new. cbn [length Nat.eqb negb]. destruct (setRAMShuffle_spec dr e a iz c base Hdr Ha Hb He) as (idx & fs & _ & _ & _ & ->). apply limit_cases.
  - assert (Hlen : len indexes = e) by (unfold len; rewrite (Permutation_length Hix), fmap_length, seq_length; lia).
    unfold disc_new. cbn [length Nat.eqb negb]. destruct indexes as [|i0 ix]; [change (len []) with 0 in Hlen; lia|]. cbn [length Nat.eqb negb].
    rewrite setRAMByIndex_spec; [apply limit_cases|lia|exact Ha|exact Hb|]. split; [exact Hlen|]. split.
    + apply Forall_forall. intros i Hi. rewrite Hix in Hi. apply elem_of_list_fmap in Hi as (n & -> & Hn). apply elem_of_seq in Hn. lia.
    + rewrite Hix. apply NoDup_fmap_2; [apply _|apply NoDup_seq].
Qed.
Print Assumptions C22_limit_outcome_partial.
(** With a mapping the widest RAM decides. *)
Theorem C22_mapping_outcome_partial : forall dr a e iz c indexes mapping base, mapping <> [] -> 2 <= base -> Forall (fun m => len m <= INT_MAX) mapping ->
  forall widest, widest ∈ mapping -> Forall (fun m => len m <= len widest) mapping ->
  limit_outcome base (len widest) (disc_new dr a e iz c indexes mapping base).
Proof.
  intros dr a e iz c indexes mapping base Hne Hb Hl m Hm Hmax. unfold disc_new. destruct mapping as [|m0 ms]; [congruence|]. cbn [length Nat.eqb negb].
  unfold setRAMByMapping. rewrite (proj2 (checkBase_ok base)) by exact Hb. cbn [rbind].
  assert (Hgood : width_ok base (len m) -> exists d, (let* rams := rmapM (fun addrs => ram_new addrs iz base) (m0 :: ms) in Ok (Disc e 0 rams)) = Ok d).
  { intros Hw. rewrite (rmapM_total _ (fun m => Ram m ∅ iz base)); [eexists; reflexivity|]. intros x Hx. rewrite Forall_forall in Hl, Hmax. apply ram_new_width; [exact Hb|apply Hl, Hx|].
    specialize (Hmax x Hx). cbv beta in Hmax. unfold width_ok in *. destruct (base =? 2); [lia|]. etransitivity; [|exact Hw]. apply Z.pow_le_mono_r; [lia|exact Hmax]. }
  assert (Hbad : forall o : res ram, (forall x, x ∈ m0 :: ms -> ram_new x iz base = o \/ exists r, ram_new x iz base = Ok r) -> ram_new m iz base = o -> (forall r, o <> Ok r) ->
    (let* rams := rmapM (fun addrs => ram_new addrs iz base) (m0 :: ms) in Ok (Disc e 0 rams)) = match o with Ok _ => Hang | Throw t => Throw t | UB u => UB u | Hang => Hang end).
  { intros o Hx Ho Hno. assert (G : forall l, (forall x, x ∈ l -> ram_new x iz base = o \/ exists r, ram_new x iz base = Ok r) -> m ∈ l ->
      rmapM (fun addrs => ram_new addrs iz base) l = match o with Ok _ => Hang | Throw t => Throw t | UB u => UB u | Hang => Hang end).
    { induction l as [|y l IH]; intros Hall Hin; [inversion Hin|]. cbn [rmapM]. destruct (Hall y ltac:(left)) as [Ey|[r Ey]].
      - rewrite Ey. destruct o; [edestruct Hno; reflexivity|reflexivity..].
      - rewrite Ey. cbn [rbind]. apply elem_of_cons in Hin as [<-|Hin]; [rewrite Ho in Ey; destruct (Hno _ Ey)|]. rewrite IH; [|intros x Hxl; apply Hall; right; exact Hxl|exact Hin]. destruct o; reflexivity. }
    rewrite (G _ Hx Hm). destruct o; reflexivity. }
  assert (Hspec : forall x, x ∈ m0 :: ms -> ram_new x iz base = if base =? 2 then if len x <=? 64 then Ok (Ram x ∅ iz base) else Throw limit_exn else if base ^ len x <=? LL_MAX then Ok (Ram x ∅ iz base) else UB UBOverflow).
  { intros x Hx. rewrite Forall_forall in Hl. apply ram_new_spec; [exact Hb|apply Hl, Hx]. }
  unfold limit_outcome. change (2 ^ 63) with (LL_MAX + 1). split; [|split; [|split]].
  - intros E2 H. apply Hgood. unfold width_ok. rewrite E2. exact H.
  - intros E2 H. refine (Hbad (Throw limit_exn) _ _ _); [| |discriminate].
    + intros x Hx. rewrite (Hspec x Hx), E2. cbn. destruct (len x <=? 64); eauto.
    + rewrite (Hspec m Hm), E2. cbn. destruct (Z.leb_spec (len m) 64); [lia|reflexivity].
  - intros E2 H. apply Hgood. unfold width_ok. rewrite (proj2 (Z.eqb_neq base 2) E2). lia.
  - intros E2 H. refine (Hbad (UB UBOverflow) _ _ _); [| |discriminate].
    + intros x Hx. rewrite (Hspec x Hx), (proj2 (Z.eqb_neq base 2) E2). destruct (base ^ len x <=? LL_MAX); eauto.
    + rewrite (Hspec m Hm), (proj2 (Z.eqb_neq base 2) E2). destruct (Z.leb_spec (base ^ len m) LL_MAX); [lia|reflexivity].
Qed.
Print Assumptions C22_mapping_outcome_partial.
Example C22_outcome_witness : disc_new some_draw 65 65 false true [] [] 2 = Throw limit_exn /\ 2 ^ 63 <= 3 ^ 40 <= W64 /\ disc_new some_draw 40 40 false true [] [] 3 = UB UBOverflow /\
  3 ^ 39 < 2 ^ 63 /\ (exists d, disc_new some_draw 39 39 false true [] [] 3 = Ok d) /\ disc_new some_draw 0 50 false true [] [[1]; Z.of_nat <$> seq 0 41] 3 = UB UBOverflow.
Proof. split; [vm_compute; reflexivity|]. split; [vm_compute; split; congruence|]. split; [vm_compute; reflexivity|]. split; [vm_compute; reflexivity|]. split; [eexists; vm_compute; reflexivity|vm_compute; reflexivity]. Qed.

(** ** C23 *)
(** Exact acceptance of an index list; negative entries are never looked at. *)
Theorem C23_acceptance_partial : forall dr a e iz c indexes base, indexes <> [] -> len indexes <= INT_MAX -> 2 <= a <= e -> 2 <= base -> fits base a ->
  (len indexes = e /\ Forall (fun i => i < e) indexes /\ NoDup indexes -> exists d, disc_new dr a e iz c indexes [] base = Ok d) /\
  (~ (len indexes = e /\ Forall (fun i => i < e) indexes /\ NoDup indexes) -> exists m, disc_new dr a e iz c indexes [] base = Throw (EWisard m)).
Proof.
  intros dr a e iz c indexes base Hne Hl Ha Hb Hf. apply fits_width in Hf.
  assert (Hd : disc_new dr a e iz c indexes [] base = setRAMByIndex indexes e a iz base).
  { unfold disc_new. cbn [length Nat.eqb negb]. destruct indexes; [congruence|]. reflexivity. }
  rewrite Hd. split; intros Hg.
  - rewrite (setRAMByIndex_spec indexes e a iz base Hl Ha Hb Hg). unfold width_ok in Hf. destruct (base =? 2); [destruct (Z.leb_spec a 64)|destruct (Z.leb_spec (base ^ a) LL_MAX)]; (eauto || lia).
  - unfold setRAMByIndex. rewrite (proj2 (checkAddressSize_ok e a)) by exact Ha. rewrite (proj2 (checkBase_ok base)) by exact Hb. cbn [rbind].
    destruct (checkList_cases indexes e Hl) as [[_ H]|[[m E] _]]; [contradiction|]. rewrite E. exists m. reflexivity.
Qed.
Print Assumptions C23_acceptance_partial.
Example C23_acceptance_witness : (exists d, disc_new some_draw 2 4 false true [0; -7; 2; -1] [] 2 = Ok d) /\ (exists m, disc_new some_draw 2 4 false true [0; 1; 2; 4] [] 2 = Throw (EWisard m)) /\
  (exists m, disc_new some_draw 2 4 false true [0; -1; 2; -1] [] 2 = Throw (EWisard m)) /\ (exists m, disc_new some_draw 2 4 false true [0; 1; 2] [] 2 = Throw (EWisard m)).
Proof. repeat split; eexists; vm_compute; reflexivity. Qed.

(** ** C24 *)
Lemma list_index addrs base l : Forall (fun v => 0 <= v < base) l -> forall i p,
  (Forall (fun a => 0 <= a < len l) addrs -> exists k, getIndex_loop addrs base (vec_image l) i p = Ok k) /\
  (~ Forall (fun a => 0 <= a < len l) addrs -> getIndex_loop addrs base (vec_image l) i p = UB UBIndex).
Proof.
  intros Hv. induction addrs as [|a addrs IH]; intros i p; cbn [getIndex_loop].
  - split; [eauto|]. intros H. destruct H. constructor.
  - change (im_get (vec_image l) a) with (vget l a). destruct (decide (0 <= a < len l)) as [Hr|Hr].
    + destruct (vget_some l a Hr) as (v & Ev & ->). cbn [rbind]. pose proof (Forall_lookup_1 _ _ _ _ Hv Ev) as Hvb. cbv beta in Hvb. unfold checkPos.
      destruct (Z.leb_spec base v); [lia|]. cbn [rbind]. destruct (IH (u64 (i + u64 v * p)) (u64 (p * u64 base))) as (H1 & H2). split; intros HF.
      * apply H1. apply Forall_cons in HF. apply HF.
      * apply H2. intros HF'. apply HF. constructor; assumption.
    + split; [intros HF; apply Forall_cons in HF; destruct HF; contradiction|]. intros _.
      assert (vget l a = UB UBIndex) as ->; [|reflexivity]. unfold vget. destruct (Z.leb_spec 0 a); [|reflexivity].
      rewrite lookup_ge_None_2; [reflexivity|]. unfold len in Hr. lia.
Qed.
Lemma update_all (f : ram -> eff ram unit) (P : ram -> Prop) (HD : forall r, Decision (P r)) rs :
  (forall r, r ∈ rs -> (P r -> fst (f r) = Ok tt) /\ (~ P r -> fst (f r) = UB UBIndex)) ->
  (Forall P rs -> fst (rams_update f rs) = Ok tt) /\ (~ Forall P rs -> fst (rams_update f rs) = UB UBIndex).
Proof.
  induction rs as [|r rs IH]; intros Hf; cbn [rams_update]; [split; [reflexivity|]; intros H; destruct H; constructor|].
  destruct (Hf r ltac:(left)) as (F1 & F2). destruct IH as (I1 & I2); [intros x Hx; apply Hf; right; exact Hx|]. destruct (f r) as [o r']. cbn [fst] in F1, F2. destruct (HD r) as [Hr|Hr].
  - rewrite (F1 Hr). destruct (rams_update f rs) as [o2 rs2]. cbn [fst] in *. split; intros H.
    + apply I1. apply Forall_cons in H. apply H.
    + apply I2. intros H'. apply H. constructor; assumption.
  - rewrite (F2 Hr). cbn [fst]. split; [intros H; apply Forall_cons in H; destruct H; contradiction|reflexivity].
Qed.
(** For an image given as a list with values the RAMs accept, in any state of the counters below
    their limit: everything works if all positions lie inside the image, and classify, train and
    untrain read out of bounds as soon as one does not. *)
Theorem C24_list_outcome_partial : forall d l, len l = d_entrySize d -> len l <= INT_MAX -> Forall (fun r => Forall (fun v => 0 <= v < r_base r) l) (d_rams d) ->
  INT_MIN < d_count d < INT_MAX -> Forall (fun r => map_Forall (fun _ v => INT_MIN < v < INT_MAX) (r_positions r)) (d_rams d) ->
  (wired_inside d -> (exists votes, disc_classify d (vec_image l) = Ok votes) /\ fst (disc_train d (vec_image l)) = Ok tt /\ fst (disc_untrain d (vec_image l)) = Ok tt) /\
  (~ wired_inside d -> disc_classify d (vec_image l) = UB UBIndex /\ fst (disc_train d (vec_image l)) = UB UBIndex /\ fst (disc_untrain d (vec_image l)) = UB UBIndex).
Proof.
  intros d l Hl Hlm Hv Hc Hp. pose proof (len_nonneg l) as Hl0. assert (Hce : checkEntrySize (d_entrySize d) (im_size (vec_image l)) = Ok tt).
  { change (im_size (vec_image l)) with (len l). rewrite <- Hl. unfold checkEntrySize. rewrite s32_id by (unfold INT_MIN; lia). rewrite Z.eqb_refl. reflexivity. }
  assert (Hint : forall z, INT_MIN <= z <= INT_MAX -> int_of z = Ok z).
  { intros z Hz. unfold int_of, in_int. rewrite (proj2 (Z.leb_le INT_MIN z)), (proj2 (Z.leb_le z INT_MAX)) by lia. reflexivity. }
  assert (Htr : fst (disc_train d (vec_image l)) = fst (rams_update (fun r => ram_train r (vec_image l)) (d_rams d))).
  { unfold disc_train. rewrite Hce, Hint by lia. destruct (rams_update _ _). reflexivity. }
  assert (Hun : fst (disc_untrain d (vec_image l)) = fst (rams_update (fun r => ram_untrain r (vec_image l)) (d_rams d))).
  { unfold disc_untrain. rewrite Hce, Hint by lia. destruct (rams_update (fun r => ram_untrain r (vec_image l)) (d_rams d)). reflexivity. }
  rewrite Htr, Hun. clear Htr Hun. unfold disc_classify. rewrite Hce. cbn [rbind]. unfold wired_inside. rewrite <- Hl.
  assert (Hgi : forall r, r ∈ d_rams d -> (Forall (fun a => 0 <= a < len l) (r_addresses r) -> exists k, getIndex r (vec_image l) = Ok k) /\ (~ Forall (fun a => 0 <= a < len l) (r_addresses r) -> getIndex r (vec_image l) = UB UBIndex)).
  { intros r Hr. rewrite Forall_forall in Hv. exact (list_index (r_addresses r) (r_base r) l (Hv r Hr) 0 1). }
  rewrite Forall_forall in Hp.
  destruct (update_all (fun r => ram_train r (vec_image l)) (fun r => Forall (fun a => 0 <= a < len l) (r_addresses r)) (fun r => _) (d_rams d)) as (T1 & T2).
  { intros r Hr. destruct (Hgi r Hr) as (G1 & G2). unfold ram_train. split; intros H; [|rewrite (G2 H); reflexivity].
    destruct (G1 H) as (k & ->). destruct (r_positions r !! k) as [v|] eqn:Ev; [|reflexivity]. specialize (Hp r Hr k v Ev). cbv beta in Hp. rewrite Hint by lia. reflexivity. }
  destruct (update_all (fun r => ram_untrain r (vec_image l)) (fun r => Forall (fun a => 0 <= a < len l) (r_addresses r)) (fun r => _) (d_rams d)) as (U1 & U2).
  { intros r Hr. destruct (Hgi r Hr) as (G1 & G2). unfold ram_untrain. split; intros H; [|rewrite (G2 H); reflexivity].
    destruct (G1 H) as (k & ->). destruct (r_positions r !! k) as [v|] eqn:Ev; [|reflexivity]. specialize (Hp r Hr k v Ev). cbv beta in Hp. rewrite Hint by lia. reflexivity. }
  assert (Hcl : (Forall (fun r => Forall (fun a => 0 <= a < len l) (r_addresses r)) (d_rams d) -> exists votes, rmapM (fun r => getVote r (vec_image l)) (d_rams d) = Ok votes) /\
    (~ Forall (fun r => Forall (fun a => 0 <= a < len l) (r_addresses r)) (d_rams d) -> rmapM (fun r => getVote r (vec_image l)) (d_rams d) = UB UBIndex)).
  { clear -Hgi. induction (d_rams d) as [|r rs IH]; cbn [rmapM]; [split; [eauto|]; intros H; destruct H; constructor|].
    destruct (Hgi r ltac:(left)) as (G1 & G2). destruct IH as (I1 & I2); [intros x Hx; apply Hgi; right; exact Hx|].
    destruct (decide (Forall (fun a => 0 <= a < len l) (r_addresses r))) as [Hin|Hout].
    - destruct (G1 Hin) as (k & Ek). assert (exists v, getVote r (vec_image l) = Ok v) as (v & ->).
      { unfold getVote. rewrite Ek. cbn [rbind]. destruct (_ && _); [eauto|]. destruct (_ !! _); eauto. }
      cbn [rbind]. split; intros H.
      + apply Forall_cons in H as [_ H]. destruct (I1 H) as (vs & ->). eexists. reflexivity.
      + rewrite I2; [reflexivity|]. intros H'. apply H. constructor; assumption.
    - unfold getVote at 1 3. rewrite (G2 Hout). cbn [rbind]. split; [intros H; apply Forall_cons in H; destruct H; contradiction|reflexivity]. }
  destruct Hcl as (C1 & C2). split; intros H; auto.
Qed.
Print Assumptions C24_list_outcome_partial.
Example C24_outcome_witness : exists d, disc_new some_draw 2 2 false true [] [[0; 1]; [1; 2]] 2 = Ok d /\ ~ wired_inside d /\ len [1; 0] = d_entrySize d /\ d_count d = 0 /\
  Forall (fun r => Forall (fun v => 0 <= v < r_base r) [1; 0]) (d_rams d) /\ disc_classify d (vec_image [1; 0]) = UB UBIndex.
Proof.
  eexists. split; [vm_compute; reflexivity|]. split; [|split; [reflexivity|]; split; [reflexivity|]; split; [repeat constructor; vm_compute; congruence|vm_compute; reflexivity]].
  intros H. unfold wired_inside in H. apply Forall_cons in H as [_ H]. apply Forall_cons in H as [H _]. apply Forall_cons in H as [_ H]. apply Forall_cons in H as [H _]. cbn in H. lia.
Qed.
