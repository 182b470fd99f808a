(** Property theorems C77, C78: the Synthesizer. *)
From Verif Require Import Prelude Utils Synth Disc SpecDisc DiscCtorProofs UtilsProofs.

Lemma fill_spec : forall left j v m, 0 <= v <= INT_MAX -> exists m', synth_fill left j v m = Ok m' /\
  forall i, m' !! i = if bool_decide (j <= i < j + Z.min v (Z.of_nat left)) then Some 1 else m !! i.
Proof.
  induction left as [|left IH]; intros j v m Hv; cbn [synth_fill].
  - exists m. split; [reflexivity|]. intros i. rewrite bool_decide_eq_false_2 by lia. reflexivity.
  - destruct (Z.eqb_spec v 0) as [->|Hn].
    + exists m. split; [reflexivity|]. intros i. rewrite bool_decide_eq_false_2 by lia. reflexivity.
    + unfold int_of. replace (in_int (v - 1)) with true by (unfold in_int, INT_MIN, INT_MAX in *; lia). cbn [rbind].
      destruct (IH (j + 1) (v - 1) (<[j := 1]> m)) as (m' & -> & H); [lia|]. exists m'. split; [reflexivity|]. intros i. rewrite H.
      destruct (decide (i = j)) as [->|Hij].
      * rewrite bool_decide_eq_false_2 by lia. rewrite bool_decide_eq_true_2 by lia. apply lookup_insert.
      * rewrite lookup_insert_ne by congruence. repeat case_bool_decide; try reflexivity; lia.
Qed.
Lemma max_spec img : 0 <= synth_max img /\ (forall v, v ∈ img -> v <= synth_max img) /\ (synth_max img = 0 \/ synth_max img ∈ img).
Proof.
  unfold synth_max. assert (G : forall l m, let r := foldl (fun m v => if m <? v then v else m) m l in m <= r /\ (forall v, v ∈ l -> v <= r) /\ (r = m \/ r ∈ l)).
  { induction l as [|x l IH]; intros m; cbn [foldl]; [split; [lia|]; split; [intros v Hv; inversion Hv|left; reflexivity]|].
    specialize (IH (if m <? x then x else m)). cbv zeta in IH. destruct IH as (H1 & H2 & H3). cbv zeta.
    assert (Hm : m <= (if m <? x then x else m) /\ x <= (if m <? x then x else m) /\ ((if m <? x then x else m) = m \/ (if m <? x then x else m) = x)) by (destruct (Z.ltb_spec m x); lia).
    split; [lia|]. split.
    - intros v Hv. apply elem_of_cons in Hv as [->|Hv]; [lia|apply H2, Hv].
    - destruct H3 as [->|H3]; [|right; right; exact H3]. destruct Hm as (_ & _ & [->| ->]); [left; reflexivity|right; left]. }
  exact (G img 0).
Qed.
Lemma new_spec img : Forall (fun v => 0 <= v <= INT_MAX) img -> exists s, synth_new img = Ok s /\ sy_maxData s = synth_max img /\
  Forall2 (fun v m => forall i, 0 <= i < synth_max img -> default 0 (m !! i) = if bool_decide (i < v) then 1 else 0) img (sy_cube s).
Proof.
  intros H. unfold synth_new. destruct (max_spec img) as (Hm0 & Hm & _). revert Hm. set (mx := synth_max img) in *. intros Hm.
  assert (G : exists cube, rmapM (fun v => synth_fill (Z.to_nat mx) 0 v ∅) img = Ok cube /\
    Forall2 (fun v m => forall i, 0 <= i < mx -> default 0 (m !! i) = if bool_decide (i < v) then 1 else 0) img cube).
  { clearbody mx. induction H as [|v img Hv _ IH]; [exists []; split; [reflexivity|constructor]|]. destruct IH as (cube & E & HF); [intros x Hx; apply Hm; right; exact Hx|].
    destruct (fill_spec (Z.to_nat mx) 0 v ∅ Hv) as (m & E1 & H1). exists (m :: cube). cbn [rmapM]. rewrite E1. cbn [rbind]. rewrite E. split; [reflexivity|]. constructor; [|exact HF].
    intros i Hi. rewrite H1. assert (v <= mx) by (apply Hm; left). rewrite lookup_empty. repeat case_bool_decide; cbn; try reflexivity; lia. }
  destruct G as (cube & -> & HF). cbn [rbind]. eexists. split; [reflexivity|]. cbn [sy_cube sy_maxData]. auto.
Qed.
Lemma make_spec img s r : Forall (fun v => 0 <= v <= INT_MAX) img -> synth_new img = Ok s -> 0 < synth_max img <= INT_MAX -> 0 <= r <= INT_MAX ->
  synth_make s r = Ok ((fun v => if bool_decide (r mod synth_max img < v) then 1 else 0) <$> img).
Proof.
  intros H E Hm Hr. destruct (new_spec img H) as (s' & E' & Emx & HF). rewrite E in E'. injection E' as <-. unfold synth_make. rewrite Emx.
  unfold int_of at 1. replace (in_int (synth_max img - 1)) with true by (unfold in_int, INT_MIN, INT_MAX in *; lia). cbn [rbind].
  pose proof (Z.mod_pos_bound r (synth_max img) ltac:(lia)) as Hb.
  assert (Hi : randint 0 (synth_max img - 1) r = Ok (r mod synth_max img)).
  { unfold randint. replace (synth_max img - 1 - 0 + 1) with (synth_max img) by lia. unfold int_of at 1.
    replace (in_int (synth_max img)) with true by (unfold in_int, INT_MIN, INT_MAX in *; lia). cbn [rbind].
    destruct (Z.eqb_spec (synth_max img) 0); [lia|]. rewrite Z.rem_mod_nonneg by lia. rewrite Z.add_0_l. unfold int_of.
    replace (in_int (r mod synth_max img)) with true by (unfold in_int, INT_MIN, INT_MAX in *; lia). reflexivity. }
  rewrite Hi. cbn [rbind]. f_equal. clear - HF Hb. revert HF Hb. generalize (synth_max img) as mx. intros mx HF Hb.
  induction HF as [|v m l ms Hv _ IH]; [reflexivity|]. rewrite !fmap_cons, IH. f_equal. apply Hv. exact Hb.
Qed.

(** ** Properties *)
(** The largest intensity. *)
Definition largest (img : list Z) (mx : Z) : Prop := mx ∈ img /\ Forall (fun v => v <= mx) img.
Lemma largest_max img mx : largest img mx -> 0 < mx -> synth_max img = mx.
Proof.
  intros [Hin HF] Hp. destruct (max_spec img) as (H0 & H1 & H2). specialize (H1 mx Hin). rewrite Forall_forall in HF. destruct H2 as [H2|H2]; [lia|]. specialize (HF _ H2). lia.
Qed.
(** A pixel of intensity v is on in the output of draw k exactly when k < v. *)
Definition lit_by (k v o : Z) : Prop := (o = 1 /\ k < v) \/ (o = 0 /\ v <= k).

(** C77: [img] is a mental image with non-negative entries, the largest being mx > 0; r is the
    value of std::rand(). *)
Theorem C77_output_law : forall img mx, Forall (fun v => 0 <= v <= INT_MAX) img -> largest img mx -> 0 < mx ->
  exists s, synth_new img = Ok s /\
    (forall r, 0 <= r <= INT_MAX -> exists out k, synth_make s r = Ok out /\ 0 <= k < mx /\ Forall2 (lit_by k) img out) /\
    (forall k, 0 <= k < mx -> exists out, synth_make s k = Ok out /\ Forall2 (lit_by k) img out).
Proof.
  intros img mx H Hl Hp. pose proof (largest_max img mx Hl Hp) as Em. destruct (new_spec img H) as (s & E & _ & _). exists s. split; [exact E|].
  assert (Hmx : 0 < mx <= INT_MAX) by (destruct Hl as [Hin _]; rewrite Forall_forall in H; specialize (H _ Hin); lia).
  assert (G : forall r, 0 <= r <= INT_MAX -> exists out, synth_make s r = Ok out /\ Forall2 (lit_by (r mod mx)) img out).
  { intros r Hr. eexists. split; [apply (make_spec img s r H E); [rewrite Em; exact Hmx|exact Hr]|]. rewrite Em. apply Forall2_fmap_r. clear.
    induction img as [|v img IH]; constructor; [|exact IH]. unfold compose, lit_by. cbv beta. destruct (decide (r mod mx < v)); [rewrite bool_decide_eq_true_2 by lia|rewrite bool_decide_eq_false_2 by lia]; lia. }
  split.
  - intros r Hr. destruct (G r Hr) as (out & Eo & HF). exists out, (r mod mx). split; [exact Eo|]. split; [apply Z.mod_pos_bound; lia|exact HF].
  - intros k Hk. destruct (G k ltac:(lia)) as (out & Eo & HF). exists out. split; [exact Eo|]. rewrite Z.mod_small in HF by lia. exact HF.
Qed.
Print Assumptions C77_output_law.
(** Over the mx possible draws, pixel i is on exactly img[i] times. *)
Theorem C77_frequency : forall img mx s i v, Forall (fun v => 0 <= v <= INT_MAX) img -> largest img mx -> 0 < mx ->
  synth_new img = Ok s -> img !! i = Some v ->
  exists outs, rmapM (synth_make s) (seqZ 0 mx) = Ok outs /\ zsum ((fun out => default 0 (out !! i)) <$> outs) = v.
Proof.
  intros img mx s i v H Hl Hp E Hi. pose proof (largest_max img mx Hl Hp) as Em.
  assert (Hmx : 0 < mx <= INT_MAX) by (destruct Hl as [Hin _]; rewrite Forall_forall in H; specialize (H _ Hin); lia).
  assert (Hv : 0 <= v <= mx).
  { destruct Hl as [_ HF]. pose proof (Forall_lookup_1 _ _ _ _ HF Hi) as H1. pose proof (Forall_lookup_1 _ _ _ _ H Hi) as H2. cbv beta in *. lia. }
  assert (G : forall ks, Forall (fun k => 0 <= k < mx) ks -> exists outs, rmapM (synth_make s) ks = Ok outs /\
    zsum ((fun out => default 0 (out !! i)) <$> outs) = zsum ((fun k => if bool_decide (k < v) then 1 else 0) <$> ks)).
  { induction 1 as [|k ks Hk _ (outs & E1 & E2)]; [exists []; split; reflexivity|]. cbn [rmapM]. rewrite (make_spec img s k H E) by (rewrite ?Em; lia). cbn [rbind]. rewrite E1. cbn [rbind].
    eexists. split; [reflexivity|]. rewrite !fmap_cons. unfold zsum in *. cbn [foldr]. rewrite E2. f_equal. rewrite list_lookup_fmap, Hi. cbn. rewrite Em, Z.mod_small by lia. reflexivity. }
  destruct (G (seqZ 0 mx)) as (outs & E1 & E2); [apply Forall_forall; intros k Hk; apply elem_of_seqZ in Hk; lia|]. exists outs. split; [exact E1|]. rewrite E2.
  assert (C : forall n : nat, forall a, zsum ((fun k => if bool_decide (k < v) then 1 else 0) <$> seqZ a (Z.of_nat n)) = Z.max 0 (Z.min (Z.of_nat n) (v - a))).
  { induction n as [|n IH]; intros a; [rewrite seqZ_nil by lia; cbn; lia|]. rewrite seqZ_cons by lia. rewrite fmap_cons. unfold zsum in *. cbn [foldr].
    replace (Z.pred (Z.of_nat (S n))) with (Z.of_nat n) by lia. rewrite IH. case_bool_decide; lia. }
  specialize (C (Z.to_nat mx) 0). rewrite Z2Nat.id in C by lia. rewrite C. lia.
Qed.
Print Assumptions C77_frequency.
Definition drawn (img r : list Z) : res (list (list Z)) := let* s := synth_new img in rmapM (synth_make s) r.
Example C77_witness : Forall (fun v => 0 <= v <= INT_MAX) [0; 2; 3; 1] /\ largest [0; 2; 3; 1] 3 /\
  drawn [0; 2; 3; 1] [0; 1; 2; 7] = Ok [[0; 1; 1; 1]; [0; 1; 1; 0]; [0; 0; 1; 0]; [0; 1; 1; 0]].
Proof.
  split; [repeat constructor; vm_compute; congruence|]. split; [|vm_compute; reflexivity]. split; [right; right; left|]. repeat constructor; lia.
Qed.

(** C78 is false: an all-zero image (the mental image of a model trained only on all-zero inputs)
    makes make() divide by zero. *)
Theorem C78_synth_total_refuted : forall n r, exists s, synth_new (repeat 0 n) = Ok s /\ synth_make s r = UB UBDivZero.
Proof.
  intros n r. assert (Em : synth_max (repeat 0 n) = 0).
  { destruct (max_spec (repeat 0 n)) as (_ & _ & [H|H]); [exact H|]. apply elem_of_list_In, repeat_spec in H. exact H. }
  assert (HF : Forall (fun v => 0 <= v <= INT_MAX) (repeat 0 n)).
  { apply Forall_forall. intros v Hv. apply elem_of_list_In, repeat_spec in Hv. subst. unfold INT_MAX. lia. }
  destruct (new_spec _ HF) as (s & E & Es & _). exists s. split; [exact E|]. unfold synth_make. rewrite Es, Em. reflexivity.
Qed.
Print Assumptions C78_synth_total_refuted.
(** What holds: for non-negative entries the constructor always works, and make() works exactly when some
    entry is positive. *)
Theorem C78_synth_total_partial : forall img, Forall (fun v => 0 <= v <= INT_MAX) img ->
  exists s, synth_new img = Ok s /\
    forall r, 0 <= r <= INT_MAX -> (exists out, synth_make s r = Ok out) <-> Exists (fun v => 0 < v) img.
Proof.
  intros img H. destruct (new_spec img H) as (s & E & Es & _). exists s. split; [exact E|]. intros r Hr. destruct (max_spec img) as (H0 & H1 & H2). split.
  - intros (out & Eo). destruct (decide (synth_max img = 0)) as [Z0|Hn].
    + exfalso. unfold synth_make in Eo. rewrite Es, Z0 in Eo. discriminate.
    + destruct H2 as [H2|H2]; [contradiction|]. apply Exists_exists. exists (synth_max img). split; [exact H2|lia].
  - intros Hex. apply Exists_exists in Hex as (v & Hin & Hv). specialize (H1 v Hin). eexists. apply (make_spec img s r H E); [|exact Hr].
    destruct H2 as [H2|H2]; [lia|]. rewrite Forall_forall in H. specialize (H _ H2). lia.
Qed.
Print Assumptions C78_synth_total_partial.
Example C78_witness : Forall (fun v => 0 <= v <= INT_MAX) [0; 2] /\ Exists (fun v => 0 < v) [0; 2] /\ drawn [0; 2] [5] = Ok [[0; 1]] /\ drawn [0; 0] [5] = UB UBDivZero.
Proof. split; [repeat constructor; vm_compute; congruence|]. split; [right; left; lia|]. split; vm_compute; reflexivity. Qed.
