(** The float ratios reported by the Python wrappers, through Flocq's real-number semantics
    (standard library Reals axioms). *)
From Coq Require Import SpecFloat Reals Psatz.
From Flocq Require Import Core BinarySingleNaN.
From Verif Require Import Prelude Bytes Bleaching Float32 SpecDisc Wrapper BleachProofs ScoreProofs.
Local Open Scope Z_scope.

Local Existing Instance Hprec.
Local Existing Instance Hmax.
Local Existing Instance Vexp.

(** [f] is the fraction a/b to 25 bits: in [0,1], and exactly 0 or 1 only when a/b is. *)
Definition ratio_of (f : f32) (a b : Z) : Prop :=
  f32_leb f32_zero f = true /\ f32_leb f f32_one = true /\
  (Rabs (SF2R radix2 f - IZR a / IZR b) <= / 33554432)%R /\
  (f32_eqb f f32_zero = true <-> a = 0) /\ (f32_eqb f f32_one = true <-> a = b).

Lemma half_ulp_unit x : (0 <= x <= 1)%R -> (Rabs (rnd x - x) <= / 33554432)%R.
Proof.
  intros Hx. destruct (Req_dec x 1) as [->|Hn].
  { rewrite rnd_id by (apply (fmt_Z 1); lia). rewrite Rminus_diag_eq by reflexivity. rewrite Rabs_R0. lra. }
  destruct (Req_dec x 0) as [->|H0].
  { rewrite rnd_id by apply generic_format_0. rewrite Rminus_diag_eq by reflexivity. rewrite Rabs_R0. lra. }
  apply Rle_trans with (/ 2 * ulp radix2 (SpecFloat.fexp 24 128) x)%R; [apply error_le_half_ulp; exact Vexp|].
  rewrite ulp_neq_0 by assumption. unfold cexp.
  assert (Hm : (mag radix2 x <= 0)%Z). { apply mag_le_bpow; [assumption|]. rewrite Rabs_pos_eq by lra. simpl. lra. }
  apply Rle_trans with (/ 2 * bpow radix2 (-24))%R; [|simpl; lra].
  apply Rmult_le_compat_l; [lra|]. apply bpow_le. unfold SpecFloat.fexp, emin. lia.
Qed.

Lemma finite_inj (x y : bf) : is_finite x = true -> is_finite y = true -> (B2R x = B2R y)%R -> (B2R x <> 0)%R -> x = y.
Proof.
  intros Hx Hy E Hn. apply B2R_inj; [| |exact E].
  - destruct x; try discriminate; [simpl in Hn; lra|reflexivity].
  - rewrite E in Hn. destruct y; try discriminate; [simpl in Hn; lra|reflexivity].
Qed.

Lemma ratio_law a b : 0 <= a <= b -> 0 < b <= 2 ^ 24 -> ratio_of (f32_div (f32_of_Z a) (f32_of_Z b)) a b.
Proof.
  intros Ha Hb. unfold ratio_of. rewrite !of_Z_equiv, div_equiv.
  destruct (bz_exact a) as [Ra Fa]; [lia|]. destruct (bz_exact b) as [Rb Fb]; [lia|].
  assert (HA : (0 <= IZR a)%R) by (apply IZR_le; lia). assert (HB : (1 <= IZR b)%R) by (apply IZR_le; lia).
  assert (HAB : (IZR a <= IZR b)%R) by (apply IZR_le; lia).
  set (x := (IZR a / IZR b)%R).
  assert (Hx : (0 <= x <= 1)%R).
  { unfold x. split; [apply Rmult_le_pos; [lra|left; apply Rinv_0_lt_compat; lra]|].
    apply Rmult_le_reg_r with (IZR b); [lra|]. unfold Rdiv. rewrite Rmult_assoc, Rinv_l by lra. lra. }
  assert (fmt1 : fmt 1%R) by (apply (fmt_Z 1); lia).
  assert (Hr : (0 <= rnd x <= 1)%R).
  { split; [apply round_ge_generic|apply round_le_generic]; try exact Vexp; try apply valid_rnd_N; try lra; [apply generic_format_0|assumption]. }
  pose proof (Bdiv_correct 24 128 Hprec Hmax mode_NE (bz a) (bz b)) as HC. rewrite Ra, Rb in HC. specialize (HC ltac:(lra)).
  change (round_mode mode_NE) with ZnearestE in HC. fold x in HC. rewrite Rlt_bool_true in HC.
  2:{ rewrite Rabs_pos_eq by lra. apply Rle_lt_trans with 1%R; [lra|]. change 1%R with (bpow radix2 0). apply bpow_lt. lia. }
  destruct HC as (HR & HF & _). rewrite Fa in HF.
  set (q := Bdiv mode_NE (bz a) (bz b)) in *.
  assert (E0 : f32_zero = B2SF (bz 0)) by apply of_Z_equiv. assert (E1 : f32_one = B2SF (bz 1)) by apply of_Z_equiv.
  destruct (bz_exact 0) as [R0 F0]; [lia|]. destruct (bz_exact 1) as [R1 F1]; [lia|].
  rewrite E0, E1. rewrite !leb_R, !eqb_R by assumption. rewrite SF2R_B2SF, HR, R0, R1.
  split; [apply Rle_bool_true; lra|]. split; [apply Rle_bool_true; lra|]. split; [apply half_ulp_unit; exact Hx|]. split.
  - split.
    + intros H. destruct (Req_bool_spec (rnd x) 0) as [Hz|]; [|discriminate].
      destruct (Z.eq_dec a 0) as [|Hne]; [assumption|exfalso].
      assert (H24 : (bpow radix2 (-24) <= x)%R).
      { unfold x. apply Rmult_le_reg_r with (IZR b); [lra|]. unfold Rdiv. rewrite Rmult_assoc, Rinv_l by lra. rewrite Rmult_1_r.
        apply Rle_trans with (bpow radix2 (-24) * bpow radix2 24)%R.
        - apply Rmult_le_compat_l; [apply bpow_ge_0|]. rewrite <- IZR_Zpower by lia. apply IZR_le. change (Zpower radix2 24) with (2 ^ 24). lia.
        - rewrite <- bpow_plus. simpl. apply IZR_le. lia. }
      assert ((bpow radix2 (-24) <= rnd x)%R) by (apply round_ge_generic; [exact Vexp|apply valid_rnd_N|apply fmt_pow; lia|assumption]).
      pose proof (bpow_gt_0 radix2 (-24)). lra.
    + intros ->. apply Req_bool_true. unfold x. unfold Rdiv. rewrite Rmult_0_l. apply rnd_id. apply generic_format_0.
  - split.
    + intros H. destruct (Req_bool_spec (rnd x) 1) as [Hz|]; [|discriminate].
      destruct (Z.eq_dec a b) as [|Hne]; [assumption|exfalso].
      assert (HF1 : (F2R (Float radix2 (2 ^ 24 - 1) (-24)) = 1 - bpow radix2 (-24))%R).
      { unfold F2R. cbn [Fnum Fexp]. rewrite minus_IZR. change (IZR (2 ^ 24)) with (bpow radix2 24). rewrite Rmult_minus_distr_r, <- bpow_plus. simpl. lra. }
      assert (Hl : (x <= F2R (Float radix2 (2 ^ 24 - 1) (-24)))%R).
      { rewrite HF1. unfold x. apply Rmult_le_reg_r with (IZR b); [lra|]. unfold Rdiv. rewrite Rmult_assoc, Rinv_l by lra. rewrite Rmult_1_r.
        assert (IZR a <= IZR b - 1)%R by (rewrite <- minus_IZR; apply IZR_le; lia).
        assert (IZR b * bpow radix2 (-24) <= 1)%R.
        { apply Rle_trans with (bpow radix2 24 * bpow radix2 (-24))%R; [|rewrite <- bpow_plus; simpl; lra].
          apply Rmult_le_compat_r; [apply bpow_ge_0|]. rewrite <- IZR_Zpower by lia. apply IZR_le. change (Zpower radix2 24) with (2 ^ 24). lia. }
        lra. }
      assert (Hr' : (rnd x <= F2R (Float radix2 (2 ^ 24 - 1) (-24)))%R) by (apply round_le_generic; [exact Vexp|apply valid_rnd_N|apply fmt_scaled; lia|assumption]).
      pose proof (bpow_gt_0 radix2 (-24)). lra.
    + intros ->. apply Req_bool_true. unfold x, Rdiv. rewrite Rinv_r by lra. apply rnd_id. assumption.
Qed.

(** Exact integer arithmetic up to 2^24. *)
Lemma of_Z_leb a b : 0 <= a <= 2 ^ 24 -> 0 <= b <= 2 ^ 24 -> f32_leb (f32_of_Z a) (f32_of_Z b) = (a <=? b).
Proof.
  intros Ha Hb. rewrite !of_Z_equiv. destruct (bz_exact a Ha) as [Ra Fa]. destruct (bz_exact b Hb) as [Rb Fb].
  rewrite leb_R by assumption. rewrite Ra, Rb. destruct (Z.leb_spec a b) as [H|H].
  - apply Rle_bool_true, IZR_le, H.
  - apply Rle_bool_false, IZR_lt, H.
Qed.
Lemma of_Z_eqb a b : 0 <= a <= 2 ^ 24 -> 0 <= b <= 2 ^ 24 -> f32_eqb (f32_of_Z a) (f32_of_Z b) = (a =? b).
Proof.
  intros Ha Hb. rewrite !of_Z_equiv. destruct (bz_exact a Ha) as [Ra Fa]. destruct (bz_exact b Hb) as [Rb Fb].
  rewrite eqb_R by assumption. rewrite Ra, Rb. destruct (Z.eqb_spec a b) as [->|H].
  - apply Req_bool_true. reflexivity.
  - apply Req_bool_false. apply IZR_neq, H.
Qed.
Lemma sub_equiv (x y : bf) : f32_sub (B2SF x) (B2SF y) = B2SF (Bminus mode_NE x y).
Proof.
  unfold f32_sub. case x as [sx|sx| |sx mx ex Bx]; case y as [sy|sy| |sy my ey By]; try reflexivity; try (destruct sx, sy; reflexivity).
  etransitivity; [|apply normalize_equiv]. cbn [SFsub B2SF]. f_equal. destruct sy; cbn [negb cond_Zopp]; unfold Fplus_naive, SpecFloat.cond_Zopp, Zaux.cond_Zopp; lia.
Qed.
Lemma of_Z_sub a b : 0 <= b < a -> a <= 2 ^ 24 -> f32_sub (f32_of_Z a) (f32_of_Z b) = f32_of_Z (a - b).
Proof.
  intros Hb Ha. rewrite !of_Z_equiv, sub_equiv. f_equal.
  destruct (bz_exact a) as [Ra Fa]; [lia|]. destruct (bz_exact b) as [Rb Fb]; [lia|]. destruct (bz_exact (a - b)) as [Rd Fd]; [lia|].
  pose proof (Bminus_correct 24 128 Hprec Hmax mode_NE (bz a) (bz b) Fa Fb) as HC. rewrite Ra, Rb, <- minus_IZR in HC.
  change (round_mode mode_NE) with ZnearestE in HC. rewrite rnd_id in HC by (apply fmt_Z24; lia).
  rewrite Rlt_bool_true in HC.
  2:{ rewrite <- abs_IZR. apply Rlt_le_trans with (bpow radix2 25); [|apply bpow_le; lia]. rewrite <- IZR_Zpower by lia. apply IZR_lt. change (Zpower radix2 25) with (2 ^ 25). lia. }
  destruct HC as (HC1 & HC2 & _). apply finite_inj; [exact HC2|exact Fd|rewrite Rd; exact HC1|]. 
  rewrite HC1. apply IZR_neq. lia.
Qed.
Lemma of_Z_add a b : 0 <= a -> 0 <= b -> a + b <= 2 ^ 24 -> f32_add (f32_of_Z a) (f32_of_Z b) = f32_of_Z (a + b).
Proof.
  intros Ha Hb Hs. destruct (Z.eq_dec (a + b) 0) as [E|E].
  { assert (a = 0) as -> by lia. assert (b = 0) as -> by lia. reflexivity. }
  rewrite !of_Z_equiv, add_equiv. f_equal.
  destruct (bz_exact a) as [Ra Fa]; [lia|]. destruct (bz_exact b) as [Rb Fb]; [lia|]. destruct (bz_exact (a + b)) as [Rd Fd]; [lia|].
  pose proof (Bplus_correct 24 128 Hprec Hmax mode_NE (bz a) (bz b) Fa Fb) as HC. rewrite Ra, Rb, <- plus_IZR in HC.
  change (round_mode mode_NE) with ZnearestE in HC. rewrite rnd_id in HC by (apply fmt_Z24; lia).
  rewrite Rlt_bool_true in HC.
  2:{ rewrite <- abs_IZR. apply Rlt_le_trans with (bpow radix2 25); [|apply bpow_le; lia]. rewrite <- IZR_Zpower by lia. apply IZR_lt. change (Zpower radix2 25) with (2 ^ 25). lia. }
  destruct HC as (HC1 & HC2 & _). apply finite_inj; [exact HC2|exact Fd|rewrite Rd; exact HC1|].
  rewrite HC1. apply IZR_neq. lia.
Qed.

(** The runner-up: the largest count below b, 0 if there is none. *)
Definition runner_up (b : Z) (m : gmap str Z) (s : Z) : Prop :=
  0 <= s < b /\ (forall k v, m !! k = Some v -> v < b -> v <= s) /\ (s = 0 \/ exists k, m !! k = Some s).

Lemma second_scan_law b l : b <= 2 ^ 24 -> Forall (fun kv : str * Z => 0 <= kv.2) l -> forall s0, 0 <= s0 < b ->
  exists s, second_scan b l (f32_of_Z s0) = f32_of_Z s /\ s0 <= s < b /\
    Forall (fun kv : str * Z => kv.2 < b -> kv.2 <= s) l /\ (s = s0 \/ exists k, (k, s) ∈ l).
Proof.
  intros Hb HF. induction HF as [|[k v] l Hv HF IH]; intros s0 Hs0; cbn [second_scan].
  - exists s0. split; [reflexivity|]. split; [lia|]. split; [apply Forall_nil; exact I|left; reflexivity].
  - cbn [snd] in Hv. destruct (Z.ltb_spec v b) as [Hlt|Hge].
    + rewrite of_Z_leb by lia. rewrite andb_true_r. destruct (Z.leb_spec s0 v) as [Hle|Hgt].
      * destruct (IH v ltac:(lia)) as (s & E & Hs & HA & Hi). exists s. split; [exact E|]. split; [lia|]. split; [apply Forall_cons; split; [cbn; lia|exact HA]|].
        right. destruct Hi as [->|[k' Hk']]; [exists k; left|exists k'; right; exact Hk'].
      * destruct (IH s0 ltac:(lia)) as (s & E & Hs & HA & Hi). exists s. split; [exact E|]. split; [lia|]. split; [apply Forall_cons; split; [cbn; lia|exact HA]|].
        destruct Hi as [->|[k' Hk']]; [left; reflexivity|right; exists k'; right; exact Hk'].
    + rewrite andb_false_r. destruct (IH s0 ltac:(lia)) as (s & E & Hs & HA & Hi). exists s. split; [exact E|]. split; [lia|]. split; [apply Forall_cons; split; [cbn; lia|exact HA]|].
      destruct Hi as [->|[k' Hk']]; [left; reflexivity|right; exists k'; right; exact Hk'].
Qed.
Lemma confidence_law m b : 0 < b <= 2 ^ 24 -> (forall k v, m !! k = Some v -> 0 <= v) ->
  exists s, runner_up b m s /\ ratio_of (getConfidence m b) (b - s) b.
Proof.
  intros Hb Hm. destruct (second_scan_law b (sorted_items m) ltac:(lia)) with (s0 := 0) as (s & E & Hs & HA & Hi).
  { apply Forall_forall. intros [k v] Hk. apply (Hm k). apply BleachProofs.sorted_items_elem, Hk. }
  { lia. }
  exists s. split.
  - split; [lia|]. split.
    + intros k v Hk Hv. rewrite Forall_forall in HA. apply (HA (k, v)); [apply BleachProofs.sorted_items_elem, Hk|exact Hv].
    + destruct Hi as [->|[k Hk]]; [left; reflexivity|right; exists k; apply BleachProofs.sorted_items_elem, Hk].
  - unfold getConfidence. change f32_zero with (f32_of_Z 0). rewrite E. rewrite of_Z_sub by lia. apply ratio_law; lia.
Qed.

Definition counts_sum (m : gmap str Z) : Z := zsum (snd <$> map_to_list m).
Lemma total_law l : Forall (fun kv : str * Z => 0 <= kv.2) l -> forall s, 0 <= s -> s + zsum (snd <$> l) <= 2 ^ 24 ->
  foldl (fun t (kv : str * Z) => f32_add t (f32_of_Z kv.2)) (f32_of_Z s) l = f32_of_Z (s + zsum (snd <$> l)).
Proof.
  intros HF. induction HF as [|[k v] l Hv HF IH]; intros s Hs Hlt; cbn [foldl].
  - cbn. f_equal. lia.
  - rewrite fmap_cons in *. cbn [snd zsum foldr] in *. fold (zsum (snd <$> l)) in *.
    assert (0 <= zsum (snd <$> l)). { clear - HF. induction HF as [|[k v] l Hv HF IH]; [cbn; lia|]. rewrite fmap_cons. cbn in *. fold (zsum (snd <$> l)) in *. lia. }
    rewrite of_Z_add by lia. rewrite IH by lia. f_equal. lia.
Qed.
Lemma zsum_perm l l' : l ≡ₚ l' -> zsum l = zsum l'.
Proof. intros H. induction H; cbn in *; fold zsum in *; try (fold (zsum l) in *); try (fold (zsum l') in *); try lia. Qed.
Lemma degrees_law name m : (forall k v, m !! k = Some v -> 0 <= v) -> counts_sum m <= 2 ^ 24 ->
  Forall2 (fun kv (o : str * f32) => o.1 = name kv.1 /\ ratio_of o.2 kv.2 (Z.max 1 (counts_sum m))) (sorted_items m) (getClassesDegrees name m).
Proof.
  intros Hm Hs. unfold getClassesDegrees.
  assert (HF : Forall (fun kv : str * Z => 0 <= kv.2) (sorted_items m)).
  { apply Forall_forall. intros [k v] Hk. apply (Hm k). apply BleachProofs.sorted_items_elem, Hk. }
  assert (Hsum : zsum (snd <$> sorted_items m) = counts_sum m) by (apply zsum_perm, fmap_Permutation, BleachProofs.sorted_items_perm).
  assert (E : degrees_total (sorted_items m) = f32_of_Z (counts_sum m)).
  { unfold degrees_total. change f32_zero with (f32_of_Z 0). rewrite total_law; [rewrite Hsum; reflexivity|exact HF|lia|lia]. }
  rewrite E. assert (H0 : 0 <= counts_sum m).
  { rewrite <- Hsum. clear - HF. induction HF as [|[k v] l Hv HF IH]; [cbn; lia|]. rewrite fmap_cons. cbn in *. fold (zsum (snd <$> l)) in *. lia. }
  assert (E2 : (if f32_eqb (f32_of_Z (counts_sum m)) f32_zero then f32_one else f32_of_Z (counts_sum m)) = f32_of_Z (Z.max 1 (counts_sum m))).
  { change f32_zero with (f32_of_Z 0). rewrite of_Z_eqb by lia. destruct (Z.eqb_spec (counts_sum m) 0) as [->|Hn]; [reflexivity|f_equal; lia]. }
  rewrite E2. clear E E2. rewrite <- Hsum in *. clear Hsum Hm. set (T := zsum (snd <$> sorted_items m)) in *.
  assert (HT : Forall (fun kv : str * Z => 0 <= kv.2 <= T) (sorted_items m)).
  { apply Forall_forall. intros kv Hkv. rewrite Forall_forall in HF. split; [apply HF, Hkv|].
    apply sum_ge_elem; [|apply elem_of_list_fmap; exists kv; auto]. apply Forall_forall. intros v Hv. apply elem_of_list_fmap in Hv as (kv' & -> & Hv). apply HF, Hv. }
  clear HF. clearbody T. induction HT as [|[k v] l Hv HT IH]; [constructor|]. rewrite fmap_cons. constructor; [|exact IH].
  cbn in *. split; [reflexivity|]. apply ratio_law; lia.
Qed.
