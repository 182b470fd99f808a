(** KernelCanvas on data with spread: columns of whole numbers that are not all equal have a
    positive finite standard deviation. *)
From Coq Require Import SpecFloat Reals Psatz.
From Flocq Require Import Core BinarySingleNaN.
From Verif Require Import Prelude Float32 Kernel SpecKernel FloatSign KernelFloat KernelProofs KernelReals KernelDead.
Local Open Scope Z_scope.

Local Instance P64 : FLX.Prec_gt_0 53 := eq_refl.
Local Instance M64 : Prec_lt_emax 53 1024 := eq_refl.
Local Instance V64 : Valid_exp (SpecFloat.fexp 53 1024) := fexp_correct 53 1024 P64.

Definition U : Z := 2 ^ 40.
Lemma fmt_pow e : -1074 <= e -> fmt (bpow radix2 e).
Proof. intros H. apply generic_format_bpow. unfold SpecFloat.fexp, SpecFloat.emin. lia. Qed.
Lemma fmt_scaled z e : 0 <= e -> Z.abs z < 2 ^ 53 -> fmt (IZR z * bpow radix2 e).
Proof. intros He Hz. apply (generic_format_FLT radix2 (-1074) 53). exists (Float radix2 z e); [reflexivity|exact Hz|cbn; lia]. Qed.
Lemma rnd_between a b x : fmt a -> fmt b -> (a <= x <= b)%R -> (a <= rnd x <= b)%R.
Proof. intros Ha Hb H. split; [apply round_ge_generic|apply round_le_generic]; try assumption; try apply valid_rnd_N; try exact V64; lra. Qed.
Lemma under_max x e : e < 1024 -> (Rabs x <= bpow radix2 e)%R -> (Rabs x < bpow radix2 1024)%R.
Proof. intros He H. apply Rle_lt_trans with (1 := H). apply bpow_lt, He. Qed.

(** Operations within bounds. *)
Lemma val_sub_rnd x y a b e : val x a -> val y b -> e < 1024 -> (Rabs (rnd (a - b)) <= bpow radix2 e)%R -> val (f64_sub x y) (rnd (a - b)).
Proof.
  intros (bx & -> & Fx & Rx) (by_ & -> & Fy & Ry) He Hs. unfold f64_sub. rewrite sub_equiv.
  pose proof (Bminus_correct 53 1024 P64 M64 mode_NE bx by_ Fx Fy) as H. rewrite Rx, Ry in H. change (round_mode mode_NE) with ZnearestE in H.
  rewrite Rlt_bool_true in H by exact (under_max _ e He Hs). destruct H as (H1 & H2 & _). exists (Bminus mode_NE bx by_). auto.
Qed.
Lemma val_add_rnd x y a b e : val x a -> val y b -> e < 1024 -> (Rabs (rnd (a + b)) <= bpow radix2 e)%R -> val (f64_add x y) (rnd (a + b)).
Proof.
  intros (bx & -> & Fx & Rx) (by_ & -> & Fy & Ry) He Hs. unfold f64_add. rewrite (add_equiv 53 1024 P64 M64).
  pose proof (Bplus_correct 53 1024 P64 M64 mode_NE bx by_ Fx Fy) as H. rewrite Rx, Ry in H. change (round_mode mode_NE) with ZnearestE in H.
  rewrite Rlt_bool_true in H by exact (under_max _ e He Hs). destruct H as (H1 & H2 & _). exists (Bplus mode_NE bx by_). auto.
Qed.
Lemma val_mul_rnd x y a b e : val x a -> val y b -> e < 1024 -> (Rabs (rnd (a * b)) <= bpow radix2 e)%R -> val (f64_mul x y) (rnd (a * b)).
Proof.
  intros (bx & -> & Fx & Rx) (by_ & -> & Fy & Ry) He Hs. unfold f64_mul. rewrite (mul_equiv 53 1024 P64 M64).
  pose proof (Bmult_correct 53 1024 P64 M64 mode_NE bx by_) as H. rewrite Rx, Ry in H. change (round_mode mode_NE) with ZnearestE in H.
  rewrite Rlt_bool_true in H by exact (under_max _ e He Hs). destruct H as (H1 & H2 & _). rewrite Fx, Fy in H2. exists (Bmult mode_NE bx by_). auto.
Qed.
Lemma val_div_rnd x y a b e : val x a -> val y b -> b <> 0%R -> e < 1024 -> (Rabs (rnd (a / b)) <= bpow radix2 e)%R -> val (f64_div x y) (rnd (a / b)).
Proof.
  intros (bx & -> & Fx & Rx) (by_ & -> & Fy & Ry) Hb He Hs. unfold f64_div. rewrite (div_equiv 53 1024 P64 M64).
  pose proof (Bdiv_correct 53 1024 P64 M64 mode_NE bx by_) as H. rewrite Rx, Ry in H. specialize (H Hb). change (round_mode mode_NE) with ZnearestE in H.
  rewrite Rlt_bool_true in H by exact (under_max _ e He Hs). destruct H as (H1 & H2 & _). rewrite Fx in H2. exists (Bdiv mode_NE bx by_). auto.
Qed.
Lemma sqrt_equiv (x : bf) : SFsqrt 53 1024 (B2SF x) = B2SF (Bsqrt mode_NE x).
Proof.
  case x as [sx|sx| |sx mx ex Bx]; try reflexivity; destruct sx; try reflexivity.
  simpl. rewrite B2SF_SF2B. set (melz := SFsqrt_core_binary _ _ _ _). case melz as [[mz ez] lz]. apply aux_equiv.
Qed.
Lemma val_sqrt x a : val x a -> (0 < a)%R -> val (f64_sqrt x) (rnd (R_sqrt.sqrt a)).
Proof.
  intros (bx & -> & Fx & Rx) Ha. unfold f64_sqrt. rewrite sqrt_equiv.
  pose proof (Bsqrt_correct 53 1024 P64 M64 mode_NE bx) as (H1 & H2 & _). rewrite Rx in H1. change (round_mode mode_NE) with ZnearestE in H1.
  exists (Bsqrt mode_NE bx). split; [reflexivity|]. split; [|exact H1]. rewrite H2. destruct bx as [| | |[] m e H]; try discriminate; try reflexivity.
  exfalso. pose proof (F2R_lt_0 radix2 (Float radix2 (Z.neg m) e) eq_refl) as HL. cbn [B2R cond_Zopp Z.opp] in Rx. change (- Z.pos m) with (Z.neg m) in Rx. rewrite Rx in HL. exact (Rlt_asym _ _ HL Ha).
Qed.
Lemma val_pos x a : val x a -> (0 < a)%R -> finite x /\ SFltb f64_zero x = true.
Proof.
  intros (b & -> & Hf & Hr) Ha. split; [apply finite_B2SF, Hf|]. destruct b as [s|s| |[] m e H]; try discriminate; try reflexivity.
  - cbn in Hr. lra.
  - exfalso. pose proof (F2R_lt_0 radix2 (Float radix2 (Z.neg m) e) eq_refl) as HL. cbn [B2R cond_Zopp Z.opp] in Hr. change (- Z.pos m) with (Z.neg m) in Hr. rewrite Hr in HL. exact (Rlt_asym _ _ HL Ha).
Qed.

(** A column of whole numbers below 2^20, at most 2^20 of them. *)
Definition whole (zs : list Z) : Prop := Forall (fun z => 0 <= z <= 2 ^ 20) zs /\ len zs <= 2 ^ 20.
Definition sumZ (zs : list Z) : Z := foldr Z.add 0 zs.
Lemma sumZ_bound zs : Forall (fun z => 0 <= z <= 2 ^ 20) zs -> 0 <= sumZ zs <= len zs * 2 ^ 20.
Proof.
  unfold sumZ, len. induction zs as [|z zs IH]; intros H; [cbn; lia|]. apply Forall_cons in H as [Hz H]. specialize (IH H). cbn [foldr length]. rewrite Nat2Z.inj_succ. nia.
Qed.
Lemma sum_whole zs : Forall (fun z => 0 <= z <= 2 ^ 20) zs -> forall a acc, 0 <= a -> a + len zs * 2 ^ 20 <= 2 ^ 53 -> val acc (IZR a) -> val (foldl f64_add acc (f64_of_Z <$> zs)) (IZR (a + sumZ zs)).
Proof.
  induction zs as [|z zs IH]; intros HF a acc Ha Hs Hv; [cbn; rewrite Z.add_0_r; exact Hv|]. apply Forall_cons in HF as [Hz HF]. unfold len in *. cbn [length] in Hs. rewrite Nat2Z.inj_succ in Hs.
  rewrite fmap_cons. cbn [foldl sumZ foldr]. rewrite Z.add_assoc. apply IH; [exact HF|lia|nia|]. rewrite plus_IZR. apply val_add; [exact Hv|apply val_Z; lia|]. rewrite <- plus_IZR. apply small_Z. nia.
Qed.
Lemma p20 : bpow radix2 20 = IZR (2 ^ 20). Proof. reflexivity. Qed.
Lemma mean_whole zs : zs <> [] -> whole zs -> exists m, val (mean_of (f64_of_Z <$> zs)) m /\ m = rnd (IZR (sumZ zs) / IZR (len zs)) /\ (0 <= m <= bpow radix2 20)%R /\ (m = 0%R \/ bpow radix2 (-20) <= m)%R.
Proof.
  intros Hne [HF Hl]. assert (H1 : 1 <= len zs) by (destruct zs; [congruence|unfold len; cbn; lia]). pose proof (sumZ_bound zs HF) as Hb.
  assert (Hn : (1 <= IZR (len zs) <= bpow radix2 20)%R) by (rewrite p20; split; apply IZR_le; lia).
  assert (Hq : (0 <= IZR (sumZ zs) / IZR (len zs) <= bpow radix2 20)%R).
  { assert (H0 : (0 <= IZR (sumZ zs) <= IZR (len zs) * bpow radix2 20)%R) by (rewrite p20, <- mult_IZR; split; apply IZR_le; lia). split.
    - apply Rmult_le_pos; [lra|]. left. apply Rinv_0_lt_compat. lra.
    - apply Rmult_le_reg_r with (IZR (len zs)); [lra|]. unfold Rdiv. rewrite Rmult_assoc, Rinv_l by lra. lra. }
  assert (HR : (0 <= rnd (IZR (sumZ zs) / IZR (len zs)) <= bpow radix2 20)%R) by (apply rnd_between; [apply generic_format_0|apply fmt_pow; lia|exact Hq]).
  exists (rnd (IZR (sumZ zs) / IZR (len zs))). split; [|split; [reflexivity|split; [exact HR|]]].
  - unfold mean_of. replace (len (f64_of_Z <$> zs)) with (len zs) by (unfold len; rewrite fmap_length; reflexivity).
    apply val_div_rnd with 20; [|apply val_Z; lia|lra|lia|rewrite Rabs_pos_eq; lra].
    change (IZR (sumZ zs)) with (IZR (0 + sumZ zs)). apply (sum_whole zs HF 0); [lia|lia|apply (val_Z 0); lia].
  - destruct (Z.eq_dec (sumZ zs) 0) as [E|E].
    + left. rewrite E. unfold Rdiv. rewrite Rmult_0_l. apply round_0. apply valid_rnd_N.
    + right. apply round_ge_generic; [exact V64|apply valid_rnd_N|apply fmt_pow; lia|]. assert (1 <= IZR (sumZ zs))%R by (apply IZR_le; lia).
      change (-20) with (- (20)). rewrite (bpow_opp radix2 20). apply Rle_trans with (1 * / IZR (len zs))%R.
      * rewrite Rmult_1_l. apply Rinv_le; lra.
      * apply Rmult_le_compat_r; [left; apply Rinv_0_lt_compat; lra|assumption].
Qed.
(** Numbers of the format above 2^-20 are multiples of 2^-73. *)
Lemma grid m : fmt m -> (bpow radix2 (-20) <= m <= bpow radix2 20)%R -> exists k, m = (IZR k * bpow radix2 (-73))%R.
Proof.
  intros Hf Hm. unfold generic_format in Hf. rewrite Hf. unfold F2R. cbn [Fnum Fexp]. set (c := cexp radix2 (SpecFloat.fexp 53 1024) m).
  assert (Hc : -73 <= c).
  { unfold c, cexp, SpecFloat.fexp, SpecFloat.emin. assert (-20 < mag radix2 m); [|lia]. apply mag_gt_bpow. rewrite Rabs_pos_eq; [lra|]. pose proof (bpow_gt_0 radix2 (-20)). lra. }
  exists (Ztrunc (scaled_mantissa radix2 (SpecFloat.fexp 53 1024) m) * 2 ^ (c + 73)). rewrite mult_IZR, Rmult_assoc. f_equal.
  change 2 with (radix_val radix2). rewrite IZR_Zpower by lia. rewrite <- bpow_plus. f_equal. lia.
Qed.
Lemma apart m z : fmt m -> (0 <= m <= bpow radix2 20)%R -> (m = 0 \/ bpow radix2 (-20) <= m)%R -> m <> IZR z -> (bpow radix2 (-73) <= Rabs (m - IZR z))%R.
Proof.
  intros Hf Hm H0 Hne. assert (Hg : exists k, m = (IZR k * bpow radix2 (-73))%R). { destruct H0 as [-> |H0]; [exists 0; ring|apply grid; [exact Hf|lra]]. }
  destruct Hg as [k Hk]. assert (Hz : IZR z = (IZR (z * 2 ^ 73) * bpow radix2 (-73))%R).
  { rewrite mult_IZR, Rmult_assoc. replace (IZR (2 ^ 73)) with (bpow radix2 73) by reflexivity. rewrite <- bpow_plus. change (bpow radix2 (73 + -73)) with 1%R. rewrite Rmult_1_r. reflexivity. }
  rewrite Hk, Hz, <- Rmult_minus_distr_r, <- minus_IZR, Rabs_mult, <- abs_IZR, (Rabs_pos_eq (bpow _ _)) by apply bpow_ge_0.
  rewrite <- (Rmult_1_l (bpow radix2 (-73))) at 1. apply Rmult_le_compat_r; [apply bpow_ge_0|]. apply IZR_le. assert (k <> z * 2 ^ 73); [|lia]. intros ->. apply Hne. rewrite Hk, Hz. reflexivity.
Qed.

Lemma diff_whole mx m z : val mx m -> (0 <= m <= bpow radix2 20)%R -> (m = 0 \/ bpow radix2 (-20) <= m)%R -> 0 <= z <= 2 ^ 20 ->
  exists d, val (f64_sub mx (f64_of_Z z)) d /\ (Rabs d <= bpow radix2 20)%R /\ (m <> IZR z -> bpow radix2 (-73) <= Rabs d)%R.
Proof.
  intros Hv Hm H0 Hz. assert (Hz' : (0 <= IZR z <= bpow radix2 20)%R) by (rewrite p20; split; apply IZR_le; lia).
  assert (HR : (- bpow radix2 20 <= rnd (m - IZR z) <= bpow radix2 20)%R) by (apply rnd_between; [apply generic_format_opp, fmt_pow; lia|apply fmt_pow; lia|lra]).
  exists (rnd (m - IZR z)). split; [apply val_sub_rnd with 20; [exact Hv|apply val_Z; lia|lia|apply Rabs_le; exact HR]|]. split; [apply Rabs_le; exact HR|].
  intros Hne. pose proof (apart m z (proj1 (val_small _ _ Hv)) Hm H0 Hne) as HA. apply abs_round_ge_generic; [exact V64|apply valid_rnd_N|apply fmt_pow; lia|exact HA].
Qed.
Lemma square_whole x d : val x d -> (Rabs d <= bpow radix2 20)%R -> exists q, val (square x) q /\ (0 <= q <= bpow radix2 40)%R /\ (bpow radix2 (-73) <= Rabs d -> bpow radix2 (-146) <= q)%R.
Proof.
  intros Hv Hd. assert (Hdd : (d * d = Rabs d * Rabs d)%R) by (rewrite <- Rabs_mult, Rabs_pos_eq; [reflexivity|apply Rle_0_sqr]). pose proof (Rabs_pos d) as Hp.
  assert (HR : (0 <= rnd (d * d) <= bpow radix2 40)%R).
  { apply rnd_between; [apply generic_format_0|apply fmt_pow; lia|]. rewrite Hdd. split; [nra|]. replace (bpow radix2 40) with (bpow radix2 20 * bpow radix2 20)%R by (rewrite <- bpow_plus; reflexivity). nra. }
  exists (rnd (d * d)). split; [apply val_mul_rnd with 40; [exact Hv|exact Hv|lia|rewrite Rabs_pos_eq; lra]|]. split; [exact HR|]. intros Hl.
  apply round_ge_generic; [exact V64|apply valid_rnd_N|apply fmt_pow; lia|]. rewrite Hdd. replace (bpow radix2 (-146)) with (bpow radix2 (-73) * bpow radix2 (-73))%R by (rewrite <- bpow_plus; reflexivity).
  pose proof (bpow_gt_0 radix2 (-73)). nra.
Qed.
Lemma squares_whole mx m : val mx m -> (0 <= m <= bpow radix2 20)%R -> (m = 0 \/ bpow radix2 (-20) <= m)%R ->
  forall zs, Forall (fun z => 0 <= z <= 2 ^ 20) zs -> forall k a acc, 0 <= k -> k + len zs <= 2 ^ 20 -> val acc a -> (0 <= a <= IZR k * bpow radix2 40)%R ->
  exists r, val (foldl (fun a x => f64_add a (square (f64_sub mx x))) acc (f64_of_Z <$> zs)) r /\ (a <= r <= IZR (k + len zs) * bpow radix2 40)%R /\
    (Exists (fun z => m <> IZR z) zs -> bpow radix2 (-146) <= r)%R.
Proof.
  intros Hv Hm H0. induction zs as [|z zs IH]; intros HF k a acc Hk Hl Ha Hb.
  - exists a. split; [exact Ha|]. split; [replace (k + len (@nil Z)) with k by (unfold len; cbn; lia); lra|]. intros HE. inversion HE.
  - apply Forall_cons in HF as [Hz HF]. rewrite fmap_cons. cbn [foldl]. unfold len in Hl. cbn [length] in Hl. rewrite Nat2Z.inj_succ in Hl.
    destruct (diff_whole mx m z Hv Hm H0 Hz) as (d & Hd & Hdb & Hdl). destruct (square_whole _ d Hd Hdb) as (q & Hq & Hqb & Hql).
    assert (Hk1 : (IZR (k + 1) * bpow radix2 40 = IZR k * bpow radix2 40 + bpow radix2 40)%R) by (rewrite plus_IZR; ring).
    assert (HR : (Rmax a q <= rnd (a + q) <= IZR (k + 1) * bpow radix2 40)%R).
    { apply rnd_between; [unfold Rmax; destruct (Rle_dec a q); [exact (proj1 (val_small _ _ Hq))|exact (proj1 (val_small _ _ Ha))]|apply fmt_scaled; lia|]. unfold Rmax. destruct (Rle_dec a q); lra. }
    pose proof (Rmax_l a q). pose proof (Rmax_r a q).
    assert (Hbig : (IZR (k + 1) * bpow radix2 40 <= bpow radix2 60)%R). { replace (bpow radix2 60) with (bpow radix2 20 * bpow radix2 40)%R by (rewrite <- bpow_plus; reflexivity). apply Rmult_le_compat_r; [apply bpow_ge_0|]. rewrite p20. apply IZR_le. lia. }
    destruct (IH HF (k + 1) (rnd (a + q)) _ ltac:(lia) ltac:(unfold len; lia) (val_add_rnd _ _ _ _ 60 Ha Hq ltac:(lia) ltac:(rewrite Rabs_pos_eq; lra))) as (r & Hr & Hrb & Hrl); [lra|].
    exists r. split; [exact Hr|]. split; [split; [lra|]|].
    + destruct Hrb as [_ Hrb]. replace (k + len (z :: zs)) with (k + 1 + len zs) by (unfold len; cbn [length]; lia). exact Hrb.
    + intros HE. apply Exists_cons in HE as [HE|HE]; [|exact (Hrl HE)]. specialize (Hql (Hdl HE)). lra.
Qed.
Theorem std_whole zs z z' : whole zs -> z ∈ zs -> z' ∈ zs -> z <> z' -> finite (mean_of (f64_of_Z <$> zs)) /\ finite (std_of (f64_of_Z <$> zs)) /\ SFltb f64_zero (std_of (f64_of_Z <$> zs)) = true.
Proof.
  intros HW Hz Hz' Hne. assert (Hzs : zs <> []) by (intros ->; inversion Hz). destruct (mean_whole zs Hzs HW) as (m & Hm & _ & Hmb & Hm0). pose proof HW as [HF Hl].
  assert (H1 : 1 <= len zs) by (destruct zs; [congruence|unfold len; cbn; lia]).
  split; [destruct Hm as (b & -> & Hf & _); apply finite_B2SF, Hf|].
  unfold std_of. destruct (squares_whole _ m Hm Hmb Hm0 zs HF 0 0%R f64_zero ltac:(lia) ltac:(lia) (val_Z 0 ltac:(lia)) ltac:(lra)) as (r & Hr & Hrb & Hrl).
  assert (HE : Exists (fun z => m <> IZR z) zs).
  { apply Exists_exists. destruct (Req_dec m (IZR z)) as [E|E]; [|exists z; auto]. exists z'. split; [exact Hz'|]. rewrite E. intros E'. apply eq_IZR in E'. contradiction. }
  specialize (Hrl HE). rewrite Z.add_0_l in Hrb. replace (len (f64_of_Z <$> zs)) with (len zs) by (unfold len; rewrite fmap_length; reflexivity).
  assert (Hn : (1 <= IZR (len zs) <= bpow radix2 20)%R) by (rewrite p20; split; apply IZR_le; lia). pose proof (bpow_gt_0 radix2 (-146)) as Hp.
  assert (HR : (bpow radix2 (-166) <= rnd (r / IZR (len zs)) <= bpow radix2 40)%R).
  { apply rnd_between; [apply fmt_pow; lia|apply fmt_pow; lia|]. split.
    - replace (bpow radix2 (-166)) with (bpow radix2 (-146) * / bpow radix2 20)%R by (rewrite <- bpow_opp, <- bpow_plus; reflexivity). unfold Rdiv.
      apply Rmult_le_compat; [lra|left; apply Rinv_0_lt_compat, bpow_gt_0|exact Hrl|apply Rinv_le; lra].
    - apply Rmult_le_reg_r with (IZR (len zs)); [lra|]. unfold Rdiv. rewrite Rmult_assoc, Rinv_l by lra. lra. }
  pose proof (bpow_gt_0 radix2 (-166)) as Hp'. pose proof (val_div_rnd _ _ _ _ 40 Hr (val_Z (len zs) ltac:(lia)) ltac:(lra) ltac:(lia) ltac:(rewrite Rabs_pos_eq; lra)) as Hv.
  pose proof (val_sqrt _ _ Hv ltac:(lra)) as Hs. apply (val_pos _ _ Hs).
  apply Rlt_le_trans with (bpow radix2 (-83)); [apply bpow_gt_0|]. apply round_ge_generic; [exact V64|apply valid_rnd_N|apply fmt_pow; lia|].
  rewrite <- (sqrt_square (bpow radix2 (-83))) by apply bpow_ge_0. apply sqrt_le_1_alt. rewrite <- bpow_plus. exact (proj1 HR).
Qed.

(** ** Without NaN the chosen kernels are the nearest *)
Lemma div_not_nan x s : x <> S754_nan -> finite s -> SFltb f64_zero s = true -> f64_div x s <> S754_nan.
Proof.
  intros Hx (b & [-> |(m & e & ->)]) Hs; [destruct b; discriminate|]. destruct x as [| | |sx mx ex]; try congruence; try discriminate. unfold f64_div, SFdiv, SFdiv_core_binary.
  set (m' := match _ with Z0 => _ | Zpos _ => _ | Zneg _ => _ end).
  assert (0 <= m') by (subst m'; destruct (ex - e - _); [lia|apply Z.shiftl_nonneg; lia|lia]).
  pose proof (Z_div_mod m' (Zpos m) ltac:(lia)) as Hdm. destruct (Z.div_eucl m' (Zpos m)) as [q r].
  destruct Hdm as [Hq Hr]. apply round_aux_not_nan. nia.
Qed.
(** Every column: finite values, a finite mean, a finite positive standard deviation. *)
Definition spread (dim : Z) (seq : list (list f64)) : Prop :=
  Forall (Forall finite) seq /\
  forall j : nat, Z.of_nat j < dim -> finite (mean_of (column seq j)) /\ finite (std_of (column seq j)) /\ SFltb f64_zero (std_of (column seq j)) = true.
Lemma finite_not_nan x : finite x -> x <> S754_nan.
Proof. intros (s & [-> |(m & e & ->)]); discriminate. Qed.
Lemma spread_points tanh dim seq row : (forall x, x <> S754_nan -> tanh x <> S754_nan) -> shaped dim seq -> spread dim seq -> row ∈ seq -> S754_nan ∉ normalised tanh seq row.
Proof.
  intros Ht HR [HF HS] Hrow Hin. apply elem_of_list_lookup in Hin as [j Hj]. unfold normalised in Hj. rewrite list_lookup_imap in Hj.
  destruct (row !! j) as [x|] eqn:Ex; [|discriminate]. cbn in Hj. injection Hj as Hj. revert Hj. apply Ht.
  pose proof (proj1 (Forall_forall _ _) HR row Hrow) as Hl. cbv beta in Hl. pose proof (lookup_lt_Some _ _ _ Ex) as Hlt.
  destruct (HS j) as (Hm & Hs & Hp); [rewrite <- Hl; unfold len; apply inj_lt; exact Hlt|].
  apply div_not_nan; [|exact Hs|exact Hp]. apply sub_not_nan; [apply finite_not_nan, Hm|]. pose proof (proj1 (Forall_forall _ _) HF row Hrow) as Hr. exact (Forall_lookup_1 _ _ _ _ Hr Ex).
Qed.
Lemma nearest_really kernels p c S : S754_nan ∉ p -> Forall (fun q => length p = length q /\ Forall finite q) kernels -> nearest kernels p c S ->
  forall k k' q q', k ∈ S -> k' ∉ S -> kernels !! Z.to_nat k = Some q -> 0 <= k' -> kernels !! Z.to_nat k' = Some q' -> SFleb (distance p q) (distance p q') = true.
Proof.
  intros Hp HF (_ & _ & _ & HN) k k' q q' Hk Hk' Hq Hk0 Hq'.
  assert (HD : forall q, length p = length q -> Forall finite q -> fpos (distance p q)).
  { intros u Hu Hfu. unfold distance. change (foldl _ _ _) with (foldl sqd f64_zero (zip p u)). apply sqrt_pos, sqd_pos; [exact I|].
    apply Forall_forall. intros [x y] Hxy. apply elem_of_list_lookup in Hxy as [i Hi]. apply lookup_zip_with_Some in Hi as (x' & y' & E & Hx & Hy). injection E as -> ->.
    cbn. split; [|exact (Forall_lookup_1 _ _ _ _ Hfu Hy)]. intros ->. apply Hp. apply elem_of_list_lookup. eauto. }
  destruct (Forall_lookup_1 _ _ _ _ HF Hq) as [H1 H2]. destruct (Forall_lookup_1 _ _ _ _ HF Hq') as [H1' H2'].
  apply not_ltb_leb; [apply HD; assumption|apply HD; assumption|]. exact (HN k k' q q' Hk Hk' Hq Hk0 Hq').
Qed.
