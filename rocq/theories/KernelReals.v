(** KernelCanvas facts that need the real-number semantics of floats (Flocq): kernels are in
    [-1, 1]; the number of kernels to activate. *)
From Coq Require Import SpecFloat Reals Psatz.
From Flocq Require Import Core BinarySingleNaN.
From Verif Require Import Prelude Float32 Kernel KernelFloat.
Local Open Scope Z_scope.

Section equiv.
Context (prec emax : Z) (Hp : FLX.Prec_gt_0 prec) (Hm : Prec_lt_emax prec emax).
Local Existing Instance Hp.
Local Existing Instance Hm.
Notation bf := (binary_float prec emax).
Lemma rne_equiv s m l : round_nearest_even m l = choice_mode mode_NE s m l.
Proof. case l; [reflexivity|intro c]. case c; [|reflexivity..]. simpl. unfold Round.cond_incr. case Z.even; reflexivity. Qed.
Lemma aux_equiv sx mx ex lx : SpecFloat.binary_round_aux prec emax sx mx ex lx = binary_round_aux prec emax mode_NE sx mx ex lx.
Proof.
  unfold SpecFloat.binary_round_aux, binary_round_aux. set (mrse' := shr_fexp _ _ _ _ _). case mrse'. intros mrs' e'. simpl.
  rewrite (rne_equiv sx). reflexivity.
Qed.
Lemma round_equiv s m e : SpecFloat.binary_round prec emax s m e = binary_round prec emax mode_NE s m e.
Proof. unfold SpecFloat.binary_round, binary_round, shl_align_fexp. set (mez := shl_align _ _ _). case mez as [mz ez]. apply aux_equiv. Qed.
Lemma normalize_equiv m e z : SpecFloat.binary_normalize prec emax m e z = B2SF (binary_normalize prec emax Hp Hm mode_NE m e z).
Proof. case m as [|p|p]; simpl; [reflexivity|rewrite B2SF_SF2B; apply round_equiv..]. Qed.
Lemma add_equiv (x y : bf) : SFadd prec emax (B2SF x) (B2SF y) = B2SF (Bplus mode_NE x y).
Proof.
  case x as [sx|sx| |sx mx ex Bx]; case y as [sy|sy| |sy my ey By]; try reflexivity; try (simpl; case Bool.eqb; reflexivity).
  apply normalize_equiv.
Qed.
Lemma div_equiv (x y : bf) : SFdiv prec emax (B2SF x) (B2SF y) = B2SF (Bdiv mode_NE x y).
Proof.
  case x as [sx|sx| |sx mx ex Bx]; case y as [sy|sy| |sy my ey By]; try reflexivity.
  simpl. rewrite B2SF_SF2B. set (melz := SFdiv_core_binary _ _ _ _ _ _). case melz as [[mz ez] lz]. apply aux_equiv.
Qed.
Lemma mul_equiv (x y : bf) : SFmul prec emax (B2SF x) (B2SF y) = B2SF (Bmult mode_NE x y).
Proof.
  case x as [sx|sx| |sx mx ex Bx]; case y as [sy|sy| |sy my ey By]; try reflexivity.
  simpl. rewrite B2SF_SF2B. apply aux_equiv.
Qed.
Notation rnd := (round radix2 (SpecFloat.fexp prec emax) ZnearestE).
Notation fmt := (generic_format radix2 (SpecFloat.fexp prec emax)).
Local Instance Vexp : Valid_exp (SpecFloat.fexp prec emax) := fexp_correct prec emax Hp.
Definition bz (z : Z) : bf := binary_normalize prec emax Hp Hm mode_NE z 0 false.
Lemma F2R_int z : F2R (Float radix2 z 0) = IZR z.
Proof. unfold F2R. simpl. ring. Qed.
Lemma emin_neg : 3 - emax - prec <= 0.
Proof. pose proof Hp. pose proof Hm. unfold FLX.Prec_gt_0, Prec_lt_emax in *. lia. Qed.
Lemma fmt_Z z : Z.abs z < 2 ^ prec -> fmt (IZR z).
Proof.
  intros H. rewrite <- F2R_int. apply (generic_format_FLT radix2 (3 - emax - prec) prec).
  exists (Float radix2 z 0); [reflexivity|exact H|apply emin_neg].
Qed.
Lemma fmt_Z_le z : 0 <= z <= 2 ^ prec -> fmt (IZR z).
Proof.
  intros H. pose proof Hp as Hp'. unfold FLX.Prec_gt_0 in Hp'. destruct (Z.eq_dec z (2 ^ prec)) as [->|Hn]; [|apply fmt_Z; lia].
  change 2 with (radix_val radix2) at 1. rewrite IZR_Zpower by lia. apply generic_format_bpow. unfold SpecFloat.fexp, SpecFloat.emin. pose proof emin_neg. lia.
Qed.
Lemma rnd_id x : fmt x -> rnd x = x.
Proof. intros H. apply round_generic; [apply valid_rnd_N|exact H]. Qed.
Lemma bz_exact z : 0 <= z <= 2 ^ prec -> B2R (bz z) = IZR z /\ is_finite (bz z) = true.
Proof.
  intros H. pose proof (binary_normalize_correct prec emax Hp Hm mode_NE z 0 false) as HC. cbv zeta in HC.
  rewrite F2R_int in HC. fold (bz z) in HC. change (round_mode mode_NE) with ZnearestE in HC.
  rewrite rnd_id in HC by (apply fmt_Z_le; exact H). rewrite Rlt_bool_true in HC; [tauto|].
  rewrite <- abs_IZR. apply Rle_lt_trans with (bpow radix2 prec); [|apply bpow_lt; exact Hm].
  pose proof Hp as Hp'. unfold FLX.Prec_gt_0 in Hp'. rewrite <- IZR_Zpower by lia. apply IZR_le. change (Zpower radix2 prec) with (2 ^ prec). lia.
Qed.
Lemma rnd_bounds a b x : fmt (IZR a) -> fmt (IZR b) -> (IZR a <= x <= IZR b)%R -> (IZR a <= rnd x <= IZR b)%R.
Proof. intros Ha Hb H. split; [apply round_ge_generic|apply round_le_generic]; try assumption; try apply valid_rnd_N; try exact Vexp; lra. Qed.
Lemma small_lt_emax x : (Rabs x <= 2)%R -> (Rabs x < bpow radix2 emax)%R.
Proof.
  intros H. apply Rle_lt_trans with 2%R; [exact H|]. change 2%R with (bpow radix2 1). apply bpow_lt. pose proof Hp as Hp'. pose proof Hm as Hm'. unfold FLX.Prec_gt_0, Prec_lt_emax in *. lia.
Qed.
End equiv.
Arguments bz {_ _ _ _} _.

Local Instance P64 : FLX.Prec_gt_0 53 := eq_refl.
Local Instance M64 : Prec_lt_emax 53 1024 := eq_refl.
Local Instance P32 : FLX.Prec_gt_0 24 := eq_refl.
Local Instance M32 : Prec_lt_emax 24 128 := eq_refl.

Lemma finite_B2SF {prec emax} (b : binary_float prec emax) : is_finite b = true -> finite (B2SF b).
Proof. destruct b as [s| | |s m e H]; cbn; intros E; try discriminate; [exists s; left; reflexivity|exists s; right; eauto]. Qed.

Lemma randdouble_range r : 0 <= r <= 2147483647 ->
  let k := randdouble (f64_of_Z (-1)) (f64_of_Z 1) r in
  finite k /\ SFleb (f64_of_Z (-1)) k = true /\ SFleb k (f64_of_Z 1) = true.
Proof.
  intros Hr k. unfold randdouble in k.
  set (two := f64_sub (f64_of_Z 1) (f64_of_Z (-1))) in k. assert (E2 : two = f64_of_Z 2) by (vm_compute; reflexivity).
  set (mone := f64_of_Z (-1)) in *.
  assert (Em : exists b : binary_float 53 1024, mone = B2SF b /\ B2R b = (-1)%R /\ is_finite b = true).
  { exists (Bopp (bz 1)). destruct (bz_exact 53 1024 P64 M64 1) as [H1 H2]; [lia|]. split; [vm_compute; reflexivity|]. split; [rewrite B2R_Bopp, H1; reflexivity|rewrite is_finite_Bopp; exact H2]. }
  destruct Em as (bm & Em & Rm & Fm).
  assert (EZ : forall z, f64_of_Z z = B2SF (bz (prec := 53) (emax := 1024) z)) by (intros z; apply normalize_equiv).
  assert (fmtZ : forall z, Z.abs z <= 4 -> generic_format radix2 (SpecFloat.fexp 53 1024) (IZR z)) by (intros z Hz; apply (fmt_Z 53 1024 P64 M64); lia).
  destruct (bz_exact 53 1024 P64 M64 r) as [Rr Fr]; [lia|]. destruct (bz_exact 53 1024 P64 M64 2147483647) as [RR FR]; [lia|]. destruct (bz_exact 53 1024 P64 M64 2) as [R2 F2]; [lia|].
  destruct (bz_exact 53 1024 P64 M64 1) as [R1 F1]; [lia|].
  assert (Hq : (0 <= IZR r / 2147483647 <= 1)%R).
  { assert (0 <= IZR r <= 2147483647)%R by (split; apply IZR_le; lia). split; [apply Rmult_le_pos; lra|]. apply Rmult_le_reg_r with 2147483647%R; [lra|]. unfold Rdiv. rewrite Rmult_assoc, Rinv_l by lra. lra. }
  pose proof (Bdiv_correct 53 1024 P64 M64 mode_NE (bz r) (bz 2147483647)) as HD. rewrite Rr, RR in HD. specialize (HD ltac:(lra)). change (round_mode mode_NE) with ZnearestE in HD.
  pose proof (rnd_bounds 53 1024 P64 0 1 _ (fmtZ 0 ltac:(lia)) (fmtZ 1 ltac:(lia)) Hq) as Bq.
  rewrite Rlt_bool_true in HD by (apply (small_lt_emax 53 1024 P64 M64); rewrite Rabs_pos_eq; lra). destruct HD as (HD1 & HD2 & _). rewrite Fr in HD2.
  set (q := Bdiv mode_NE (bz r) (bz 2147483647)) in *.
  pose proof (Bmult_correct 53 1024 P64 M64 mode_NE q (bz 2)) as HM. rewrite R2 in HM. change (round_mode mode_NE) with ZnearestE in HM.
  assert (Hp : (IZR 0 <= B2R q * 2 <= IZR 2)%R) by (rewrite HD1; lra).
  pose proof (rnd_bounds 53 1024 P64 0 2 _ (fmtZ 0 ltac:(lia)) (fmtZ 2 ltac:(lia)) Hp) as Bp.
  rewrite Rlt_bool_true in HM by (apply (small_lt_emax 53 1024 P64 M64); rewrite Rabs_pos_eq; lra). destruct HM as (HM1 & HM2 & _). rewrite HD2, F2 in HM2. cbn in HM2.
  set (p := Bmult mode_NE q (bz 2)) in *.
  pose proof (Bplus_correct 53 1024 P64 M64 mode_NE p bm HM2 Fm) as HA. rewrite Rm in HA. change (round_mode mode_NE) with ZnearestE in HA.
  assert (Hs : (IZR (-1) <= B2R p + -1 <= IZR 1)%R) by (rewrite HM1; lra).
  pose proof (rnd_bounds 53 1024 P64 (-1) 1 _ (fmtZ (-1) ltac:(lia)) (fmtZ 1 ltac:(lia)) Hs) as Bs.
  rewrite Rlt_bool_true in HA by (apply (small_lt_emax 53 1024 P64 M64); apply Rabs_le; lra). destruct HA as (HA1 & HA2 & _).
  set (s := Bplus mode_NE p bm) in *.
  assert (Ek : k = B2SF s).
  { unfold k. rewrite E2, Em, !EZ. unfold f64_add, f64_mul, f64_div. rewrite (div_equiv 53 1024 P64 M64), (mul_equiv 53 1024 P64 M64), (add_equiv 53 1024 P64 M64). reflexivity. }
  rewrite Ek, Em, (EZ 1). split; [apply finite_B2SF, HA2|].
  split; [change (Bleb bm s = true); rewrite Bleb_correct by assumption; rewrite Rm, HA1|change (Bleb s (bz 1) = true); rewrite Bleb_correct by assumption; rewrite R1, HA1]; apply Rle_bool_true; lra.
Qed.

(** ** The number of kernels to activate *)
Definition is_float32 (d : f32) : Prop := SpecFloat.valid_binary 24 128 d = true.
Definition unit_degree (d : f32) : Prop := is_float32 d /\ SFleb f32_zero d = true /\ SFleb d f32_one = true.

Lemma deg_real d : unit_degree d -> exists b : binary_float 24 128, d = B2SF b /\ is_finite b = true /\ (0 <= B2R b <= 1)%R.
Proof.
  intros (Hv & H0 & H1). exists (SF2B d Hv). split; [symmetry; apply B2SF_SF2B|].
  assert (Hf : is_finite (SF2B d Hv) = true). { rewrite is_finite_SF2B. destruct d as [[]|[]| |[] ? ?]; try reflexivity; discriminate. }
  split; [exact Hf|].
  destruct (bz_exact 24 128 P32 M32 0) as [R0 F0]; [lia|]. destruct (bz_exact 24 128 P32 M32 1) as [R1 F1]; [lia|].
  assert (E0 : f32_zero = B2SF (bz (prec := 24) (emax := 128) 0)) by apply normalize_equiv. assert (E1 : f32_one = B2SF (bz (prec := 24) (emax := 128) 1)) by apply normalize_equiv.
  rewrite E0 in H0. rewrite E1 in H1. rewrite <- (B2SF_SF2B 24 128 d Hv) in H0, H1.
  change (Bleb (bz 0) (SF2B d Hv) = true) in H0. change (Bleb (SF2B d Hv) (bz 1) = true) in H1. rewrite Bleb_correct in H0, H1 by assumption. rewrite R0 in H0. rewrite R1 in H1.
  split; [destruct (Rle_bool_spec 0 (B2R (SF2B d Hv))); [assumption|discriminate]|destruct (Rle_bool_spec (B2R (SF2B d Hv)) 1); [assumption|discriminate]].
Qed.
Definition half_up (x : R) : Z := Zfloor (x + /2).
Lemma round_real (b : binary_float 24 128) : is_finite b = true -> (0 <= B2R b)%R -> f32_round (B2SF b) = Some (half_up (B2R b)).
Proof.
  intros Hf H0. unfold half_up. destruct b as [s| | |s m e Hb]; try discriminate.
  - unfold B2SF, f32_round, B2R. f_equal. symmetry. apply Zfloor_imp. change (0 + 1) with 1. lra.
  - destruct s.
    { exfalso. unfold B2R in H0. assert (F2R (Float radix2 (cond_Zopp true (Z.pos m)) e) < 0)%R by (apply F2R_lt_0; cbn; lia). lra. }
    unfold B2SF, f32_round, B2R. f_equal. destruct (Z.leb_spec 0 e) as [He|He].
    + symmetry. unfold F2R. cbn [Fnum Fexp cond_Zopp]. rewrite <- IZR_Zpower by lia. rewrite <- mult_IZR. change (Zpower radix2 e) with (2 ^ e). apply Zfloor_imp. rewrite plus_IZR. lra.
    + unfold F2R. cbn [Fnum Fexp cond_Zopp].
      assert (HP : (IZR (2 ^ (- e)) = bpow radix2 (- e))%R) by (change (2 ^ (- e)) with (Zpower radix2 (- e)); apply IZR_Zpower; lia).
      assert (HP1 : (IZR (2 ^ (- e - 1)) = bpow radix2 (- e - 1))%R) by (change (2 ^ (- e - 1)) with (Zpower radix2 (- e - 1)); apply IZR_Zpower; lia).
      rewrite <- Zfloor_div by (apply Z.pow_nonzero; lia). f_equal. rewrite plus_IZR, HP, HP1. unfold Rdiv. rewrite <- bpow_opp, Rmult_plus_distr_r, <- bpow_plus.
      replace (- - e) with e by lia. replace (- e - 1 + e) with (-1) by lia. change (bpow radix2 (-1)) with (/2)%R. reflexivity.
Qed.
Lemma half_up_mono x y : (x <= y)%R -> half_up x <= half_up y.
Proof. intros H. apply Zfloor_le. lra. Qed.
Lemma half_up_Z z : half_up (IZR z) = z.
Proof. apply Zfloor_imp. rewrite plus_IZR. lra. Qed.
(** The count as a function of the degree. *)
Lemma count_real d n (b : binary_float 24 128) : d = B2SF b -> is_finite b = true -> (0 <= B2R b <= 1)%R -> 1 <= n <= 2 ^ 24 ->
  let x := round radix2 (SpecFloat.fexp 24 128) ZnearestE (B2R b * IZR n) in (0 <= x <= IZR n)%R /\ f32_round (f32_mul d (f32_of_Z n)) = Some (half_up x).
Proof.
  intros -> Hf Hb Hn x. destruct (bz_exact 24 128 P32 M32 n) as [Rn Fn]; [lia|].
  assert (E : f32_of_Z n = B2SF (bz (prec := 24) (emax := 128) n)) by apply normalize_equiv. rewrite E. unfold f32_mul. rewrite (mul_equiv 24 128 P32 M32).
  assert (Hn1 : (1 <= IZR n)%R) by (apply IZR_le; lia).
  assert (Hx : (IZR 0 <= B2R b * IZR n <= IZR n)%R) by nra.
  pose proof (rnd_bounds 24 128 P32 0 n _ (fmt_Z 24 128 P32 M32 0 ltac:(lia)) (fmt_Z_le 24 128 P32 M32 n ltac:(lia)) Hx) as Bx. fold x in Bx. split; [exact Bx|].
  pose proof (Bmult_correct 24 128 P32 M32 mode_NE b (bz n)) as HM. rewrite Rn in HM. change (round_mode mode_NE) with ZnearestE in HM. fold x in HM.
  rewrite Rlt_bool_true in HM.
  2:{ rewrite Rabs_pos_eq by lra. apply Rle_lt_trans with (IZR n); [lra|]. apply Rle_lt_trans with (bpow radix2 24); [|apply bpow_lt; lia]. rewrite <- IZR_Zpower by lia. apply IZR_le. change (Zpower radix2 24) with (2 ^ 24). lia. }
  destruct HM as (HM1 & HM2 & _). rewrite Hf, Fn in HM2. cbn in HM2. rewrite round_real; [rewrite HM1; reflexivity|exact HM2|rewrite HM1; lra].
Qed.
Lemma count_range d n : unit_degree d -> 1 <= n <= 2 ^ 24 -> exists c, f32_round (f32_mul d (f32_of_Z n)) = Some c /\ 0 <= c <= n.
Proof.
  intros Hd Hn. destruct (deg_real d Hd) as (b & E & Hf & Hb). destruct (count_real d n b E Hf Hb Hn) as [Hx Ec]. cbv zeta in *. eexists. split; [exact Ec|].
  split; [rewrite <- (half_up_Z 0) at 1|rewrite <- (half_up_Z n) at 2]; apply half_up_mono; lra.
Qed.
Lemma count_mono d d' n c c' : unit_degree d -> unit_degree d' -> SFleb d d' = true -> 1 <= n <= 2 ^ 24 ->
  f32_round (f32_mul d (f32_of_Z n)) = Some c -> f32_round (f32_mul d' (f32_of_Z n)) = Some c' -> c <= c'.
Proof.
  intros Hd Hd' Hle Hn Ec Ec'. destruct (deg_real d Hd) as (b & E & Hf & Hb). destruct (deg_real d' Hd') as (b' & E' & Hf' & Hb').
  destruct (count_real d n b E Hf Hb Hn) as [Hx G]. destruct (count_real d' n b' E' Hf' Hb' Hn) as [Hx' G']. cbv zeta in *. rewrite Ec in G. rewrite Ec' in G'. injection G as ->. injection G' as ->.
  apply half_up_mono. apply round_le; [apply (fexp_correct 24 128 P32)|apply valid_rnd_N|]. apply Rmult_le_compat_r; [apply IZR_le; lia|].
  subst d d'. change (Bleb b b' = true) in Hle. rewrite Bleb_correct in Hle by assumption. destruct (Rle_bool_spec (B2R b) (B2R b')); [assumption|discriminate].
Qed.
Lemma count_one n : 1 <= n <= 2 ^ 24 -> f32_round (f32_mul f32_one (f32_of_Z n)) = Some n.
Proof.
  intros Hn. assert (E1 : f32_one = B2SF (bz (prec := 24) (emax := 128) 1)) by apply normalize_equiv. destruct (bz_exact 24 128 P32 M32 1) as [R1 F1]; [lia|].
  destruct (count_real f32_one n (bz 1) E1 F1 ltac:(rewrite R1; lra) Hn) as [_ Ec]. cbv zeta in Ec. rewrite Ec, R1, Rmult_1_l.
  rewrite (rnd_id 24 128) by (apply (fmt_Z_le 24 128 P32 M32); lia). rewrite half_up_Z. reflexivity.
Qed.
