(** The score of a vote list, through Flocq's real-number semantics of binary32 (this file is
    the only one relying on the axioms of the standard library's real numbers). *)
From Coq Require Import SpecFloat Reals Psatz.
From Flocq Require Import Core BinarySingleNaN.
From Verif Require Import Prelude Float32 SpecDisc Cluster.
Local Open Scope Z_scope.

Local Instance Hprec : FLX.Prec_gt_0 24 := eq_refl.
Local Instance Hmax : Prec_lt_emax 24 128 := eq_refl.
Notation bf := (binary_float 24 128).
Notation rnd := (round radix2 (SpecFloat.fexp 24 128) ZnearestE).
Notation fmt := (generic_format radix2 (SpecFloat.fexp 24 128)).
Local Instance Vexp : Valid_exp (SpecFloat.fexp 24 128) := fexp_correct 24 128 Hprec.

Lemma rne_equiv s m l : round_nearest_even m l = choice_mode mode_NE s m l.
Proof. case l; [reflexivity|intro c]. case c; [|reflexivity..]. simpl. unfold Round.cond_incr. case Z.even; reflexivity. Qed.
Lemma aux_equiv sx mx ex lx : SpecFloat.binary_round_aux 24 128 sx mx ex lx = binary_round_aux 24 128 mode_NE sx mx ex lx.
Proof.
  unfold SpecFloat.binary_round_aux, binary_round_aux. set (mrse' := shr_fexp _ _ _ _ _). case mrse'. intros mrs' e'. simpl.
  rewrite (rne_equiv sx). reflexivity.
Qed.
Lemma round_equiv s m e : SpecFloat.binary_round 24 128 s m e = binary_round 24 128 mode_NE s m e.
Proof. unfold SpecFloat.binary_round, binary_round, shl_align_fexp. set (mez := shl_align _ _ _). case mez as [mz ez]. apply aux_equiv. Qed.
Lemma normalize_equiv m e z : SpecFloat.binary_normalize 24 128 m e z = B2SF (binary_normalize 24 128 Hprec Hmax mode_NE m e z).
Proof. case m as [|p|p]; simpl; [reflexivity|rewrite B2SF_SF2B; apply round_equiv..]. Qed.
Lemma add_equiv (x y : bf) : f32_add (B2SF x) (B2SF y) = B2SF (Bplus mode_NE x y).
Proof.
  unfold f32_add. case x as [sx|sx| |sx mx ex Bx]; case y as [sy|sy| |sy my ey By]; try reflexivity; try (simpl; case Bool.eqb; reflexivity).
  apply normalize_equiv.
Qed.
Lemma div_equiv (x y : bf) : f32_div (B2SF x) (B2SF y) = B2SF (Bdiv mode_NE x y).
Proof.
  unfold f32_div. case x as [sx|sx| |sx mx ex Bx]; case y as [sy|sy| |sy my ey By]; try reflexivity.
  simpl. rewrite B2SF_SF2B. set (melz := SFdiv_core_binary _ _ _ _ _ _). case melz as [[mz ez] lz]. apply aux_equiv.
Qed.
Definition bz (z : Z) : bf := binary_normalize 24 128 Hprec Hmax mode_NE z 0 false.
Lemma of_Z_equiv z : f32_of_Z z = B2SF (bz z).
Proof. apply normalize_equiv. Qed.

(** Integers below 2^24 are exact. *)
Lemma fmt_pow k : (-149 <= k <= 100)%Z -> fmt (bpow radix2 k).
Proof. intros H. apply generic_format_bpow. unfold SpecFloat.fexp, emin. lia. Qed.
Lemma fmt_scaled m k : (Z.abs m < 2 ^ 24)%Z -> (-149 <= k)%Z -> fmt (F2R (Float radix2 m k)).
Proof.
  intros Hm Hk. apply (generic_format_FLT radix2 (-149) 24).
  exists (Float radix2 m k); [reflexivity|exact Hm|exact Hk].
Qed.
Lemma F2R_int z : F2R (Float radix2 z 0) = IZR z.
Proof. unfold F2R. simpl. ring. Qed.
Lemma fmt_Z z : (Z.abs z < 2 ^ 24)%Z -> fmt (IZR z).
Proof. intros H. rewrite <- F2R_int. apply fmt_scaled; [exact H|lia]. Qed.
Lemma fmt_Z24 z : (0 <= z <= 2 ^ 24)%Z -> fmt (IZR z).
Proof.
  intros H. destruct (Z.eq_dec z (2 ^ 24)) as [->|Hn]; [|apply fmt_Z; lia].
  replace (IZR (2 ^ 24)) with (bpow radix2 24) by (simpl; reflexivity). apply fmt_pow. lia.
Qed.
Lemma bz_spec z : (0 <= z < 2 ^ 64)%Z -> B2R (bz z) = rnd (IZR z) /\ is_finite (bz z) = true.
Proof.
  intros H. pose proof (binary_normalize_correct 24 128 Hprec Hmax mode_NE z 0 false) as HC. cbv zeta in HC.
  rewrite F2R_int in HC. fold (bz z) in HC. change (round_mode mode_NE) with ZnearestE in HC. change (SpecFloat.fexp 24 128) with (SpecFloat.fexp 24 128) in HC.
  rewrite Rlt_bool_true in HC; [tauto|].
  apply Rle_lt_trans with (bpow radix2 64); [|apply bpow_lt; lia].
  rewrite Rabs_pos_eq.
  - apply round_le_generic; [apply fexp_correct; exact Hprec|apply valid_rnd_N|apply fmt_pow; lia|].
    rewrite <- IZR_Zpower by lia. apply IZR_le. change (Zpower radix2 64) with (2 ^ 64). lia.
  - apply round_ge_generic; [apply fexp_correct; exact Hprec|apply valid_rnd_N|apply generic_format_0|apply IZR_le; lia].
Qed.
Lemma rnd_id x : fmt x -> rnd x = x.
Proof. intros H. apply round_generic; [apply valid_rnd_N|exact H]. Qed.
Lemma bz_exact z : (0 <= z <= 2 ^ 24)%Z -> B2R (bz z) = IZR z /\ is_finite (bz z) = true.
Proof. intros H. destruct (bz_spec z) as [H1 H2]; [lia|]. rewrite rnd_id in H1 by (apply fmt_Z24; assumption). auto. Qed.

Lemma sum_exact votes : forall (b : bf) s, is_finite b = true -> B2R b = IZR s -> (0 <= s)%Z -> Forall (fun v => 0 <= v) votes ->
  (s + zsum votes < 2 ^ 24)%Z ->
  exists b' : bf, foldl (fun s v => f32_add s (f32_of_Z v)) (B2SF b) votes = B2SF b' /\ is_finite b' = true /\ B2R b' = IZR (s + zsum votes).
Proof.
  induction votes as [|v votes IH]; intros b s Hf Hb Hs HF Hlt.
  - exists b. cbn. rewrite Z.add_0_r. auto.
  - apply Forall_cons in HF as [Hv HF]. cbn [zsum foldr] in Hlt. fold (zsum votes) in Hlt.
    assert (0 <= zsum votes)%Z by (clear - HF; induction HF; cbn; [lia|fold (zsum l); lia]).
    destruct (bz_exact v) as [Hv1 Hv2]; [lia|].
    cbn [foldl]. rewrite of_Z_equiv, add_equiv.
    pose proof (Bplus_correct 24 128 Hprec Hmax mode_NE b (bz v) Hf Hv2) as HC. rewrite Hb, Hv1, <- plus_IZR in HC.
    change (round_mode mode_NE) with ZnearestE in HC. rewrite rnd_id in HC by (apply fmt_Z; lia).
    rewrite Rlt_bool_true in HC.
    2:{ rewrite <- abs_IZR. apply Rlt_le_trans with (bpow radix2 24); [|apply bpow_le; lia]. rewrite <- IZR_Zpower by lia. apply IZR_lt. change (Zpower radix2 24) with (2 ^ 24). lia. }
    destruct HC as (HC1 & HC2 & _).
    destruct (IH _ (s + v) HC2 HC1 ltac:(lia) HF ltac:(lia)) as (b' & E1 & E2 & E3).
    exists b'. split; [exact E1|]. split; [exact E2|]. rewrite E3. f_equal. cbn [zsum foldr]. fold (zsum votes). lia.
Qed.

Lemma max_spec votes : forall m, Forall (fun v => 0 <= v) votes -> (0 <= m)%Z ->
  let M := foldl (fun m v => if m <? v then v else m) m votes in
  (m <= M)%Z /\ Forall (fun v => v <= M) votes /\ (M = m \/ M ∈ votes).
Proof.
  induction votes as [|v votes IH]; intros m HF Hm; cbv zeta in *; cbn [foldl].
  - split; [lia|]. split; [apply Forall_nil; exact I|auto].
  - apply Forall_cons in HF as [Hv HF]. destruct (IH (if m <? v then v else m) HF) as (H1 & H2 & H3); [destruct (m <? v); lia|].
    set (M := foldl _ _ votes) in *. destruct (Z.ltb_spec m v).
    + split; [lia|]. split; [apply Forall_cons; auto|]. right. destruct H3 as [->|H3]; [left|right; assumption].
    + split; [lia|]. split; [apply Forall_cons; split; [lia|assumption]|]. destruct H3 as [->|H3]; [auto|right; right; assumption].
Qed.
Lemma sum_le votes M : Forall (fun v => v <= M) votes -> (zsum votes <= M * len votes)%Z.
Proof. intros H. induction H; cbn; [unfold len; cbn; lia|]. fold (zsum l). unfold len in *. cbn [length]. lia. Qed.
Lemma sum_eq votes M : Forall (fun v => v <= M) votes -> zsum votes = (M * len votes)%Z -> Forall (fun v => v = M) votes.
Proof.
  intros H. induction H as [|v l Hv Hl IH]; intros E; [apply Forall_nil; exact I|].
  pose proof (sum_le _ _ Hl). cbn in E. fold (zsum l) in E. unfold len in *. cbn [length] in E. apply Forall_cons. split; [lia|apply IH; lia].
Qed.
Lemma sum_ge_elem votes v : Forall (fun v => 0 <= v) votes -> v ∈ votes -> (v <= zsum votes)%Z.
Proof.
  intros HF. induction HF as [|w l Hw Hl IH]; intros H; [inversion H|]. cbn. fold (zsum l).
  assert (0 <= zsum l)%Z by (clear - Hl; induction Hl; cbn; [lia|fold (zsum l); lia]).
  apply elem_of_cons in H as [->|H]; [lia|]. specialize (IH H). lia.
Qed.

Lemma leb_R (x y : bf) : is_finite x = true -> is_finite y = true -> f32_leb (B2SF x) (B2SF y) = Rle_bool (B2R x) (B2R y).
Proof. intros Hx Hy. exact (Bleb_correct 24 128 x y Hx Hy). Qed.
Lemma eqb_R (x y : bf) : is_finite x = true -> is_finite y = true -> f32_eqb (B2SF x) (B2SF y) = Req_bool (B2R x) (B2R y).
Proof. intros Hx Hy. exact (Beqb_correct 24 128 x y Hx Hy). Qed.

Theorem score_law votes : Forall (fun v => 0 <= v) votes -> zsum votes < 2 ^ 24 -> len votes <= INT_MAX ->
  f32_leb f32_zero (getScore votes) = true /\ f32_leb (getScore votes) f32_one = true /\
  (f32_eqb (getScore votes) f32_zero = true <-> Forall (fun v => v = 0) votes) /\
  (f32_eqb (getScore votes) f32_one = true <-> votes <> [] /\ exists m, 0 < m /\ Forall (fun v => v = m) votes).
Proof.
  intros HF Hsum Hlen. pose proof (max_spec votes 0 HF ltac:(lia)) as HM. cbv zeta in HM. fold (score_max votes) in HM.
  unfold getScore. set (M := score_max votes) in *. destruct HM as (HM0 & HMle & HMin).
  assert (Hs0 : 0 <= zsum votes) by (clear - HF; induction HF; cbn; [lia|fold (zsum l); lia]).
  destruct (Z.eqb_spec M 0) as [HM1|HM1].
  - assert (Hz : Forall (fun v => v = 0) votes). { rewrite Forall_forall in *. intros v Hv. specialize (HF v Hv). specialize (HMle v Hv). cbv beta in *. lia. }
    split; [reflexivity|]. split; [reflexivity|]. split; [split; [intros _; exact Hz|reflexivity]|]. split; [discriminate|].
    intros (Hne & m & Hm & Hall). destruct votes as [|v votes]; [congruence|]. apply Forall_cons in Hz as [-> _]. apply Forall_cons in Hall as [Hall _]. lia.
  - assert (HMv : M ∈ votes) by (destruct HMin as [|]; [lia|assumption]).
    assert (HMs : M <= zsum votes) by (apply sum_ge_elem; assumption).
    assert (Hne : 0 < len votes) by (unfold len; destruct votes; [inversion HMv|cbn; lia]).
    pose proof (sum_le votes M HMle) as Hle.
    set (N := M * len votes) in *. assert (HN : 0 < N < 2 ^ 62) by (unfold N, INT_MAX in *; nia).
    assert (HuN : u64 N = N) by (unfold u64, W64; apply Z.mod_small; lia). rewrite HuN.
    destruct (sum_exact votes (B754_zero false) 0 eq_refl eq_refl ltac:(lia) HF ltac:(lia)) as (bs & Es & Fs & Rs).
    change (foldl _ _ votes) with (score_sum votes) in Es. rewrite Es. rewrite (of_Z_equiv N), div_equiv.
    destruct (bz_spec N) as [RN FN]; [lia|]. rewrite Z.add_0_l in Rs. set (S := zsum votes) in *.
    assert (HrN1 : (IZR S <= rnd (IZR N))%R) by (apply round_ge_generic; [apply fexp_correct; exact Hprec|apply valid_rnd_N|apply fmt_Z; lia|apply IZR_le; lia]).
    assert (HrN2 : (rnd (IZR N) <= bpow radix2 62)%R).
    { apply round_le_generic; [apply fexp_correct; exact Hprec|apply valid_rnd_N|apply fmt_pow; lia|]. rewrite <- IZR_Zpower by lia. apply IZR_le. change (Zpower radix2 62) with (2 ^ 62). lia. }
    assert (HS : (1 <= IZR S)%R) by (apply IZR_le; lia).
    assert (HrN0 : (0 < rnd (IZR N))%R) by lra.
    set (D := rnd (IZR N)) in *.
    assert (Hq1 : (IZR S / D <= 1)%R) by (apply Rmult_le_reg_r with D; [assumption|]; unfold Rdiv; rewrite Rmult_assoc, Rinv_l by lra; lra).
    assert (Hq0 : (bpow radix2 (-62) <= IZR S / D)%R).
    { apply Rmult_le_reg_r with D; [assumption|]. unfold Rdiv. rewrite Rmult_assoc, Rinv_l by lra. rewrite Rmult_1_r.
      apply Rle_trans with (bpow radix2 (-62) * bpow radix2 62)%R; [apply Rmult_le_compat_l; [apply bpow_ge_0|assumption]|].
      rewrite <- bpow_plus. simpl. assumption. }
    assert (Hr0 : (bpow radix2 (-62) <= rnd (IZR S / D))%R) by (apply round_ge_generic; [apply fexp_correct; exact Hprec|apply valid_rnd_N|apply fmt_pow; lia|assumption]).
    assert (fmt1 : fmt 1%R) by (apply (fmt_Z 1); lia).
    assert (Hr1 : (rnd (IZR S / D) <= 1)%R) by (apply round_le_generic; [apply fexp_correct; exact Hprec|apply valid_rnd_N|assumption|assumption]).
    assert (Hpos : (0 < bpow radix2 (-62))%R) by apply bpow_gt_0.
    pose proof (Bdiv_correct 24 128 Hprec Hmax mode_NE bs (bz N)) as HC. rewrite RN, Rs in HC. specialize (HC ltac:(lra)).
    change (round_mode mode_NE) with ZnearestE in HC. rewrite Rlt_bool_true in HC.
    2:{ rewrite Rabs_pos_eq by lra. apply Rle_lt_trans with 1%R; [assumption|]. change 1%R with (bpow radix2 0). apply bpow_lt. lia. }
    destruct HC as (HR & HFq & _). rewrite Fs in HFq. set (q := Bdiv mode_NE bs (bz N)) in *.
    assert (E0 : f32_zero = B2SF (bz 0)) by apply of_Z_equiv. assert (E1 : f32_one = B2SF (bz 1)) by apply of_Z_equiv.
    destruct (bz_exact 0) as [R0 F0]; [lia|]. destruct (bz_exact 1) as [R1 F1]; [lia|].
    rewrite E0, E1. rewrite !leb_R, !eqb_R by assumption. rewrite HR, R0, R1.
    split; [apply Rle_bool_true; lra|]. split; [apply Rle_bool_true; lra|]. split.
    + split.
      * intros H. exfalso. destruct (Req_bool_spec (rnd (IZR S / D)) 0); [lra|discriminate].
      * intros Hz. rewrite Forall_forall in Hz. specialize (Hz M HMv). lia.
    + split.
      * intros H. split; [intros ->; inversion HMv|]. exists M. split; [lia|].
        destruct (Z.eq_dec S N) as [HSN|HSN]; [apply sum_eq; assumption|]. exfalso.
        assert (Hlt : (IZR S / D <= F2R (Float radix2 (2 ^ 24 - 1) (-24)))%R).
        { assert (HF1 : (F2R (Float radix2 (2 ^ 24 - 1) (-24)) = 1 - bpow radix2 (-24))%R).
          { unfold F2R. cbn [Fnum Fexp]. rewrite minus_IZR. change (IZR (2 ^ 24)) with (bpow radix2 24). rewrite Rmult_minus_distr_r, <- bpow_plus. simpl. lra. }
          rewrite HF1. apply Rmult_le_reg_r with D; [assumption|]. unfold Rdiv. rewrite Rmult_assoc, Rinv_l by lra. rewrite Rmult_1_r.
          destruct (Z_lt_le_dec N (2 ^ 24)) as [HN24|HN24].
          - assert (HD : D = IZR N) by (apply rnd_id, fmt_Z; lia). rewrite HD.
            assert (IZR S <= IZR N - 1)%R by (rewrite <- minus_IZR; apply IZR_le; lia).
            assert (IZR N * bpow radix2 (-24) <= 1)%R.
            { apply Rle_trans with (bpow radix2 24 * bpow radix2 (-24))%R; [|rewrite <- bpow_plus; simpl; lra].
              apply Rmult_le_compat_r; [apply bpow_ge_0|]. rewrite <- IZR_Zpower by lia. apply IZR_le. change (Zpower radix2 24) with (2 ^ 24). lia. }
            lra.
          - assert (HD : (bpow radix2 24 <= D)%R).
            { apply round_ge_generic; [apply fexp_correct; exact Hprec|apply valid_rnd_N|apply fmt_pow; lia|].
              rewrite <- IZR_Zpower by lia. apply IZR_le. change (Zpower radix2 24) with (2 ^ 24). lia. }
            assert (IZR S <= bpow radix2 24 - 1)%R.
            { rewrite <- IZR_Zpower by lia. change (Zpower radix2 24) with (2 ^ 24). rewrite <- minus_IZR. apply IZR_le. lia. }
            assert (bpow radix2 (-24) < 1)%R by (change 1%R with (bpow radix2 0); apply bpow_lt; lia).
            assert ((1 - bpow radix2 (-24)) * bpow radix2 24 <= (1 - bpow radix2 (-24)) * D)%R by (apply Rmult_le_compat_l; lra).
            assert ((1 - bpow radix2 (-24)) * bpow radix2 24 = bpow radix2 24 - 1)%R by (rewrite Rmult_minus_distr_r, <- bpow_plus; simpl; lra).
            lra. }
        assert (Hr : (rnd (IZR S / D) <= F2R (Float radix2 (2 ^ 24 - 1) (-24)))%R) by (apply round_le_generic; [apply fexp_correct; exact Hprec|apply valid_rnd_N|apply fmt_scaled; lia|assumption]).
        assert (F2R (Float radix2 (2 ^ 24 - 1) (-24)) < 1)%R.
        { unfold F2R. cbn [Fnum Fexp]. rewrite minus_IZR. change (IZR (2 ^ 24)) with (bpow radix2 24). rewrite Rmult_minus_distr_r, <- bpow_plus. simpl. lra. }
        destruct (Req_bool_spec (rnd (IZR S / D)) 1); [lra|discriminate].
      * intros (_ & m & Hm & Hall). assert (Hmm : M = m) by (rewrite Forall_forall in Hall; apply Hall; assumption).
        assert (HSN : S = N). { unfold S, N. rewrite Hmm. clear - Hall. induction Hall; cbn; [unfold len; cbn; lia|]. fold (zsum l). unfold len in *. cbn [length]. lia. }
        assert (HD : D = IZR N) by (apply rnd_id, fmt_Z; lia).
        apply Req_bool_true. rewrite HD, HSN. unfold Rdiv. rewrite Rinv_r by (apply IZR_neq; lia). apply rnd_id. assumption.
Qed.
