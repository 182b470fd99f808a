(** Non-negative single precision numbers: sign preservation and order, proved on SpecFloat
    directly (no real numbers, no axioms). *)
From Coq Require Import SpecFloat.
From Verif Require Import Prelude Float32.

(** Zero, positive, or +infinity (not NaN). *)
Definition fpos (f : f32) : Prop :=
  match f with
  | S754_zero _ => True
  | S754_infinity s => s = false
  | S754_nan => False
  | S754_finite s _ _ => s = false
  end.

Lemma iter_pos_ind {A} (P : A -> Prop) f : (forall x, P x -> P (f x)) -> forall n x, P x -> P (SpecFloat.iter_pos f n x).
Proof. intros Hf n. induction n as [n IH|n IH|]; cbn; intros x Hx; auto. Qed.

Lemma shr_1_nonneg r : 0 <= shr_m r -> 0 <= shr_m (shr_1 r).
Proof. destruct r as [[|[p|p|]|[p|p|]] r s]; cbn; lia. Qed.
Lemma shr_nonneg r e n : 0 <= shr_m r -> 0 <= shr_m (shr r e n).1.
Proof. intros H. destruct n; cbn; [assumption| |assumption]. apply (iter_pos_ind (fun r => 0 <= shr_m r)); [apply shr_1_nonneg|assumption]. Qed.
Lemma rec_m m l : shr_m (shr_record_of_loc m l) = m.
Proof. destruct l as [|[]]; reflexivity. Qed.
Lemma nearest_nonneg m l : 0 <= m -> 0 <= round_nearest_even m l.
Proof. intros H. destruct l as [|[]]; cbn; try lia. destruct (Z.even m); lia. Qed.

Lemma round_aux_pos prec emax m e l : 0 <= m -> fpos (binary_round_aux prec emax false m e l).
Proof.
  intros H. unfold binary_round_aux, shr_fexp.
  pose proof (shr_nonneg (shr_record_of_loc m l) e (fexp prec emax (Zdigits2 m + e) - e)) as H1. rewrite rec_m in H1. specialize (H1 H).
  destruct (shr _ e _) as [r1 e1]. cbn [fst] in H1.
  pose proof (nearest_nonneg _ (loc_of_shr_record r1) H1) as H2.
  set (m1 := round_nearest_even (shr_m r1) (loc_of_shr_record r1)) in *.
  pose proof (shr_nonneg (shr_record_of_loc m1 loc_Exact) e1 (fexp prec emax (Zdigits2 m1 + e1) - e1)) as H3. rewrite rec_m in H3. specialize (H3 H2).
  destruct (shr (shr_record_of_loc m1 loc_Exact) e1 _) as [r2 e2]. cbn [fst] in H3.
  destruct (shr_m r2); cbn; [exact I| |lia]. destruct (_ <=? _); reflexivity.
Qed.

Lemma of_Z_pos z : 0 <= z -> fpos (f32_of_Z z).
Proof.
  intros H. unfold f32_of_Z, binary_normalize. destruct z as [|p|p]; [exact I| |lia].
  unfold binary_round. destruct (shl_align _ _ _). apply round_aux_pos. lia.
Qed.
Lemma norm_pos z e : 0 <= z -> fpos (binary_normalize 24 128 z e false).
Proof.
  intros H. unfold binary_normalize. destruct z as [|p|p]; [exact I| |lia].
  unfold binary_round. destruct (shl_align _ _ _). apply round_aux_pos. lia.
Qed.
Lemma add_pos x y : fpos x -> fpos y -> fpos (f32_add x y).
Proof.
  unfold f32_add, SFadd. destruct x as [sx|sx| |sx mx ex], y as [sy|sy| |sy my ey]; cbn; intros Hx Hy; subst; try contradiction; auto.
  - destruct (Bool.eqb sx sy); exact I.
  - cbn. reflexivity.
  - apply (norm_pos (Zpos _)). lia.
Qed.
(** Finite and strictly positive. *)
Definition fstrict (f : f32) : Prop := exists m e, f = S754_finite false m e.
Lemma div_pos x y : fpos x -> fstrict y -> fpos (f32_div x y).
Proof.
  intros Hx (m & e & ->). unfold f32_div, SFdiv. destruct x as [s|s| |s mx ex]; cbn in *; subst; try contradiction; auto.
  unfold SFdiv_core_binary.
  set (m' := match _ with Z0 => _ | Zpos _ => _ | Zneg _ => _ end).
  assert (0 <= m').
  { subst m'. destruct (ex - e - _); [lia| |lia]. apply Z.shiftl_nonneg. lia. }
  pose proof (Z_div_mod m' (Zpos m) ltac:(lia)) as Hdm. destruct (Z.div_eucl m' (Zpos m)) as [q r].
  destruct Hdm as [Hq Hr]. apply round_aux_pos. nia.
Qed.

(** ** Integers below 2^64 convert to finite positive numbers *)
Lemma shr_1_div r : 0 <= shr_m r -> shr_m (shr_1 r) = shr_m r / 2.
Proof.
  destruct r as [[|[p|p|]|p] r s]; cbn [shr_m]; intros H; try lia; cbn -[Z.div]; try reflexivity.
  - rewrite Pos2Z.inj_xI. replace (2 * Z.pos p + 1) with (1 + Z.pos p * 2) by lia. rewrite Z.div_add by lia. reflexivity.
  - rewrite Pos2Z.inj_xO. replace (2 * Z.pos p) with (Z.pos p * 2) by lia. rewrite Z.div_mul by lia. reflexivity.
Qed.
Lemma iter_shr_div n : forall r, 0 <= shr_m r -> shr_m (SpecFloat.iter_pos shr_1 n r) = shr_m r / 2 ^ Zpos n /\ 0 <= shr_m (SpecFloat.iter_pos shr_1 n r).
Proof.
  induction n as [n IH|n IH|]; intros r H; cbn [SpecFloat.iter_pos].
  - pose proof (shr_1_div r H) as E1. assert (0 <= shr_m (shr_1 r)) as H1 by (apply shr_1_nonneg; assumption).
    destruct (IH _ H1) as [E2 H2]. destruct (IH _ H2) as [E3 H3]. split; [|assumption].
    rewrite E3, E2, E1. rewrite !Z.div_div by lia. f_equal.
    replace (Z.pos n~1) with (1 + Z.pos n + Z.pos n) by lia. rewrite !Z.pow_add_r by lia. lia.
  - destruct (IH _ H) as [E2 H2]. destruct (IH _ H2) as [E3 H3]. split; [|assumption].
    rewrite E3, E2. rewrite !Z.div_div by lia. f_equal.
    replace (Z.pos n~0) with (Z.pos n + Z.pos n) by lia. rewrite Z.pow_add_r by lia. reflexivity.
  - split; [apply shr_1_div; assumption|apply shr_1_nonneg; assumption].
Qed.
Lemma shr_div r e n : 0 <= shr_m r -> shr_m (shr r e n).1 = shr_m r / 2 ^ (Z.max 0 n) /\ (shr r e n).2 = e + Z.max 0 n.
Proof.
  intros H. destruct n as [|p|p]; cbn [shr fst snd].
  - rewrite Z.div_1_r. split; [reflexivity|lia].
  - split; [apply iter_shr_div; assumption|lia].
  - change (Z.max 0 (Z.neg p)) with 0. rewrite Z.div_1_r. split; [reflexivity|lia].
Qed.
Lemma digits_log p : Zpos (digits2_pos p) = Z.log2 (Zpos p) + 1.
Proof.
  induction p as [p IH|p IH|]; cbn [digits2_pos].
  - rewrite Pos2Z.inj_succ, IH, Pos2Z.inj_xI, Z.log2_succ_double by lia. lia.
  - rewrite Pos2Z.inj_succ, IH, Pos2Z.inj_xO, Z.log2_double by lia. lia.
  - reflexivity.
Qed.
Lemma Zdigits_log m : 0 < m -> Zdigits2 m = Z.log2 m + 1.
Proof. intros H. destruct m; [lia| |lia]. apply digits_log. Qed.
Lemma fexp32 x : fexp 24 128 x = Z.max (x - 24) (-149).
Proof. unfold fexp, emin. lia. Qed.

(** Rounding a positive integer m * 2^e of moderate size. *)
Lemma round_aux_strict m e : 0 < m -> -100 <= e -> Z.log2 m + e <= 100 -> 23 <= Z.log2 m ->
  fstrict (binary_round_aux 24 128 false m e loc_Exact).
Proof.
  intros H He Hl Hd. unfold binary_round_aux, shr_fexp. rewrite Zdigits_log by assumption. rewrite fexp32.
  set (n := Z.max _ _ - e). assert (Hn : n = Z.log2 m - 23) by (subst n; lia). clearbody n. subst n.
  destruct (shr_div (shr_record_of_loc m loc_Exact) e (Z.log2 m - 23)) as [E1 E2]; [rewrite rec_m; lia|]. rewrite rec_m in E1.
  destruct (shr _ e _) as [r1 e1]. cbn [fst snd] in *.
  rewrite Z.max_r in E1, E2 by lia.
  pose proof (Z.log2_spec m H) as [Hlo Hhi].
  assert (Hm1 : 2 ^ 23 <= shr_m r1 < 2 ^ 24).
  { rewrite E1. split.
    - apply Z.div_le_lower_bound; [apply Z.pow_pos_nonneg; lia|]. rewrite <- Z.pow_add_r by lia.
      replace (Z.log2 m - 23 + 23) with (Z.log2 m) by lia. assumption.
    - apply Z.div_lt_upper_bound; [apply Z.pow_pos_nonneg; lia|]. rewrite <- Z.pow_add_r by lia.
      replace (Z.log2 m - 23 + 24) with (Z.succ (Z.log2 m)) by lia. assumption. }
  set (m1 := round_nearest_even _ _).
  assert (Hm2 : 2 ^ 23 <= m1 <= 2 ^ 24).
  { subst m1. destruct (loc_of_shr_record r1) as [|[]]; cbn -[Z.pow]; try destruct (Z.even _); lia. }
  clearbody m1. rewrite Zdigits_log by lia. rewrite fexp32.
  assert (Hl1 : 23 <= Z.log2 m1 <= 24).
  { split; [apply Z.log2_le_pow2; lia|]. assert (Z.log2 m1 <= Z.log2 (2 ^ 24)) by (apply Z.log2_le_mono; lia).
    rewrite Z.log2_pow2 in * by lia. assumption. }
  destruct (shr_div (shr_record_of_loc m1 loc_Exact) e1 (Z.max (Z.log2 m1 + 1 + e1 - 24) (-149) - e1)) as [F1 F2]; [rewrite rec_m; lia|]. rewrite rec_m in F1.
  destruct (shr _ e1 _) as [r2 e3]. cbn [fst snd] in *.
  assert (Hn : Z.max 0 (Z.max (Z.log2 m1 + 1 + e1 - 24) (-149) - e1) = 0 \/
               Z.max 0 (Z.max (Z.log2 m1 + 1 + e1 - 24) (-149) - e1) = 1) by lia.
  assert (0 < shr_m r2).
  { rewrite F1. destruct Hn as [-> | ->]; [rewrite Z.div_1_r; lia|].
    apply Z.div_str_pos. change (2 ^ 1) with 2. lia. }
  destruct (shr_m r2) as [|p|p]; [lia| |lia].
  destruct (Zle_bool e3 (128 - 24)) eqn:Hb; [exists p, e3; reflexivity|]. apply Z.leb_gt in Hb. lia.
Qed.
Lemma of_Z_strict z : 0 < z < 2 ^ 64 -> fstrict (f32_of_Z z).
Proof.
  intros H. unfold f32_of_Z, binary_normalize. destruct z as [|p|p]; [lia| |lia].
  unfold binary_round. rewrite digits_log, fexp32. set (z := Z.pos p) in *.
  assert (0 <= Z.log2 z <= 63) by (split; [apply Z.log2_nonneg|]; assert (Z.log2 z < 64) by (apply Z.log2_lt_pow2; lia); lia).
  unfold shl_align. destruct (_ - 0) as [|q|q] eqn:Hq.
  - change (Z.pos p) with z. apply round_aux_strict; lia.
  - change (Z.pos p) with z. apply round_aux_strict; lia.
  - assert (Z.max (Z.log2 z + 1 + 0 - 24) (-149) = Z.log2 z - 23) as -> by lia.
    assert (Hz : Z.pos (shift_pos q p) = z * 2 ^ (Z.pos q)).
    { rewrite shift_pos_correct. unfold z. rewrite Z.mul_comm. reflexivity. }
    rewrite Hz. assert (Hlog : Z.log2 (z * 2 ^ Z.pos q) = Z.log2 z + Z.pos q) by (rewrite Z.log2_mul_pow2 by lia; lia).
    assert (0 < z * 2 ^ Z.pos q) by (apply Z.mul_pos_pos; [lia|apply Z.pow_pos_nonneg; lia]).
    apply round_aux_strict; lia.
Qed.

(** ** Order *)
Lemma leb_total x y : fpos x -> fpos y -> f32_leb x y = false -> f32_ltb y x = true.
Proof.
  unfold f32_leb, f32_ltb, SFleb, SFltb, SFcompare.
  destruct x as [sx|sx| |sx mx ex], y as [sy|sy| |sy my ey]; cbn; intros; subst; try contradiction; try discriminate; auto.
  rewrite (Z.compare_antisym ex ey). destruct (Z.compare ex ey); cbn in *; try discriminate; try reflexivity.
  change (Pos.compare_cont Eq my mx) with (Pos.compare my mx). change (Pos.compare_cont Eq mx my) with (Pos.compare mx my) in *.
  rewrite (Pos.compare_antisym mx my). destruct (Pos.compare mx my); cbn in *; try discriminate; reflexivity.
Qed.
Lemma leb_refl x : fpos x -> f32_leb x x = true.
Proof.
  unfold f32_leb, SFleb, SFcompare. destruct x as [sx|sx| |sx mx ex]; cbn; intros; subst; try contradiction; auto.
  rewrite Z.compare_refl. change (Pos.compare_cont Eq mx mx) with (Pos.compare mx mx). rewrite Pos.compare_refl. reflexivity.
Qed.
Lemma ltb_leb x y : f32_ltb x y = true -> f32_leb x y = true.
Proof. unfold f32_leb, f32_ltb, SFleb, SFltb. destruct (SFcompare x y) as [[]|]; congruence. Qed.
Lemma leb_trans x y z : fpos x -> fpos y -> fpos z -> f32_leb x y = true -> f32_leb y z = true -> f32_leb x z = true.
Proof.
  unfold f32_leb, SFleb, SFcompare.
  destruct x as [sx|sx| |sx mx ex], y as [sy|sy| |sy my ey], z as [sz|sz| |sz mz ez]; cbn; intros; subst; try contradiction; try discriminate; auto.
  change (Pos.compare_cont Eq mx my) with (Pos.compare mx my) in *. change (Pos.compare_cont Eq my mz) with (Pos.compare my mz) in *.
  change (Pos.compare_cont Eq mx mz) with (Pos.compare mx mz).
  destruct (Z.compare_spec ex ey), (Z.compare_spec ey ez), (Z.compare_spec ex ez); try lia; try discriminate; try reflexivity.
  destruct (Pos.compare_spec mx my), (Pos.compare_spec my mz), (Pos.compare_spec mx mz); try lia; try discriminate; reflexivity.
Qed.
Lemma ltb_leb_trans x y z : fpos x -> fpos y -> fpos z -> f32_ltb x y = true -> f32_leb y z = true -> f32_ltb x z = true.
Proof.
  unfold f32_leb, f32_ltb, SFltb, SFleb, SFcompare.
  destruct x as [sx|sx| |sx mx ex], y as [sy|sy| |sy my ey], z as [sz|sz| |sz mz ez]; cbn; intros; subst; try contradiction; try discriminate; auto.
  change (Pos.compare_cont Eq mx my) with (Pos.compare mx my) in *. change (Pos.compare_cont Eq my mz) with (Pos.compare my mz) in *.
  change (Pos.compare_cont Eq mx mz) with (Pos.compare mx mz).
  destruct (Z.compare_spec ex ey), (Z.compare_spec ey ez), (Z.compare_spec ex ez); try lia; try discriminate; try reflexivity.
  destruct (Pos.compare_spec mx my), (Pos.compare_spec my mz), (Pos.compare_spec mx mz); try lia; try discriminate; reflexivity.
Qed.
Lemma zero_leb x : fpos x -> f32_leb f32_zero x = true.
Proof. destruct x as [sx|sx| |sx mx ex]; cbn; intros; subst; try contradiction; reflexivity. Qed.
