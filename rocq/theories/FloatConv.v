(** Every float survives the conversion to double and back. *)
From Coq Require Import SpecFloat.
From Verif Require Import Prelude Float32 GrisuSpec.
Local Open Scope Z_scope.

Lemma digits2_log2 m : Z.pos (digits2_pos m) = Z.log2 (Z.pos m) + 1.
Proof.
  induction m as [m IH|m IH|]; cbn [digits2_pos]; [| |reflexivity].
  - rewrite Pos2Z.inj_succ, IH. rewrite Pos2Z.inj_xI. rewrite Z.log2_succ_double by lia. lia.
  - rewrite Pos2Z.inj_succ, IH. rewrite Pos2Z.inj_xO, Z.log2_double by lia. lia.
Qed.
Lemma zeq_bool a b : Zbool.Zeq_bool a b = true <-> a = b. Proof. symmetry. apply Zbool.Zeq_is_eq_bool. Qed.
(** The canonical doubles are those of GrisuSpec.v. *)
Lemma f64_double s m e : is_f64 (S754_finite s m e) <-> is_double (Z.pos m) e.
Proof.
  unfold is_f64, is_double. cbn [valid_binary]. unfold bounded, canonical_mantissa, fexp, SpecFloat.emin. rewrite andb_true_iff, zeq_bool, Z.leb_le, digits2_log2.
  pose proof (Z.log2_nonneg (Z.pos m)) as H0. pose proof (Z.log2_spec (Z.pos m) ltac:(lia)) as [H1 H2].
  split.
  - intros [E He]. assert (Hl : Z.log2 (Z.pos m) <= 52) by lia.
    assert (Z.pos m < 2 ^ 53). { eapply Z.lt_le_trans; [exact H2|]. apply Z.pow_le_mono_r; lia. }
    split; [lia|]. split; [lia|]. destruct (Z.eq_dec (Z.log2 (Z.pos m)) 52) as [El|El]; [left; rewrite <- El; exact H1|right; lia].
  - intros (Hm & He & Hn). assert (Hl : Z.log2 (Z.pos m) <= 52). { assert (Z.log2 (Z.pos m) < 53) by (apply Z.log2_lt_pow2; lia). lia. }
    split; [|lia]. destruct Hn as [Hn| ->]; [|lia]. assert (52 <= Z.log2 (Z.pos m)) by (apply Z.log2_le_pow2; lia). lia.
Qed.

Lemma shl_align_spec m e e' : exists m' x, shl_align m e e' = (m', x) /\ x = Z.min e e' /\ Z.pos m' = Z.pos m * 2 ^ (e - x).
Proof.
  unfold shl_align. destruct (e' - e) as [|d|d] eqn:Ed.
  - exists m, e. replace (e - e) with 0 by lia. split; [reflexivity|]. lia.
  - exists m, e. replace (e - e) with 0 by lia. split; [reflexivity|]. lia.
  - exists (shift_pos d m), e'. split; [reflexivity|]. split; [lia|]. replace (e - e') with (Z.pos d) by lia. 
    rewrite Zpower.shift_pos_correct. change (Z.pow_pos 2 d) with (2 ^ Z.pos d). ring.
Qed.

Lemma shr_double m : shr_1 {| shr_m := Z.pos m~0; shr_r := false; shr_s := false |} = {| shr_m := Z.pos m; shr_r := false; shr_s := false |}.
Proof. reflexivity. Qed.
Lemma shr_exact d : forall m m', Z.pos m' = Z.pos m * 2 ^ Z.pos d ->
  SpecFloat.iter_pos shr_1 d {| shr_m := Z.pos m'; shr_r := false; shr_s := false |} = {| shr_m := Z.pos m; shr_r := false; shr_s := false |}.
Proof.
  induction d as [d IH|d IH|]; intros m m' E; cbn [SpecFloat.iter_pos].
  - assert (Hm : exists a, Z.pos a = Z.pos m * 2 ^ Z.pos d).
    { assert (0 < Z.pos m * 2 ^ Z.pos d) by (apply Z.mul_pos_pos; [lia|apply Z.pow_pos_nonneg; lia]). exists (Z.to_pos (Z.pos m * 2 ^ Z.pos d)). rewrite Z2Pos.id by lia. reflexivity. }
    destruct Hm as (a & Ha).
    assert (Hb : exists b, Z.pos b = Z.pos a * 2 ^ Z.pos d).
    { assert (0 < Z.pos a * 2 ^ Z.pos d) by (apply Z.mul_pos_pos; [lia|apply Z.pow_pos_nonneg; lia]). exists (Z.to_pos (Z.pos a * 2 ^ Z.pos d)). rewrite Z2Pos.id by lia. reflexivity. }
    destruct Hb as (b & Hb). assert (Em : m' = (b~0)%positive).
    { apply Pos2Z.inj. rewrite E, (Pos2Z.inj_xO b), Hb, Ha. replace (Z.pos d~1) with (Z.pos d + Z.pos d + 1) by lia. rewrite !Z.pow_add_r by lia. ring. }
    subst m'. rewrite shr_double. rewrite (IH a b Hb). apply IH. exact Ha.
  - assert (Hm : exists a, Z.pos a = Z.pos m * 2 ^ Z.pos d).
    { assert (0 < Z.pos m * 2 ^ Z.pos d) by (apply Z.mul_pos_pos; [lia|apply Z.pow_pos_nonneg; lia]). exists (Z.to_pos (Z.pos m * 2 ^ Z.pos d)). rewrite Z2Pos.id by lia. reflexivity. }
    destruct Hm as (a & Ha). rewrite (IH a m'); [apply IH; exact Ha|].
    rewrite E, Ha. replace (Z.pos d~0) with (Z.pos d + Z.pos d) by lia. rewrite Z.pow_add_r by lia. ring.
  - assert (m' = (m~0)%positive) as -> by (apply Pos2Z.inj; rewrite E, (Pos2Z.inj_xO m); change (2 ^ 1) with 2; lia). apply shr_double.
Qed.
Lemma shr_fexp_exact prec emax m m' e k : 0 <= k -> Z.pos m' = Z.pos m * 2 ^ k -> fexp prec emax (Z.pos (digits2_pos m) + e) = e ->
  shr_fexp prec emax (Z.pos m') (e - k) loc_Exact = ({| shr_m := Z.pos m; shr_r := false; shr_s := false |}, e).
Proof.
  intros Hk Em Hc. unfold shr_fexp. cbn [shr_record_of_loc Zdigits2].
  assert (Ed : Z.pos (digits2_pos m') + (e - k) = Z.pos (digits2_pos m) + e).
  { rewrite !digits2_log2, Em, Z.log2_mul_pow2 by lia. lia. }
  rewrite Ed, Hc. replace (e - (e - k)) with k by lia. unfold shr. destruct k as [|d|d]; [| |lia].
  - rewrite Z.pow_0_r, Z.mul_1_r in Em. rewrite Em, Z.sub_0_r. reflexivity.
  - rewrite (shr_exact d m m' Em). f_equal. lia.
Qed.
(** float -> double is exact, and the result is a double. *)
Lemma widen_spec s m e : is_f32 (S754_finite s m e) -> exists m' k, f64_of_f32 (S754_finite s m e) = S754_finite s m' (e - k) /\
  0 <= k /\ Z.pos m' = Z.pos m * 2 ^ k /\ is_f64 (S754_finite s m' (e - k)).
Proof.
  intros H. unfold is_f32 in H. cbn [valid_binary] in H. unfold bounded, canonical_mantissa in H. apply andb_prop in H as [Hc He]. apply zeq_bool in Hc. apply Z.leb_le in He.
  cbn [f64_of_f32]. destruct (shl_align_spec m e (fexp 53 1024 (Z.pos (digits2_pos m) + e))) as (m' & x & -> & Ex & Em).
  unfold fexp, SpecFloat.emin in *. rewrite digits2_log2 in *. pose proof (Z.log2_nonneg (Z.pos m)).
  assert (Hx : x = Z.max (Z.log2 (Z.pos m) + 1 + e - 53) (-1074)) by lia.
  exists m', (e - x). replace (e - (e - x)) with x by lia. split; [reflexivity|]. split; [lia|]. split; [exact Em|].
  unfold is_f64. cbn [valid_binary]. unfold bounded, canonical_mantissa, fexp, SpecFloat.emin. rewrite digits2_log2, Em, Z.log2_mul_pow2 by lia.
  apply andb_true_intro. rewrite zeq_bool, Z.leb_le. lia.
Qed.
Theorem widen_narrow x : is_f32 x -> f32_of_f64 (f64_of_f32 x) = x.
Proof.
  destruct x as [s|s| |s m e]; intros H; try reflexivity. destruct (widen_spec s m e H) as (m' & k & -> & Hk & Em & _).
  unfold is_f32 in H. cbn [valid_binary] in H. unfold bounded, canonical_mantissa in H. apply andb_prop in H as [Hc He]. apply zeq_bool in Hc.
  cbn [f32_of_f64]. unfold binary_round. assert (Ed : Z.pos (digits2_pos m') + (e - k) = Z.pos (digits2_pos m) + e).
  { rewrite !digits2_log2, Em, Z.log2_mul_pow2 by lia. lia. }
  rewrite Ed, Hc. destruct (shl_align_spec m' (e - k) e) as (m'' & x & -> & Ex & Em''). assert (x = e - k) as -> by lia.
  assert (m'' = m') as ->. { apply Pos2Z.inj. rewrite Em''. replace (e - k - (e - k)) with 0 by lia. lia. }
  unfold binary_round_aux. rewrite (shr_fexp_exact 24 128 m m' e k Hk Em Hc). cbn [shr_m loc_of_shr_record round_nearest_even].
  pose proof (shr_fexp_exact 24 128 m m e 0 ltac:(lia) ltac:(lia) Hc) as E0. rewrite Z.sub_0_r in E0. rewrite E0. cbn [shr_m]. rewrite He. reflexivity.
Qed.
Lemma widen_f64 x : is_f32 x -> is_f64 (f64_of_f32 x).
Proof. destruct x as [s|s| |s m e]; intros H; try reflexivity. destruct (widen_spec s m e H) as (m' & k & -> & _ & _ & H'). exact H'. Qed.
Lemma widen_finite x : is_f32 x -> f32_finite (f64_of_f32 x) = f32_finite x.
Proof. destruct x as [s|s| |s m e]; intros H; try reflexivity. destruct (widen_spec s m e H) as (m' & k & -> & _). reflexivity. Qed.
