(** NaN-freedom of the operations KernelCanvas uses, on SpecFloat directly. *)
From Coq Require Import SpecFloat.
From Verif Require Import Prelude Float32 Kernel FloatSign.

Lemma round_aux_not_nan prec emax s m e l : 0 <= m -> binary_round_aux prec emax s m e l <> S754_nan.
Proof.
  intros H. unfold binary_round_aux, shr_fexp.
  pose proof (shr_nonneg (shr_record_of_loc m l) e (fexp prec emax (Zdigits2 m + e) - e)) as H1. rewrite rec_m in H1. specialize (H1 H).
  destruct (shr _ e _) as [r1 e1]. cbn [fst] in H1.
  pose proof (nearest_nonneg _ (loc_of_shr_record r1) H1) as H2.
  set (m1 := round_nearest_even (shr_m r1) (loc_of_shr_record r1)) in *.
  pose proof (shr_nonneg (shr_record_of_loc m1 loc_Exact) e1 (fexp prec emax (Zdigits2 m1 + e1) - e1)) as H3. rewrite rec_m in H3. specialize (H3 H2).
  destruct (shr (shr_record_of_loc m1 loc_Exact) e1 _) as [r2 e2]. cbn [fst] in H3.
  destruct (shr_m r2); cbn; [discriminate| |lia]. destruct (_ <=? _); discriminate.
Qed.
Lemma norm_not_nan prec emax z e s : binary_normalize prec emax z e s <> S754_nan.
Proof. unfold binary_normalize, binary_round. destruct z as [|p|p]; [discriminate|destruct (shl_align _ _ _); apply round_aux_not_nan; lia..]. Qed.
Lemma norm_pos_gen prec emax z e s : 0 < z -> fpos (binary_normalize prec emax z e s).
Proof.
  intros H. unfold binary_normalize. destruct z as [|p|p]; [lia| |lia].
  unfold binary_round. destruct (shl_align _ _ _). apply round_aux_pos. lia.
Qed.

Definition finite (f : f64) : Prop := exists s, f = S754_zero s \/ exists m e, f = S754_finite s m e.
Lemma sub_not_nan x k : x <> S754_nan -> finite k -> f64_sub x k <> S754_nan.
Proof.
  intros Hx (s & [->|(m & e & ->)]); unfold f64_sub, SFsub; destruct x as [sx|sx| |sx mx ex]; try congruence; try discriminate.
  - destruct (Bool.eqb sx (negb s)); discriminate.
  - apply norm_not_nan.
Qed.
Lemma square_pos d : d <> S754_nan -> fpos (f64_mul d d).
Proof.
  intros Hd. unfold f64_mul, SFmul. destruct d as [s|s| |s m e]; try congruence; cbn; [exact I|apply Bool.xorb_nilpotent|].
  rewrite Bool.xorb_nilpotent. apply round_aux_pos. lia.
Qed.
Lemma add64_pos x y : fpos x -> fpos y -> fpos (f64_add x y).
Proof.
  unfold f64_add, SFadd. destruct x as [sx|sx| |sx mx ex], y as [sy|sy| |sy my ey]; intros Hx Hy; cbn in Hx, Hy; subst; try contradiction; cbn; auto.
  - destruct (Bool.eqb sx sy); exact I.
  - apply (norm_pos_gen 53 1024 (Zpos _)). lia.
Qed.
Lemma sqrt_pos x : fpos x -> fpos (f64_sqrt x).
Proof.
  unfold f64_sqrt, SFsqrt. destruct x as [s|s| |s m e]; intros H; cbn in H; subst; try contradiction; cbn; auto.
  unfold SFsqrt_core_binary. set (m' := match _ with Z0 => _ | Zpos _ => _ | Zneg _ => _ end).
  assert (0 <= m') by (subst m'; destruct (_ - _); [lia|apply Z.shiftl_nonneg; lia|lia]).
  pose proof (Z.sqrtrem_spec m' ltac:(assumption)) as Hs. destruct (Z.sqrtrem m') as [q r]. apply round_aux_pos. lia.
Qed.
Lemma fpos_not_nan x : fpos x -> x <> S754_nan.
Proof. intros H ->. exact H. Qed.
Lemma sub_nan k : f64_sub S754_nan k = S754_nan. Proof. reflexivity. Qed.
Lemma add_nan_r x : f64_add x S754_nan = S754_nan. Proof. destruct x; reflexivity. Qed.

(** ** Order *)
Lemma ltb_irrefl x : SFltb x x = false.
Proof.
  unfold SFltb, SFcompare. destruct x as [s|s| |s m e]; cbn; auto; [destruct s; reflexivity|].
  destruct s; rewrite Z.compare_refl; change (Pos.compare_cont Eq m m) with (Pos.compare m m); rewrite Pos.compare_refl; reflexivity.
Qed.
Lemma not_ltb_leb x y : fpos x -> fpos y -> SFltb y x = false -> SFleb x y = true.
Proof. intros Hx Hy H. destruct (SFleb x y) eqn:E; [reflexivity|]. pose proof (leb_total x y Hx Hy E) as H1. unfold f32_ltb in H1. congruence. Qed.
Lemma leb_not_ltb x y : fpos x -> fpos y -> SFleb x y = true -> SFltb y x = false.
Proof.
  intros Hx Hy H. destruct (SFltb y x) eqn:E; [|reflexivity]. pose proof (ltb_leb_trans y x y Hy Hx Hy E H) as H1.
  unfold f32_ltb in H1. rewrite ltb_irrefl in H1. discriminate.
Qed.
Lemma strict_weak_pos (l : list (Z * f64)) : Forall (fun a : Z * f64 => fpos (@snd Z f64 a)) l -> strict_weak kc_less l = true.
Proof.
  intros HF. unfold strict_weak. apply andb_true_intro. split.
  - apply forallb_forall. intros a _. unfold kc_less, f64_ltb. rewrite ltb_irrefl. reflexivity.
  - rewrite Forall_forall in HF. setoid_rewrite elem_of_list_In in HF.
    apply forallb_forall. intros a Ha. apply forallb_forall. intros b Hb. apply forallb_forall. intros c Hc.
    apply HF in Ha, Hb, Hc. unfold kc_less, f64_ltb. cbv beta in *. apply andb_true_intro. split.
    + destruct (SFltb a.2 b.2) eqn:E1; [|reflexivity]. destruct (SFltb b.2 c.2) eqn:E2; [|reflexivity]. cbn.
      apply (ltb_leb_trans a.2 b.2 c.2 Ha Hb Hc E1). apply ltb_leb. exact E2.
    + destruct (SFltb a.2 b.2) eqn:E1; [reflexivity|]. destruct (SFltb b.2 a.2) eqn:E2; [reflexivity|].
      destruct (SFltb b.2 c.2) eqn:E3; [reflexivity|]. destruct (SFltb c.2 b.2) eqn:E4; [reflexivity|]. cbn [negb andb implb].
      pose proof (leb_trans a.2 b.2 c.2 Ha Hb Hc (not_ltb_leb _ _ Ha Hb E2) (not_ltb_leb _ _ Hb Hc E4)) as L1.
      pose proof (leb_trans c.2 b.2 a.2 Hc Hb Ha (not_ltb_leb _ _ Hc Hb E3) (not_ltb_leb _ _ Hb Ha E1)) as L2.
      assert (SFltb c.2 a.2 = false) as -> by exact (leb_not_ltb _ _ Ha Hc L1). assert (SFltb a.2 c.2 = false) as -> by exact (leb_not_ltb _ _ Hc Ha L2). reflexivity.
Qed.
Lemma strict_weak_nan (l : list (Z * f64)) : Forall (fun a : Z * f64 => @snd Z f64 a = S754_nan) l -> strict_weak kc_less l = true.
Proof.
  intros HF. unfold strict_weak. rewrite Forall_forall in HF. setoid_rewrite elem_of_list_In in HF. apply andb_true_intro. split.
  - apply forallb_forall. intros a Ha. unfold kc_less. rewrite (HF a Ha). reflexivity.
  - apply forallb_forall. intros a Ha. apply forallb_forall. intros b Hb. apply forallb_forall. intros c Hc. unfold kc_less.
    rewrite (HF a Ha), (HF b Hb), (HF c Hc). reflexivity.
Qed.

(** ** Squared distances *)
Definition sqd (a : f64) (xy : f64 * f64) : f64 := let '(x, y) := xy in let d := f64_sub x y in f64_add a (f64_mul d d).
Lemma sqd_pos l : forall a, fpos a -> Forall (fun xy => xy.1 <> S754_nan /\ finite xy.2) l -> fpos (foldl sqd a l).
Proof.
  induction l as [|[x y] l IH]; intros a Ha HF; [exact Ha|]. apply Forall_cons in HF as [[Hx Hy] HF]. cbn [foldl]. apply IH; [|exact HF].
  cbn. apply add64_pos; [exact Ha|]. apply square_pos, sub_not_nan; assumption.
Qed.
Lemma sqd_nan_acc l : foldl sqd S754_nan l = S754_nan.
Proof. induction l as [|[x y] l IH]; [reflexivity|exact IH]. Qed.
Lemma sqd_nan l : forall a, Exists (fun xy => xy.1 = S754_nan) l -> foldl sqd a l = S754_nan.
Proof.
  induction l as [|[x y] l IH]; intros a HE; [inversion HE|]. cbn [foldl]. apply Exists_cons in HE as [HE|HE]; [|apply IH, HE].
  cbn in HE. subst x. cbn. rewrite add_nan_r. apply sqd_nan_acc.
Qed.
