(** KernelCanvas on data without spread: a column whose values are all equal has standard
    deviation 0, so its normalised values are NaN, and so is every distance. *)
From Coq Require Import SpecFloat Reals Psatz.
From Flocq Require Import Core BinarySingleNaN.
From Verif Require Import Prelude Float32 Kernel SpecKernel FloatSign KernelFloat KernelProofs KernelReals BinProofs DiscCtorProofs.
Local Open Scope Z_scope.

Local Instance P64 : FLX.Prec_gt_0 53 := eq_refl.
Local Instance M64 : Prec_lt_emax 53 1024 := eq_refl.
Notation bf := (binary_float 53 1024).
Notation rnd := (round radix2 (SpecFloat.fexp 53 1024) ZnearestE).
Notation fmt := (generic_format radix2 (SpecFloat.fexp 53 1024)).

(** [x] is finite and its real value is [r]. *)
Definition val (x : f64) (r : R) : Prop := exists b : bf, x = B2SF b /\ is_finite b = true /\ B2R b = r.
Definition small (r : R) : Prop := fmt r /\ (Rabs r < bpow radix2 1024)%R.

Lemma sub_equiv (x y : bf) : SFsub 53 1024 (B2SF x) (B2SF y) = B2SF (Bminus mode_NE x y).
Proof.
  case x as [sx|sx| |sx mx ex Bx]; case y as [sy|sy| |sy my ey By]; try reflexivity; try (simpl; case Bool.eqb; reflexivity).
  simpl. unfold Bminus. rewrite <- normalize_equiv. f_equal. unfold Fplus_naive. destruct sx, sy; cbn [negb cond_Zopp]; lia.
Qed.
Lemma val_small x r : val x r -> small r.
Proof. intros (b & -> & Hf & <-). split; [apply generic_format_B2R|apply abs_B2R_lt_emax]. Qed.
Lemma val_add x y a b : val x a -> val y b -> small (a + b) -> val (f64_add x y) (a + b).
Proof.
  intros (bx & -> & Fx & Rx) (by_ & -> & Fy & Ry) [Hf Hs]. unfold f64_add. rewrite (add_equiv 53 1024 P64 M64).
  pose proof (Bplus_correct 53 1024 P64 M64 mode_NE bx by_ Fx Fy) as H. rewrite Rx, Ry in H. change (round_mode mode_NE) with ZnearestE in H.
  rewrite (rnd_id 53 1024) in H by exact Hf. rewrite Rlt_bool_true in H by exact Hs. destruct H as (H1 & H2 & _). exists (Bplus mode_NE bx by_). auto.
Qed.
Lemma val_div x y a b : val x a -> val y b -> b <> 0%R -> small (a / b) -> val (f64_div x y) (a / b).
Proof.
  intros (bx & -> & Fx & Rx) (by_ & -> & Fy & Ry) Hb [Hf Hs]. unfold f64_div. rewrite (div_equiv 53 1024 P64 M64).
  pose proof (Bdiv_correct 53 1024 P64 M64 mode_NE bx by_) as H. rewrite Rx, Ry in H. specialize (H Hb). change (round_mode mode_NE) with ZnearestE in H.
  rewrite (rnd_id 53 1024) in H by exact Hf. rewrite Rlt_bool_true in H by exact Hs. destruct H as (H1 & H2 & _). rewrite Fx in H2. exists (Bdiv mode_NE bx by_). auto.
Qed.
Lemma val_zero x : val x 0 -> exists s, x = S754_zero s.
Proof.
  intros (b & -> & Hf & Hr). destruct b as [s| | |s m e H]; try discriminate; [exists s; reflexivity|]. exfalso. cbn in Hr.
  apply (eq_0_F2R radix2) in Hr. destruct s; discriminate.
Qed.
Lemma val_sub x y a : val x a -> val y a -> exists s, f64_sub x y = S754_zero s.
Proof.
  intros (bx & -> & Fx & Rx) (by_ & -> & Fy & Ry). apply val_zero. unfold f64_sub. rewrite sub_equiv.
  pose proof (Bminus_correct 53 1024 P64 M64 mode_NE bx by_ Fx Fy) as H. rewrite Rx, Ry in H. change (round_mode mode_NE) with ZnearestE in H.
  rewrite Rminus_diag_eq in H by reflexivity. rewrite round_0 in H by (apply valid_rnd_N). rewrite Rabs_R0, Rlt_bool_true in H by (apply bpow_gt_0). destruct H as (H1 & H2 & _).
  exists (Bminus mode_NE bx by_). auto.
Qed.
Lemma val_Z z : 0 <= z <= 2 ^ 53 -> val (f64_of_Z z) (IZR z).
Proof. intros H. destruct (bz_exact 53 1024 P64 M64 z H) as [H1 H2]. exists (bz z). split; [apply normalize_equiv|]. auto. Qed.
Lemma small_Z z : 0 <= z <= 2 ^ 53 -> small (IZR z).
Proof. intros H. exact (val_small _ _ (val_Z z H)). Qed.

Lemma sum_val r xs : Forall (fun x => val x r) xs -> forall k acc, val acc (IZR k * r) -> (forall i, k <= i <= k + len xs -> small (IZR i * r)) ->
  val (foldl f64_add acc xs) (IZR (k + len xs) * r).
Proof.
  induction xs as [|x xs IH]; intros HF k acc Ha Hs; cbn [foldl].
  - replace (k + len (@nil f64)) with k by (unfold len; cbn; lia). exact Ha.
  - apply Forall_cons in HF as [Hx HF]. unfold len in *. cbn [length] in *. replace (k + Z.of_nat (S (length xs))) with ((k + 1) + Z.of_nat (length xs)) by lia. apply IH; [exact HF| |intros i Hi; apply Hs; lia].
    replace (IZR (k + 1) * r)%R with (IZR k * r + r)%R by (rewrite plus_IZR; ring). apply val_add; [exact Ha|exact Hx|].
    replace (IZR k * r + r)%R with (IZR (k + 1) * r)%R by (rewrite plus_IZR; ring). apply Hs. lia.
Qed.
Lemma mean_val r xs : xs <> [] -> len xs <= 2 ^ 53 -> Forall (fun x => val x r) xs -> (forall i, 0 <= i <= len xs -> small (IZR i * r)) -> val (mean_of xs) r.
Proof.
  intros Hne Hl HF Hs. assert (H1 : 1 <= len xs) by (destruct xs; [congruence|unfold len; cbn; lia]). unfold mean_of.
  assert (Hn : IZR (len xs) <> 0%R) by (apply not_0_IZR; lia).
  assert (E : (IZR (len xs) * r / IZR (len xs))%R = r) by (field; exact Hn). rewrite <- E. apply val_div; [|apply val_Z; lia|exact Hn|].
  - replace (IZR (len xs)) with (IZR (0 + len xs)) by (f_equal; lia). apply sum_val; [exact HF| |intros i Hi; apply Hs; lia].
    rewrite Rmult_0_l. exists (B754_zero false). auto.
  - rewrite E. replace r with (IZR 1 * r)%R by (rewrite Rmult_1_l; reflexivity). apply Hs. lia.
Qed.
Lemma std_zero r xs : xs <> [] -> len xs <= 2 ^ 53 -> Forall (fun x => val x r) xs -> (forall i, 0 <= i <= len xs -> small (IZR i * r)) -> exists s, std_of xs = S754_zero s.
Proof.
  intros Hne Hl HF Hs. pose proof (mean_val r xs Hne Hl HF Hs) as Hm. assert (H1 : 1 <= len xs) by (destruct xs; [congruence|unfold len; cbn; lia]). unfold std_of. generalize (mean_of xs) Hm. intros m Hm'.
  assert (E : forall l, Forall (fun x => val x r) l -> foldl (fun a x => f64_add a (square (f64_sub m x))) f64_zero l = f64_zero).
  { induction l as [|x l IH]; intros H; [reflexivity|]. apply Forall_cons in H as [Hx H]. cbn [foldl].
    destruct (val_sub m x r Hm' Hx) as [s Es]. rewrite Es. replace (f64_add f64_zero (square (S754_zero s))) with f64_zero by (destruct s; vm_compute; reflexivity). apply IH, H. }
  rewrite (E xs HF).
  destruct (val_Z (len xs) ltac:(lia)) as (b & -> & Hf & Hr). destruct b as [s| | |s m' e H]; try discriminate.
  - exfalso. cbn in Hr. symmetry in Hr. apply eq_IZR in Hr. lia.
  - exists (xorb false s). destruct s; reflexivity.
Qed.
Lemma same_nan r xs : xs <> [] -> len xs <= 2 ^ 53 -> Forall (fun x => val x r) xs -> (forall i, 0 <= i <= len xs -> small (IZR i * r)) ->
  forall x, x ∈ xs -> f64_div (f64_sub (mean_of xs) x) (std_of xs) = S754_nan.
Proof.
  intros Hne Hl HF Hs x Hx. destruct (std_zero r xs Hne Hl HF Hs) as [s ->]. rewrite Forall_forall in HF.
  destruct (val_sub (mean_of xs) x r (mean_val r xs Hne Hl ltac:(apply Forall_forall; exact HF) Hs) (HF x Hx)) as [s' ->]. reflexivity.
Qed.
(** Whole numbers, and columns of one value. *)
Lemma whole_nan z xs : xs <> [] -> 0 <= z -> z * len xs <= 2 ^ 53 -> len xs <= 2 ^ 53 -> Forall (fun x => x = f64_of_Z z) xs ->
  forall x, x ∈ xs -> f64_div (f64_sub (mean_of xs) x) (std_of xs) = S754_nan.
Proof.
  intros Hne Hz Hm Hl HF. assert (H1 : 1 <= len xs) by (destruct xs; [congruence|unfold len; cbn; lia]). apply (same_nan (IZR z)); [exact Hne|exact Hl| |].
  - eapply Forall_impl; [exact HF|]. intros x ->. apply val_Z. nia.
  - intros i Hi. rewrite <- mult_IZR. apply small_Z. nia.
Qed.
Lemma single_nan x : valid_binary 53 1024 x = true -> f64_div (f64_sub (mean_of [x]) x) (std_of [x]) = S754_nan.
Proof.
  intros Hv. destruct (is_finite_SF x) eqn:Hf.
  - assert (Hx : val x (B2R (SF2B x Hv))). { exists (SF2B x Hv). rewrite B2SF_SF2B, is_finite_SF2B. auto. }
    apply (same_nan (B2R (SF2B x Hv))); [discriminate|unfold len; cbn; lia|repeat constructor; exact Hx| |left].
    intros i Hi. unfold len in Hi. cbn in Hi. assert (i = 0 \/ i = 1) as [-> | ->] by lia.
    + rewrite Rmult_0_l. apply (small_Z 0). lia.
    + rewrite Rmult_1_l. exact (val_small _ _ Hx).
  - destruct x as [| [] | |]; try discriminate; vm_compute; reflexivity.
Qed.

(** ** The transform as a function of the normalised points *)
(** The kernels a point activates. *)
Definition picks (srt : list (Z * f64) -> list (Z * f64)) (kc : kcanvas) (p : list f64) : list Z :=
  take (Z.to_nat (kc_nact kc)) (srt (zip (seqZ 0 (len (kc_kernels kc))) (distance p <$> kc_kernels kc))).*1.
Lemma loop_exact tanh srt kc seq means stds : sorts srt -> canvas_ok kc ->
  per_column (kc_dim kc) mean_of seq means -> per_column (kc_dim kc) std_of seq stds ->
  forall rows point ixs A out, shaped (kc_dim kc) rows -> len point = kc_dim kc -> blocks (len (kc_kernels kc)) (kc_bitsByKernel kc) A out ->
  exists out', kc_loop srt tanh kc means stds rows point ixs out = Ok out' /\
    blocks (len (kc_kernels kc)) (kc_bitsByKernel kc) (A ++ concat ((fun row => picks srt kc (normalised tanh seq row)) <$> rows)) out'.
Proof.
  intros HS (Hp & Hd & Hb & Hn & Hk & Hmax & HF) Hm Hs. induction rows as [|row rows IH]; intros point ixs A out HR Hpl HB.
  - exists out. split; [reflexivity|]. cbn. rewrite app_nil_r. exact HB.
  - apply Forall_cons in HR as [Hr HR]. cbn [kc_loop]. rewrite Hr, Z.eqb_refl. cbn [negb].
    rewrite (point_ok tanh kc point row (head rows) seq means stds ixs) by (assumption || lia). cbn [rbind]. rewrite fmap_cons. cbn [concat]. unfold picks at 1. set (p := normalised tanh seq row).
    assert (Hpl' : len p = kc_dim kc) by (unfold p, len in *; rewrite normalised_len; exact Hr).
    rewrite distances_ok; [|exact Hp|exact Hpl'|eapply Forall_impl; [exact HF|intros q [H _]; exact H]]. cbn [rbind].
    destruct (sort_ok srt kc p) as [E Hsw]; [eapply Forall_impl; [exact HF|]; intros q [H1 H2]; split; [lia|exact H2]|]. cbv zeta in E, Hsw. rewrite E. cbn [rbind].
    destruct (chosen_nearest srt (kc_kernels kc) p (kc_nact kc) HS Hsw Hn) as (_ & Hin & Hlen).
    set (L := srt _) in *. destruct (activate_ok (len (kc_kernels kc)) (kc_bitsByKernel kc) Hb Hmax (Z.to_nat (kc_nact kc)) 0 L A out) as (out' & Ea & HB'); [lia|lia|exact Hin|exact HB|].
    rewrite Z2Nat.id in Ea by lia. rewrite Ea. cbn [rbind]. rewrite app_assoc. apply IH; [exact HR|exact Hpl'|exact HB'].
Qed.
Lemma transform_exact tanh srt kc seq : sorts srt -> canvas_ok kc -> shaped (kc_dim kc) seq ->
  exists out, kc_transform srt tanh kc seq = Ok out /\
    blocks (len (kc_kernels kc)) (kc_bitsByKernel kc) (concat ((fun row => picks srt kc (normalised tanh seq row)) <$> seq)) out.
Proof.
  intros HS HC HR. pose proof HC as (Hp & Hd & Hb & Hn & Hk & Hmax & HF). unfold kc_transform.
  destruct (mean_ok (kc_dim kc) seq ltac:(lia) (shaped_wide _ _ HR)) as (means & -> & Hm). cbn [rbind]. destruct (std_ok (kc_dim kc) seq means ltac:(lia) (shaped_wide _ _ HR) Hm) as (stds & -> & Hs). cbn [rbind].
  destruct (vget_some (kc_kernels kc) 0) as (k0 & Ek & ->); [lia|]. cbn [rbind].
  pose proof (Forall_lookup_1 _ _ _ _ HF Ek) as [Hk0 _].
  apply (loop_exact tanh srt kc seq means stds HS HC Hm Hs seq (repeat f64_zero (length k0)) [2; 1; 0] []); [exact HR|unfold len in *; rewrite repeat_length; exact Hk0|apply blocks_init; lia].
Qed.
Lemma blocks_same n bits A B out out' : 0 < bits -> 0 <= n -> (forall k, k ∈ A <-> k ∈ B) -> blocks n bits A out -> blocks n bits B out' -> out = out'.
Proof.
  intros Hb Hn HAB [Hl H] [Hl' H']. apply list_eq_same_length with (n := Z.to_nat (n * bits)); [unfold len in *; lia..|]. intros i x y Hi Hx Hy.
  pose proof (Z.div_mod (Z.of_nat i) bits ltac:(lia)) as Hdm. pose proof (Z.mod_pos_bound (Z.of_nat i) bits ltac:(lia)) as Hmb.
  assert (Hq : 0 <= Z.of_nat i / bits < n) by (split; [apply Z.div_pos; lia|apply Z.div_lt_upper_bound; unfold len in *; lia]).
  specialize (H _ _ Hq Hmb). specialize (H' _ _ Hq Hmb). replace (Z.to_nat (Z.of_nat i / bits * bits + Z.of_nat i mod bits)) with i in * by lia.
  rewrite Hx in H. rewrite Hy in H'. injection H as ->. injection H' as ->. rewrite (bool_decide_ext _ _ (HAB _)). reflexivity.
Qed.

(** A point with a NaN coordinate activates kernels that do not depend on it. *)
Lemma picks_nan srt kc p q : Forall (fun k => len k = len p) (kc_kernels kc) -> len p = len q -> S754_nan ∈ p -> S754_nan ∈ q -> picks srt kc p = picks srt kc q.
Proof.
  intros HF Hl Hp Hq. assert (D : forall p, Forall (fun k => len k = len p) (kc_kernels kc) -> S754_nan ∈ p -> distance p <$> kc_kernels kc = (fun _ => S754_nan) <$> kc_kernels kc).
  { intros p' HF' Hp'. apply list_fmap_ext. intros i k Hk. pose proof (Forall_lookup_1 _ _ _ _ HF' Hk) as Hkl. cbv beta in Hkl. unfold distance.
    change (foldl _ _ _) with (foldl sqd f64_zero (zip p' k)). rewrite sqd_nan; [reflexivity|]. apply elem_of_list_lookup in Hp' as [j Hj].
    assert (Hkl' : length k = length p') by (apply Nat2Z.inj; exact Hkl). destruct (lookup_lt_is_Some_2 k j) as [y Hy]; [rewrite Hkl'; exact (lookup_lt_Some _ _ _ Hj)|].
    apply Exists_exists. exists (S754_nan, y). split; [|reflexivity]. apply elem_of_list_lookup. exists j. apply lookup_zip_with_Some. eauto. }
  unfold picks. rewrite (D p HF Hp), (D q); [reflexivity| |exact Hq]. eapply Forall_impl; [exact HF|]. intros k Hk. cbv beta in *. lia.
Qed.
(** So sequences all of whose normalised points have one are transformed alike. *)
Definition blind (tanh : f64 -> f64) (seq : list (list f64)) : Prop := seq <> [] /\ Forall (fun row => S754_nan ∈ normalised tanh seq row) seq.
Theorem transform_blind tanh srt kc seq seq' : sorts srt -> canvas_ok kc -> shaped (kc_dim kc) seq -> shaped (kc_dim kc) seq' -> blind tanh seq -> blind tanh seq' ->
  kc_transform srt tanh kc seq = kc_transform srt tanh kc seq'.
Proof.
  intros HS HC HR HR' [Hne HB] [Hne' HB']. destruct (transform_exact tanh srt kc seq HS HC HR) as (out & -> & Ho). destruct (transform_exact tanh srt kc seq' HS HC HR') as (out' & -> & Ho').
  f_equal. pose proof HC as (Hp & Hd & Hb & Hn & Hk & Hmax & HF). refine (blocks_same _ _ _ _ _ _ Hb _ _ Ho Ho'); [lia|].
  assert (Hlen : forall s row, shaped (kc_dim kc) s -> row ∈ s -> len (normalised tanh s row) = kc_dim kc). { intros s row Hs Hrow. unfold len. rewrite normalised_len. exact (proj1 (Forall_forall _ _) Hs row Hrow). }
  rewrite Forall_forall in HB, HB'.
  assert (EQ : forall r r', r ∈ seq -> r' ∈ seq' -> picks srt kc (normalised tanh seq r) = picks srt kc (normalised tanh seq' r')).
  { intros r r' Hr Hr'. apply picks_nan; [|rewrite (Hlen seq r HR Hr), (Hlen seq' r' HR' Hr'); reflexivity|exact (HB r Hr)|exact (HB' r' Hr')].
    eapply Forall_impl; [exact HF|]. intros q [Hq _]. rewrite (Hlen seq r HR Hr). exact Hq. }
  intros k. rewrite !elem_of_list_In, !in_concat. setoid_rewrite <- elem_of_list_In. split; intros (S & HS' & Hk').
  - apply elem_of_list_fmap in HS' as (r & -> & Hr). destruct seq' as [|r' s']; [congruence|]. exists (picks srt kc (normalised tanh (r' :: s') r')). split; [rewrite fmap_cons; left|]. rewrite <- (EQ r r' Hr); [exact Hk'|left].
  - apply elem_of_list_fmap in HS' as (r' & -> & Hr'). destruct seq as [|r s]; [congruence|]. exists (picks srt kc (normalised tanh (r :: s) r)). split; [rewrite fmap_cons; left|]. rewrite (EQ r r' ltac:(left) Hr'). exact Hk'.
Qed.

Lemma normalised_at tanh seq row j x : row !! j = Some x -> normalised tanh seq row !! j = Some (tanh (f64_div (f64_sub (mean_of (column seq j)) x) (std_of (column seq j)))).
Proof. intros H. unfold normalised. rewrite list_lookup_imap, H. reflexivity. Qed.
Lemma blind_constant tanh dim seq (j : nat) z : tanh S754_nan = S754_nan -> shaped dim seq -> seq <> [] -> Z.of_nat j < dim -> 0 <= z -> z * len seq <= 2 ^ 53 -> len seq <= 2 ^ 53 ->
  Forall (fun row => row !! j = Some (f64_of_Z z)) seq -> blind tanh seq.
Proof.
  intros Ht HR Hne Hj Hz Hm Hl HF. split; [exact Hne|]. apply Forall_forall. intros row Hrow. rewrite Forall_forall in HF. apply elem_of_list_lookup. exists j. etransitivity; [exact (normalised_at tanh seq row j _ (HF row Hrow))|].
  f_equal. transitivity (tanh S754_nan); [|exact Ht]. f_equal. apply (whole_nan z); try rewrite column_len; try assumption.
  - unfold column. destruct seq; [congruence|discriminate].
  - apply Forall_fmap, Forall_forall. intros r Hr. unfold compose. apply (nth_lookup_Some _ _ _ _ (HF r Hr)).
  - unfold column. apply elem_of_list_fmap. exists row. split; [|exact Hrow]. symmetry. apply (nth_lookup_Some _ _ _ _ (HF row Hrow)).
Qed.
Lemma blind_single tanh dim row : tanh S754_nan = S754_nan -> 0 < dim -> len row = dim -> Forall (fun x => valid_binary 53 1024 x = true) row -> blind tanh [row].
Proof.
  intros Ht Hd Hl HF. split; [discriminate|]. apply Forall_singleton. destruct row as [|x row]; [unfold len in Hl; cbn in Hl; lia|]. apply Forall_cons in HF as [Hx _].
  apply elem_of_list_lookup. exists 0%nat. etransitivity; [exact (normalised_at tanh [x :: row] (x :: row) 0%nat x eq_refl)|]. f_equal. transitivity (tanh S754_nan); [|exact Ht]. f_equal. apply single_nan, Hx.
Qed.
