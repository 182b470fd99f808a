(** Property theorem C141: KernelCanvas and data without spread. *)
From Coq Require Import SpecFloat.
From Verif Require Import Prelude Float32 Kernel SpecKernel FloatSign KernelFloat KernelProofs KernelReals KernelSort KernelDead KernelSpread PropsKernel.

(** A C double. *)
Definition double (x : f64) : Prop := valid_binary 53 1024 x = true.
(** A sequence in which something stands still: it has a single row, or a column holding the same
    whole number in every row. *)
Definition still (dim : Z) (seq : list (list f64)) : Prop :=
  (exists row, seq = [row] /\ Forall double row) \/
  (seq <> [] /\ len seq <= 2 ^ 53 /\ exists (j : nat) z, Z.of_nat j < dim /\ 0 <= z /\ z * len seq <= 2 ^ 53 /\ Forall (fun row => row !! j = Some (f64_of_Z z)) seq).
(** Every column holds finite values with a finite mean and a finite positive standard deviation. *)
Definition varied (dim : Z) (seq : list (list f64)) : Prop :=
  Forall (Forall finite) seq /\
  forall j : nat, Z.of_nat j < dim -> finite (mean_of (column seq j)) /\ finite (std_of (column seq j)) /\ SFltb f64_zero (std_of (column seq j)) = true.
(** Rows of whole numbers, as doubles. *)
Definition zrows (zs : list (list Z)) : list (list f64) := (fun r : list Z => f64_of_Z <$> r) <$> zs.
(** [S] is a set of [count] kernels at most as far from [p] as any kernel left out; the distances compare as numbers. *)
Definition truly_nearest (kernels : list (list f64)) (p : list f64) (count : Z) (S : list Z) : Prop :=
  NoDup S /\ len S = count /\ Forall (fun k => 0 <= k < len kernels) S /\
  forall k k' q q', k ∈ S -> 0 <= k' -> k' ∉ S -> kernels !! Z.to_nat k = Some q -> kernels !! Z.to_nat k' = Some q' -> SFleb (distance p q) (distance p q') = true.

Lemma still_blind tanh dim seq : tanh S754_nan = S754_nan -> 1 <= dim -> shaped dim seq -> still dim seq -> blind tanh seq.
Proof.
  intros Ht Hd HR [(row & -> & HF)|(Hne & Hl & j & z & Hj & Hz & Hm & HF)].
  - apply (blind_single tanh dim); [exact Ht|lia|apply Forall_cons in HR; tauto|exact HF].
  - exact (blind_constant tanh dim seq j z Ht HR Hne Hj Hz Hm Hl HF).
Qed.
Lemma new_canvas dim n o draw c : allowed dim n o -> rand_values draw -> o_direction o = false -> to_activate n o c -> n * o_bits o <= INT_MAX ->
  exists kc, kc_new_py dim n o draw = Ok kc /\ canvas_ok kc /\ kc_dim kc = dim /\ kc_nact kc = c /\ len (kc_kernels kc) = n /\ kc_bitsByKernel kc = o_bits o.
Proof.
  intros HA HR Ho Hc Hmax. destruct (new_members dim n o draw HA HR) as (kc & c' & E & Hc' & Hcn & Ec & Ed & Eb & Eu & Ek & _ & HF); [congruence|].
  unfold to_activate in *. rewrite Hc in Hc'. injection Hc' as <-. pose proof HA as (Hd & Hn & Hb & _). rewrite Ho in HF. exists kc. split; [exact E|]. split; [|auto].
  split; [unfold plain; congruence|]. repeat (split; [first [lia|rewrite Ek, Eb; exact Hmax]|]). eapply Forall_impl; [exact HF|]. intros q [H1 H2]. split; [congruence|]. eapply Forall_impl; [exact H2|]. intros x [H _]. exact H.
Qed.

(** ** C141 is false: when a column (of whole numbers) stands still, or there is a single row, every
    distance is NaN and the output is the same whatever the data. *)
Theorem C141_nearest_refuted : forall tanh srt dim n o draw c, tanh S754_nan = S754_nan -> sorts srt -> rand_values draw -> allowed dim n o -> o_direction o = false -> to_activate n o c -> n * o_bits o <= INT_MAX ->
  exists kc, kc_new_py dim n o draw = Ok kc /\
    (forall seq seq', shaped dim seq -> shaped dim seq' -> still dim seq -> still dim seq' -> kc_transform srt tanh kc seq = kc_transform srt tanh kc seq') /\
    (forall seq row q, shaped dim seq -> still dim seq -> row ∈ seq -> q ∈ kc_kernels kc -> distance (normalised tanh seq row) q = S754_nan).
Proof.
  intros tanh srt dim n o draw c Ht Hs HR HA Ho Hc Hmax. destruct (new_canvas dim n o draw c HA HR Ho Hc Hmax) as (kc & E & HC & Ed & _). exists kc. split; [exact E|]. pose proof HA as (Hd & _). split.
  - intros seq seq' HS HS' H H'. apply transform_blind; try rewrite Ed; try assumption; eapply still_blind; eassumption.
  - intros seq row q HS H Hrow Hq. destruct (still_blind tanh dim seq Ht Hd HS H) as [_ HB]. pose proof (proj1 (Forall_forall _ _) HB row Hrow) as Hn. cbv beta in Hn.
    destruct HC as (_ & _ & _ & _ & _ & _ & HF). pose proof (proj1 (Forall_forall _ _) HF q Hq) as [Hl _]. pose proof (proj1 (Forall_forall _ _) HS row Hrow) as Hlr. cbv beta in Hlr.
    assert (Hlen : length (normalised tanh seq row) = length q) by (rewrite normalised_len; apply Nat2Z.inj; unfold len in *; congruence).
    unfold distance. change (foldl _ _ _) with (foldl sqd f64_zero (zip (normalised tanh seq row) q)). rewrite sqd_nan; [reflexivity|]. apply elem_of_list_lookup in Hn as [j Hj].
    destruct (lookup_lt_is_Some_2 q j) as [y Hy]; [rewrite <- Hlen; exact (lookup_lt_Some _ _ _ Hj)|].
    apply Exists_exists. exists (S754_nan, y). split; [|reflexivity]. apply elem_of_list_lookup. exists j. apply lookup_zip_with_Some. eauto.
Qed.
Print Assumptions C141_nearest_refuted.

(** What holds: if every column varies, the kernels a row switches on are really its nearest ones. *)
Theorem C141_varied_partial : forall tanh srt dim n o draw c, (forall x, x <> S754_nan -> tanh x <> S754_nan) -> sorts srt -> rand_values draw -> allowed dim n o -> o_direction o = false -> to_activate n o c -> n * o_bits o <= INT_MAX ->
  exists kc, kc_new_py dim n o draw = Ok kc /\
    forall seq, shaped dim seq -> varied dim seq -> exists out chosen, kc_transform srt tanh kc seq = Ok out /\
      Forall2 (fun row S => truly_nearest (kc_kernels kc) (normalised tanh seq row) c S) seq chosen /\
      forall k b, 0 <= k < n -> 0 <= b < o_bits o ->
        (Exists (fun S => k ∈ S) chosen -> out !! Z.to_nat (k * o_bits o + b) = Some 1) /\
        (~ Exists (fun S => k ∈ S) chosen -> out !! Z.to_nat (k * o_bits o + b) = Some 0).
Proof.
  intros tanh srt dim n o draw c Ht Hs HR HA Ho Hc Hmax. destruct (C79_transform tanh srt dim n o draw c Hs HR HA Ho Hc Hmax) as (kc & E & H). exists kc. split; [exact E|]. intros seq HS HV.
  destruct (new_canvas dim n o draw c HA HR Ho Hc Hmax) as (kc' & E' & HC & Ed & _). rewrite E in E'. injection E' as <-.
  destruct (H seq HS) as (out & chosen & Et & _ & HF2 & HB). exists out, chosen. split; [exact Et|]. split; [|exact HB].
  apply Forall2_same_length_lookup_2; [exact (Forall2_length _ _ _ HF2)|]. intros i row S Hi Hi'. pose proof (Forall2_lookup_lr _ _ _ _ _ _ HF2 Hi Hi') as HN. cbv beta in HN.
  assert (Hrow : row ∈ seq) by (apply elem_of_list_lookup; eauto). pose proof HN as (H1 & H2 & H3 & _). split; [exact H1|]. split; [exact H2|]. split; [exact H3|].
  intros k k' q q' Hk Hk0 Hk' Hq Hq'. destruct HC as (_ & _ & _ & _ & _ & _ & HF).
  apply (nearest_really (kc_kernels kc) (normalised tanh seq row) c S) with k k'; try assumption.
  - exact (spread_points tanh dim seq row Ht HS HV Hrow).
  - eapply Forall_impl; [exact HF|]. intros u [Hu Hfu]. split; [|exact Hfu]. rewrite normalised_len. pose proof (proj1 (Forall_forall _ _) HS row Hrow) as Hlr. cbv beta in Hlr. apply Nat2Z.inj. unfold len in *. congruence.
Qed.
Print Assumptions C141_varied_partial.
(** Columns of whole numbers between 0 and 2^20, in at most 2^20 rows, vary as soon as they hold two different numbers. *)
Theorem C141_whole_partial : forall dim (zs : list (list Z)), 1 <= dim -> Forall (fun r => len r = dim /\ Forall (fun z => 0 <= z <= 2 ^ 20) r) zs -> len zs <= 2 ^ 20 ->
  (forall j : nat, Z.of_nat j < dim -> exists r r', r ∈ zs /\ r' ∈ zs /\ nth j r 0 <> nth j r' 0) ->
  shaped dim (zrows zs) /\ varied dim (zrows zs).
Proof.
  intros dim zs Hd HF Hl HV. unfold zrows. split; [apply Forall_fmap; eapply Forall_impl; [exact HF|]; intros r [H _]; unfold compose, len in *; rewrite fmap_length; exact H|]. split.
  - apply Forall_fmap. eapply Forall_impl; [exact HF|]. intros r [_ H]. unfold compose. apply Forall_fmap. eapply Forall_impl; [exact H|]. intros z Hz. cbv beta in Hz. unfold compose.
    destruct (val_Z z ltac:(lia)) as (b & -> & Hb & _). apply finite_B2SF, Hb.
  - intros j Hj. assert (Ec : column ((fun r : list Z => f64_of_Z <$> r) <$> zs) j = f64_of_Z <$> ((fun r => nth j r 0) <$> zs)).
    { unfold column. rewrite <- !list_fmap_compose. apply list_fmap_ext. intros i r Hr. unfold compose. destruct (Forall_lookup_1 _ _ _ _ HF Hr) as [Hlr _].
      destruct (lookup_lt_is_Some_2 r j) as [z Hz]; [unfold len in Hlr; lia|]. rewrite (nth_lookup_Some r j 0 z Hz). apply nth_lookup_Some. rewrite list_lookup_fmap, Hz. reflexivity. }
    rewrite Ec. destruct (HV j Hj) as (r & r' & Hr & Hr' & Hne). apply (std_whole _ (nth j r 0) (nth j r' 0)); [|apply elem_of_list_fmap; eauto|apply elem_of_list_fmap; eauto|exact Hne].
    split; [|unfold len in *; rewrite fmap_length; exact Hl]. apply Forall_fmap. eapply Forall_impl; [exact HF|]. intros u [Hu Hfu]. unfold compose.
    destruct (lookup_lt_is_Some_2 u j) as [z Hz]; [unfold len in Hu; lia|]. rewrite (nth_lookup_Some u j 0 z Hz). exact (Forall_lookup_1 _ _ _ _ Hfu Hz).
Qed.
Print Assumptions C141_whole_partial.

(** Two features, the second constant in both sequences; the first differs, and so does the number
    of rows; both single rows and both sequences give the same output. *)
Definition drawn2 (i d : Z) : Z := 400000000 * i + 100000000 * d.
Definition trans2 (zs : list (list Z)) : res (list Z) := let* kc := kc_new_py 2 4 o2 drawn2 in kc_transform isort (fun x => x) kc (zrows zs).
Example C141_witness : still 2 (zrows [[5; 3]; [6; 3]]) /\ still 2 (zrows [[90; 7]; [1; 7]; [4; 7]]) /\ still 2 (zrows [[5; 9]]) /\ shaped 2 (zrows [[5; 3]; [6; 3]]) /\
  trans2 [[5; 3]; [6; 3]] = Ok [1; 1; 1; 1; 0; 0; 0; 0] /\ trans2 [[90; 7]; [1; 7]; [4; 7]] = Ok [1; 1; 1; 1; 0; 0; 0; 0] /\ trans2 [[5; 9]] = Ok [1; 1; 1; 1; 0; 0; 0; 0] /\
  trans2 [[5; 3]; [6; 4]] <> Ok [1; 1; 1; 1; 0; 0; 0; 0] /\ varied 2 (zrows [[5; 3]; [6; 4]]).
Proof.
  split; [right; split; [discriminate|]; split; [unfold len; cbn; lia|]; exists 1%nat, 3; unfold len; cbn; repeat split; try lia; repeat constructor|].
  split; [right; split; [discriminate|]; split; [unfold len; cbn; lia|]; exists 1%nat, 7; unfold len; cbn; repeat split; try lia; repeat constructor|].
  split; [left; eexists; split; [reflexivity|]; repeat constructor|]. split; [repeat constructor|].
  split; [vm_compute; reflexivity|]. split; [vm_compute; reflexivity|]. split; [vm_compute; reflexivity|]. split; [vm_compute; discriminate|].
  apply (C141_whole_partial 2 [[5; 3]; [6; 4]]); [lia| |unfold len; cbn; lia|].
  - repeat (apply Forall_cons; split; [split; [reflexivity|repeat (apply Forall_cons; split; [lia|]); apply Forall_nil; exact I]|]). apply Forall_nil. exact I.
  - intros j Hj. exists [5; 3], [6; 4]. split; [left|]. split; [right; left|]. destruct j as [|[|j]]; [discriminate|discriminate|lia].
Qed.
