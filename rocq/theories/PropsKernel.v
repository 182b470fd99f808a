(** Property theorems C79, C80, C88-C93: KernelCanvas. *)
From Coq Require Import SpecFloat.
From Verif Require Import Prelude Float32 Kernel SpecKernel FloatSign KernelFloat KernelProofs KernelReals KernelDir KernelSort DiscCtorProofs.

(** Options as given or by default. *)
Definition o_bits (o : kc_options) : Z := match ko_bitsByKernel o with Some b => b | None => 3 end.
Definition o_degree (o : kc_options) : f32 := match ko_activationDegree o with Some d => d | None => deg_default end.
Definition o_direction (o : kc_options) : bool := match ko_useDirection o with Some b => b | None => false end.
(** std::rand() returns values between 0 and RAND_MAX. *)
Definition rand_values (draw : Z -> Z -> Z) : Prop := forall i d, 0 <= draw i d <= 2147483647.
(** Parameters the documentation allows; float32 can count the kernels exactly. *)
Definition allowed (dim n : Z) (o : kc_options) : Prop := 1 <= dim /\ 1 <= n <= 2 ^ 24 /\ 1 <= o_bits o /\ unit_degree (o_degree o).
(** A float that is not NaN lies between -1 and 1. *)
Definition within_one (x : f64) : Prop := SFleb (f64_of_Z (-1)) x = true /\ SFleb x (f64_of_Z 1) = true.
(** The count of kernels each row activates. *)
Definition to_activate (n : Z) (o : kc_options) (c : Z) : Prop := f32_round (f32_mul (o_degree o) (f32_of_Z n)) = Some c.

Lemma compare_antisym x y : SFcompare y x = match SFcompare x y with Some c => Some (CompOpp c) | None => None end.
Proof.
  destruct x as [[]|[]| |[] mx ex], y as [[]|[]| |[] my ey]; cbn; try reflexivity; rewrite (Z.compare_antisym ex ey); destruct (Z.compare ex ey); cbn; try reflexivity;
    change (Pos.compare_cont Eq my mx) with (Pos.compare my mx); change (Pos.compare_cont Eq mx my) with (Pos.compare mx my); rewrite (Pos.compare_antisym mx my); destruct (Pos.compare mx my); reflexivity.
Qed.
Lemma leb_ltb x y : SFleb x y = true -> SFltb y x = false.
Proof. unfold SFleb, SFltb. rewrite (compare_antisym x y). destruct (SFcompare x y) as [[]|]; cbn; congruence. Qed.
Lemma check_ok dim n o : allowed dim n o -> kc_checkInputs n dim (o_bits o) (o_degree o) = Ok tt.
Proof.
  intros (Hd & Hn & Hb & Hv & H0 & H1). unfold kc_checkInputs. destruct (Z.ltb_spec n 1); [lia|]. destruct (Z.ltb_spec dim 1); [lia|]. destruct (Z.ltb_spec (o_bits o) 1); [lia|].
  unfold f32_ltb. rewrite (leb_ltb _ _ H0), (leb_ltb _ _ H1). reflexivity.
Qed.
Lemma new_members dim n o draw : allowed dim n o -> rand_values draw -> (o_direction o = true -> 9 * dim <= INT_MAX) ->
  exists kc c, kc_new_py dim n o draw = Ok kc /\ to_activate n o c /\ 0 <= c <= n /\ kc_nact kc = c /\ kc_dim kc = dim /\ kc_bitsByKernel kc = o_bits o /\ kc_useDirection kc = o_direction o /\
    len (kc_kernels kc) = n /\ (o_direction o = true -> kc_amplifyDim kc = dim + 2 * (dim - 1)) /\
    Forall (fun q => len q = (if o_direction o then 3 * (dim + 2 * (dim - 1)) else dim) /\ Forall (fun x => finite x /\ within_one x) q) (kc_kernels kc).
Proof.
  intros HA HR HD. pose proof HA as (Hd & Hn & Hb & Hu). destruct (count_range (o_degree o) n Hu Hn) as (c & Ec & Hc).
  unfold kc_new_py. change (default 3 (ko_bitsByKernel o)) with (o_bits o). change (default deg_default (ko_activationDegree o)) with (o_degree o). change (default false (ko_useDirection o)) with (o_direction o).
  unfold kc_setup. cbn [rbind]. rewrite (check_ok dim n o HA). cbn [rbind]. rewrite Ec. unfold int_of_rounded. replace (in_int c) with true by (unfold in_int, INT_MIN, INT_MAX; lia). cbn [rbind].
  assert (HK : forall cd, 0 <= cd -> Forall (fun q : list f64 => len q = cd /\ Forall (fun x => finite x /\ within_one x) q)
     ((fun i => (fun d => randdouble (f64_of_Z (-1)) (f64_of_Z 1) (draw i d)) <$> seqZ 0 cd) <$> seqZ 0 n)).
  { intros cd Hcd. apply Forall_fmap, Forall_forall. intros i _. unfold compose. cbv beta. split; [unfold len; rewrite fmap_length, seqZ_length; lia|].
    apply Forall_fmap, Forall_forall. intros d _. unfold compose. cbv beta. destruct (randdouble_range (draw i d) (HR i d)) as (H1 & H2 & H3). unfold within_one. auto. }
  assert (HL : forall cd, len ((fun i => (fun d => randdouble (f64_of_Z (-1)) (f64_of_Z 1) (draw i d)) <$> seqZ 0 cd) <$> seqZ 0 n) = n) by (intros cd; unfold len; rewrite fmap_length, seqZ_length; lia).
  destruct (o_direction o) eqn:Eo.
  - specialize (HD eq_refl). unfold int_of. replace (in_int (2 * (dim - 1))) with true by (unfold in_int, INT_MIN, INT_MAX in *; lia). cbn [rbind].
    replace (in_int (dim + 2 * (dim - 1))) with true by (unfold in_int, INT_MIN, INT_MAX in *; lia). cbn [rbind].
    replace (in_int ((dim + 2 * (dim - 1)) * 3)) with true by (unfold in_int, INT_MIN, INT_MAX in *; lia). cbn [rbind].
    eexists _, c. split; [reflexivity|]. cbn [kc_nact kc_dim kc_bitsByKernel kc_useDirection kc_kernels kc_amplifyDim]. repeat (split; [first [exact Ec|reflexivity|lia|apply HL|auto]|]).
    replace (3 * (dim + 2 * (dim - 1))) with ((dim + 2 * (dim - 1)) * 3) by lia. apply HK. lia.
  - cbn [rbind]. eexists _, c. split; [reflexivity|]. cbn [kc_nact kc_dim kc_bitsByKernel kc_useDirection kc_kernels kc_amplifyDim]. repeat (split; [first [exact Ec|reflexivity|lia|apply HL|discriminate]|]). apply HK. lia.
Qed.

(** ** C79: [chosen] lists, for each row, the kernels it activates: a set of nearest ones, of the
    size the activation degree asks for; the block of bits of a kernel is on exactly if some row activates it. *)
Theorem C79_transform : forall tanh srt dim n o draw c, sorts srt -> rand_values draw -> allowed dim n o -> o_direction o = false -> to_activate n o c -> n * o_bits o <= INT_MAX ->
  exists kc, kc_new_py dim n o draw = Ok kc /\
    forall seq, shaped dim seq -> exists out chosen, kc_transform srt tanh kc seq = Ok out /\ len out = n * o_bits o /\
      Forall2 (fun row S => nearest (kc_kernels kc) (normalised tanh seq row) c S) seq chosen /\
      forall k b, 0 <= k < n -> 0 <= b < o_bits o ->
        (Exists (fun S => k ∈ S) chosen -> out !! Z.to_nat (k * o_bits o + b) = Some 1) /\
        (~ Exists (fun S => k ∈ S) chosen -> out !! Z.to_nat (k * o_bits o + b) = Some 0).
Proof.
  intros tanh srt dim n o draw c Hs HR HA Ho Hc Hmax. destruct (new_members dim n o draw HA HR) as (kc & c' & E & Hc' & Hcn & Ec & Ed & Eb & Eu & Ek & _ & HF); [congruence|].
  unfold to_activate in *. rewrite Hc in Hc'. injection Hc' as <-. pose proof HA as (Hd & Hn & Hb & _). rewrite Ho in HF. exists kc. split; [exact E|]. intros seq HS.
  destruct (transform_ok tanh srt kc seq Hs) as (out & chosen & Et & HF2 & Hbl & HB).
  - split; [unfold plain; congruence|]. repeat (split; [first [lia|rewrite Ek, Eb; exact Hmax]|]). eapply Forall_impl; [exact HF|]. intros q [H1 H2]. split; [congruence|]. eapply Forall_impl; [exact H2|]. intros x [H _]. exact H.
  - rewrite Ed. exact HS.
  - exists out, chosen. rewrite Ek, Eb in *. rewrite Ec in HF2. split; [exact Et|]. split; [exact Hbl|]. split; [exact HF2|]. intros k b Hk Hb'. rewrite (HB k b Hk Hb').
    assert (Hx : k ∈ concat chosen <-> Exists (fun S => k ∈ S) chosen) by (rewrite Exists_exists, elem_of_list_In, in_concat; setoid_rewrite elem_of_list_In; split; intros (S & H1 & H2); exists S; tauto).
    split; intros H; [rewrite bool_decide_eq_true_2 by (apply Hx, H)|rewrite bool_decide_eq_false_2 by (rewrite Hx; exact H)]; reflexivity.
Qed.
Print Assumptions C79_transform.
(** Consequences: all zeros for the empty sequence, at least the asked number of blocks on otherwise. *)
Theorem C79_counts : forall tanh srt dim n o draw c, sorts srt -> rand_values draw -> allowed dim n o -> o_direction o = false -> to_activate n o c -> n * o_bits o <= INT_MAX ->
  exists kc, kc_new_py dim n o draw = Ok kc /\
    (exists out, kc_transform srt tanh kc [] = Ok out /\ len out = n * o_bits o /\ Forall (fun v => v = 0) out) /\
    forall row seq, shaped dim (row :: seq) -> exists out, kc_transform srt tanh kc (row :: seq) = Ok out /\ len out = n * o_bits o /\ Forall (fun v => v = 0 \/ v = 1) out /\
      exists S, NoDup S /\ len S = c /\ Forall (fun k => 0 <= k < n /\ forall b, 0 <= b < o_bits o -> out !! Z.to_nat (k * o_bits o + b) = Some 1) S.
Proof.
  intros tanh srt dim n o draw c Hs HR HA Ho Hc Hmax. destruct (C79_transform tanh srt dim n o draw c Hs HR HA Ho Hc Hmax) as (kc & E & H). exists kc. split; [exact E|].
  pose proof HA as (Hd & Hn & Hb & _).
  assert (G : forall out (P : Z -> Prop), len out = n * o_bits o -> (forall k b, 0 <= k < n -> 0 <= b < o_bits o -> exists v, out !! Z.to_nat (k * o_bits o + b) = Some v /\ P v) -> Forall P out).
  { intros out P Hl HP. apply Forall_lookup. intros i v Hi. pose proof (lookup_lt_Some _ _ _ Hi) as Hlt. unfold len in Hl.
    pose proof (Z.div_mod (Z.of_nat i) (o_bits o) ltac:(lia)) as Hdm. pose proof (Z.mod_pos_bound (Z.of_nat i) (o_bits o) ltac:(lia)) as Hmb.
    destruct (HP (Z.of_nat i / o_bits o) (Z.of_nat i mod o_bits o)) as (w & Ew & Pw); [split; [apply Z.div_pos; lia|apply Z.div_lt_upper_bound; lia]|exact Hmb|].
    replace (Z.to_nat (Z.of_nat i / o_bits o * o_bits o + Z.of_nat i mod o_bits o)) with i in Ew by lia. congruence. }
  split.
  - destruct (H [] ltac:(constructor)) as (out & chosen & Et & Hl & HF2 & HB). inversion HF2; subst. exists out. split; [exact Et|]. split; [exact Hl|]. apply G; [exact Hl|]. intros k b Hk Hb'.
    exists 0. split; [|reflexivity]. apply (HB k b Hk Hb'). intros HE. inversion HE.
  - intros row seq HS. destruct (H _ HS) as (out & chosen & Et & Hl & HF2 & HB). inversion HF2 as [|r S s ch HN HF2' E1 E2]; subst. exists out. split; [exact Et|]. split; [exact Hl|]. split.
    + apply G; [exact Hl|]. intros k b Hk Hb'. destruct (HB k b Hk Hb') as [H1 H0]. destruct (decide (Exists (fun S => k ∈ S) (S :: ch))) as [HE|HE]; [exists 1; auto|exists 0; auto].
    + destruct HN as (HND & HSl & HSr & _). exists S. split; [exact HND|]. split; [exact HSl|]. apply Forall_forall. intros k Hk. rewrite Forall_forall in HSr. specialize (HSr k Hk).
      destruct (new_members dim n o draw HA HR) as (kc' & c' & E' & _ & _ & _ & _ & _ & _ & Ek & _); [congruence|]. rewrite E in E'. injection E' as <-. rewrite Ek in HSr. split; [exact HSr|]. intros b Hb'. apply (HB k b HSr Hb'). left. exact Hk.
Qed.
Print Assumptions C79_counts.

(** A canvas of 4 kernels in one dimension, half of them activated by each row. *)
Definition o2 : kc_options := KcOptions (Some 2) (Some (S754_finite false 8388608 (-24))) None.
Definition drawn4 (i d : Z) : Z := 500000000 * i.
Definition fz := f64_of_Z.
Definition trans (dim n : Z) (o : kc_options) (seq : list (list f64)) : res (list Z) := let* kc := kc_new_py dim n o drawn4 in kc_transform isort (fun x => x) kc seq.
Lemma o2_degree : unit_degree (o_degree o2). Proof. repeat split; reflexivity. Qed.
Example C79_witness : sorts isort /\ (forall i d, 0 <= i < 4 -> 0 <= drawn4 i d <= 2147483647) /\ allowed 1 4 o2 /\ o_direction o2 = false /\ to_activate 4 o2 2 /\ shaped 1 [[fz 5]; [fz 6]; [fz 12]] /\
  trans 1 4 o2 [[fz 5]; [fz 6]; [fz 12]] = Ok [1; 1; 1; 1; 1; 1; 1; 1] /\ trans 1 4 o2 [[fz 5]] = Ok [1; 1; 1; 1; 0; 0; 0; 0] /\ trans 1 4 o2 [] = Ok [0; 0; 0; 0; 0; 0; 0; 0].
Proof.
  split; [exact isort_sorts|]. split; [intros i d Hi; unfold drawn4; lia|]. split; [split; [lia|split; [lia|split; [cbn; lia|exact o2_degree]]]|]. split; [reflexivity|]. split; [reflexivity|]. split; [repeat constructor|].
  split; [vm_compute; reflexivity|]. split; vm_compute; reflexivity.
Qed.

(** ** C80 is false: from two dimensions on every non-empty sequence makes direction mode leave its buffers. *)
Theorem C80_direction_refuted : forall tanh srt dim n o draw row seq, 2 <= dim -> 9 * dim <= INT_MAX -> rand_values draw -> allowed dim n o -> o_direction o = true -> shaped dim (row :: seq) ->
  exists kc u, kc_new_py dim n o draw = Ok kc /\ kc_transform srt tanh kc (row :: seq) = UB u.
Proof.
  intros tanh srt dim n o draw row seq Hd Hmax HR HA Ho HS. destruct (new_members dim n o draw HA HR ltac:(auto)) as (kc & c & E & _ & Hc & Ec & Ed & Eb & Eu & Ek & Ea & HF). rewrite Ho in *. specialize (Ea eq_refl).
  destruct (direction_ub tanh srt kc dim row seq Hd) as [u Hub]; [|exact HS|exists kc, u; auto].
  split; [exact Eu|]. split; [exact Ed|]. split; [exact Ea|]. split; [destruct HA as (_ & Hn & _); lia|]. eapply Forall_impl; [exact HF|]. intros q [H _]. cbv beta. congruence.
Qed.
Print Assumptions C80_direction_refuted.
Definition o_dir : kc_options := KcOptions (Some 2) (Some (S754_finite false 8388608 (-24))) (Some true).
Example C80_witness : allowed 2 4 o_dir /\ o_direction o_dir = true /\ shaped 2 [[fz 5; fz 3]; [fz 6; fz 7]] /\
  trans 2 4 o_dir [[fz 5; fz 3]; [fz 6; fz 7]] = UB UBIndex /\ trans 2 4 o_dir [[fz 5; fz 3]] = UB UBIndex /\ trans 1 4 o_dir [[fz 5]; [fz 6]] = Ok [1; 1; 1; 1; 1; 1; 1; 1].
Proof.
  split; [split; [lia|split; [lia|split; [cbn; lia|exact o2_degree]]]|]. split; [reflexivity|]. split; [repeat constructor|]. split; [vm_compute; reflexivity|]. split; vm_compute; reflexivity.
Qed.
(** What holds: one-dimensional direction mode never leaves its buffers, and activates, for each row,
    kernels nearest to the row's normalised value written three times: neighbouring rows have no influence. *)
Theorem C80_direction_one_partial : forall tanh srt n o draw c, sorts srt -> rand_values draw -> allowed 1 n o -> o_direction o = true -> to_activate n o c -> n * o_bits o <= INT_MAX ->
  exists kc, kc_new_py 1 n o draw = Ok kc /\
    forall seq, shaped 1 seq -> exists out chosen, kc_transform srt tanh kc seq = Ok out /\ len out = n * o_bits o /\
      Forall2 (fun row S => nearest (kc_kernels kc) (thrice (normalised tanh seq row)) c S) seq chosen /\
      forall k b, 0 <= k < n -> 0 <= b < o_bits o -> out !! Z.to_nat (k * o_bits o + b) = Some (if bool_decide (k ∈ concat chosen) then 1 else 0).
Proof.
  intros tanh srt n o draw c Hs HR HA Ho Hc Hmax. destruct (new_members 1 n o draw HA HR) as (kc & c' & E & Hc' & Hcn & Ec & Ed & Eb & Eu & Ek & Ea & HF); [unfold INT_MAX; lia|].
  unfold to_activate in *. rewrite Hc in Hc'. injection Hc' as <-. pose proof HA as (Hd & Hn & Hb & _). rewrite Ho in *. specialize (Ea eq_refl). exists kc. split; [exact E|]. intros seq HS.
  destruct (direction_one tanh srt kc seq Hs) as (out & chosen & Et & HF2 & Hbl & HB).
  - split; [exact Eu|]. split; [exact Ed|]. split; [exact Ea|]. split; [lia|]. eapply Forall_impl; [exact HF|]. intros q [H _]. cbv beta. rewrite Ea. exact H.
  - lia.
  - lia.
  - rewrite Ek, Eb. exact Hmax.
  - eapply Forall_impl; [exact HF|]. intros q [_ H2]. eapply Forall_impl; [exact H2|]. intros x [H _]. exact H.
  - exact HS.
  - exists out, chosen. rewrite Ek, Eb in *. rewrite Ec in HF2. auto.
Qed.
Print Assumptions C80_direction_one_partial.

(** ** C88: the two constructors do not agree: the C++ one never stores dim. *)
Theorem C88_cpp_constructor_refuted : forall dim n o draw, kc_new_cpp dim n o draw = UB UBUninit.
Proof. reflexivity. Qed.
(** The Python one builds n kernels of dim coordinates, each a finite number in [-1, 1]. *)
Theorem C88_python_constructor_partial : forall dim n o draw, rand_values draw -> allowed dim n o -> o_direction o = false ->
  exists kc, kc_new_py dim n o draw = Ok kc /\ len (kc_kernels kc) = n /\ Forall (fun q => len q = dim /\ Forall within_one q) (kc_kernels kc).
Proof.
  intros dim n o draw HR HA Ho. destruct (new_members dim n o draw HA HR) as (kc & c & E & _ & _ & _ & _ & _ & _ & Ek & _ & HF); [congruence|]. rewrite Ho in HF. exists kc. split; [exact E|]. split; [exact Ek|].
  eapply Forall_impl; [exact HF|]. intros q [H1 H2]. split; [exact H1|]. eapply Forall_impl; [exact H2|]. intros x [_ H]. exact H.
Qed.
Print Assumptions C88_python_constructor_partial.
Example C88_witness : allowed 3 5 (KcOptions None None None) /\ o_direction (KcOptions None None None) = false /\ rand_values (fun _ _ => 7).
Proof. split; [split; [lia|split; [lia|split; [cbn; lia|repeat split; reflexivity]]]|]. split; [reflexivity|]. intros i d. lia. Qed.

(** ** C89: the Python constructor's checks, in order; with allowed parameters it succeeds. *)
Definition beyond (d : f32) : Prop := SFltb f32_one d = true \/ SFltb d f32_zero = true.
Theorem C89_validation : forall dim n o draw,
  (n < 1 -> kc_new_py dim n o draw = Throw (EWisard "Error: the number of kernels can not be lesser than 1!")) /\
  (1 <= n -> dim < 1 -> kc_new_py dim n o draw = Throw (EWisard "Error: the dimension can not be lesser than 1!")) /\
  (1 <= n -> 1 <= dim -> o_bits o < 1 -> kc_new_py dim n o draw = Throw (EWisard "Error: the number of bits by kernel can not be lesser than 1!")) /\
  (1 <= n -> 1 <= dim -> 1 <= o_bits o -> beyond (o_degree o) -> kc_new_py dim n o draw = Throw (EWisard "Error: the activation degree must be between 0 and 1!")) /\
  (allowed dim n o -> rand_values draw -> (o_direction o = true -> 9 * dim <= INT_MAX) -> exists kc, kc_new_py dim n o draw = Ok kc).
Proof.
  intros dim n o draw.
  assert (U : kc_new_py dim n o draw = rbind (kc_checkInputs n dim (o_bits o) (o_degree o)) (fun _ => kc_new_py dim n o draw)).
  { unfold kc_new_py. change (default 3 (ko_bitsByKernel o)) with (o_bits o). change (default deg_default (ko_activationDegree o)) with (o_degree o). unfold kc_setup. cbn [rbind]. destruct (kc_checkInputs n dim (o_bits o) (o_degree o)) as [[]| | |]; reflexivity. }
  split; [|split; [|split; [|split]]].
  - intros H. rewrite U. unfold kc_checkInputs. destruct (Z.ltb_spec n 1); [reflexivity|lia].
  - intros H1 H. rewrite U. unfold kc_checkInputs. destruct (Z.ltb_spec n 1); [lia|]. destruct (Z.ltb_spec dim 1); [reflexivity|lia].
  - intros H1 H2 H. rewrite U. unfold kc_checkInputs. destruct (Z.ltb_spec n 1); [lia|]. destruct (Z.ltb_spec dim 1); [lia|]. destruct (Z.ltb_spec (o_bits o) 1); [reflexivity|lia].
  - intros H1 H2 H3 H. rewrite U. unfold kc_checkInputs. destruct (Z.ltb_spec n 1); [lia|]. destruct (Z.ltb_spec dim 1); [lia|]. destruct (Z.ltb_spec (o_bits o) 1); [lia|].
    replace (f32_ltb f32_one (o_degree o) || f32_ltb (o_degree o) f32_zero) with true; [reflexivity|]. unfold f32_ltb. destruct H as [-> | ->]; [reflexivity|]. rewrite orb_true_r. reflexivity.
  - intros HA HR HD. destruct (new_members dim n o draw HA HR HD) as (kc & _ & E & _). eauto.
Qed.
Print Assumptions C89_validation.
Example C89_witness : beyond (f32_of_Z 2) /\ allowed 2 4 o_dir /\ trans 1 0 o2 [] = Throw (EWisard "Error: the number of kernels can not be lesser than 1!").
Proof. split; [left; reflexivity|]. split; [split; [lia|split; [lia|split; [cbn; lia|exact o2_degree]]]|]. reflexivity. Qed.

(** ** C90: the number of kernels a row activates: none for degree 0, all for degree 1, monotone in between. *)
Definition with_degree (d : f32) : kc_options := KcOptions None (Some d) None.
Theorem C90_count : forall n, 1 <= n <= 2 ^ 24 ->
  (forall d, unit_degree d -> exists c, to_activate n (with_degree d) c /\ 0 <= c <= n) /\
  to_activate n (with_degree f32_zero) 0 /\ to_activate n (with_degree f32_one) n /\
  (forall d d' c c', unit_degree d -> unit_degree d' -> SFleb d d' = true -> to_activate n (with_degree d) c -> to_activate n (with_degree d') c' -> c <= c').
Proof.
  intros n Hn. split; [intros d Hd; exact (count_range d n Hd Hn)|]. split; [|split; [exact (count_one n Hn)|intros d d' c c' H1 H2 H3; exact (count_mono d d' n c c' H1 H2 H3 Hn)]].
  destruct (count_range f32_zero n) as (c & Ec & Hc); [repeat split; reflexivity|exact Hn|]. unfold to_activate. cbn [o_degree with_degree ko_activationDegree]. 
  assert (f32_mul f32_zero (f32_of_Z n) = f32_zero \/ f32_mul f32_zero (f32_of_Z n) = S754_zero true \/ f32_mul f32_zero (f32_of_Z n) = S754_nan) as [-> |[-> | E]].
  { unfold f32_mul, f32_zero. change (f32_of_Z 0) with (S754_zero false). destruct (f32_of_Z n) as [[]|[]| |[] ? ?]; cbn; auto. }
  - reflexivity.
  - reflexivity.
  - rewrite E in Ec. discriminate.
Qed.
Print Assumptions C90_count.
Example C90_witness : unit_degree deg_default /\ to_activate 100 (KcOptions None None None) 7 /\ to_activate 7 (KcOptions None None None) 0.
Proof. split; [repeat split; reflexivity|]. split; vm_compute; reflexivity. Qed.

(** ** C91 is false: with 16777219 kernels and degree 1 the count is 16777220, and transform reads outside. *)
Definition o_all : kc_options := KcOptions (Some 1) (Some f32_one) None.
Theorem C91_more_than_kernels_refuted : forall tanh srt draw row seq, sorts srt -> rand_values draw -> shaped 1 (row :: seq) ->
  exists kc, kc_new_py 1 16777219 o_all draw = Ok kc /\ kc_nact kc = 16777220 /\ kc_transform srt tanh kc (row :: seq) = UB UBIndex.
Proof.
  intros tanh srt draw row seq Hs HR HS. unfold kc_new_py, kc_setup. cbn [rbind o_all ko_bitsByKernel ko_useDirection ko_activationDegree from_option id].
  change (kc_checkInputs 16777219 1 1 f32_one) with (@Ok unit tt). cbn [rbind].
  assert (Ec : int_of_rounded (f32_round (f32_mul f32_one (f32_of_Z 16777219))) = Ok 16777220) by (vm_compute; reflexivity). rewrite Ec. cbn [rbind].
  eexists. split; [reflexivity|]. split; [reflexivity|].
  set (ks := (fun i : Z => (fun d : Z => randdouble (f64_of_Z (-1)) (f64_of_Z 1) (draw i d)) <$> seqZ 0 1) <$> seqZ 0 16777219).
  assert (HL : len ks = 16777219) by (unfold ks, len; rewrite fmap_length, seqZ_length; lia).
  assert (HF : Forall (fun q : list f64 => len q = 1 /\ Forall finite q) ks).
  { apply Forall_fmap, Forall_forall. intros i _. unfold compose. cbv beta. split; [reflexivity|]. apply Forall_fmap, Forall_forall. intros d _. unfold compose. cbv beta. apply (randdouble_range (draw i d) (HR i d)). }
  clearbody ks. apply transform_over; cbn [kc_dim kc_bitsByKernel kc_nact kc_kernels]; try (rewrite ?HL; unfold INT_MAX; lia); [exact Hs|reflexivity|exact HF|exact HS].
Qed.
Print Assumptions C91_more_than_kernels_refuted.
(** What holds: up to 2^24 kernels the count never exceeds their number. *)
Theorem C91_more_than_kernels_partial : forall dim n o draw, rand_values draw -> allowed dim n o -> o_direction o = false ->
  exists kc, kc_new_py dim n o draw = Ok kc /\ 0 <= kc_nact kc <= len (kc_kernels kc).
Proof.
  intros dim n o draw HR HA Ho. destruct (new_members dim n o draw HA HR) as (kc & c & E & _ & Hc & Ec & _ & _ & _ & Ek & _); [congruence|]. exists kc. split; [exact E|]. lia.
Qed.
Print Assumptions C91_more_than_kernels_partial.
Example C91_witness : sorts isort /\ rand_values (fun _ _ => 7) /\ shaped 1 [[fz 5]; [fz 6]].
Proof. split; [exact isort_sorts|]. split; [intros i d; lia|]. repeat constructor. Qed.

(** ** C92 is false for rows that are too short: they are read before their length is checked. *)
Definition canvas_from (dim n : Z) (o : kc_options) (kc : kcanvas) : Prop :=
  exists draw, rand_values draw /\ allowed dim n o /\ o_direction o = false /\ n * o_bits o <= INT_MAX /\ kc_new_py dim n o draw = Ok kc.
Theorem C92_short_row_refuted : forall tanh srt dim n o kc seq, canvas_from dim n o kc -> Exists (fun row => len row < dim) seq ->
  exists u, kc_transform srt tanh kc seq = UB u.
Proof.
  intros tanh srt dim n o kc seq (draw & HR & HA & Ho & _ & E) HE. destruct (new_members dim n o draw HA HR) as (kc' & c & E' & _ & _ & _ & Ed & _); [congruence|]. rewrite E in E'. injection E' as <-.
  apply transform_short; [destruct HA; lia|]. rewrite Ed. intros HW. unfold wide in HW. rewrite Forall_forall in HW. apply Exists_exists in HE as (row & Hin & Hl). specialize (HW row Hin). lia.
Qed.
Print Assumptions C92_short_row_refuted.
(** What holds: if no row is too short and one is too long, the documented exception is thrown. *)
Theorem C92_long_row_partial : forall tanh srt dim n o kc seq, sorts srt -> canvas_from dim n o kc -> Forall (fun row => dim <= len row) seq -> Exists (fun row => dim < len row) seq ->
  kc_transform srt tanh kc seq = Throw (EWisard "Error: the dimension of input data is defferent of kernel's dimension!").
Proof.
  intros tanh srt dim n o kc seq Hs (draw & HR & HA & Ho & Hmax & E) HW HE. destruct (new_members dim n o draw HA HR) as (kc' & c & E' & _ & Hc & Ec & Ed & Eb & Eu & Ek & _ & HF); [congruence|]. rewrite E in E'. injection E' as <-. rewrite Ho in *.
  pose proof HA as (Hd & Hn & Hb & _). apply transform_bad; [exact Hs| |rewrite Ed; exact HW|].
  - split; [exact Eu|]. repeat (split; [first [lia|rewrite Ek, Eb; exact Hmax]|]). eapply Forall_impl; [exact HF|]. intros q [H1 H2]. split; [congruence|]. eapply Forall_impl; [exact H2|]. intros x [H _]. exact H.
  - rewrite Ed. intros HS. unfold shaped in HS. rewrite Forall_forall in HS. apply Exists_exists in HE as (row & Hin & Hl). specialize (HS row Hin). lia.
Qed.
Print Assumptions C92_long_row_partial.
Example C92_witness : (exists kc, canvas_from 1 4 o2 kc) /\ trans 2 4 o2 [[fz 5; fz 1]; [fz 6]] = UB UBIndex /\
  trans 1 4 o2 [[fz 5]; [fz 6; fz 7]] = Throw (EWisard "Error: the dimension of input data is defferent of kernel's dimension!").
Proof.
  split; [|split; vm_compute; reflexivity].
  assert (HA : allowed 1 4 o2) by (split; [lia|split; [lia|split; [cbn; lia|exact o2_degree]]]).
  destruct (new_members 1 4 o2 (fun _ _ => 7) HA ltac:(intros i d; lia) ltac:(discriminate)) as (kc & _ & E & _). exists kc, (fun _ _ => 7). split; [intros i d; lia|]. split; [exact HA|]. split; [reflexivity|]. split; [vm_compute; congruence|exact E].
Qed.

(** ** C93 is false: with the default degree and at most 7 kernels no input ever switches a bit on. *)
Theorem C93_something_on_refuted : forall tanh srt dim n draw seq, sorts srt -> rand_values draw -> 1 <= dim -> 1 <= n <= 7 -> shaped dim seq ->
  exists kc out, kc_new_py dim n (KcOptions None None None) draw = Ok kc /\ kc_transform srt tanh kc seq = Ok out /\ Forall (fun v => v = 0) out.
Proof.
  intros tanh srt dim n draw seq Hs HR Hd Hn HS. assert (HA : allowed dim n (KcOptions None None None)) by (split; [exact Hd|]; split; [lia|]; split; [cbn; lia|repeat split; reflexivity]).
  assert (Hc : to_activate n (KcOptions None None None) 0).
  { assert (Hn7 : n = 1 \/ n = 2 \/ n = 3 \/ n = 4 \/ n = 5 \/ n = 6 \/ n = 7) by lia. unfold to_activate. repeat (destruct Hn7 as [-> |Hn7]; [vm_compute; reflexivity|]). subst n. vm_compute. reflexivity. }
  destruct (C79_transform tanh srt dim n (KcOptions None None None) draw 0 Hs HR HA eq_refl Hc) as (kc & E & H); [cbn; unfold INT_MAX; lia|].
  destruct (H seq HS) as (out & chosen & Et & Hl & HF2 & HB). exists kc, out. split; [exact E|]. split; [exact Et|].
  assert (HN : forall k, ~ Exists (fun S => k ∈ S) chosen).
  { intros k HE. apply Exists_exists in HE as (S & Hin & Hk). apply elem_of_list_lookup in Hin as [i Hi]. destruct (Forall2_lookup_r _ _ _ _ _ HF2 Hi) as (row & _ & (_ & Hl0 & _)). destruct S; [inversion Hk|]. unfold len in Hl0. cbn in Hl0. lia. }
  cbn [o_bits ko_bitsByKernel] in *. apply Forall_lookup. intros i v Hi. pose proof (lookup_lt_Some _ _ _ Hi) as Hlt. unfold len in Hl.
  pose proof (Z.div_mod (Z.of_nat i) 3 ltac:(lia)) as Hdm. pose proof (Z.mod_pos_bound (Z.of_nat i) 3 ltac:(lia)) as Hmb.
  destruct (HB (Z.of_nat i / 3) (Z.of_nat i mod 3)) as [_ H0]; [split; [apply Z.div_pos; lia|apply Z.div_lt_upper_bound; lia]|exact Hmb|].
  specialize (H0 (HN _)). replace (Z.to_nat (Z.of_nat i / 3 * 3 + Z.of_nat i mod 3)) with i in H0 by lia. congruence.
Qed.
Print Assumptions C93_something_on_refuted.
(** What holds: when the degree asks for at least one kernel, every non-empty sequence switches some block on. *)
Theorem C93_something_on_partial : forall tanh srt dim n o draw c row seq, sorts srt -> rand_values draw -> allowed dim n o -> o_direction o = false -> to_activate n o c -> 1 <= c -> n * o_bits o <= INT_MAX -> shaped dim (row :: seq) ->
  exists kc out, kc_new_py dim n o draw = Ok kc /\ kc_transform srt tanh kc (row :: seq) = Ok out /\ 1 ∈ out.
Proof.
  intros tanh srt dim n o draw c row seq Hs HR HA Ho Hc Hc1 Hmax HS. destruct (C79_counts tanh srt dim n o draw c Hs HR HA Ho Hc Hmax) as (kc & E & _ & H).
  destruct (H row seq HS) as (out & Et & _ & _ & S & _ & Hl & HF). exists kc, out. split; [exact E|]. split; [exact Et|]. destruct S as [|k S]; [unfold len in Hl; cbn in Hl; lia|].
  apply Forall_cons in HF as [[_ Hk] _]. apply elem_of_list_lookup. exists (Z.to_nat (k * o_bits o + 0)). apply Hk. destruct HA as (_ & _ & Hb & _). lia.
Qed.
Print Assumptions C93_something_on_partial.
Example C93_witness : to_activate 4 o2 2 /\ allowed 1 4 o2 /\ shaped 1 [[fz 5]; [fz 6]].
Proof. split; [vm_compute; reflexivity|]. split; [split; [lia|split; [lia|split; [cbn; lia|exact o2_degree]]]|repeat constructor]. Qed.
