(** Property theorem C93 (continued): exactly when a non-empty sequence switches something on. *)
From Coq Require Import SpecFloat.
From Verif Require Import Prelude Float32 Kernel SpecKernel FloatSign KernelFloat KernelProofs KernelReals KernelDir KernelSort DiscCtorProofs PropsKernel.

(** C93: with c the rounded product of degree and number of kernels, a non-empty sequence switches
    something on exactly when c is at least 1; otherwise the output is zero throughout, whatever the
    sequence (empty or not). *)
Theorem C93_exactly_partial : forall tanh srt dim n o draw c, sorts srt -> rand_values draw -> allowed dim n o -> o_direction o = false -> to_activate n o c -> n * o_bits o <= INT_MAX ->
  exists kc, kc_new_py dim n o draw = Ok kc /\
    forall seq, shaped dim seq -> exists out, kc_transform srt tanh kc seq = Ok out /\
      (1 ∈ out <-> 1 <= c /\ seq <> []) /\ (~ (1 <= c /\ seq <> []) -> Forall (fun v => v = 0) out).
Proof.
  intros tanh srt dim n o draw c Hs HR HA Ho Hc Hmax. destruct (C79_transform tanh srt dim n o draw c Hs HR HA Ho Hc Hmax) as (kc & E & H).
  exists kc. split; [exact E|]. intros seq HS. destruct (H seq HS) as (out & chosen & Et & Hl & HF2 & HB). exists out. split; [exact Et|]. pose proof HA as (Hd & Hn & Hb & _).
  assert (HZ : ~ (1 <= c /\ seq <> []) -> Forall (fun v => v = 0) out).
  { intros Hno. assert (HN : forall k, ~ Exists (fun S => k ∈ S) chosen).
    { intros k HE. apply Exists_exists in HE as (S & Hin & Hk). apply elem_of_list_lookup in Hin as [i Hi]. destruct (Forall2_lookup_r _ _ _ _ _ HF2 Hi) as (row & Hr & (_ & Hl0 & _)). apply Hno.
      split; [destruct S; [inversion Hk|]; unfold len in Hl0; cbn in Hl0; lia|]. intros ->. discriminate. }
    apply Forall_lookup. intros i v Hi. pose proof (lookup_lt_Some _ _ _ Hi) as Hlt. unfold len in Hl. set (b := o_bits o) in *.
    pose proof (Z.div_mod (Z.of_nat i) b ltac:(lia)) as Hdm. pose proof (Z.mod_pos_bound (Z.of_nat i) b ltac:(lia)) as Hmb.
    destruct (HB (Z.of_nat i / b) (Z.of_nat i mod b)) as [_ H0]; [split; [apply Z.div_pos; lia|apply Z.div_lt_upper_bound; lia]|exact Hmb|].
    specialize (H0 (HN _)). replace (Z.to_nat (Z.of_nat i / b * b + Z.of_nat i mod b)) with i in H0 by lia. congruence. }
  split; [|exact HZ]. split.
  - intros H1. destruct (decide (1 <= c)) as [Hc1|Hc1]; [destruct seq as [|row seq]|]; [exfalso|split; [exact Hc1|discriminate]|exfalso].
    all: rewrite Forall_forall in HZ; assert (1 = 0) by (apply HZ; [intros [Ha Hne]; first [exact (Hc1 Ha)|exact (Hne eq_refl)]|exact H1]); lia.
  - intros [Hc1 Hne]. destruct seq as [|row seq]; [congruence|]. destruct (C93_something_on_partial tanh srt dim n o draw c row seq Hs HR HA Ho Hc Hc1 Hmax HS) as (kc' & out' & E' & Et' & Hin).
    congruence.
Qed.
Print Assumptions C93_exactly_partial.
(** Degrees on both sides: 4 kernels with the degree of C93_witness, and with the default one. *)
Example C93_exactly_witness : to_activate 4 o2 2 /\ to_activate 4 (KcOptions None None None) 0.
Proof. split; vm_compute; reflexivity. Qed.

(** C91 (continued): for every number of kernels and degree the constructor accepts, with c the
    rounded product: transform of a non-empty sequence reads outside its kernels exactly when c
    exceeds their number. *)
Theorem C91_exactly_partial : forall tanh srt dim n o draw c, sorts srt -> rand_values draw -> 1 <= dim -> 1 <= n -> 1 <= o_bits o -> unit_degree (o_degree o) -> o_direction o = false ->
  to_activate n o c -> 0 <= c <= INT_MAX -> n * o_bits o <= INT_MAX ->
  exists kc, kc_new_py dim n o draw = Ok kc /\ len (kc_kernels kc) = n /\
    forall row seq, shaped dim (row :: seq) ->
      (c <= n -> exists out, kc_transform srt tanh kc (row :: seq) = Ok out /\ len out = n * o_bits o) /\
      (n < c -> kc_transform srt tanh kc (row :: seq) = UB UBIndex).
Proof.
  intros tanh srt dim n o draw c Hs HR Hd Hn Hb (Hv & H0 & H1) Ho Hc Hci Hmax. unfold kc_new_py, to_activate in *.
  change (default 3 (ko_bitsByKernel o)) with (o_bits o). change (default deg_default (ko_activationDegree o)) with (o_degree o). change (default false (ko_useDirection o)) with (o_direction o).
  unfold kc_setup. cbn [rbind]. assert (kc_checkInputs n dim (o_bits o) (o_degree o) = Ok tt) as ->.
  { unfold kc_checkInputs. destruct (Z.ltb_spec n 1); [lia|]. destruct (Z.ltb_spec dim 1); [lia|]. destruct (Z.ltb_spec (o_bits o) 1); [lia|]. unfold f32_ltb. rewrite (leb_ltb _ _ H0), (leb_ltb _ _ H1). reflexivity. }
  cbn [rbind]. rewrite Hc. unfold int_of_rounded. replace (in_int c) with true by (unfold in_int, INT_MIN, INT_MAX in *; lia). cbn [rbind]. rewrite Ho. cbn [rbind].
  eexists. split; [reflexivity|]. cbn [kc_kernels].
  set (ks := (fun i : Z => (fun d : Z => randdouble (f64_of_Z (-1)) (f64_of_Z 1) (draw i d)) <$> seqZ 0 dim) <$> seqZ 0 n).
  assert (HL : len ks = n) by (unfold ks, len; rewrite fmap_length, seqZ_length; lia).
  assert (HF : Forall (fun q : list f64 => len q = dim /\ Forall finite q) ks).
  { apply Forall_fmap, Forall_forall. intros i _. unfold compose. cbv beta. split; [unfold len; rewrite fmap_length, seqZ_length; lia|]. apply Forall_fmap, Forall_forall. intros d _. unfold compose. cbv beta. apply (randdouble_range (draw i d) (HR i d)). }
  clearbody ks. split; [exact HL|]. intros row seq HS. split; intros Hcn.
  - match goal with |- exists out, kc_transform _ _ ?kc _ = _ /\ _ => destruct (transform_ok tanh srt kc (row :: seq) Hs) as (out & chosen & Et & _ & Hl & _) end.
    + split; [reflexivity|]. cbn [kc_dim kc_bitsByKernel kc_nact kc_kernels]. rewrite HL. repeat (split; [lia|]). exact HF.
    + exact HS.
    + exists out. split; [exact Et|]. cbn [kc_dim kc_bitsByKernel kc_nact kc_kernels] in Hl. rewrite HL in Hl. exact Hl.
  - apply transform_over; cbn [kc_dim kc_bitsByKernel kc_nact kc_kernels]; try (rewrite ?HL; lia); [exact Hs|reflexivity|exact HF|exact HS].
Qed.
Print Assumptions C91_exactly_partial.
(** Both sides occur with degree 1. *)
Example C91_exactly_witness : to_activate 16777219 o_all 16777220 /\ to_activate 16777221 o_all 16777220 /\ to_activate 5 o_all 5.
Proof. split; [|split]; vm_compute; reflexivity. Qed.
