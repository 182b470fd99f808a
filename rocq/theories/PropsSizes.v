(** Property theorems C103, C104: getsizeof(). *)
From Verif Require Import Prelude Bytes Float32 Bleaching Utils BinInput Ram Json Fs RamData Disc Wisard Cluster ClusWisard Sizes.
From Verif Require Import SpecDisc SpecWisard SpecClus SpecSizes SpecSaved CtorFacts DiscCtorProofs DiscFacts WisardProofs WisardFacts SizesProofs SizesClus WisardSaved ClusSaved.
From Verif Require Import PropsDisc PropsWisard PropsJson PropsCluster PropsClus PropsClusJson.
From Verif Require Import SpecUtf8 Utf8Proofs.

(** C103: 12 bytes per pattern a RAM has learned, whatever was untrained since. *)
Theorem C103_discriminator_size : forall S d0 h d, constructed d0 -> all_valid d0 h -> len h <= INT_MAX -> run d0 h = (Ok tt, d) ->
  disc_getsizeof S d = disc_getsizeof S d0 + 12 * learned_patterns d0 h.
Proof.
  intros S d0 h d Hc Hv Hl Hr. apply after_size; [apply constructed_fresh, Hc|exact Hv|]. apply run_inv; assumption.
Qed.
Print Assumptions C103_discriminator_size.
(** A new discriminator: one class object, and per RAM one object and 8 bytes per position. *)
Theorem C103_new_size : forall S d0, constructed d0 ->
  disc_getsizeof S d0 = S_Discriminator S + zsum ((fun r => S_RAM S + 8 * len (r_addresses r)) <$> d_rams d0).
Proof.
  intros S d0 Hc. apply constructed_fresh in Hc as [_ Hf]. rewrite disc_size_sum. do 2 f_equal. 
  apply Forall_fmap_ext_1, (Forall_impl _ _ _ Hf). intros r [_ He]. unfold ram_getsizeof. rewrite He, map_size_empty. lia.
Qed.
Print Assumptions C103_new_size.
Theorem C103_wisard_size : forall S lhs_first w0 n cs,
  w_discriminators w0 = ∅ -> configured w0 n -> Forall (proper_call w0 n) cs -> len (all_examples cs) <= INT_MAX ->
  exists w (d0 : gmap str disc), wrun lhs_first w0 cs = (Ok tt, w) /\
    (forall l, is_Some (d0 !! l) <-> SpecWisard.trained l (all_examples cs)) /\
    (forall l d, d0 !! l = Some d -> built w0 n l d) /\
    wisard_getsizeof S w = S_Wisard S + 4 * len (w_indexes w0) +
      zsum ((fun ld => len ld.1 + (disc_getsizeof S ld.2 + 12 * learned_patterns ld.2 (history ld.1 (all_examples cs)))) <$> sorted_items d0).
Proof. exact wisard_size_law. Qed.
Print Assumptions C103_wisard_size.

(** C103: no call makes a discriminator or a Wisard smaller, even if it throws; untraining never
    changes the size. *)
Theorem C103_never_shrinks : forall S d h, disc_getsizeof S d <= disc_getsizeof S (snd (run d h)).
Proof. intros S d h. apply run_size. Qed.
Print Assumptions C103_never_shrinks.
Theorem C103_untrain_keeps : forall S d x, disc_getsizeof S (snd (disc_untrain d x)) = disc_getsizeof S d.
Proof. exact disc_untrain_keeps. Qed.
Print Assumptions C103_untrain_keeps.
Theorem C103_one_training : forall S d x,
  disc_getsizeof S d <= disc_getsizeof S (snd (disc_train d x)) <= disc_getsizeof S d + 12 * len (d_rams d).
Proof. exact disc_train_grows. Qed.
Print Assumptions C103_one_training.
Theorem C103_wisard_never_shrinks : forall S lhs_first w cs, 0 <= S_RAM S -> 0 <= S_Discriminator S -> 
  wisard_getsizeof S w <= wisard_getsizeof S (snd (wrun lhs_first w cs)).
Proof.
  intros S lhs w cs Hr Hd.
  set (S' := ClassSizes (S_RAM S) (S_Discriminator S) (S_Wisard S) 0 0).
  assert (E : forall w, wisard_getsizeof S w = wisard_getsizeof S' w) by reflexivity. rewrite !E. apply wrun_size. repeat split; assumption || cbn; lia.
Qed.
Print Assumptions C103_wisard_never_shrinks.
Theorem C103_leaving_out_keeps : forall S lhs_first w c, (match c with CTrain _ _ _ => False | _ => True end) ->
  wisard_getsizeof S (snd (wcall_run lhs_first w c)) = wisard_getsizeof S w.
Proof. intros S lhs w c H. apply leave_keeps, H. Qed.
Print Assumptions C103_leaving_out_keeps.

(** C103: a reloaded discriminator or Wisard has the size of the saved one. *)
Theorem C103_reloaded : forall S iter rnd f path d0 h d,
  good_iter iter -> constructed d0 -> Forall (Forall is_int) (disc_mapping d0) ->
  all_valid d0 h -> len h <= INT_MAX -> run d0 h = (Ok tt, d) -> (exists x, Train x ∈ h) -> saved_size d <= INT_MAX + 1 ->
  exists j, disc_json iter rnd f d false path = (Ok j, f) /\
    forall f', exists d', disc_of_json f' j = Ok d' /\ disc_getsizeof S d' = disc_getsizeof S d.
Proof.
  intros S iter rnd f path d0 h d H1 H2 H3 H4 H5 H6 H7 H8. destruct (C57_roundtrip iter rnd f path d0 h d H1 H2 H3 H4 H5 H6 H7 H8) as (j & E & Hj).
  exists j. split; [exact E|]. intros f'. exists d. split; [apply Hj|reflexivity].
Qed.
Print Assumptions C103_reloaded.
Theorem C103_wisard_reloaded : forall S iter rnd lhs_first w0 n cs w f path,
  good_iter iter -> w_discriminators w0 = ∅ -> configured w0 n -> Forall (proper_call w0 n) cs ->
  len (all_examples cs) <= INT_MAX -> int_options w0 -> some_rams w0 -> wrun lhs_first w0 cs = (Ok tt, w) ->
  (forall l d, w_discriminators w !! l = Some d -> is_utf8 l /\ saved_size d <= INT_MAX + 1) ->
  exists j, wisard_json iter rnd f w false path = (Ok j, f) /\
    forall f', exists w', wisard_of_json f' j = Ok w' /\ wisard_getsizeof S w' = wisard_getsizeof S w.
Proof.
  intros S iter rnd lhs w0 n cs w f path H1 H2 H3 H4 H5 H6 H7 H8 H9.
  destruct (C60_roundtrip iter rnd lhs w0 n cs w f path H1 H2 H3 H4 H5 H6 H7 H8 H9) as (j & E & Hj).
  exists j. split; [exact E|]. intros f'. exists (without_mapping w). split; [apply Hj|reflexivity].
Qed.
Print Assumptions C103_wisard_reloaded.

(** x86-64-like sizes for the examples. *)
Definition S0 : class_sizes := ClassSizes 96 32 224 72 304.
Example C103_witness : all_valid demo story /\ run demo story = (Ok tt, told) /\ learned_patterns demo story = 3 /\
  disc_getsizeof S0 demo = 32 + (96 + 24) + (96 + 16) /\ disc_getsizeof S0 told = disc_getsizeof S0 demo + 12 * 3.
Proof. split; [apply demo_history|]. split; [vm_compute; reflexivity|]. split; [vm_compute; reflexivity|]. split; vm_compute; reflexivity. Qed.
Example C103_witness_wisard : wisard_getsizeof S0 cfg = 240 /\ wisard_getsizeof S0 (snd (wrun true cfg calls)) > 240.
Proof. split; vm_compute; reflexivity. Qed.

(** C104 is false: trainUnsupervised before any labelled training forgets what was trained, and the
    model shrinks. *)
Theorem C104_shrinks_refuted : fst (krun false (kfg 2) [KUnsupervised envs [x1; x4]; KUnsupervised envs [x1]]) = Ok tt /\
  clus_getsizeof S0 (snd (krun false (kfg 2) [KUnsupervised envs [x1; x4]])) = Ok 944 /\
  clus_getsizeof S0 (snd (krun false (kfg 2) [KUnsupervised envs [x1; x4]; KUnsupervised envs [x1]])) = Ok 660.
Proof. split; [vm_compute; reflexivity|]. split; vm_compute; reflexivity. Qed.
Print Assumptions C104_shrinks_refuted.
(** What holds: labelled and semi-supervised training never shrink a ClusWisard, nor does
    unsupervised training once there is a label; a reloaded one has the same size. *)
Theorem C104_labelled_partial : forall S lhs_first k c s s',
  0 <= S_RAM S -> 0 <= S_Discriminator S -> 0 <= S_Cluster S ->
  (match c with KUnsupervised _ _ => k_clusters k <> ∅ | _ => True end) ->
  clus_getsizeof S k = Ok s -> clus_getsizeof S (snd (kcall_run lhs_first k c)) = Ok s' -> s <= s'.
Proof.
  intros S lhs k c s s' H1 H2 H3 Hc E E'. apply ksum_ok in E as ->. apply ksum_ok in E' as ->. apply labelled_ksum; [repeat split; assumption|exact Hc].
Qed.
Print Assumptions C104_labelled_partial.
Example C104_witness : clus_getsizeof S0 (kfg 2) = Ok 376 /\ clus_getsizeof S0 ktrained = Ok 1374.
Proof. split; vm_compute; reflexivity. Qed.
