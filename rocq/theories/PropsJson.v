(** Property theorems C57-C63: saving and reloading discriminators and Wisards. A saved text is
    represented by what parsing it yields (Json.v, retext). Vocabulary in SpecSaved.v. *)
From Verif Require Import Prelude Bytes Base64 Utils BinInput Bleaching Ram Json Fs RamData Disc Wisard SpecBin SpecDisc SpecBleach SpecWisard SpecSaved.
From Verif Require Import CtorFacts DiscFacts PropsDisc PropsWisard JsonFacts WisardSaved.
From Verif Require Import SpecUtf8 Utf8Proofs.

(** An order of iteration, a file system without files where everything can be written, and one
    where nothing can. *)
Definition it0 : iteration := fun m => map_to_list m.
Lemma it0_good : good_iter it0. Proof. intros m. reflexivity. Qed.
Definition disk : fs := Fs ∅ (fun _ => true).
Definition read_only : fs := Fs ∅ (fun _ => false).
Definition story : list dop := [Train img1; Untrain img2; Train img2; Train img1; Untrain img1].
Definition told : disc := snd (run demo story).

(** C57: the reloaded discriminator is d itself (entry size, counter, RAMs with wiring, ignoreZero,
    base and contents), so nothing done with it afterwards can tell them apart. *)
Theorem C57_roundtrip : forall iter rnd f path d0 h d,
  good_iter iter -> constructed d0 -> Forall (Forall is_int) (disc_mapping d0) ->
  all_valid d0 h -> len h <= INT_MAX -> run d0 h = (Ok tt, d) -> (exists x, Train x ∈ h) -> saved_size d <= INT_MAX + 1 ->
  exists j, disc_json iter rnd f d false path = (Ok j, f) /\ forall f', disc_of_json f' j = Ok d.
Proof. exact json_roundtrip. Qed.
Print Assumptions C57_roundtrip.
Lemma demo_ints : Forall (Forall is_int) (disc_mapping demo).
Proof. cbn. unfold is_int, INT_MIN, INT_MAX. repeat constructor; lia. Qed.
Example C57_witness : constructed demo /\ Forall (Forall is_int) (disc_mapping demo) /\ all_valid demo story /\
  run demo story = (Ok tt, told) /\ Train img1 ∈ story /\ saved_size told = 50 /\ disc_classify told img1 = Ok [1; 1].
Proof.
  split; [apply demo_constructed|]. split; [apply demo_ints|]. split; [apply demo_history|]. split; [apply demo_history|].
  split; [left|]. split; vm_compute; reflexivity.
Qed.

(** C58 is false: whatever the discriminator, an untrained one can be saved but its text cannot be
    reloaded. *)
Theorem C58_untrained_refuted : forall iter rnd f path d, good_iter iter -> constructed d ->
  exists j, disc_json iter rnd f d false path = (Ok j, f) /\ forall f', disc_of_json f' j = Throw EOutOfRange.
Proof. exact untrained_reload. Qed.
Print Assumptions C58_untrained_refuted.
(** What holds: one training is enough, for every constructed discriminator and valid image. *)
Theorem C58_trained_once_partial : forall iter rnd f path d0 x d,
  good_iter iter -> constructed d0 -> Forall (Forall is_int) (disc_mapping d0) -> valid_image d0 x ->
  disc_train d0 x = (Ok tt, d) -> saved_size d <= INT_MAX + 1 ->
  exists j, disc_json iter rnd f d false path = (Ok j, f) /\ forall f', disc_of_json f' j = Ok d.
Proof.
  intros iter rnd f path d0 x d Hi Hc Hm Hx E Hs. apply (json_roundtrip iter rnd f path d0 [Train x] d); auto.
  - apply Forall_cons. split; [exact Hx|constructor].
  - vm_compute. congruence.
  - unfold run. cbn. rewrite E. reflexivity.
  - exists x. left.
Qed.
Print Assumptions C58_trained_once_partial.
Example C58_witness : constructed demo /\ valid_image demo img1 /\ fst (disc_train demo img1) = Ok tt /\ saved_size (snd (disc_train demo img1)) = 34.
Proof. split; [apply demo_constructed|]. split; [apply demo_valid|]. split; vm_compute; reflexivity. Qed.

(** C59 is false for every discriminator and every trained Wisard: the text of jsonConfig has no
    "count", which the constructor reads as an int. *)
Theorem C59_discriminator_refuted : forall d, exists j, disc_jsonConfig d = Ok j /\ forall f, disc_of_json f j = Throw EJsonType.
Proof. exact jsonConfig_reload. Qed.
Print Assumptions C59_discriminator_refuted.
Theorem C59_wisard_refuted : forall w, int_options w -> (forall l, is_Some (w_discriminators w !! l) -> is_utf8 l) ->
  w_discriminators w <> ∅ -> exists j, wisard_jsonConfig w = Ok j /\ forall f, wisard_of_json f j = Throw EJsonType.
Proof. setoid_rewrite <- utf8_ok_iff. exact wisard_jsonConfig_reload. Qed.
Print Assumptions C59_wisard_refuted.
(** What holds: the configuration of an untrained Wisard reloads, without mapping and
    searchBestConfidence. *)
Theorem C59_untrained_wisard_partial : forall w, int_options w -> w_discriminators w = ∅ ->
  exists j, wisard_jsonConfig w = Ok j /\ forall f, wisard_of_json f j = Ok (without_mapping w).
Proof. exact wisard_jsonConfig_untrained. Qed.
Print Assumptions C59_untrained_wisard_partial.
Lemma cfg_ints : int_options cfg.
Proof.
  unfold int_options, is_int, INT_MIN, INT_MAX. cbn. repeat split; try lia.
  - repeat constructor; lia.
  - vm_compute. congruence.
  - intros l m H. rewrite lookup_empty in H. discriminate.
Qed.
Definition learned : wisard := snd (wrun true cfg calls).
Lemma learned_check : forallb (fun kd => utf8_ok kd.1 && (saved_size kd.2 <=? 100)) (sorted_items (w_discriminators learned)) = true /\
  (sorted_items (w_discriminators learned)).*1 = [cold; hot].
Proof. split; vm_compute; reflexivity. Qed.
Lemma learned_label l d : w_discriminators learned !! l = Some d -> is_utf8 l /\ saved_size d <= INT_MAX + 1.
Proof.
  intros H. apply BleachProofs.sorted_items_elem in H. destruct learned_check as [C _]. rewrite forallb_forall in C.
  apply elem_of_list_In in H. specialize (C _ H). cbn [fst snd] in C. apply andb_true_iff in C as [C1 C2]. split; [apply utf8_ok_iff, C1|]. unfold INT_MAX. lia.
Qed.
Example C59_witness : int_options cfg /\ w_discriminators cfg = ∅ /\ int_options learned /\
  (forall l, is_Some (w_discriminators learned !! l) -> is_utf8 l) /\ w_discriminators learned <> ∅.
Proof.
  split; [apply cfg_ints|]. split; [reflexivity|]. split; [apply cfg_ints|]. split.
  - intros l [d H]. apply (learned_label l d H).
  - intros E. destruct learned_check as [_ H]. rewrite E in H. discriminate.
Qed.

(** C60: from an untrained Wisard through any proper calls; the reloaded Wisard has the same
    discriminators and the same options, apart from the configured mapping and searchBestConfidence
    (C61); it classifies alike (C60_same_classes), and any further calls naming known labels have the
    same outcome and keep it so (C60_same_future). *)
Theorem C60_roundtrip : forall iter rnd lhs_first w0 n cs w f path,
  good_iter iter -> w_discriminators w0 = ∅ -> configured w0 n -> Forall (proper_call w0 n) cs ->
  len (all_examples cs) <= INT_MAX -> int_options w0 -> some_rams w0 -> wrun lhs_first w0 cs = (Ok tt, w) ->
  (forall l d, w_discriminators w !! l = Some d -> is_utf8 l /\ saved_size d <= INT_MAX + 1) ->
  exists j, wisard_json iter rnd f w false path = (Ok j, f) /\ forall f', wisard_of_json f' j = Ok (without_mapping w).
Proof. setoid_rewrite <- utf8_ok_iff. exact wisard_saved. Qed.
Print Assumptions C60_roundtrip.
Theorem C60_same_classes : forall w xs, wisard_classify (without_mapping w) xs = wisard_classify w xs.
Proof. exact classify_wm. Qed.
Print Assumptions C60_same_classes.
Theorem C60_same_future : forall lhs_first w cs, Forall (on_known w) cs ->
  fst (wrun lhs_first (without_mapping w) cs) = fst (wrun lhs_first w cs) /\
  w_discriminators (snd (wrun lhs_first (without_mapping w) cs)) = w_discriminators (snd (wrun lhs_first w cs)) /\
  forall xs, wisard_classify (snd (wrun lhs_first (without_mapping w) cs)) xs = wisard_classify (snd (wrun lhs_first w cs)) xs.
Proof.
  intros lhs w cs H. rewrite run_wm by exact H. destruct (wrun lhs w cs) as [o w']. cbn [lift fst snd]. auto using classify_wm.
Qed.
Print Assumptions C60_same_future.
Example C60_witness : configured cfg 4 /\ Forall (proper_call cfg 4) calls /\ int_options cfg /\ some_rams cfg /\
  wrun true cfg calls = (Ok tt, learned) /\
  (forall l d, w_discriminators learned !! l = Some d -> is_utf8 l /\ saved_size d <= INT_MAX + 1) /\
  Forall (on_known learned) [CTrain env0 [w1; w2] [hot; cold]; CLeaveOne w3 hot].
Proof.
  split; [apply cfg_configured|]. split; [apply calls_proper|]. split; [apply cfg_ints|].
  split; [intros l H; cbn in H; rewrite lookup_empty in H; discriminate|]. split; [vm_compute; reflexivity|]. split; [exact learned_label|].
  assert (Hh : is_Some (w_discriminators learned !! hot)) by (vm_compute; eauto).
  assert (Hc : is_Some (w_discriminators learned !! cold)) by (vm_compute; eauto).
  unfold on_known. repeat constructor; assumption.
Qed.
(** Why some_rams is asked for: a label configured with an empty mapping trains, but the text of the
    Wisard can no longer be reloaded. *)
Definition hollow : wisard := Wisard 2 true false {[hot := []]} [] false true 2 false false false false 1 ∅.
Example C60_no_rams_boundary : exists w j, wrun true hollow [CTrain env0 [w1] [hot]] = (Ok tt, w) /\
  wisard_json it0 (fun _ => []) disk w false [] = (Ok j, disk) /\ wisard_of_json disk j = Throw EOutOfRange.
Proof. eexists _, _. split; [vm_compute; reflexivity|]. split; [vm_compute; reflexivity|vm_compute; reflexivity]. Qed.

(** C61 is false: the configured mapping is gone after reloading, so a label first trained then gets
    another wiring. *)
Definition wired : wisard := Wisard 2 true false {[hot := [[3; 0]; [1; 2]]]} [] false true 2 true false false false 1 ∅.
Theorem C61_mapping_refuted : exists j w', wisard_json it0 (fun _ => []) disk wired false [] = (Ok j, disk) /\
  wisard_of_json disk j = Ok w' /\ w_searchBestConfidence wired = true /\ w_searchBestConfidence w' = false /\
  rmap disc_mapping (construct_discriminator some_draw wired hot 4) = Ok [[3; 0]; [1; 2]] /\
  rmap disc_mapping (construct_discriminator some_draw w' hot 4) = Ok [[0; 1]; [2; 3]].
Proof. eexists _, _. split; [vm_compute; reflexivity|]. split; [vm_compute; reflexivity|]. vm_compute. auto. Qed.
Print Assumptions C61_mapping_refuted.
(** What holds: C60_roundtrip lists the options that survive; a label without configured mapping
    gets, for the same random choices, the same wiring as before saving. *)
Theorem C61_unmapped_labels_partial : forall dr w l n, w_mapping w !! l = None ->
  construct_discriminator dr (without_mapping w) l n = construct_discriminator dr w l n.
Proof. intros dr w l n H. unfold construct_discriminator. rewrite H. reflexivity. Qed.
Print Assumptions C61_unmapped_labels_partial.
Example C61_witness : w_mapping wired !! cold = None /\
  rmap disc_mapping (construct_discriminator some_draw wired cold 4) = Ok [[0; 1]; [2; 3]].
Proof. split; vm_compute; reflexivity. Qed.

(** C62: json(true,path) with new files that can be created: the discriminator, or the Wisard, that
    json() would give back. [rnd] are the random parts of the file names, of length 10. *)
Theorem C62_huge_discriminator : forall iter rnd f path d0 h d,
  good_iter iter -> constructed d0 -> Forall (Forall is_int) (disc_mapping d0) ->
  all_valid d0 h -> len h <= INT_MAX -> run d0 h = (Ok tt, d) -> (exists x, Train x ∈ h) -> saved_size d <= INT_MAX + 1 ->
  let name := path ++ rnd ++ lit ".wdpkg" in
  is_utf8 name -> len name < W64 -> fs_writable f name = true -> fs_read f name = None ->
  exists j f', disc_json iter rnd f d true path = (Ok j, f') /\ disc_of_json f' j = Ok d.
Proof. cbv zeta. setoid_rewrite <- utf8_ok_iff. exact json_roundtrip_huge. Qed.
Print Assumptions C62_huge_discriminator.
Theorem C62_huge_wisard : forall iter rnd lhs_first w0 n cs w f path,
  good_iter iter -> w_discriminators w0 = ∅ -> configured w0 n -> Forall (proper_call w0 n) cs ->
  len (all_examples cs) <= INT_MAX -> int_options w0 -> some_rams w0 -> wrun lhs_first w0 cs = (Ok tt, w) ->
  (forall l d, w_discriminators w !! l = Some d -> is_utf8 l /\ saved_size d <= INT_MAX + 1) ->
  (forall k, length (rnd k) = 10%nat) ->
  (forall l, is_Some (w_discriminators w !! l) ->
     let name := path ++ l ++ lit "__" ++ rnd l ++ lit ".wdpkg" in
     is_utf8 name /\ len name < W64 /\ fs_writable f name = true /\ fs_read f name = None) ->
  exists j f', wisard_json iter rnd f w true path = (Ok j, f') /\ wisard_of_json f' j = Ok (without_mapping w).
Proof. cbv zeta. setoid_rewrite <- utf8_ok_iff. exact wisard_saved_huge. Qed.
Print Assumptions C62_huge_wisard.
Example C62_witness : let name := lit "dir/" ++ lit "AbCdEfGh12" ++ lit ".wdpkg" in
  is_utf8 name /\ fs_writable disk name = true /\ fs_read disk name = None /\
  (let '(r, f') := disc_json it0 (lit "AbCdEfGh12") disk told true (lit "dir/") in
   f' <> disk /\ (let* j := r in disc_of_json f' j) = Ok told).
Proof.
  split; [apply utf8_ok_iff; vm_compute; reflexivity|]. split; [reflexivity|]. split; [reflexivity|].
  destruct (C62_huge_discriminator it0 (lit "AbCdEfGh12") disk (lit "dir/") demo story told) as (j & f' & E & E').
  - apply it0_good.
  - apply demo_constructed.
  - apply demo_ints.
  - apply demo_history.
  - vm_compute. congruence.
  - apply demo_history.
  - exists img1. left.
  - vm_compute. congruence.
  - apply utf8_ok_iff. vm_compute. reflexivity.
  - vm_compute. reflexivity.
  - reflexivity.
  - reflexivity.
  - rewrite E. cbn [rbind]. split; [|exact E']. intros ->.
    assert (fs_read (snd (disc_json it0 (lit "AbCdEfGh12") disk told true (lit "dir/"))) (lit "dir/AbCdEfGh12.wdpkg") <> None) as H.
    { vm_compute. congruence. }
    rewrite E in H. apply H. reflexivity.
Qed.

(** C63 is false: if the file cannot be opened for writing, json(true,path) returns normally and the
    reloaded discriminator has no RAMs, whatever was trained. *)
Theorem C63_lost_refuted : forall iter rnd f path d, is_int (d_entrySize d) -> is_int (d_count d) -> d_rams d <> [] ->
  let name := path ++ rnd ++ lit ".wdpkg" in
  is_utf8 name -> len name < W64 -> fs_writable f name = false -> fs_read f name = None ->
  exists j, disc_json iter rnd f d true path = (Ok j, f) /\ disc_of_json f j = Ok (Disc (d_entrySize d) (d_count d) []).
Proof. cbv zeta. setoid_rewrite <- utf8_ok_iff. exact huge_lost. Qed.
Print Assumptions C63_lost_refuted.
(** Nor does it hold when the file exists already: contents are appended and the old ones read back. *)
Theorem C63_stale_refuted : exists f j f' d', disc_json it0 (lit "X") f told true [] = (Ok j, f') /\
  disc_of_json f' j = Ok d' /\ disc_classify told img1 = Ok [1; 1] /\ disc_classify d' img1 = Ok [2; 2].
Proof.
  exists (snd (disc_json it0 (lit "X") disk (snd (run demo [Train img1; Train img1])) true [])). eexists _, _, _.
  split; [vm_compute; reflexivity|]. split; [vm_compute; reflexivity|]. split; [vm_compute; reflexivity|vm_compute; reflexivity].
Qed.
Print Assumptions C63_stale_refuted.
(** What holds: the contents survive if the file is new and can be opened. *)
Theorem C63_new_file_partial : forall iter rnd f path d0 h d,
  good_iter iter -> constructed d0 -> Forall (Forall is_int) (disc_mapping d0) ->
  all_valid d0 h -> len h <= INT_MAX -> run d0 h = (Ok tt, d) -> (exists x, Train x ∈ h) -> saved_size d <= INT_MAX + 1 ->
  let name := path ++ rnd ++ lit ".wdpkg" in
  is_utf8 name -> len name < W64 -> fs_writable f name = true -> fs_read f name = None ->
  exists j f', disc_json iter rnd f d true path = (Ok j, f') /\ disc_of_json f' j = Ok d.
Proof. cbv zeta. setoid_rewrite <- utf8_ok_iff. exact json_roundtrip_huge. Qed.
Print Assumptions C63_new_file_partial.
Example C63_witness : d_rams told <> [] /\ fs_writable read_only (lit "a.wdpkg") = false /\ fs_read read_only (lit "a.wdpkg") = None.
Proof. split; [vm_compute; congruence|]. split; reflexivity. Qed.
