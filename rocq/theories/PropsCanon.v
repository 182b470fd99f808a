(** C146: does a saved text depend on the model only? *)
From Verif Require Import Prelude Bytes Base64 Utils BinInput Bleaching Ram Json Fs RamData Disc Wisard Cluster ClusWisard JsonText TextApi.
From Verif Require Import SpecDisc SpecWisard SpecCluster SpecClus SpecLaw SpecClusSaved SpecSaved SpecText SpecUtf8 SpecCanon.
From Verif Require Import BleachProofs DiscFacts JsonFacts JsonProofs CtorFacts Nearest Canon ClusSaved DiscCtorProofs TextFacts TextApiProofs PropsDisc PropsWisard PropsJson PropsText.

(** C146 is false: the order in which the patterns of a RAM are written is that of a hash table. A discriminator is saved,
    reloaded and saved again; the two texts differ although nothing was learned in between. *)
Definition twice : list dop := [Train img1; Train img2].
Definition seen : disc := snd (run demo twice).
Definition backwards : iteration := fun m => rev (it0 m).
Lemma backwards_good : good_iter backwards.
Proof. intros m. unfold backwards. rewrite <- Permutation_rev. reflexivity. Qed.
Definition text1 : res str := fst (disc_json_text it0 [] disk seen false []).
Definition text2 : res str := fst (disc_json_text backwards [] disk seen false []).
Lemma twice_valid : all_valid demo twice.
Proof. pose proof (proj1 demo_history) as H. unfold all_valid in *. rewrite Forall_forall in *. intros o Ho. apply H. unfold twice, story in *. set_solver. Qed.
Theorem C146_order_refuted : exists t1 t2, constructed demo /\ run demo twice = (Ok tt, seen) /\ good_iter it0 /\ good_iter backwards /\
  disc_json_text it0 [] disk seen false [] = (Ok t1, disk) /\ disc_of_text strtod_even disk t1 = Ok seen /\
  disc_json_text backwards [] disk seen false [] = (Ok t2, disk) /\ t1 <> t2.
Proof.
  destruct (C107_discriminator strtod_even it0 [] disk [] demo twice seen it0_good demo_constructed demo_ints twice_valid) as (t1 & E1 & E2);
    [vm_compute; discriminate|vm_compute; reflexivity|exists img1; left|vm_compute; discriminate|].
  destruct (disc_json_text backwards [] disk seen false []) as [[t2| | |] f2] eqn:E3; [|exfalso; revert E3; vm_compute; discriminate..].
  exists t1, t2. split; [apply demo_constructed|]. split; [vm_compute; reflexivity|]. split; [apply it0_good|]. split; [apply backwards_good|].
  split; [exact E1|]. split; [apply E2|]. assert (f2 = disk) by (revert E3; vm_compute; congruence). subst f2. split; [reflexivity|].
  intros <-. assert (text1 = text2) by (unfold text1, text2; rewrite E1, E3; reflexivity). revert H. vm_compute. discriminate.
Qed.
Print Assumptions C146_order_refuted.

(** What holds. Whatever the order, only the records change places: the text is fixed except for the records, and those of a
    RAM are exactly the patterns it learned, 16 characters each. *)
Theorem C146_records_partial : forall d0 h d,
  constructed d0 -> Forall (Forall is_int) (disc_mapping d0) -> all_valid d0 h -> len h <= INT_MAX -> run d0 h = (Ok tt, d) ->
  (exists x, Train x ∈ h) -> saved_size d <= INT_MAX + 1 ->
  exists before after, forall iter rnd f path, good_iter iter ->
    exists rams, disc_json_text iter rnd f d false path = (Ok (before ++ records_text rams ++ after), f) /\
      Forall2 (fun records r => records ≡ₚ map_to_list (r_positions r)) rams (d_rams d).
Proof.
  intros d0 h d Hc Hm Hv Hl E Hx Hs.
  pose proof (run_inv d0 h d Hc Hv Hl E) as Ha. destruct (constructed_uniform d0 Hc) as (iz & base & Hu).
  assert (Hst : storable it0 d /\ Forall (storable_ram iz base) (d_rams d)) by (exact (after_storable it0 iz base d0 h d it0_good (constructed_fresh d0 Hc) Hu Hm Hv Hl Ha Hx Hs)).
  assert (Hd : int_disc d) by (apply (storable_int it0), Hst).
  assert (Hne : d_rams d <> []) by apply Hst.
  assert (Hp : Forall (fun r => r_positions r <> ∅) (d_rams d)).
  { eapply Forall_impl; [apply (proj2 Hst)|]. intros r H. apply H. }
  destruct (disc_text_shape d Hd Hne Hp) as (pre & post & H). exists pre, post. intros iter rnd f path Hi.
  exists ((fun r => iter (r_positions r)) <$> d_rams d). split; [apply H, Hi|].
  apply Forall2_fmap_l, Forall_Forall2_diag, Forall_true. intros r. apply Hi.
Qed.
Print Assumptions C146_records_partial.
Example C146_record_width : forall kv, len (record_text kv) = 16.
Proof. reflexivity. Qed.
(** So any two texts of the same discriminator have the same length. *)
Theorem C146_length_partial : forall d0 h d iter1 iter2 rnd1 rnd2 f1 f2 path1 path2 t1 t2,
  constructed d0 -> Forall (Forall is_int) (disc_mapping d0) -> all_valid d0 h -> len h <= INT_MAX -> run d0 h = (Ok tt, d) ->
  (exists x, Train x ∈ h) -> saved_size d <= INT_MAX + 1 -> good_iter iter1 -> good_iter iter2 ->
  disc_json_text iter1 rnd1 f1 d false path1 = (Ok t1, f1) -> disc_json_text iter2 rnd2 f2 d false path2 = (Ok t2, f2) -> len t1 = len t2.
Proof.
  intros d0 h d iter1 iter2 rnd1 rnd2 f1 f2 path1 path2 t1 t2 Hc Hm Hv Hl E Hx Hs Hi1 Hi2.
  pose proof (run_inv d0 h d Hc Hv Hl E) as Ha. destruct (constructed_uniform d0 Hc) as (iz & base & Hu).
  assert (Hst : storable it0 d /\ Forall (storable_ram iz base) (d_rams d)) by (exact (after_storable it0 iz base d0 h d it0_good (constructed_fresh d0 Hc) Hu Hm Hv Hl Ha Hx Hs)).
  assert (Hp : Forall (fun r => r_positions r <> ∅) (d_rams d)).
  { eapply Forall_impl; [apply (proj2 Hst)|]. intros r H. apply H. }
  assert (Hd : int_disc d) by (apply (storable_int it0), Hst). assert (Hne : d_rams d <> []) by apply Hst.
  destruct (disc_text_shape d Hd Hne Hp) as (pre & post & H). rewrite !H by assumption. intros [= <-] [= <-].
  unfold len. rewrite !app_length, (records_len iter1 iter2 (d_rams d) Hi1 Hi2). reflexivity.
Qed.
Print Assumptions C146_length_partial.
(** Where no RAM learned two patterns the text is the same, for the three kinds of model, in memory and in files. *)
Theorem C146_sparse_partial : forall iter1 iter2, good_iter iter1 -> good_iter iter2 ->
  (forall rnd f d huge path, sparse d -> disc_json_text iter1 rnd f d huge path = disc_json_text iter2 rnd f d huge path) /\
  (forall rnd f w huge path, sparse_wisard w -> wisard_json_text iter1 rnd f w huge path = wisard_json_text iter2 rnd f w huge path) /\
  (forall rnd urnd f k huge path, sparse_clus k -> clus_json_text iter1 rnd urnd f k huge path = clus_json_text iter2 rnd urnd f k huge path).
Proof.
  intros iter1 iter2 H1 H2. split; [|split]; intros.
  - apply sparse_disc; assumption.
  - apply sparse_wisard_text; assumption.
  - apply sparse_clus_text; assumption.
Qed.
Print Assumptions C146_sparse_partial.
(** Two models with the same text are the same model: nothing that was learned is missing from the text. *)
Theorem C146_faithful_partial : forall iter1 iter2 rnd1 rnd2 f1 f2 path1 path2 d1 d2 h1 h2 e1 e2 t,
  good_iter iter1 -> good_iter iter2 -> constructed d1 -> constructed d2 ->
  Forall (Forall is_int) (disc_mapping d1) -> Forall (Forall is_int) (disc_mapping d2) ->
  all_valid d1 h1 -> all_valid d2 h2 -> len h1 <= INT_MAX -> len h2 <= INT_MAX ->
  run d1 h1 = (Ok tt, e1) -> run d2 h2 = (Ok tt, e2) -> (exists x, Train x ∈ h1) -> (exists x, Train x ∈ h2) ->
  saved_size e1 <= INT_MAX + 1 -> saved_size e2 <= INT_MAX + 1 ->
  disc_json_text iter1 rnd1 f1 e1 false path1 = (Ok t, f1) -> disc_json_text iter2 rnd2 f2 e2 false path2 = (Ok t, f2) -> e1 = e2.
Proof.
  intros iter1 iter2 rnd1 rnd2 f1 f2 path1 path2 d1 d2 h1 h2 e1 e2 t Hi1 Hi2 Hc1 Hc2 Hm1 Hm2 Hv1 Hv2 Hl1 Hl2 R1 R2 Hx1 Hx2 Hs1 Hs2 E1 E2.
  destruct (C107_discriminator strtod_even iter1 rnd1 f1 path1 d1 h1 e1 Hi1 Hc1 Hm1 Hv1 Hl1 R1 Hx1 Hs1) as (u1 & F1 & G1).
  destruct (C107_discriminator strtod_even iter2 rnd2 f2 path2 d2 h2 e2 Hi2 Hc2 Hm2 Hv2 Hl2 R2 Hx2 Hs2) as (u2 & F2 & G2).
  rewrite E1 in F1. rewrite E2 in F2. injection F1 as <-. injection F2 as <-. specialize (G1 f1). rewrite G2 in G1. congruence.
Qed.
Print Assumptions C146_faithful_partial.
Theorem C146_faithful_wisard_partial : forall iter1 iter2 rnd1 rnd2 f1 f2 path1 path2 lhs1 lhs2 w1 w2 n1 n2 cs1 cs2 v1 v2 t,
  good_iter iter1 -> good_iter iter2 -> w_discriminators w1 = ∅ -> w_discriminators w2 = ∅ -> configured w1 n1 -> configured w2 n2 ->
  Forall (proper_call w1 n1) cs1 -> Forall (proper_call w2 n2) cs2 -> len (all_examples cs1) <= INT_MAX -> len (all_examples cs2) <= INT_MAX ->
  int_options w1 -> int_options w2 -> some_rams w1 -> some_rams w2 -> wrun lhs1 w1 cs1 = (Ok tt, v1) -> wrun lhs2 w2 cs2 = (Ok tt, v2) ->
  (forall l d, w_discriminators v1 !! l = Some d -> is_utf8 l /\ saved_size d <= INT_MAX + 1) ->
  (forall l d, w_discriminators v2 !! l = Some d -> is_utf8 l /\ saved_size d <= INT_MAX + 1) ->
  wisard_json_text iter1 rnd1 f1 v1 false path1 = (Ok t, f1) -> wisard_json_text iter2 rnd2 f2 v2 false path2 = (Ok t, f2) ->
  without_mapping v1 = without_mapping v2.
Proof.
  intros iter1 iter2 rnd1 rnd2 f1 f2 path1 path2 lhs1 lhs2 w1 w2 n1 n2 cs1 cs2 v1 v2 t Hi1 Hi2 H1 H2 Hc1 Hc2 Hp1 Hp2 Hl1 Hl2 Ho1 Ho2 Hr1 Hr2 R1 R2 Hu1 Hu2 E1 E2.
  destruct (C107_wisard strtod_even iter1 rnd1 lhs1 w1 n1 cs1 v1 f1 path1 Hi1 H1 Hc1 Hp1 Hl1 Ho1 Hr1 R1 Hu1) as (u1 & F1 & G1).
  destruct (C107_wisard strtod_even iter2 rnd2 lhs2 w2 n2 cs2 v2 f2 path2 Hi2 H2 Hc2 Hp2 Hl2 Ho2 Hr2 R2 Hu2) as (u2 & F2 & G2).
  rewrite E1 in F1. rewrite E2 in F2. injection F1 as <-. injection F2 as <-. specialize (G1 f1). rewrite G2 in G1. congruence.
Qed.
Print Assumptions C146_faithful_wisard_partial.
Theorem C146_faithful_clus_partial : forall iter1 iter2 rnd1 rnd2 urnd1 urnd2 f1 f2 path1 path2 lhs1 lhs2 k1 k2 n1 n2 cs1 cs2 v1 v2 t,
  good_iter iter1 -> good_iter iter2 -> k_clusters k1 = ∅ -> k_clusters k2 = ∅ ->
  k_unsupervised k1 = cluster_default -> k_unsupervised k2 = cluster_default -> configured_for k1 n1 -> configured_for k2 n2 ->
  int_koptions k1 -> int_koptions k2 -> Forall (proper_kcall k1 n1) cs1 -> Forall (proper_kcall k2 n2) cs2 ->
  len (all_events cs1) <= INT_MAX - 2 -> len (all_events cs2) <= INT_MAX - 2 -> krun lhs1 k1 cs1 = (Ok tt, v1) -> krun lhs2 k2 cs2 = (Ok tt, v2) ->
  (forall l c, k_clusters v1 !! l = Some c -> is_utf8 l /\ small_cluster c) ->
  (forall l c, k_clusters v2 !! l = Some c -> is_utf8 l /\ small_cluster c) ->
  clus_json_text iter1 rnd1 urnd1 f1 v1 false path1 = (Ok t, f1) -> clus_json_text iter2 rnd2 urnd2 f2 v2 false path2 = (Ok t, f2) ->
  without_search v1 = without_search v2.
Proof.
  intros iter1 iter2 rnd1 rnd2 urnd1 urnd2 f1 f2 path1 path2 lhs1 lhs2 k1 k2 n1 n2 cs1 cs2 v1 v2 t Hi1 Hi2 H1 H2 Hu1 Hu2 Hc1 Hc2 Ho1 Ho2 Hp1 Hp2 Hl1 Hl2 R1 R2 Hs1 Hs2 E1 E2.
  destruct (C107_cluswisard strtod_even iter1 rnd1 urnd1 lhs1 k1 n1 cs1 v1 f1 path1 Hi1 H1 Hu1 Hc1 Ho1 Hp1 Hl1 R1 Hs1 strtod_even_correct) as (u1 & F1 & G1).
  destruct (C107_cluswisard strtod_even iter2 rnd2 urnd2 lhs2 k2 n2 cs2 v2 f2 path2 Hi2 H2 Hu2 Hc2 Ho2 Hp2 Hl2 R2 Hs2 strtod_even_correct) as (u2 & F2 & G2).
  rewrite E1 in F1. rewrite E2 in F2. injection F1 as <-. injection F2 as <-. specialize (G1 f1). rewrite G2 in G1. congruence.
Qed.
Print Assumptions C146_faithful_clus_partial.
(** The second RAM of [seen] holds two patterns, so the records can change places; with one image every RAM holds one. *)
Example C146_witness : constructed demo /\ Forall (Forall is_int) (disc_mapping demo) /\ all_valid demo twice /\ run demo twice = (Ok tt, seen) /\
  Train img1 ∈ twice /\ saved_size seen = 50 /\ ((fun r => size (r_positions r)) <$> d_rams seen) = [1%nat; 2%nat] /\
  sparse (snd (run demo [Train img1])) /\ ((fun r => size (r_positions r)) <$> d_rams (snd (run demo [Train img1]))) = [1%nat; 1%nat] /\
  sparse_wisard (snd (wrun true cfg [CTrain env0 [w1] [hot]])) /\ is_Some (w_discriminators (snd (wrun true cfg [CTrain env0 [w1] [hot]])) !! hot).
Proof.
  split; [apply demo_constructed|]. split; [apply demo_ints|]. split; [apply twice_valid|]. split; [vm_compute; reflexivity|].
  split; [left|]. split; [vm_compute; reflexivity|]. split; [vm_compute; reflexivity|]. split; [repeat constructor|]. split; [vm_compute; reflexivity|].
  split; [|vm_compute; eauto]. intros l d H. apply sorted_items_elem in H.
  assert (Hall : Forall (fun kd => Forall (fun r => (size (r_positions r) <= 1)%nat) (d_rams kd.2)) (sorted_items (w_discriminators (snd (wrun true cfg [CTrain env0 [w1] [hot]]))))).
  { apply Forall_forall. intros kd Hk. apply Forall_forall. intros r Hr. 
    assert (Hb : forallb (fun kd => forallb (fun r => Nat.leb (size (r_positions r)) 1) (d_rams kd.2)) (sorted_items (w_discriminators (snd (wrun true cfg [CTrain env0 [w1] [hot]])))) = true) by (vm_compute; reflexivity).
    rewrite forallb_forall in Hb. specialize (Hb kd (proj1 (elem_of_list_In _ _) Hk)). rewrite forallb_forall in Hb.
    apply Nat.leb_le, (Hb r), elem_of_list_In, Hr. }
  rewrite Forall_forall in Hall. exact (Hall (l, d) H).
Qed.
