(** Saved texts: reachable states, truncation, trailing characters (C107-C110). *)
From Coq Require Import SpecFloat QArith Qcanon.
From Verif Require Import Prelude Bytes Utils Float32 BinInput Bleaching Ram Json Fs RamData Disc Wisard Cluster ClusWisard JsonText.
From Verif Require Import SpecDisc SpecSaved SpecClusSaved SpecLaw JsonProofs WisardJson ClusJson ClusSaved.
From Verif Require Import TextNumber TextParse TextTotal TextPrefix TextApi SpecText TextApiProofs.
Local Open Scope Z_scope.

Lemma storable_int iter d : storable iter d -> int_disc d.
Proof.
  intros (H1 & H2 & _ & (iz & base & H3) & _). split; [exact H1|]. split; [exact H2|]. eapply Forall_impl; [exact H3|].
  intros r (_ & <- & _ & Hb & _ & Ha & _). auto.
Qed.
Lemma savable_int iter w : int_options w -> savable iter w -> int_wisard w.
Proof.
  intros (H1 & H2 & H3 & H4 & _) Hs. repeat (split; [assumption|]). intros l d E. eapply storable_int. apply (Hs l d E).
Qed.
Lemma centry_int iter iz b k n ds : is_int n -> Forall (savable_disc iter iz b) ds -> int_cluster (centry_cluster (params_for k n, ds)).
Proof.
  intros Hn H. split; [intros p [= <-]; exact Hn|]. cbn [centry_cluster c_discs snd]. intros d Hd. apply elem_of_list_fmap in Hd as (d' & [= ->] & Hd).
  rewrite Forall_forall in H. eapply storable_int, (H d' Hd).
Qed.
Lemma default_int : int_cluster cluster_default.
Proof. split; [intros p H; discriminate H|]. intros d H. inversion H. Qed.
Lemma saved_state_int iter k n : is_int n -> saved_state iter k n -> int_clus k.
Proof.
  intros Hn (_ & (H1 & H2 & H3 & H4 & H5 & H6 & _) & Hc & Hu). repeat (split; [assumption|]). split.
  - intros l c E. destruct (Hc l c E) as (ds & -> & Hds). eapply centry_int; eassumption.
  - destruct Hu as [->|(ds & _ & -> & Hds)]; [apply default_int|eapply centry_int; eassumption].
Qed.

(** From a value-level result to the text. *)
Lemma text_ok_of T (r : res str) f (v : res json * fs) (rt : res str * fs) j :
  parses T (fst rt) (fst v) -> snd rt = snd v -> v = (Ok j, f) -> exists t, rt = (Ok t, f) /\ json_parse T t = Ok j.
Proof.
  intros Hp Hs ->. destruct rt as [[t|e|u|] f']; cbn [fst snd] in *; subst f'; unfold parses in Hp; cbn [rbind] in Hp; try discriminate. eauto.
Qed.
Lemma jset_composite j k v j' : jset j k v = Ok j' -> composite j'.
Proof. destruct j; cbn; try discriminate; intros [= <-]; exact I. Qed.

(** Every written text is the dump of an object. *)
Definition written (T : numtext) (t : str) : Prop := exists pretty step j, json_wf T j /\ composite j /\ dump_at pretty step 0 j = Ok t.
Lemma disc_written T iter rnd f d huge path t f' : int_disc d -> disc_json_text iter rnd f d huge path = (Ok t, f') -> written T t.
Proof.
  intros Hd. unfold disc_json_text. pose proof (disc_value_wf T iter rnd f d huge path) as Hw.
  destruct (disc_json_value iter rnd f d huge path) as [[j|e|u|] f1] eqn:E; cbn [rbind]; try discriminate. intros [= Ht _].
  exists false, 0%nat, j. split; [apply (Hw j f1 Hd eq_refl)|]. split; [|exact Ht].
  unfold disc_json_value in E. destruct (getRAMsData iter rnd f d huge path) as [data f2]. apply (f_equal fst) in E. cbn [fst] in E.
  destruct (disc_config d true) as [c| | |]; cbn [rbind] in E; try discriminate.
  destruct (jset (merge_ram_config d c) (lit "data") (JStr data)) as [c1| | |]; cbn [rbind] in E; try discriminate. eapply jset_composite. exact E.
Qed.
Lemma disc_config_written T d t : int_disc d -> disc_jsonConfig_text d = Ok t -> written T t.
Proof.
  intros Hd. unfold disc_jsonConfig_text. destruct (disc_config d false) as [c| | |] eqn:E; cbn [rbind]; try discriminate.
  destruct (jset (merge_ram_config d c) (lit "version") (JStr version)) as [c1| | |] eqn:E1; cbn [rbind]; try discriminate. intros Ht.
  exists true, 2%nat, c1. split; [|split; [eapply jset_composite; exact E1|exact Ht]].
  (eapply jset_wf; [| |exact E1]); [|exact I]. apply merge_wf; [exact Hd|]. eapply disc_config_wf; eassumption.
Qed.
Lemma wisard_written T iter rnd f w huge path t f' : int_wisard w -> wisard_json_text iter rnd f w huge path = (Ok t, f') -> written T t.
Proof.
  intros Hw. unfold wisard_json_text. pose proof (classes_wf T iter rnd huge path _ (discs_int w Hw) JNull f) as H.
  destruct (classes_json iter rnd huge path (sorted_items (w_discriminators w)) JNull f) as [[c|e|u|] f1]; cbn [rbind]; try discriminate.
  destruct (jset (wisard_config w) (lit "classes") c) as [c1|e|u|] eqn:E1; cbn [rbind]; try discriminate. intros [= Ht _].
  exists false, 0%nat, c1. split; [|split; [eapply jset_composite; exact E1|exact Ht]].
  (eapply jset_wf; [| |exact E1]); [|apply H; [exact I|reflexivity]]. apply wisard_config_wf, Hw.
Qed.
Lemma wisard_config_written T w t : int_wisard w -> wisard_jsonConfig_text w = Ok t -> written T t.
Proof.
  intros Hw. unfold wisard_jsonConfig_text. destruct (config_classes (sorted_items (w_discriminators w)) JNull) as [c|e|u|] eqn:E; cbn [rbind]; try discriminate.
  destruct (jset (wisard_config w) (lit "classes") c) as [c1|e|u|] eqn:E1; cbn [rbind]; try discriminate. intros Ht.
  exists true, 2%nat, c1. split; [|split; [eapply jset_composite; exact E1|exact Ht]].
  (eapply jset_wf; [| |exact E1]); [|eapply config_classes_wf; [apply discs_int, Hw| |exact E]; exact I]. apply wisard_config_wf, Hw.
Qed.
Lemma clus_written T iter rnd urnd f k huge path t f' : int_clus k -> correct_strtod T -> clus_json_text iter rnd urnd f k huge path = (Ok t, f') -> written T t.
Proof.
  intros Hk Hp. unfold clus_json_text. pose proof (clus_config_wf T k Hk Hp) as Hw. destruct Hk as (_ & _ & _ & _ & _ & _ & Hc & Hu).
  assert (Hcs : Forall (fun kd => int_cluster kd.2) (sorted_items (k_clusters k))).
  { apply Forall_forall. intros [l c] Hlc. apply BleachProofs.sorted_items_elem in Hlc. exact (Hc l c Hlc). }
  set (first := if Nat.eqb (size (k_clusters k)) 0 then _ else _).
  assert (Hf : forall j, fst first = Ok j -> json_wf T j /\ composite j).
  { unfold first. destruct (Nat.eqb (size (k_clusters k)) 0); [intros j [= <-]; split; [exact Hw|exact I]|].
    pose proof (clusters_wf T iter rnd huge path _ Hcs JNull f) as H.
    destruct (clusters_json iter rnd huge path (sorted_items (k_clusters k)) JNull f) as [[c|e|u|] f1]; cbn [fst rbind]; try discriminate.
    intros j Hj. split; [|eapply jset_composite; exact Hj]. (eapply jset_wf; [| |exact Hj]); [exact Hw|apply H; [exact I|reflexivity]]. }
  destruct first as [[j|e|u|] f1]; cbn [fst snd]; try discriminate. specialize (Hf j eq_refl) as [Hj Hjc].
  destruct (Nat.eqb (length (c_discs (k_unsupervised k))) 0).
  { intros [= Ht _]. exists false, 0%nat, j. auto. }
  pose proof (cluster_json_wf T iter urnd f1 (k_unsupervised k) huge (path ++ lit "unsupervised_cluster__")) as H.
  destruct (cluster_getJson iter urnd f1 (k_unsupervised k) huge (path ++ lit "unsupervised_cluster__")) as [[u|e|u|] f2]; cbn [fst snd rbind]; try discriminate.
  destruct (jset j (lit "unsupervisedCluster") u) as [c1|e|u'|] eqn:E1; cbn [rbind]; try discriminate. intros [= Ht _].
  exists false, 0%nat, c1. split; [|split; [eapply jset_composite; exact E1|exact Ht]].
  (eapply jset_wf; [| |exact E1]); [exact Hj|apply H; [exact Hu|reflexivity]].
Qed.
Lemma clus_config_written T k t : int_clus k -> correct_strtod T -> clus_jsonConfig_text k = Ok t -> written T t.
Proof. intros Hk Hp Ht. exists true, 2%nat, (clus_config k). split; [apply clus_config_wf; assumption|]. split; [exact I|exact Ht]. Qed.

(** A proper prefix is refused; what follows is refused unless ignorable. *)
Definition throws {A} (r : res A) : Prop := exists e, r = Throw e.
Lemma written_truncated T t p q : written T t -> t = p ++ q -> q <> [] -> throws (json_parse T p).
Proof. intros (pr & st & j & Hw & Hc & Ht) E Hq. destruct (truncated T pr st j t p q Hw Hc Ht E Hq) as [->| ->]; eexists; reflexivity. Qed.
Lemma written_trailing T t r : written T t -> (ignorable r /\ json_parse T (t ++ r) = json_parse T t) \/ (~ ignorable r /\ json_parse T (t ++ r) = Throw EJsonParse).
Proof.
  intros (pr & st & j & Hw & Hc & Ht). pose proof (dump_parse T pr st j Hw) as H. rewrite Ht in H. cbn [rbind] in H. rewrite H. apply (trailing T pr st j t r Hw Hc Ht).
Qed.
Lemma throws_bind {A B} (r : res A) (g : A -> res B) : throws r -> throws (rbind r g). Proof. intros [e ->]. exists e. reflexivity. Qed.
