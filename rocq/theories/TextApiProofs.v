(** The saved texts parse to what Disc.v, Wisard.v and ClusWisard.v say. *)
From Coq Require Import SpecFloat QArith Qcanon.
From Verif Require Import Prelude Bytes Utils Float32 BinInput Bleaching Ram Json Fs RamData Disc Wisard Cluster ClusWisard JsonText.
From Verif Require WisardJson.
From Verif Require Import SpecDisc BytesProofs TextProofs TextString TextNumber TextParse TextTotal TextPrefix TextApi SpecText BleachProofs FloatConv.
Local Open Scope Z_scope.

Lemma int_json z : is_int z -> in_json_int z.
Proof. unfold is_int, in_json_int, INT_MIN, INT_MAX, LL_MIN, W64. lia. Qed.
Lemma jinsert_wf T k v l : json_wf T (JObj l) -> json_wf T v -> json_wf T (JObj (jinsert k v l)).
Proof.
  rewrite !json_wf_obj. intros [Hs Hw] Hv.
  assert (Hf : forall l, Forall (fun kv => json_wf T kv.2) l -> Forall (fun kv => json_wf T kv.2) (jinsert k v l)).
  { clear -Hv. intros l H. induction H as [|[k' v'] l Hk H IH]; cbn [jinsert]; [constructor; [exact Hv|constructor]|].
    destruct (decide (k = k')); [constructor; assumption|]. destruct (str_leb k k'); repeat constructor; assumption. }
  split; [|apply Hf, Hw]. clear Hf Hw.
  assert (Hin : forall (l : list (str * json)) a, str_lt a k -> Forall (str_lt a) l.*1 -> Forall (str_lt a) (jinsert k v l).*1).
  { clear. intros l a Ha H. induction l as [|[k' v'] l IH]; [repeat constructor; assumption|]. rewrite fmap_cons in H. apply Forall_cons in H as [H1 H2]. cbn [jinsert].
    destruct (decide (k = k')); [constructor; assumption|]. destruct (str_leb k k'); rewrite ?fmap_cons; repeat constructor; auto. }
  induction l as [|[k' v'] l IH]; [repeat constructor|]. rewrite fmap_cons in Hs. apply StronglySorted_inv in Hs as [Hs Hk]. cbn [fst] in Hk. cbn [jinsert].
  destruct (decide (k = k')) as [->|Hne]; [rewrite fmap_cons; constructor; assumption|]. destruct (str_leb k k') eqn:E; rewrite !fmap_cons; cbn [fst].
  - assert (Hkk : str_lt k k') by (apply str_le_lt; [exact E|exact Hne]).
    constructor; [constructor; assumption|]. constructor; [exact Hkk|]. eapply Forall_impl; [exact Hk|]. intros x Hx. eapply Verif.WisardJson.str_lt_trans; eassumption.
  - constructor; [apply IH, Hs|]. apply Hin; [exact E|exact Hk].
Qed.
Lemma jset_wf T j k v j' : json_wf T j -> json_wf T v -> jset j k v = Ok j' -> json_wf T j'.
Proof.
  intros Hj Hv. destruct j; cbn [jset]; try discriminate; intros [= <-].
  - apply json_wf_obj. split; repeat constructor. exact Hv.
  - apply jinsert_wf; assumption.
Qed.
Lemma jobject_wf T l : Forall (fun kv => json_wf T kv.2) l -> json_wf T (jobject l).
Proof.
  intros H. unfold jobject. apply Forall_rev in H. induction H as [|[k v] l' Hv H IH]; cbn [foldr]; [apply json_wf_obj; split; constructor|].
  apply jinsert_wf; assumption.
Qed.
Lemma jints_wf T l : Forall is_int l -> json_wf T (jints l).
Proof. intros H. apply json_wf_arr. apply Forall_fmap. eapply Forall_impl; [exact H|]. intros z Hz. unfold compose. cbv beta. apply int_json, Hz. Qed.
Lemma jintss_wf T l : Forall (Forall is_int) l -> json_wf T (jintss l).
Proof. intros H. apply json_wf_arr. apply Forall_fmap. eapply Forall_impl; [exact H|]. intros z Hz. unfold compose. cbv beta. apply jints_wf, Hz. Qed.
Lemma mapping_int d : int_disc d -> Forall (Forall is_int) (disc_mapping d).
Proof. intros (_ & _ & H). unfold disc_mapping. apply Forall_fmap. eapply Forall_impl; [exact H|]. intros r [_ Hr]. exact Hr. Qed.
Ltac members := repeat (apply Forall_cons_2); try apply Forall_nil_2; cbn [snd]; try exact I.
Lemma disc_config_wf T d all j : int_disc d -> disc_config d all = Ok j -> json_wf T j.
Proof.
  intros Hd. pose proof (mapping_int d Hd) as Hm. destruct Hd as (He & Hc & _). unfold disc_config.
  assert (H0 : json_wf T (jobject [(lit "entrySize", JInt (d_entrySize d)); (lit "mapping", jintss (disc_mapping d))])).
  { apply jobject_wf. members; [apply int_json, He|apply jintss_wf, Hm]. }
  destruct all; [|intros [= <-]; exact H0]. apply jset_wf; [exact H0|]. apply int_json, Hc.
Qed.
Lemma merge_wf T d j : int_disc d -> json_wf T j -> json_wf T (merge_ram_config d j).
Proof.
  intros (_ & _ & Hd) Hj. unfold merge_ram_config. destruct (d_rams d) as [|r rs]; [exact Hj|]. apply Forall_inv in Hd as [Hb _].
  assert (E : merge_patch j (ram_config r) = JObj (jinsert (lit "ignoreZero") (JBool (r_ignoreZero r)) (jinsert (lit "base") (JInt (r_base r)) (match j with JObj tl => tl | _ => [] end)))).
  { destruct j; reflexivity. }
  rewrite E. apply jinsert_wf; [|exact I]. apply jinsert_wf; [|apply int_json, Hb]. destruct j; try exact Hj; apply json_wf_obj; split; constructor.
Qed.
Lemma disc_config_ok d all : exists j, disc_config d all = Ok j. Proof. destruct all; eexists; reflexivity. Qed.

(** From values to texts. *)
Definition parses (T : numtext) (r : res str) (v : res json) : Prop := (let* t := r in json_parse T t) = v.
Lemma parses_dump T j : json_wf T j -> parses T (json_dump j) (retext j). Proof. intros H. unfold parses. apply (dump_parse T false 0 j H). Qed.
Lemma parses_dump2 T j : json_wf T j -> parses T (json_dump2 j) (retext j). Proof. intros H. unfold parses. apply (dump_parse T true 2 j H). Qed.

Lemma disc_value_wf T iter rnd f d huge path j f' : int_disc d -> disc_json_value iter rnd f d huge path = (Ok j, f') -> json_wf T j.
Proof.
  intros Hd. unfold disc_json_value. destruct (getRAMsData iter rnd f d huge path) as [data f1]. destruct (disc_config d true) as [c|e|u|] eqn:E; cbn [rbind]; try discriminate.
  destruct (jset (merge_ram_config d c) (lit "data") (JStr data)) as [c1|e|u|] eqn:E1; cbn [rbind]; try discriminate. intros [= E2 _].
  (eapply jset_wf; [| |exact E2]); [|exact I]. (eapply jset_wf; [| |exact E1]); [|exact I]. apply merge_wf; [exact Hd|]. eapply disc_config_wf; eassumption.
Qed.
Lemma disc_text T iter rnd f d huge path : int_disc d ->
  parses T (fst (disc_json_text iter rnd f d huge path)) (fst (disc_json iter rnd f d huge path)) /\
  snd (disc_json_text iter rnd f d huge path) = snd (disc_json iter rnd f d huge path).
Proof.
  intros Hd. unfold disc_json_text, disc_json. pose proof (disc_value_wf T iter rnd f d huge path) as H.
  destruct (disc_json_value iter rnd f d huge path) as [[j|e|u|] f']; cbn [fst snd rbind]; (split; [|reflexivity]); try reflexivity.
  apply parses_dump. apply (H j f' Hd eq_refl).
Qed.
Lemma disc_config_text T d : int_disc d -> parses T (disc_jsonConfig_text d) (disc_jsonConfig d).
Proof.
  intros Hd. unfold disc_jsonConfig_text, disc_jsonConfig. destruct (disc_config d false) as [c|e|u|] eqn:E; cbn [rbind]; try reflexivity.
  destruct (jset (merge_ram_config d c) (lit "version") (JStr version)) as [c1|e|u|] eqn:E1; cbn [rbind]; try reflexivity.
  apply parses_dump2. (eapply jset_wf; [| |exact E1]); [|exact I]. apply merge_wf; [exact Hd|]. eapply disc_config_wf; eassumption.
Qed.
Lemma getJSON_wf T iter rnd f d huge prefix j : int_disc d -> fst (disc_getJSON iter rnd f d huge prefix) = Ok j -> json_wf T j.
Proof.
  intros Hd. unfold disc_getJSON. destruct (getRAMsData iter rnd f d huge prefix) as [data f1]. destruct (disc_config d true) as [c|e|u|] eqn:E; cbn [rbind fst]; try discriminate.
  intros E1. (eapply jset_wf; [| |exact E1]); [|exact I]. eapply disc_config_wf; eassumption.
Qed.

(** Wisard *)
Lemma classes_wf T iter rnd huge path l : Forall (fun kd => int_disc kd.2) l -> forall c f j, json_wf T c ->
  fst (classes_json iter rnd huge path l c f) = Ok j -> json_wf T j.
Proof.
  intros Hl. induction Hl as [|[k d] l Hd Hl IH]; intros c f j Hc; cbn [classes_json]; [intros [= <-]; exact Hc|].
  pose proof (getJSON_wf T iter (rnd k) f d huge (path ++ k ++ lit "__")) as Hg. destruct (disc_getJSON iter (rnd k) f d huge (path ++ k ++ lit "__")) as [r f1].
  destruct r as [v|e|u|]; cbn [rbind]; try discriminate. destruct (jset c k v) as [c1|e|u|] eqn:E; try discriminate. apply IH. (eapply jset_wf; [| |exact E]); [exact Hc|]. apply Hg; [exact Hd|reflexivity].
Qed.
Lemma config_classes_wf T l : Forall (fun kd => int_disc kd.2) l -> forall c j, json_wf T c -> config_classes l c = Ok j -> json_wf T j.
Proof.
  intros Hl. induction Hl as [|[k d] l Hd Hl IH]; intros c j Hc; cbn [config_classes]; [intros [= <-]; exact Hc|].
  unfold disc_getConfigJSON. destruct (disc_config d false) as [v|e|u|] eqn:Ed; cbn [rbind]; try discriminate.
  destruct (jset c k v) as [c1|e|u|] eqn:E; cbn [rbind]; try discriminate. apply IH. (eapply jset_wf; [| |exact E]); [exact Hc|]. eapply disc_config_wf; eassumption.
Qed.
Lemma wisard_config_wf T w : int_wisard w -> json_wf T (wisard_config w).
Proof. intros (H1 & H2 & H3 & H4 & _). apply jobject_wf. members; try (apply int_json; assumption). apply jints_wf, H4. Qed.
Lemma discs_int w : int_wisard w -> Forall (fun kd => int_disc kd.2) (sorted_items (w_discriminators w)).
Proof. intros (_ & _ & _ & _ & H). apply Forall_forall. intros [k d] Hkd. apply sorted_items_elem in Hkd. exact (H k d Hkd). Qed.
Lemma wisard_text T iter rnd f w huge path : int_wisard w ->
  parses T (fst (wisard_json_text iter rnd f w huge path)) (fst (wisard_json iter rnd f w huge path)) /\
  snd (wisard_json_text iter rnd f w huge path) = snd (wisard_json iter rnd f w huge path).
Proof.
  intros Hw. unfold wisard_json_text, wisard_json. pose proof (classes_wf T iter rnd huge path _ (discs_int w Hw) JNull f) as H.
  destruct (classes_json iter rnd huge path (sorted_items (w_discriminators w)) JNull f) as [[c|e|u|] f']; cbn [fst snd rbind]; (split; [|reflexivity]); try reflexivity.
  destruct (jset (wisard_config w) (lit "classes") c) as [c1|e|u|] eqn:E1; cbn [rbind]; try reflexivity.
  apply parses_dump. (eapply jset_wf; [| |exact E1]); [|apply H; [exact I|reflexivity]]. apply wisard_config_wf, Hw.
Qed.
Lemma wisard_config_text T w : int_wisard w -> parses T (wisard_jsonConfig_text w) (wisard_jsonConfig w).
Proof.
  intros Hw. unfold wisard_jsonConfig_text, wisard_jsonConfig. destruct (config_classes (sorted_items (w_discriminators w)) JNull) as [c|e|u|] eqn:E; cbn [rbind]; try reflexivity.
  destruct (jset (wisard_config w) (lit "classes") c) as [c1|e|u|] eqn:E1; cbn [rbind]; try reflexivity.
  apply parses_dump2. (eapply jset_wf; [| |exact E1]); [|eapply config_classes_wf; [apply discs_int, Hw| |exact E]; exact I]. apply wisard_config_wf, Hw.
Qed.

(** ClusWisard *)
Lemma cluster_jsons_wf T iter rnd huge path ds : (forall d, Some d ∈ ds -> int_disc d) -> forall i acc f js, Forall (json_wf T) acc ->
  fst (cluster_jsons iter rnd huge path ds i acc f) = Ok js -> Forall (json_wf T) js.
Proof.
  induction ds as [|o ds IH]; intros Hd i acc f js Ha; cbn [cluster_jsons]; [intros [= <-]; exact Ha|].
  destruct o as [d|]; [|discriminate].
  match goal with |- context [disc_getJSON iter ?r f d huge ?p] => pose proof (getJSON_wf T iter r f d huge p) as Hg; destruct (disc_getJSON iter r f d huge p) as [r1 f1] end.
  destruct r1 as [v|e|u|]; try discriminate. apply IH; [intros d' Hd'; apply Hd; right; exact Hd'|].
  apply Forall_app. split; [exact Ha|]. constructor; [|constructor]. apply Hg; [apply Hd; left|reflexivity].
Qed.
Lemma cluster_json_wf T iter rnd f c huge path j : int_cluster c -> fst (cluster_getJson iter rnd f c huge path) = Ok j -> json_wf T j.
Proof.
  intros [Hp Hd]. unfold cluster_getJson. pose proof (cluster_jsons_wf T iter rnd huge path (c_discs c) Hd 0 [] f) as H.
  destruct (cluster_jsons iter rnd huge path (c_discs c) 0 [] f) as [[js|e|u|] f1]; cbn [fst rbind]; try discriminate.
  destruct (c_params c) as [p|]; [|discriminate]. intros [= <-]. specialize (H js (Forall_nil_2 _) eq_refl). apply jobject_wf. members.
  - apply int_json, Hp. reflexivity.
  - destruct js as [|x js]; [exact I|]. apply json_wf_arr, H.
Qed.
Lemma clusters_wf T iter rnd huge path l : Forall (fun kd => int_cluster kd.2) l -> forall c f j, json_wf T c ->
  fst (clusters_json iter rnd huge path l c f) = Ok j -> json_wf T j.
Proof.
  intros Hl. induction Hl as [|[k d] l Hd Hl IH]; intros c f j Hc; cbn [clusters_json]; [intros [= <-]; exact Hc|].
  pose proof (cluster_json_wf T iter (rnd k) f d huge (path ++ k ++ lit "__")) as Hg. destruct (cluster_getJson iter (rnd k) f d huge (path ++ k ++ lit "__")) as [r f1].
  destruct r as [v|e|u|]; cbn [rbind]; try discriminate. destruct (jset c k v) as [c1|e|u|] eqn:E; try discriminate. apply IH. (eapply jset_wf; [| |exact E]); [exact Hc|]. apply Hg; [exact Hd|reflexivity].
Qed.
Lemma clus_config_wf T k : int_clus k -> correct_strtod T -> json_wf T (clus_config k).
Proof. intros (H1 & H2 & H3 & H4 & H5 & H6 & _) Hp. apply jobject_wf. members; try (apply int_json; assumption). split; [exact Hp|apply widen_f64, H6]. Qed.
Lemma clus_text T iter rnd urnd f k huge path : int_clus k -> correct_strtod T ->
  parses T (fst (clus_json_text iter rnd urnd f k huge path)) (fst (clus_json iter rnd urnd f k huge path)) /\
  snd (clus_json_text iter rnd urnd f k huge path) = snd (clus_json iter rnd urnd f k huge path).
Proof.
  intros Hk Hp. unfold clus_json_text, clus_json. pose proof (clus_config_wf T k Hk Hp) as Hw. destruct Hk as (_ & _ & _ & _ & _ & _ & Hc & Hu).
  assert (Hcs : Forall (fun kd => int_cluster kd.2) (sorted_items (k_clusters k))).
  { apply Forall_forall. intros [l c] Hlc. apply sorted_items_elem in Hlc. exact (Hc l c Hlc). }
  set (first := if Nat.eqb (size (k_clusters k)) 0 then _ else _).
  assert (Hf : forall j, fst first = Ok j -> json_wf T j).
  { unfold first. destruct (Nat.eqb (size (k_clusters k)) 0); [intros j [= <-]; exact Hw|].
    pose proof (clusters_wf T iter rnd huge path _ Hcs JNull f) as H.
    destruct (clusters_json iter rnd huge path (sorted_items (k_clusters k)) JNull f) as [[c|e|u|] f1]; cbn [fst rbind]; try discriminate.
    intros j Hj. (eapply jset_wf; [| |exact Hj]); [exact Hw|apply H; [exact I|reflexivity]]. }
  destruct first as [[j|e|u|] f1]; cbn [fst snd]; try (split; reflexivity). specialize (Hf j eq_refl).
  destruct (Nat.eqb (length (c_discs (k_unsupervised k))) 0); [split; [apply parses_dump, Hf|reflexivity]|].
  pose proof (cluster_json_wf T iter urnd f1 (k_unsupervised k) huge (path ++ lit "unsupervised_cluster__")) as H.
  destruct (cluster_getJson iter urnd f1 (k_unsupervised k) huge (path ++ lit "unsupervised_cluster__")) as [[u|e|u|] f2]; cbn [fst snd rbind]; try (split; reflexivity).
  split; [|reflexivity]. destruct (jset j (lit "unsupervisedCluster") u) as [c1|e|u'|] eqn:E1; cbn [rbind]; try reflexivity.
  apply parses_dump. (eapply jset_wf; [| |exact E1]); [exact Hf|apply H; [exact Hu|reflexivity]].
Qed.
Lemma clus_config_text T k : int_clus k -> correct_strtod T -> parses T (clus_jsonConfig_text k) (clus_jsonConfig k).
Proof. intros Hk Hp. unfold clus_jsonConfig_text, clus_jsonConfig. apply parses_dump2, clus_config_wf; assumption. Qed.
