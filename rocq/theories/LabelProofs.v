(** Labels in saved texts: written only if they are UTF-8, and UTF-8 when loaded. *)
From Coq Require Import SpecFloat QArith Qcanon.
From Verif Require Import Prelude Bytes Utils Float32 BinInput Bleaching Ram Json Fs RamData Disc Wisard Cluster ClusWisard JsonText TextApi.
From Verif Require Import BytesProofs TextProofs TextString TextParse SpecText SpecUtf8 Utf8Proofs ParseValues.
From Verif Require BleachProofs.
Local Open Scope Z_scope.

Lemma dump_keys pretty step : forall l cur t, dump_at pretty step cur (JObj l) = Ok t ->
  Forall (fun kv => utf8_ok kv.1 = true /\ exists c t', dump_at pretty step c kv.2 = Ok t') l.
Proof.
  intros l cur t H. destruct l as [|x l]; [constructor|]. rewrite dump_obj in H.
  destruct (dump_members pretty step (cur + step) (x :: l)) as [ts| | |] eqn:E; cbn [rbind] in H; try discriminate. clear H.
  revert ts E. generalize (x :: l). clear x l. intros l. induction l as [|[k v] l IH]; intros ts E; [constructor|].
  rewrite dump_members_cons in E. destruct (quote k) as [q| | |] eqn:Eq; cbn [rbind] in E; try discriminate.
  destruct (dump_at pretty step (cur + step) v) as [t1| | |] eqn:Et; cbn [rbind] in E; try discriminate.
  destruct (dump_members pretty step (cur + step) l) as [ts'| | |] eqn:Em; cbn [rbind] in E; try discriminate.
  constructor; [|exact (IH ts' eq_refl)]. cbn [fst snd]. split; [|eauto]. rewrite quote_eq in Eq. destruct (utf8_ok k); [reflexivity|discriminate].
Qed.
Lemma jinsert_key k v l a : a = k \/ a ∈ l.*1 -> a ∈ (jinsert k v l).*1.
Proof.
  induction l as [|[k' v'] l IH]; cbn [jinsert]; intros H.
  { destruct H as [->|H]; [left|inversion H]. }
  rewrite fmap_cons, elem_of_cons in H. cbn [fst] in H. destruct (decide (k = k')) as [->|Hne]; [|destruct (str_leb k k')]; rewrite ?fmap_cons, ?elem_of_cons; cbn [fst].
  - tauto.
  - tauto.
  - destruct H as [->|[->|H]]; [right; apply IH; auto|auto|right; apply IH; auto].
Qed.
Lemma jinsert_mem k v l : (k, v) ∈ jinsert k v l.
Proof.
  induction l as [|[k' v'] l IH]; cbn [jinsert]; [left|]. destruct (decide (k = k')); [left|]. destruct (str_leb k k'); [left|right; exact IH].
Qed.
Definition has_key (j : json) (a : str) : Prop := match j with JObj l => a ∈ l.*1 | _ => False end.
Lemma jset_key j k v j' a : jset j k v = Ok j' -> a = k \/ has_key j a -> has_key j' a.
Proof.
  intros H Ha. destruct j; cbn [jset] in H; try discriminate; injection H as <-; cbn [has_key] in *.
  - destruct Ha as [->|[]]. left.
  - apply jinsert_key. exact Ha.
Qed.
Lemma jset_mem j k v j' : jset j k v = Ok j' -> exists l, j' = JObj l /\ (k, v) ∈ l.
Proof.
  destruct j; cbn [jset]; try discriminate; intros [= <-]; eexists; (split; [reflexivity|]); [left|apply jinsert_mem].
Qed.
(** The classes object has every label as a key. *)
Lemma classes_keys iter rnd huge path l : forall c f j f' a, classes_json iter rnd huge path l c f = (Ok j, f') -> a ∈ l.*1 \/ has_key c a -> has_key j a.
Proof.
  induction l as [|[k d] l IH]; intros c f j f' a H Ha; cbn [classes_json] in H.
  { injection H as <- <-. destruct Ha as [Ha|Ha]; [inversion Ha|exact Ha]. }
  destruct (disc_getJSON iter (rnd k) f d huge (path ++ k ++ lit "__")) as [r f1]. destruct (let* j := r in jset c k j) as [c'| | |] eqn:E; try discriminate.
  destruct r as [j0| | |]; try discriminate. cbn [rbind] in E. apply (IH c' f1 j f' a H). rewrite fmap_cons, elem_of_cons in Ha. cbn [fst] in Ha.
  destruct Ha as [[->|Ha]|Ha]; [right|left; exact Ha|right]; eapply jset_key; eauto.
Qed.
Lemma config_keys l : forall c j a, config_classes l c = Ok j -> a ∈ l.*1 \/ has_key c a -> has_key j a.
Proof.
  induction l as [|[k d] l IH]; intros c j a H Ha; cbn [config_classes] in H.
  { injection H as <-. destruct Ha as [Ha|Ha]; [inversion Ha|exact Ha]. }
  destruct (disc_getConfigJSON d) as [j0| | |]; cbn [rbind] in H; try discriminate. destruct (jset c k j0) as [c'| | |] eqn:E; cbn [rbind] in H; try discriminate.
  apply (IH c' j a H). rewrite fmap_cons, elem_of_cons in Ha. cbn [fst] in Ha.
  destruct Ha as [[->|Ha]|Ha]; [right|left; exact Ha|right]; eapply jset_key; eauto.
Qed.
Lemma clusters_keys iter rnd huge path l : forall c f j f' a, clusters_json iter rnd huge path l c f = (Ok j, f') -> a ∈ l.*1 \/ has_key c a -> has_key j a.
Proof.
  induction l as [|[k d] l IH]; intros c f j f' a H Ha; cbn [clusters_json] in H.
  { injection H as <- <-. destruct Ha as [Ha|Ha]; [inversion Ha|exact Ha]. }
  destruct (cluster_getJson iter (rnd k) f d huge (path ++ k ++ lit "__")) as [r f1]. destruct (let* j := r in jset c k j) as [c'| | |] eqn:E; try discriminate.
  destruct r as [j0| | |]; try discriminate. cbn [rbind] in E. apply (IH c' f1 j f' a H). rewrite fmap_cons, elem_of_cons in Ha. cbn [fst] in Ha.
  destruct Ha as [[->|Ha]|Ha]; [right|left; exact Ha|right]; eapply jset_key; eauto.
Qed.
Lemma key_dumped pretty step cur config k v j t a :
  jset config k v = Ok j -> has_key v a -> dump_at pretty step cur j = Ok t -> utf8_ok a = true.
Proof.
  intros Hj Ha Ht. apply jset_mem in Hj as (l & -> & Hl). apply dump_keys in Ht. rewrite Forall_forall in Ht. destruct (Ht _ Hl) as (_ & c & t' & Hv). cbn [snd] in Hv.
  destruct v; cbn [has_key] in Ha; try contradiction. apply dump_keys in Hv. apply elem_of_list_fmap in Ha as (kv & -> & Hkv). rewrite Forall_forall in Hv. apply (Hv _ Hkv).
Qed.
Lemma item_key {A} (m : gmap str A) a : is_Some (m !! a) -> a ∈ (sorted_items m).*1.
Proof.
  intros [x Hx]. apply elem_of_list_fmap. exists (a, x). split; [reflexivity|]. apply Verif.BleachProofs.sorted_items_elem. exact Hx.
Qed.
Lemma wisard_label_written iter rnd f w huge path t a : fst (wisard_json_text iter rnd f w huge path) = Ok t -> is_Some (w_discriminators w !! a) -> utf8_ok a = true.
Proof.
  intros H Ha. unfold wisard_json_text in H. destruct (classes_json iter rnd huge path (sorted_items (w_discriminators w)) JNull f) as [r f'] eqn:E. cbn [fst] in H.
  destruct r as [classes| | |]; cbn [rbind] in H; try discriminate. destruct (jset (wisard_config w) (lit "classes") classes) as [j| | |] eqn:Ej; cbn [rbind] in H; try discriminate.
  eapply key_dumped; [exact Ej| |exact H]. eapply classes_keys; [exact E|]. left. apply item_key, Ha.
Qed.
Lemma wisard_label_config w t a : wisard_jsonConfig_text w = Ok t -> is_Some (w_discriminators w !! a) -> utf8_ok a = true.
Proof.
  intros H Ha. unfold wisard_jsonConfig_text in H. destruct (config_classes (sorted_items (w_discriminators w)) JNull) as [classes| | |] eqn:E; cbn [rbind] in H; try discriminate.
  destruct (jset (wisard_config w) (lit "classes") classes) as [j| | |] eqn:Ej; cbn [rbind] in H; try discriminate.
  eapply key_dumped; [exact Ej| |exact H]. eapply config_keys; [exact E|]. left. apply item_key, Ha.
Qed.
Lemma clus_label_written iter rnd urnd f k huge path t a : fst (clus_json_text iter rnd urnd f k huge path) = Ok t -> is_Some (k_clusters k !! a) -> utf8_ok a = true.
Proof.
  intros H Ha. unfold clus_json_text in H. destruct (Nat.eqb_spec (size (k_clusters k)) 0) as [E0|_].
  { apply map_size_empty_inv in E0. rewrite E0, lookup_empty in Ha. destruct Ha; discriminate. }
  destruct (clusters_json iter rnd huge path (sorted_items (k_clusters k)) JNull f) as [r f'] eqn:E. 
  destruct r as [cs| | |]; cbn [rbind] in H; try discriminate. destruct (jset (clus_config k) (lit "clusters") cs) as [j| | |] eqn:Ej; try discriminate.
  assert (Hk : has_key cs a) by (eapply clusters_keys; [exact E|]; left; apply item_key, Ha).
  destruct (Nat.eqb (length (c_discs (k_unsupervised k))) 0); [eapply key_dumped; [exact Ej|exact Hk|exact H]|].
  destruct (cluster_getJson iter urnd f' (k_unsupervised k) huge (path ++ lit "unsupervised_cluster__")) as [r f2]. cbn [fst] in H.
  destruct r as [u| | |]; cbn [rbind] in H; try discriminate. destruct (jset j (lit "unsupervisedCluster") u) as [j2| | |] eqn:Ej2; cbn [rbind] in H; try discriminate.
  apply jset_mem in Ej as (l & -> & Hl). cbn [jset] in Ej2. injection Ej2 as <-. apply dump_keys in H. rewrite Forall_forall in H.
  assert (Hl' : (lit "clusters", cs) ∈ jinsert (lit "unsupervisedCluster") u l).
  { clear -Hl. induction l as [|[k' v'] l IH]; [inversion Hl|]. cbn [jinsert]. apply elem_of_cons in Hl. destruct (decide (lit "unsupervisedCluster" = k')) as [Ek|Hne].
    - destruct Hl as [El|Hl]; [|right; exact Hl]. injection El as <- <-. discriminate Ek.
    - destruct (str_leb (lit "unsupervisedCluster") k'); [right; apply elem_of_cons, Hl|]. destruct Hl as [El|Hl]; [rewrite El; left|right; apply IH, Hl]. }
  destruct (H _ Hl') as (_ & c & t' & Hv). cbn [snd] in Hv. destruct cs; cbn [has_key] in Hk; try contradiction. apply dump_keys in Hv.
  apply elem_of_list_fmap in Hk as (kv & -> & Hkv). rewrite Forall_forall in Hv. apply (Hv _ Hkv).
Qed.

(** Loading. *)
Lemma assoc_mem k l v : assoc k l = Some v -> (k, v) ∈ l.
Proof. induction l as [|[k' v'] l IH]; cbn [assoc]; [discriminate|]. destruct (decide (k' = k)) as [->|]; [intros [= ->]; left|right; auto]. Qed.
Lemma jfield_text j k v : has_text j -> jfield j k = Ok v -> has_text v.
Proof.
  intros Hj H. destruct j; cbn [jfield] in H; try discriminate; injection H as <-; [constructor|].
  destruct (assoc k l) as [v|] eqn:E; [|constructor]. apply assoc_mem in E. apply has_text_obj in Hj as [_ Hj]. rewrite Forall_forall in Hj. apply (Hj _ E).
Qed.
Lemma jmembers_text j l : has_text j -> jmembers j = Ok l -> Forall (fun kv => utf8_ok kv.1 = true) l.
Proof.
  intros Hj H. destruct j as [| | | | |[|x l0]|l0]; cbn [jmembers] in H; try discriminate; injection H as <-; try constructor.
  apply has_text_obj in Hj as [_ Hj]. eapply Forall_impl; [exact Hj|]. intros kv Hkv; apply Hkv.
Qed.
Lemma load_keys {A} (load : json -> res A) (go : list (str * json) -> gmap str A -> res (gmap str A)) :
  (forall m, go [] m = Ok m) -> (forall k d l m, go ((k, d) :: l) m = let* c := load d in go l (<[k := c]> m)) ->
  forall l m m' a, Forall (fun kv => utf8_ok kv.1 = true) l -> go l m = Ok m' -> is_Some (m' !! a) -> is_Some (m !! a) \/ utf8_ok a = true.
Proof.
  intros H0 H1 l. induction l as [|[k d] l IH]; intros m m' a Hl H Ha; [rewrite H0 in H; injection H as ->; auto|].
  rewrite H1 in H. destruct (load d) as [c| | |]; cbn [rbind] in H; try discriminate. apply Forall_cons in Hl as [Hk Hl]. cbn [fst] in Hk.
  destruct (IH _ _ _ Hl H Ha) as [Hm|Hm]; [|auto]. destruct (decide (k = a)) as [->|Hne]; [auto|]. rewrite lookup_insert_ne in Hm by exact Hne. auto.
Qed.
Lemma wisard_label_loaded f j w a : has_text j -> wisard_of_json f j = Ok w -> is_Some (w_discriminators w !! a) -> utf8_ok a = true.
Proof.
  intros Hj H Ha. unfold wisard_of_json in H. destruct (wisard_of_options 0 j) as [w0| | |]; cbn [rbind] in H; try discriminate.
  destruct (jfield j (lit "addressSize")) as [v| | |]; cbn [rbind] in H; try discriminate. destruct (jget_int v) as [n| | |]; cbn [rbind] in H; try discriminate.
  destruct (jfield j (lit "classes")) as [classes| | |] eqn:Ec; cbn [rbind] in H; try discriminate. apply jfield_text in Ec; [|exact Hj].
  destruct (jmembers classes) as [ms| | |] eqn:Em; cbn [rbind] in H; try discriminate. apply jmembers_text in Em; [|exact Ec].
  destruct (load_classes f _ ms ∅) as [ds| | |] eqn:El; cbn [rbind] in H; try discriminate. injection H as <-. cbn [w_discriminators] in Ha.
  pose proof (load_keys (fun d => disc_of_json f (merge_patch d _)) (load_classes f _) (fun m => eq_refl) (fun k d l m => eq_refl) ms ∅ ds a Em El Ha) as [Hm|Hm]; [|exact Hm].
  rewrite lookup_empty in Hm. destruct Hm; discriminate.
Qed.
Lemma clus_label_loaded f j k a : has_text j -> clus_of_json f j = Ok k -> is_Some (k_clusters k !! a) -> utf8_ok a = true.
Proof.
  intros Hj H Ha. unfold clus_of_json in H. destruct (clus_of_options 0 f32_zero 1 1 j) as [k0| | |]; cbn [rbind] in H; try discriminate.
  destruct (jfield j (lit "addressSize")) as [v| | |]; cbn [rbind] in H; try discriminate. destruct (jget_int v) as [n| | |]; cbn [rbind] in H; try discriminate.
  destruct (jfield j (lit "minScore")) as [v1| | |]; cbn [rbind] in H; try discriminate. destruct (jget_float v1) as [n1| | |]; cbn [rbind] in H; try discriminate.
  destruct (jfield j (lit "threshold")) as [v2| | |]; cbn [rbind] in H; try discriminate. destruct (jget_int v2) as [n2| | |]; cbn [rbind] in H; try discriminate.
  destruct (jfield j (lit "discriminatorsLimit")) as [v3| | |]; cbn [rbind] in H; try discriminate. destruct (jget_int v3) as [n3| | |]; cbn [rbind] in H; try discriminate.
  destruct (jfield j (lit "clusters")) as [classes| | |] eqn:Ec; cbn [rbind] in H; try discriminate. apply jfield_text in Ec; [|exact Hj].
  match type of H with (let* clusters := ?X in _) = _ => destruct X as [ds| | |] eqn:El end; cbn [rbind] in H; try discriminate.
  destruct (jfield j (lit "unsupervisedCluster")) as [uc| | |]; cbn [rbind] in H; try discriminate.
  match type of H with (let* u := ?X in _) = _ => destruct X as [u| | |] end; cbn [rbind] in H; try discriminate. injection H as <-. cbn [k_clusters] in Ha.
  assert (El' : ds = ∅ \/ exists ms c, jmembers classes = Ok ms /\ load_clusters f c ms ∅ = Ok ds).
  { destruct classes; try (injection El as <-; auto); try discriminate;
      match type of El with (let* ms := ?X in _) = _ => destruct X as [ms| | |] eqn:Em end; cbn [rbind] in El; try discriminate; right; eauto. }
  destruct El' as [->|(ms & c & Em & El')]; [rewrite lookup_empty in Ha; destruct Ha; discriminate|]. apply jmembers_text in Em; [|exact Ec].
  pose proof (load_keys (fun d => cluster_of_json f (merge_patch d c)) (load_clusters f c) (fun m => eq_refl) (fun k d l m => eq_refl) ms ∅ ds a Em El' Ha) as [Hm|Hm]; [|exact Hm].
  rewrite lookup_empty in Hm. destruct Hm; discriminate.
Qed.
