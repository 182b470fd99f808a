(** Property theorem C165: the clusters of a loaded ClusWisard have the configuration of the ClusWisard. *)
From Coq Require Import SpecFloat.
From Flocq Require Import Core BinarySingleNaN.
From Verif Require Import Prelude Bytes Utils Float32 BinInput Bleaching Ram Fs Json JsonText TextApi Disc DataSet Wisard Cluster ClusWisard.
From Verif Require Import FloatConv ScoreProofs JsonOptionsProofs ReloadTotal ClusJson JsonProofs.
Local Open Scope Z_scope.

(** What the clusters of k should be made with. *)
Definition follows (k : cluswisard) (c : cluster) : Prop :=
  exists p, c_params c = Some p /\
    p_addressSize p = k_addressSize k mod 2 ^ 32 /\ p_minScore p = k_minScore k /\ p_threshold p = k_threshold k mod 2 ^ 32 /\ p_limit p = k_limit k /\
    p_complete p = k_completeAddressing k /\ p_ignoreZero p = k_ignoreZero k /\ p_base p = k_base k.

Lemma round_f32 s m e : is_f32 (SpecFloat.binary_round 24 128 s m e).
Proof. unfold is_f32. rewrite round_equiv. apply (binary_round_correct 24 128 Hprec Hmax mode_NE s m e). Qed.
Lemma of_Z_f32 z : is_f32 (f32_of_Z z).
Proof. unfold f32_of_Z, SpecFloat.binary_normalize. destruct z; [reflexivity|apply round_f32|apply round_f32]. Qed.
Lemma float_f32 v x : jget_float v = Ok x -> is_f32 x.
Proof. destruct v as [|b|z|f|s|l|l]; cbn [jget_float]; try discriminate; intros [= <-]; [apply of_Z_f32|apply of_Z_f32|]. destruct f; try reflexivity. apply round_f32. Qed.
Lemma int_is_int v x : jget_int v = Ok x -> s32 x = x.
Proof.
  assert (S : forall z, s32 (s32 z) = s32 z). { intros z. unfold s32. rewrite Z.sub_add. rewrite Z.mod_mod by (unfold W32; lia). reflexivity. }
  destruct v as [|b|z|f|s|l|l]; cbn [jget_int]; try discriminate.
  - intros [= <-]. destruct b; reflexivity.
  - intros [= <-]. apply S.
  - destruct (f32_trunc f) as [z|]; [|discriminate]. destruct (in_int z) eqn:E; intros [= <-]. unfold in_int, INT_MIN, INT_MAX in E. unfold s32, W32. rewrite Z.mod_small; lia.
Qed.
Lemma jopt_int_id d o k x : s32 d = d -> jopt jget_int d o k = Ok x -> s32 x = x.
Proof. intros Hd. unfold jopt. destruct (jfield o k) as [v| | |]; cbn [rbind]; try discriminate. destruct v; try (intros [= <-]; exact Hd); apply int_is_int. Qed.

Ltac look := repeat first [rewrite assoc_mstep, decide_True by reflexivity|rewrite assoc_mstep, decide_False by discriminate]; reflexivity.
Lemma loaded_cluster f t a ms th l c iz b cl : is_f32 ms -> s32 a = a -> s32 l = l -> s32 b = b -> cluster_of_json f (merge_patch t (kconfig a ms th l c iz b)) = Ok cl ->
  exists e, c_params cl = Some (CParams (u32 a) e ms (u32 th) l c iz b).
Proof.
  intros Hms Ha Hl Hb. assert (Ek : kconfig a ms th l c iz b = JObj [(lit "addressSize", JInt a); (lit "base", JInt b); (lit "completeAddressing", JBool c); (lit "discriminatorsLimit", JInt l);
    (lit "ignoreZero", JBool iz); (lit "minScore", JFloat (f64_of_f32 ms)); (lit "threshold", JInt th)]) by reflexivity.
  rewrite Ek, merge_obj. set (tl := match t with JObj tl => tl | _ => [] end). clearbody tl. clear Ek t. rewrite !mgo_cons, mgo_nil.
  match goal with |- cluster_of_json f (JObj ?M) = _ -> _ => set (m := M) end.
  assert (G1 : jfield (JObj m) (lit "addressSize") = Ok (JInt a)) by (subst m; unfold jfield; look).
  assert (G2 : jfield (JObj m) (lit "base") = Ok (JInt b)) by (subst m; unfold jfield; look).
  assert (G3 : jfield (JObj m) (lit "completeAddressing") = Ok (JBool c)) by (subst m; unfold jfield; look).
  assert (G4 : jfield (JObj m) (lit "discriminatorsLimit") = Ok (JInt l)) by (subst m; unfold jfield; look).
  assert (G5 : jfield (JObj m) (lit "ignoreZero") = Ok (JBool iz)) by (subst m; unfold jfield; look).
  assert (G6 : jfield (JObj m) (lit "minScore") = Ok (JFloat (f64_of_f32 ms))) by (subst m; unfold jfield; look).
  assert (G7 : jfield (JObj m) (lit "threshold") = Ok (JInt th)) by (subst m; unfold jfield; look).
  clearbody m.
  unfold cluster_of_json, jopt. rewrite G1, G2, G3, G4, G5, G6, G7. cbn [rbind jget_int jget_bool jget_float jget_uint].
  destruct (jfield (JObj m) (lit "entrySize")) as [ve| | |]; cbn [rbind]; try discriminate. destruct (match ve with JNull => Ok 2 | _ => _ end) as [e| | |]; cbn [rbind]; try discriminate.
  destruct (jfield (JObj m) (lit "discriminators")) as [vd| | |]; cbn [rbind]; try discriminate. destruct (load_discs _ _ _) as [ds| | |]; cbn [rbind]; try discriminate.
  intros [= <-]. exists (u32 e). cbn [c_params]. rewrite Ha, Hl, Hb, widen_narrow by exact Hms. reflexivity.
Qed.
Lemma load_all f dc (P : cluster -> Prop) : (forall d c, cluster_of_json f (merge_patch d dc) = Ok c -> P c) ->
  forall l m m', load_clusters f dc l m = Ok m' -> (forall a c, m !! a = Some c -> P c) -> forall a c, m' !! a = Some c -> P c.
Proof.
  intros H. induction l as [|[k d] l IH]; intros m m' E Hm; [injection E as <-; exact Hm|]. cbn [load_clusters] in E. destruct (cluster_of_json f (merge_patch d dc)) as [c| | |] eqn:Ec; cbn [rbind] in E; try discriminate.
  apply (IH _ _ E). intros a c' Ha. apply lookup_insert_Some in Ha as [[_ <-]|[_ Ha]]; [apply (H d), Ec|apply (Hm a), Ha].
Qed.

(** Whatever a text says about the clusters of a ClusWisard, once loaded they go on learning with its own parameters. *)
Theorem C165_loaded_clusters : forall T f text k, clus_of_text T f text = Ok k ->
  (forall l c, k_clusters k !! l = Some c -> follows k c) /\ (k_unsupervised k = cluster_default \/ follows k (k_unsupervised k)).
Proof.
  intros T f text k E. unfold clus_of_text in E. destruct (json_parse T text) as [j| | |]; cbn [rbind] in E; try discriminate. unfold clus_of_json in E.
  destruct (clus_of_options 0 f32_zero 1 1 j) as [k0| | |] eqn:E0; cbn [rbind] in E; try discriminate.
  assert (Hb : s32 (k_base k0) = k_base k0).
  { clear E. unfold clus_of_options in E0. repeat match type of E0 with (let* _ := ?X in _) = _ => let Q := fresh "Q" in destruct X as [?| | |] eqn:Q; cbn [rbind] in E0; try discriminate end. injection E0 as <-. cbn [k_base].
    match goal with Q : jopt jget_int 2 j (lit "base") = Ok _ |- _ => exact (jopt_int_id _ _ _ _ eq_refl Q) end. }
  destruct (jfield j (lit "addressSize")) as [v| | |]; cbn [rbind] in E; try discriminate. destruct (jget_int v) as [a| | |] eqn:Qa; cbn [rbind] in E; try discriminate.
  destruct (jfield j (lit "minScore")) as [v1| | |]; cbn [rbind] in E; try discriminate. destruct (jget_float v1) as [ms| | |] eqn:Qm; cbn [rbind] in E; try discriminate.
  destruct (jfield j (lit "threshold")) as [v2| | |]; cbn [rbind] in E; try discriminate. destruct (jget_int v2) as [th| | |] eqn:Qt; cbn [rbind] in E; try discriminate.
  destruct (jfield j (lit "discriminatorsLimit")) as [v3| | |]; cbn [rbind] in E; try discriminate. destruct (jget_int v3) as [li| | |] eqn:Ql; cbn [rbind] in E; try discriminate.
  destruct (jfield j (lit "clusters")) as [classes| | |]; cbn [rbind] in E; try discriminate. cbv zeta in E. fold (kconfig a ms th li (k_completeAddressing k0) (k_ignoreZero k0) (k_base k0)) in E.
  set (dc := kconfig a ms th li (k_completeAddressing k0) (k_ignoreZero k0) (k_base k0)) in *.
  match type of E with (let* clusters := ?X in _) = _ => destruct X as [ds| | |] eqn:El end; cbn [rbind] in E; try discriminate.
  destruct (jfield j (lit "unsupervisedCluster")) as [uc| | |]; cbn [rbind] in E; try discriminate.
  match type of E with (let* u := ?X in _) = _ => destruct X as [u| | |] eqn:Eu end; cbn [rbind] in E; try discriminate. injection E as <-.
  assert (P : forall d c, cluster_of_json f (merge_patch d dc) = Ok c -> exists e, c_params c = Some (CParams (u32 a) e ms (u32 th) li (k_completeAddressing k0) (k_ignoreZero k0) (k_base k0))).
  { intros d c Hc. eapply loaded_cluster; [exact (float_f32 _ _ Qm)|exact (int_is_int _ _ Qa)|exact (int_is_int _ _ Ql)|exact Hb|exact Hc]. }
  assert (F : forall c, (exists e, c_params c = Some (CParams (u32 a) e ms (u32 th) li (k_completeAddressing k0) (k_ignoreZero k0) (k_base k0))) -> follows (ClusWisard a ms th li (k_bleachingActivated k0) (k_verbose k0)
        (k_completeAddressing k0) (k_ignoreZero k0) (k_base k0) (k_searchBestConfidence k0)
        (k_returnConfidence k0) (k_returnActivationDegree k0) (k_returnClassesDegrees k0) (k_confidence k0) ds u) c).
  { intros c (e & He). eexists. split; [exact He|]. repeat split. }
  split.
  - intros l c Hc. apply F. cbn [k_clusters] in Hc. assert (El' : ds = ∅ \/ exists ms, load_clusters f dc ms ∅ = Ok ds).
    { destruct classes; try (injection El as <-; auto); try discriminate; match type of El with (let* ms := ?X in _) = _ => destruct X as [ms'| | |] eqn:Em end; cbn [rbind] in El; try discriminate; right; eauto. }
    destruct El' as [-> |(ms' & El')]; [rewrite lookup_empty in Hc; discriminate|]. eapply (load_all f dc _ P); [exact El'| |exact Hc]. intros l' c' H. rewrite lookup_empty in H. discriminate.
  - cbn [k_unsupervised]. destruct uc; try (right; apply F, (P _ _ Eu)). left. injection Eu as <-. reflexivity.
Qed.
Print Assumptions C165_loaded_clusters.
(** Non-vacuity: a text whose cluster names another threshold and limit. *)
Example C165_witness : forall T f, exists k c, clus_of_text T f (lit "{""addressSize"":2,""minScore"":1,""threshold"":10,""discriminatorsLimit"":5,""clusters"":{""a"":{""entrySize"":4,""threshold"":99,""discriminatorsLimit"":1,""discriminators"":[]}},""unsupervisedCluster"":null}") = Ok k /\
  k_clusters k !! lit "a" = Some c /\ c_params c = Some (CParams 2 4 (f32_of_Z 1) 10 5 true false 2).
Proof. intros T f. eexists _, _. split; [vm_compute; reflexivity|]. split; vm_compute; reflexivity. Qed.
