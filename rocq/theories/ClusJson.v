(** Saving and reloading a ClusWisard (C75). *)
From Verif Require Import Prelude Bytes Base64 Utils Float32 BinInput Bleaching Ram Json Fs RamData Disc Wisard Cluster ClusWisard SpecBin SpecDisc SpecBleach SpecWisard SpecSaved SpecCluster SpecClus SpecLaw SpecClusSaved.
From Verif Require Import Base64Proofs BytesProofs TextProofs RamDataProofs DiscCtorProofs CtorFacts JsonNF RamProofs DiscProofs DiscFacts BleachProofs WisardProofs WisardFacts WisardSafety JsonProofs JsonFacts WisardJson ClusterProofs ClusMore ClusterLaw ClusUnsup FloatConv.

(** ** One cluster *)
Definition number {A} (i : nat) (l : list A) : list (nat * A) := imap (fun n x => ((i + n)%nat, x)) l.
Lemma number_cons {A} i (x : A) l : number i (x :: l) = (i, x) :: number (S i) l.
Proof. unfold number. cbn. rewrite Nat.add_0_r. f_equal. apply imap_ext. intros n y _. cbn. f_equal. lia. Qed.
Definition slot_file (rnd : nat -> str) (path : str) (i : nat) : str := path ++ to_string i ++ lit "__" ++ rnd i ++ ramdata_sufix.
Definition slot_data (iter : iteration) (rnd : nat -> str) (huge : bool) (path : str) (i : nat) (d : disc) : str :=
  if huge then slot_file rnd path i else ramsdata_mem iter (d_rams d) [].
Definition slot_fs (iter : iteration) (rnd : nat -> str) (huge : bool) (path : str) (f : fs) (id : nat * disc) : fs :=
  if huge then fs_append f (slot_file rnd path id.1) (ramsdata_file iter (d_rams id.2)) else f.
Definition slot_values iter rnd huge path (i : nat) (ds : list disc) : list json :=
  (fun id => class_value id.2 (slot_data iter rnd huge path id.1 id.2)) <$> number i ds.

Lemma cluster_jsons_nf iter rnd huge path : forall ds i acc f,
  cluster_jsons iter rnd huge path (Some <$> ds) i acc f =
    (Ok (acc ++ slot_values iter rnd huge path i ds), foldl (slot_fs iter rnd huge path) f (number i ds)).
Proof.
  induction ds as [|d ds IH]; intros i acc f; [unfold slot_values; cbn; rewrite app_nil_r; reflexivity|].
  rewrite fmap_cons. cbn [cluster_jsons]. rewrite getJSON_nf. unfold slot_values. rewrite !number_cons. rewrite fmap_cons. cbn [foldl fst snd].
  rewrite IH. rewrite <- app_assoc. unfold slot_values. cbn [app].
  assert (E : getRAMsData iter (rnd i) f d huge (path ++ to_string i ++ lit "__") = (slot_data iter rnd huge path i d, slot_fs iter rnd huge path f (i, d))).
  { unfold getRAMsData, slot_data, slot_fs, slot_file. cbn [fst snd]. rewrite <- !app_assoc. destruct huge; reflexivity. }
  rewrite E. cbn [fst snd]. reflexivity.
Qed.
Definition arr (l : list json) : json := match l with [] => JNull | _ => JArr l end.
Definition cluster_value (entrySize : Z) (js : list json) : json := JObj
  [(lit "discriminators", arr js); (lit "entrySize", JInt entrySize)].
Lemma cluster_getJson_nf iter rnd f p ds huge path :
  cluster_getJson iter rnd f (Cluster (Some p) (Some <$> ds)) huge path =
    (Ok (cluster_value (p_entrySize p) (slot_values iter rnd huge path 0 ds)), foldl (slot_fs iter rnd huge path) f (number 0 ds)).
Proof. unfold cluster_getJson. cbn [c_discs c_params]. rewrite cluster_jsons_nf. cbn [rbind app]. reflexivity. Qed.
Lemma text_ok_cluster e js : Forall text_ok js -> text_ok (cluster_value e js).
Proof.
  intros H. unfold cluster_value. assert (Ha : text_ok (arr js)) by (unfold arr; destruct js; [reflexivity|apply text_ok_arr, H]).
  revert Ha. generalize (arr js) as a. intros a Ha. text_ok_members; auto using text_ok_int.
Qed.

(** What a saved cluster needs. *)
Definition savable_disc (iter : iteration) (iz : bool) (base : Z) (d : disc) : Prop :=
  storable iter d /\ Forall (storable_ram iz base) (d_rams d).

(** Options merged into a saved cluster. *)
Definition kconfig (a : Z) (ms : f32) (t l : Z) (c iz : bool) (b : Z) : json :=
  jobject [ (lit "addressSize", JInt a); (lit "minScore", JFloat (f64_of_f32 ms));
            (lit "threshold", JInt t); (lit "discriminatorsLimit", JInt l);
            (lit "completeAddressing", JBool c); (lit "ignoreZero", JBool iz); (lit "base", JInt b) ].
Lemma cluster_of_value f e js a ms t l c iz b : is_f32 ms -> is_int a -> is_int e -> is_int l -> is_int b ->
  cluster_of_json f (merge_patch (cluster_value e js) (kconfig a ms t l c iz b)) =
    (let* ds := load_discs f (rbase_of iz b) js in
     Ok (Cluster (Some (CParams (u32 a) (u32 e) ms (u32 t) l c iz b)) ds)).
Proof.
  intros Hms Ha He Hl Hb. unfold cluster_value. assert (Hv : jvalues (arr js) = js) by (destruct js; reflexivity). revert Hv. generalize (arr js) as v. intros v Hv.
  transitivity (cluster_of_json f (JObj [(lit "addressSize", JInt a); (lit "base", JInt b); (lit "completeAddressing", JBool c);
    (lit "discriminators", v); (lit "discriminatorsLimit", JInt l); (lit "entrySize", JInt e); (lit "ignoreZero", JBool iz); (lit "minScore", JFloat (f64_of_f32 ms)); (lit "threshold", JInt t)])); [reflexivity|].
  unfold cluster_of_json, jopt.
  change (jfield _ (lit "addressSize")) with (@Ok json (JInt a)). cbn [rbind jget_int]. rewrite s32_id by exact Ha.
  change (jfield _ (lit "entrySize")) with (@Ok json (JInt e)). cbn [rbind jget_int]. rewrite s32_id by exact He.
  change (jfield _ (lit "minScore")) with (@Ok json (JFloat (f64_of_f32 ms))). cbn [rbind jget_float]. rewrite widen_narrow by exact Hms.
  change (jfield _ (lit "discriminatorsLimit")) with (@Ok json (JInt l)). cbn [rbind jget_int]. rewrite s32_id by exact Hl.
  change (jfield _ (lit "threshold")) with (@Ok json (JInt t)). cbn [rbind jget_uint].
  change (jfield _ (lit "ignoreZero")) with (@Ok json (JBool iz)). cbn [rbind jget_bool].
  change (jfield _ (lit "completeAddressing")) with (@Ok json (JBool c)). cbn [rbind jget_bool].
  change (jfield _ (lit "base")) with (@Ok json (JInt b)). cbn [rbind jget_int]. rewrite s32_id by exact Hb.
  change (jfield _ (lit "discriminators")) with (@Ok json v). cbn [rbind]. rewrite Hv. reflexivity.
Qed.
Lemma load_discs_ok f dc iter rnd huge path : forall ds i,
  (forall j d, ds !! j = Some d -> disc_of_json f (merge_patch (class_value d (slot_data iter rnd huge path (i + j) d)) dc) = Ok d) ->
  load_discs f dc (slot_values iter rnd huge path i ds) = Ok (Some <$> ds).
Proof.
  induction ds as [|d ds IH]; intros i H; [reflexivity|]. unfold slot_values. rewrite number_cons, fmap_cons. cbn [load_discs fst snd].
  rewrite <- (Nat.add_0_r i) at 1. rewrite (H 0%nat d eq_refl). cbn [rbind]. change (_ <$> number (S i) ds) with (slot_values iter rnd huge path (S i) ds). rewrite IH.
  - reflexivity.
  - intros j d' Hj. rewrite Nat.add_succ_comm. apply (H (S j) d' Hj).
Qed.

(** ** All clusters: every label with its parameters and discriminators *)
Definition centry : Type := str * (cparams * list disc).
Definition centry_cluster (e : cparams * list disc) : cluster := Cluster (Some e.1) (Some <$> e.2).
Definition label_path (path l : str) : str := path ++ l ++ lit "__".
Definition label_value iter (rnd : str -> nat -> str) huge path (e : centry) : json :=
  cluster_value (p_entrySize e.2.1) (slot_values iter (rnd e.1) huge (label_path path e.1) 0 e.2.2).
Definition label_fs iter (rnd : str -> nat -> str) huge path (f : fs) (e : centry) : fs :=
  foldl (slot_fs iter (rnd e.1) huge (label_path path e.1)) f (number 0 e.2.2).
Definition label_members iter rnd huge path (l : list centry) : list (str * json) :=
  (fun e => (e.1, label_value iter rnd huge path e)) <$> l.
Definition entry_lt (a b : centry) : Prop := str_lt a.1 b.1.
Lemma clusters_json_nf iter rnd huge path : forall (l : list centry) acc f, StronglySorted entry_lt l ->
  Forall (fun kv => Forall (fun e : centry => str_lt kv.1 e.1) l) acc ->
  clusters_json iter rnd huge path ((fun e => (e.1, centry_cluster e.2)) <$> l) (obj acc) f =
    (Ok (obj (acc ++ label_members iter rnd huge path l)), foldl (label_fs iter rnd huge path) f l).
Proof.
  induction l as [|[k [p ds]] l IH]; intros acc f Hs Ha; [unfold label_members; cbn; rewrite app_nil_r; reflexivity|].
  rewrite fmap_cons. cbn [clusters_json fst snd]. unfold centry_cluster at 1. cbn [fst snd]. rewrite cluster_getJson_nf. cbn [rbind]. inversion Hs as [|? ? Hs' Hk]; subst.
  rewrite jset_last by (eapply Forall_impl; [exact Ha|]; intros kv H; apply Forall_cons in H as [H _]; exact H).
  rewrite IH; [|exact Hs'|].
  - rewrite <- app_assoc. reflexivity.
  - apply Forall_app. split; [eapply Forall_impl; [exact Ha|]; intros kv H; apply Forall_cons in H as [_ H]; exact H|].
    constructor; [|constructor]. cbn [fst]. apply Forall_forall. intros x Hx. rewrite List.Forall_forall in Hk. apply elem_of_list_In in Hx. exact (Hk x Hx).
Qed.
Lemma load_clusters_ok f dc iter rnd huge path (l : list centry) : forall m, NoDup l.*1 -> (forall e, e ∈ l -> m !! e.1 = None) ->
  Forall (fun e => cluster_of_json f (merge_patch (label_value iter rnd huge path e) dc) = Ok (centry_cluster e.2)) l ->
  load_clusters f dc (label_members iter rnd huge path l) m = Ok (list_to_map ((fun e => (e.1, centry_cluster e.2)) <$> l) ∪ m).
Proof.
  unfold label_members. induction l as [|[k d] l IH]; intros m Hn Hm H; [cbn; rewrite map_empty_union; reflexivity|].
  rewrite !fmap_cons in *. apply Forall_cons in H as [Hd H]. apply NoDup_cons in Hn as [Hk Hn]. cbn [fst snd] in *. cbn [load_clusters]. rewrite Hd. cbn [rbind].
  rewrite IH; [| |intros [k' d'] Hin|exact H].
  - rewrite list_to_map_cons. f_equal. rewrite <- insert_union_l, <- insert_union_r; [reflexivity|]. apply not_elem_of_list_to_map_1.
    rewrite <- list_fmap_compose. exact Hk.
  - exact Hn.
  - cbn [fst]. rewrite lookup_insert_ne; [apply (Hm (k', d')); right; exact Hin|]. intros ->. apply Hk. apply elem_of_list_fmap. exists (k', d'). auto.
Qed.

(** ** The whole object *)
Definition opt_member (key : str) (o : option json) : list (str * json) := match o with Some j => [(key, j)] | None => [] end.
Definition clus_value (k : cluswisard) (cs us : option json) : json := JObj
  ([(lit "addressSize", JInt (k_addressSize k)); (lit "base", JInt (k_base k));
    (lit "bleachingActivated", JBool (k_bleachingActivated k))] ++ opt_member (lit "clusters") cs ++
   [(lit "completeAddressing", JBool (k_completeAddressing k)); (lit "confidence", JInt (k_confidence k));
    (lit "discriminatorsLimit", JInt (k_limit k)); (lit "ignoreZero", JBool (k_ignoreZero k)); (lit "minScore", JFloat (f64_of_f32 (k_minScore k)));
    (lit "returnActivationDegree", JBool (k_returnActivationDegree k));
    (lit "returnClassesDegrees", JBool (k_returnClassesDegrees k)); (lit "returnConfidence", JBool (k_returnConfidence k));
    (lit "threshold", JInt (k_threshold k))] ++ opt_member (lit "unsupervisedCluster") us ++
   [(lit "verbose", JBool (k_verbose k)); (lit "version", JStr version)]).
Lemma clus_value_nf k : clus_config k = clus_value k None None. Proof. reflexivity. Qed.
Lemma clus_value_set k cs : jset (clus_value k None None) (lit "clusters") cs = Ok (clus_value k (Some cs) None). Proof. reflexivity. Qed.
Lemma clus_value_setu k cs us : jset (clus_value k cs None) (lit "unsupervisedCluster") us = Ok (clus_value k cs (Some us)).
Proof. destruct cs; reflexivity. Qed.
Lemma text_ok_float z : f32_finite z = true -> text_ok (JFloat z).
Proof. intros H. unfold text_ok. cbn. rewrite H. reflexivity. Qed.
Lemma text_ok_clus k cs us : f32_finite (f64_of_f32 (k_minScore k)) = true -> (forall c, cs = Some c -> text_ok c) -> (forall u, us = Some u -> text_ok u) ->
  text_ok (clus_value k cs us).
Proof.
  intros Hf Hc Hu. unfold clus_value. assert (Hcm : Forall (fun kv => utf8_ok kv.1 = true /\ text_ok kv.2) (opt_member (lit "clusters") cs)).
  { destruct cs; [|constructor]. constructor; [|constructor]. split; [vm_compute; reflexivity|apply Hc; reflexivity]. }
  assert (Hum : Forall (fun kv => utf8_ok kv.1 = true /\ text_ok kv.2) (opt_member (lit "unsupervisedCluster") us)).
  { destruct us; [|constructor]. constructor; [|constructor]. split; [vm_compute; reflexivity|apply Hu; reflexivity]. }
  apply text_ok_obj. repeat (apply Forall_app; split); try assumption;
   repeat (apply Forall_cons; split; [split; [vm_compute; reflexivity|cbn [snd]; auto using text_ok_int, text_ok_bool, text_ok_version, text_ok_float]|]); apply Forall_nil; exact I.
Qed.
Lemma clus_of_value f k cs us : int_koptions k ->
  clus_of_json f (clus_value k cs us) =
    (let dc := kconfig (k_addressSize k) (k_minScore k) (k_threshold k) (k_limit k) (k_completeAddressing k) (k_ignoreZero k) (k_base k) in
     let* clusters := match default JNull cs with
                   | JNull => Ok ∅
                   | _ => let* ms := jmembers (default JNull cs) in load_clusters f dc ms ∅
                   end in
     let* u := match default JNull us with JNull => Ok cluster_default | _ => cluster_of_json f (merge_patch (default JNull us) dc) end in
     Ok (with_unsupervised (with_clusters (without_search k) clusters) u)).
Proof.
  intros (Ha & Ht & Hl & Hb & Hc & Hms & _).
  assert (Hcs : jfield (clus_value k cs us) (lit "clusters") = Ok (default JNull cs)) by (destruct cs, us; reflexivity).
  assert (Hus : jfield (clus_value k cs us) (lit "unsupervisedCluster") = Ok (default JNull us)) by (destruct cs, us; reflexivity).
  assert (H1 : jfield (clus_value k cs us) (lit "bleachingActivated") = Ok (JBool (k_bleachingActivated k))) by (destruct cs, us; reflexivity).
  assert (H2 : jfield (clus_value k cs us) (lit "verbose") = Ok (JBool (k_verbose k))) by (destruct cs, us; reflexivity).
  assert (H3 : jfield (clus_value k cs us) (lit "ignoreZero") = Ok (JBool (k_ignoreZero k))) by (destruct cs, us; reflexivity).
  assert (H4 : jfield (clus_value k cs us) (lit "completeAddressing") = Ok (JBool (k_completeAddressing k))) by (destruct cs, us; reflexivity).
  assert (H5 : jfield (clus_value k cs us) (lit "base") = Ok (JInt (k_base k))) by (destruct cs, us; reflexivity).
  assert (H6 : jfield (clus_value k cs us) (lit "confidence") = Ok (JInt (k_confidence k))) by (destruct cs, us; reflexivity).
  assert (H7 : jfield (clus_value k cs us) (lit "searchBestConfidence") = Ok JNull) by (destruct cs, us; reflexivity).
  assert (H8 : jfield (clus_value k cs us) (lit "returnConfidence") = Ok (JBool (k_returnConfidence k))) by (destruct cs, us; reflexivity).
  assert (H9 : jfield (clus_value k cs us) (lit "returnActivationDegree") = Ok (JBool (k_returnActivationDegree k))) by (destruct cs, us; reflexivity).
  assert (H10 : jfield (clus_value k cs us) (lit "returnClassesDegrees") = Ok (JBool (k_returnClassesDegrees k))) by (destruct cs, us; reflexivity).
  assert (H11 : jfield (clus_value k cs us) (lit "addressSize") = Ok (JInt (k_addressSize k))) by (destruct cs, us; reflexivity).
  assert (H12 : jfield (clus_value k cs us) (lit "minScore") = Ok (JFloat (f64_of_f32 (k_minScore k)))) by (destruct cs, us; reflexivity).
  assert (H13 : jfield (clus_value k cs us) (lit "threshold") = Ok (JInt (k_threshold k))) by (destruct cs, us; reflexivity).
  assert (H14 : jfield (clus_value k cs us) (lit "discriminatorsLimit") = Ok (JInt (k_limit k))) by (destruct cs, us; reflexivity).
  revert Hcs Hus H1 H2 H3 H4 H5 H6 H7 H8 H9 H10 H11 H12 H13 H14. generalize (clus_value k cs us) as j. intros j Hcs Hus H1 H2 H3 H4 H5 H6 H7 H8 H9 H10 H11 H12 H13 H14.
  unfold clus_of_json, clus_of_options, jopt.
  rewrite H1. cbn [rbind jget_bool]. rewrite H2. cbn [rbind jget_bool]. rewrite H3. cbn [rbind jget_bool]. rewrite H4. cbn [rbind jget_bool].
  rewrite H5. cbn [rbind jget_int]. rewrite s32_id by exact Hb. rewrite H6. cbn [rbind jget_int]. rewrite s32_id by exact Hc. rewrite H7. cbn [rbind].
  rewrite H8. cbn [rbind jget_bool]. rewrite H9. cbn [rbind jget_bool]. rewrite H10. cbn [rbind jget_bool].
  change (checkConfigInputs f32_zero 1 1) with (@Ok unit tt). cbn [rbind].
  rewrite H11. cbn [rbind jget_int]. rewrite s32_id by exact Ha. rewrite H12. cbn [rbind jget_float]. rewrite widen_narrow by exact Hms. rewrite H13. cbn [rbind jget_int]. rewrite s32_id by exact Ht.
  rewrite H14. cbn [rbind jget_int]. rewrite s32_id by exact Hl. rewrite Hcs. cbn [rbind].
  cbn [k_completeAddressing k_ignoreZero k_base k_bleachingActivated k_verbose k_searchBestConfidence k_returnConfidence k_returnActivationDegree k_returnClassesDegrees k_confidence].
  cbv zeta. fold (kconfig (k_addressSize k) (k_minScore k) (k_threshold k) (k_limit k) (k_completeAddressing k) (k_ignoreZero k) (k_base k)).
  generalize (kconfig (k_addressSize k) (k_minScore k) (k_threshold k) (k_limit k) (k_completeAddressing k) (k_ignoreZero k) (k_base k)) as dc. intros dc.
  match goal with |- rbind ?x _ = rbind ?y _ => change y with x; destruct x as [cl| | |]; cbn [rbind]; try reflexivity end.
  rewrite Hus. cbn [rbind].
  match goal with |- rbind ?x _ = rbind ?y _ => change y with x; destruct x as [u| | |]; cbn [rbind]; try reflexivity end.
Qed.

(** ** Files written *)
Definition put (f : fs) (nc : str * str) : fs := fs_append f nc.1 nc.2.
Definition cluster_writes iter (rnd : nat -> str) (path : str) (c : cluster) : list (str * str) :=
  List.concat (imap (fun i o => match o with Some d => [(slot_file rnd path i, ramsdata_file iter (d_rams d))] | None => [] end) (c_discs c)).
Lemma writes_nf iter rnd path p ds : cluster_writes iter rnd path (Cluster p (Some <$> ds)) =
  (fun id => (slot_file rnd path id.1, ramsdata_file iter (d_rams id.2))) <$> number 0 ds.
Proof.
  unfold cluster_writes. cbn [c_discs].
  assert (G : forall ds i, List.concat (imap (fun j o => match o with Some d => [(slot_file rnd path (i + j), ramsdata_file iter (d_rams d))] | None => [] end) (Some <$> ds)) =
    (fun id => (slot_file rnd path id.1, ramsdata_file iter (d_rams id.2))) <$> number i ds).
  { induction ds0 as [|d ds0 IH]; intros i; [reflexivity|]. rewrite number_cons, !fmap_cons. cbn [imap List.concat fst snd app]. rewrite Nat.add_0_r. f_equal.
    rewrite <- IH. f_equal. apply imap_ext. intros j o _. unfold compose. rewrite Nat.add_succ_comm. reflexivity. }
  exact (G ds 0%nat).
Qed.
Lemma foldl_slot iter rnd huge path p ds f : foldl (slot_fs iter rnd huge path) f (number 0 ds) =
  if huge then foldl put f (cluster_writes iter rnd path (Cluster p (Some <$> ds))) else f.
Proof.
  rewrite writes_nf. generalize (number 0 ds) as l. intros l. revert f. induction l as [|id l IH]; intros f; [destruct huge; reflexivity|].
  rewrite fmap_cons. cbn [foldl]. rewrite IH. destruct huge; reflexivity.
Qed.
Definition clus_writes iter (rnd : str -> nat -> str) (urnd : nat -> str) (path : str) (k : cluswisard) : list (str * str) :=
  List.concat ((fun kc => cluster_writes iter (rnd kc.1) (label_path path kc.1) kc.2) <$> sorted_items (k_clusters k)) ++
  cluster_writes iter urnd (path ++ lit "unsupervised_cluster__") (k_unsupervised k).
Lemma foldl_label iter rnd huge path (l : list centry) : forall f, foldl (label_fs iter rnd huge path) f l =
  if huge then foldl put f (List.concat ((fun kc => cluster_writes iter (rnd kc.1) (label_path path kc.1) kc.2) <$> ((fun e => (e.1, centry_cluster e.2)) <$> l))) else f.
Proof.
  induction l as [|[k [p ds]] l IH]; intros f; [destruct huge; reflexivity|]. rewrite !fmap_cons. cbn [foldl List.concat]. rewrite IH. unfold label_fs. cbn [fst snd].
  rewrite (foldl_slot _ _ _ _ (Some p)). rewrite foldl_app. unfold centry_cluster. cbn [fst snd]. destruct huge; reflexivity.
Qed.

(** ** Round trip *)
Definition reloads iter (rnd : nat -> str) huge path (f : fs) iz base (ds : list disc) : Prop :=
  forall j d, ds !! j = Some d ->
    utf8_ok (slot_data iter rnd huge path j d) = true /\
    disc_of_json f (merge_patch (class_value d (slot_data iter rnd huge path j d)) (rbase_of iz base)) = Ok d.
Lemma values_text_ok iter rnd huge path f iz base ds : reloads iter rnd huge path f iz base ds -> Forall text_ok (slot_values iter rnd huge path 0 ds).
Proof.
  intros H. unfold slot_values, number. apply Forall_fmap. apply Forall_forall. intros [i d] Hin. apply elem_of_lookup_imap in Hin as (j & d' & E & Hj). injection E as -> ->.
  unfold compose. cbn [fst snd]. apply text_ok_class. apply (H j d' Hj).
Qed.
Definition good_config (k : cluswisard) (n : Z) : Prop :=
  0 <= n <= INT_MAX /\ 0 <= k_addressSize k <= INT_MAX /\ 0 <= k_threshold k <= INT_MAX.
Lemma reload_cluster iter rnd huge path f k n ds : int_koptions k -> good_config k n -> reloads iter rnd huge path f (k_ignoreZero k) (k_base k) ds ->
  cluster_of_json f (merge_patch (cluster_value n (slot_values iter rnd huge path 0 ds))
    (kconfig (k_addressSize k) (k_minScore k) (k_threshold k) (k_limit k) (k_completeAddressing k) (k_ignoreZero k) (k_base k))) =
  Ok (centry_cluster (params_for k n, ds)).
Proof.
  intros (Ha & Ht & Hl & Hb & Hc & Hms & _) (Hn & Ha' & Ht') H. rewrite cluster_of_value; auto; [|unfold is_int, INT_MIN, INT_MAX in *; lia].
  rewrite (load_discs_ok _ _ iter rnd huge path ds 0); [|intros j d Hj; apply (H j d Hj)]. cbn [rbind]. rewrite !u32_small by assumption. reflexivity.
Qed.
Lemma strong_fmap {A B} (g : A -> B) (R : B -> B -> Prop) l : StronglySorted R (g <$> l) -> StronglySorted (fun a b => R (g a) (g b)) l.
Proof.
  induction l as [|a l IH]; intros H; [constructor|]. rewrite fmap_cons in H. inversion H as [|? ? H1 H2]; subst. constructor; [apply IH, H1|].
  apply List.Forall_forall. intros b Hb. rewrite List.Forall_forall in H2. apply H2. apply elem_of_list_In, elem_of_list_fmap_1, elem_of_list_In, Hb.
Qed.
Lemma clus_saved_gen iter rnd urnd f f2 k n huge path : int_koptions k -> good_config k n ->
  (forall l c, k_clusters k !! l = Some c -> utf8_ok l = true /\
     exists ds, c = centry_cluster (params_for k n, ds) /\ reloads iter (rnd l) huge (label_path path l) f2 (k_ignoreZero k) (k_base k) ds) ->
  (k_unsupervised k = cluster_default \/
     exists ds, ds <> [] /\ k_unsupervised k = centry_cluster (params_for k n, ds) /\ reloads iter urnd huge (path ++ lit "unsupervised_cluster__") f2 (k_ignoreZero k) (k_base k) ds) ->
  exists j, clus_json iter rnd urnd f k huge path = (Ok j, if huge then foldl put f (clus_writes iter rnd urnd path k) else f) /\
    clus_of_json f2 j = Ok (without_search k).
Proof.
  intros Hio Hgc Hcl Hun.
  assert (He : exists es : list centry, sorted_items (k_clusters k) = (fun e => (e.1, centry_cluster e.2)) <$> es /\
    Forall (fun e => utf8_ok e.1 = true /\ exists ds, e.2 = (params_for k n, ds) /\ reloads iter (rnd e.1) huge (label_path path e.1) f2 (k_ignoreZero k) (k_base k) ds) es).
  { assert (Hs : Forall (fun kc => k_clusters k !! kc.1 = Some kc.2) (sorted_items (k_clusters k))) by (apply Forall_forall; intros [l c] H; apply sorted_items_elem in H; exact H).
    induction Hs as [|[l c] xs Hx _ (es & -> & IH)]; [exists []; split; [reflexivity|constructor]|]. destruct (Hcl l c Hx) as (Hu & ds & -> & Hr).
    exists ((l, (params_for k n, ds)) :: es). split; [reflexivity|]. constructor; [|exact IH]. cbn [fst snd]. eauto. }
  destruct He as (es & Hes & Hall).
  assert (Hsort : StronglySorted entry_lt es).
  { pose proof (sorted_items_strict (k_clusters k)) as H. rewrite Hes in H. apply strong_fmap in H. exact H. }
  assert (Hnd : NoDup es.*1).
  { pose proof (sorted_items_nodup (k_clusters k)) as H. rewrite Hes, <- list_fmap_compose in H. exact H. }
  set (cs := if Nat.eqb (size (k_clusters k)) 0 then None else Some (obj (label_members iter rnd huge path es))).
  assert (Hcs : forall c, cs = Some c -> text_ok c).
  { unfold cs. destruct (Nat.eqb _ _); [discriminate|]. intros c E. injection E as <-.
    assert (text_ok (JObj (label_members iter rnd huge path es))) as Ho; [|unfold obj; destruct (label_members iter rnd huge path es); [reflexivity|exact Ho]].
    apply text_ok_obj. unfold label_members. apply Forall_fmap. eapply Forall_impl; [exact Hall|]. intros [l e] (Hu & ds & E0 & Hr). cbn [fst snd] in *. subst e. split; [exact Hu|].
    unfold label_value. cbn [fst snd]. apply text_ok_cluster. eapply values_text_ok, Hr. }
  assert (Hcl2 : (match default JNull cs with
      | JNull => Ok ∅
      | _ => let* ms := jmembers (default JNull cs) in
             load_clusters f2 (kconfig (k_addressSize k) (k_minScore k) (k_threshold k) (k_limit k) (k_completeAddressing k) (k_ignoreZero k) (k_base k)) ms ∅
      end) = Ok (k_clusters k)).
  { unfold cs. destruct (Nat.eqb_spec (size (k_clusters k)) 0) as [E|E].
    - cbn [from_option id]. apply map_size_empty_inv in E. rewrite E. reflexivity.
    - cbn [from_option id]. assert (Hne : es <> []).
      { intros ->. apply E. apply map_size_empty_iff. rewrite <- (sorted_items_map (k_clusters k)), Hes. reflexivity. }
      assert (Ho : obj (label_members iter rnd huge path es) = JObj (label_members iter rnd huge path es)) by (destruct es; [congruence|reflexivity]).
      rewrite Ho. cbn [jmembers rbind]. rewrite load_clusters_ok.
      + rewrite <- Hes, sorted_items_map, map_union_empty. reflexivity.
      + exact Hnd.
      + intros e _. apply lookup_empty.
      + eapply Forall_impl; [exact Hall|]. intros [l e] (Hu & ds & E0 & Hr). cbn [fst snd] in *. subst e. unfold label_value. cbn [fst snd].
        apply (reload_cluster iter (rnd l) huge (label_path path l) f2 k n ds Hio Hgc Hr). }
  set (W := List.concat ((fun kc => cluster_writes iter (rnd kc.1) (label_path path kc.1) kc.2) <$> sorted_items (k_clusters k))).
  assert (Hj1 : (if Nat.eqb (size (k_clusters k)) 0 then (Ok (clus_config k), f)
      else let '(r, f1) := clusters_json iter rnd huge path (sorted_items (k_clusters k)) JNull f in
         (let* cs := r in jset (clus_config k) (lit "clusters") cs, f1)) =
     (Ok (clus_value k cs None), if huge then foldl put f W else f)).
  { unfold cs. destruct (Nat.eqb_spec (size (k_clusters k)) 0) as [E|E].
    - rewrite clus_value_nf. unfold W. apply map_size_empty_inv in E. rewrite E. destruct huge; reflexivity.
    - unfold W. rewrite Hes. change JNull with (obj []). rewrite clusters_json_nf; [|exact Hsort|constructor]. cbn [rbind app]. rewrite clus_value_nf, clus_value_set.
      rewrite foldl_label. reflexivity. }
  unfold clus_json. rewrite Hj1. clear Hj1.
  destruct Hun as [Hun|(uds & Hune & Hun & Hur)].
  - rewrite Hun. cbn [cluster_default c_discs length Nat.eqb]. exists (clus_value k cs None). split.
    + rewrite text_ok_clus; [|rewrite widen_finite; apply Hio|exact Hcs|discriminate]. unfold clus_writes. rewrite Hun. fold W. unfold cluster_writes at 1. cbn [cluster_default c_discs imap List.concat].
      rewrite app_nil_r. reflexivity.
    + rewrite clus_of_value by exact Hio. cbv zeta. rewrite Hcl2. cbn [rbind from_option id]. rewrite <- Hun. destruct k; reflexivity.
  - set (uv := cluster_value n (slot_values iter urnd huge (path ++ lit "unsupervised_cluster__") 0 uds)).
    exists (clus_value k cs (Some uv)). split.
    + rewrite Hun. unfold centry_cluster. cbn [c_discs snd fst]. destruct (Nat.eqb_spec (length (Some <$> uds)) 0) as [E|_].
      { exfalso. apply Hune. rewrite fmap_length in E. destruct uds; [reflexivity|discriminate]. }
      rewrite cluster_getJson_nf. cbn [rbind params_for p_entrySize]. fold uv. rewrite clus_value_setu. cbn [rbind].
      rewrite text_ok_clus; [|rewrite widen_finite; apply Hio|exact Hcs|intros u Eu; injection Eu as <-; apply text_ok_cluster; eapply values_text_ok, Hur].
      f_equal. rewrite (foldl_slot _ _ _ _ (Some (params_for k n))). unfold clus_writes. fold W. rewrite foldl_app, Hun. unfold centry_cluster. cbn [fst snd]. destruct huge; reflexivity.
    + rewrite clus_of_value by exact Hio. cbv zeta. rewrite Hcl2. cbn [rbind from_option id].
      assert (Hu2 := reload_cluster iter urnd huge (path ++ lit "unsupervised_cluster__") f2 k n uds Hio Hgc Hur). fold uv in Hu2. unfold uv at 1. unfold cluster_value at 1. cbv match.
      change (JObj _) with uv. rewrite Hu2. cbn [rbind]. rewrite <- Hun. destruct k; reflexivity.
Qed.

(** ** Reachable clusters are savable *)
Definition fed (s : slot) : Prop := s_seen s <> [].
Lemma learn_fed p x ss ss' : learn p x ss ss' -> Forall fed ss -> Forall fed ss'.
Proof.
  assert (Hf : forall s, fed (feed x s)) by (intros s H; unfold feed in H; cbn in H; destruct (s_seen s); discriminate).
  intros H HF. inversion H as [HE|d HF' Hl Hw|i s HF' Hl Hb Hi]; subst.
  - apply Forall_fmap. eapply Forall_impl; [exact HF|]. intros s Hs. unfold compose. destruct (takes p x s); [apply Hf|exact Hs].
  - apply Forall_app. split; [exact HF|]. repeat constructor. discriminate.
  - apply Forall_insert; [exact HF|apply Hf].
Qed.
Lemma cluster_law_fed p xs ss : cluster_law p xs ss -> Forall fed ss.
Proof. induction 1 as [|xs x ss ss' _ IH HL]; [constructor|]. exact (learn_fed _ _ _ _ HL IH). Qed.
Lemma clus_law_fed k p es m : clus_law k p es m -> forall l ss, m !! l = Some ss -> Forall fed ss.
Proof.
  induction 1 as [|es m l x ss _ IH HL|es m l x ss ss' _ IH _ Hm HL]; intros l' ss0.
  - rewrite lookup_empty. discriminate.
  - destruct (decide (l = l')) as [<-|Hn]; [rewrite lookup_insert; intros E; injection E as <-|rewrite lookup_insert_ne by exact Hn; apply IH].
    eapply learn_fed; [exact HL|]. destruct (m !! l) as [s1|] eqn:E1; cbn [from_option id]; [exact (IH _ _ E1)|constructor].
  - destruct (decide (l = l')) as [<-|Hn]; [rewrite lookup_insert; intros E; injection E as <-|rewrite lookup_insert_ne by exact Hn; apply IH].
    eapply learn_fed; [exact HL|]. exact (IH _ _ Hm).
Qed.
Lemma slot_savable iter p n N s d : valid_iter iter -> 0 <= n <= INT_MAX -> is_int (p_base p) -> p_entrySize p = n -> N <= INT_MAX ->
  slot_ok p n N s (Some d) -> fed s -> saved_size d <= INT_MAX + 1 -> savable_disc iter (p_ignoreZero p) (p_base p) d.
Proof.
  intros Hi Hn Hb He HN (d' & E & Hsh & (dr & Hdr & Hnew) & Hl & Hpl & Ha & _) Hf Hsz. injection E as <-.
  assert (Hu : uniform (p_ignoreZero p) (p_base p) (s_first s)).
  { eapply new_uniform; [exact Hdr| |exact Hb| |constructor|exact Hnew]; [unfold is_int, INT_MIN, INT_MAX in *; lia|rewrite len_nil; unfold INT_MAX; lia]. }
  eapply (after_storable iter _ _ (s_first s) (Train <$> s_seen s) d); auto.
  - apply Hsh.
  - destruct Hsh as (_ & He' & Hwi & _). apply wired_mapping in Hwi. eapply Forall_impl; [exact Hwi|]. intros a Ha'. eapply Forall_impl; [exact Ha'|].
    intros q Hq. cbv beta in Hq. unfold is_int, INT_MIN, INT_MAX in *. lia.
  - apply Forall_fmap. eapply Forall_impl; [exact Hpl|]. intros x Hx. unfold compose. cbn [op_image]. apply (plain_valid (p_base p) n _ _ Hn Hsh Hx).
  - rewrite len_fmap. lia.
  - unfold fed in Hf. destruct (s_seen s) as [|x xs]; [congruence|]. exists x. rewrite fmap_cons. left.
Qed.
Lemma cluster_savable iter p n N ss c : valid_iter iter -> 0 <= n <= INT_MAX -> is_int (p_base p) -> p_entrySize p = n -> N <= INT_MAX ->
  cl_ok p n N ss c -> Forall fed ss -> small_cluster c ->
  exists ds, c = centry_cluster (p, ds) /\ Forall (savable_disc iter (p_ignoreZero p) (p_base p)) ds /\ length ds = length ss.
Proof.
  intros Hi Hn Hb He HN [Hp _ Hs _] Hf Hsm. destruct c as [op ods]. cbn [c_params c_discs] in *. subst op. unfold small_cluster in Hsm. cbn [c_discs] in Hsm.
  enough (exists ds, ods = Some <$> ds /\ Forall (savable_disc iter (p_ignoreZero p) (p_base p)) ds /\ length ds = length ss) as (ds & -> & H & H') by (exists ds; auto).
  revert Hf Hsm. induction Hs as [|s o ss ods Ho _ IH]; intros Hf Hsm; [exists []; split; [reflexivity|split; [constructor|reflexivity]]|].
  apply Forall_cons in Hf as [Hf1 Hf]. destruct (IH Hf) as (ds & -> & HF & Hlen); [intros d Hd; apply Hsm; right; exact Hd|].
  assert (Ho' := Ho). destruct Ho' as (d & -> & _). exists (d :: ds). split; [reflexivity|]. split; [|cbn; lia]. constructor; [|exact HF].
  eapply slot_savable; [exact Hi|exact Hn|exact Hb|exact He|exact HN|exact Ho|exact Hf1|]. apply Hsm. left.
Qed.

(** Savable discriminators reload, from the text or from their file. *)
Lemma reload_mem iter rnd path f iz base ds : valid_iter iter -> Forall (savable_disc iter iz base) ds -> reloads iter rnd false path f iz base ds.
Proof.
  intros Hi HF j d Hj. destruct (Forall_lookup_1 _ _ _ _ HF Hj) as [Hst Hall]. unfold slot_data.
  assert (Hd : ramsdata_mem iter (d_rams d) [] = join_dots (texts iter (d_rams d))).
  { pose proof (data_mem iter [] f d [] Hi Hst) as H. unfold getRAMsData in H. injection H as H. exact H. }
  rewrite Hd. split; [apply texts_utf8|]. destruct Hst as (He & Hc & Hne & _ & Hl).
  rewrite class_of_value by assumption. unfold disc_mapping. rewrite (setRAMs_mem iter) by assumption. cbn [rbind]. rewrite disc_eta. reflexivity.
Qed.
Lemma reload_file iter rnd path f iz base ds : valid_iter iter -> Forall (savable_disc iter iz base) ds ->
  (forall j d, ds !! j = Some d -> utf8_ok (slot_file rnd path j) = true /\ len (slot_file rnd path j) < W64 /\ fs_read f (slot_file rnd path j) = Some (ramsdata_file iter (d_rams d))) ->
  reloads iter rnd true path f iz base ds.
Proof.
  intros Hi HF Hr j d Hj. destruct (Forall_lookup_1 _ _ _ _ HF Hj) as [Hst Hall]. unfold slot_data. destruct (Hr j d Hj) as (Hu & Hn & Hread). split; [exact Hu|].
  destruct Hst as (He & Hc & Hne & _ & Hl). rewrite class_of_value by assumption. unfold disc_mapping.
  assert (En : slot_file rnd path j = (path ++ to_string j ++ lit "__" ++ rnd j) ++ ramdata_sufix) by (unfold slot_file; rewrite <- !app_assoc; reflexivity).
  rewrite En in *. rewrite (setRAMs_file iter); auto.
  - cbn [rbind]. rewrite disc_eta. reflexivity.
  - rewrite <- file_join. exact Hread.
Qed.

(** Writing distinct new files and reading them back. *)
Lemma put_other name W : forall f, name ∉ W.*1 -> fs_read (foldl put f W) name = fs_read f name.
Proof.
  induction W as [|[a c] W IH]; intros f H; [reflexivity|]. rewrite fmap_cons in H. apply not_elem_of_cons in H as [H1 H2]. cbn [foldl fst] in *. rewrite IH by exact H2.
  unfold put, fs_append, fs_read. cbn [fst snd]. destruct (fs_writable f a); [|reflexivity]. cbn [fs_files]. rewrite lookup_insert_ne; [reflexivity|]. congruence.
Qed.
Lemma put_read W : forall f, NoDup W.*1 -> Forall (fun nc => fs_writable f nc.1 = true /\ fs_read f nc.1 = None) W ->
  forall nc, nc ∈ W -> fs_read (foldl put f W) nc.1 = Some nc.2.
Proof.
  induction W as [|[a c] W IH]; intros f Hn HF nc Hin; [inversion Hin|]. rewrite fmap_cons in Hn. cbn [fst] in Hn. apply NoDup_cons in Hn as [Ha Hn]. apply Forall_cons in HF as [[Hw Hr] HF]. cbn [fst] in *.
  cbn [foldl]. apply elem_of_cons in Hin as [->|Hin].
  - cbn [fst snd]. rewrite put_other by exact Ha. unfold put, fs_append, fs_read in *. cbn [fst snd]. rewrite Hw. cbn [fs_files]. rewrite lookup_insert, Hr. reflexivity.
  - apply IH; [exact Hn| |exact Hin]. apply Forall_forall. intros [b e] Hb. rewrite Forall_forall in HF. specialize (HF _ Hb). cbn [fst] in *. destruct HF as [H1 H2].
    unfold put, fs_append, fs_read in *. cbn [fst snd]. rewrite Hw. cbn [fs_files fs_writable]. split; [exact H1|]. rewrite lookup_insert_ne; [exact H2|].
    intros ->. apply Ha. apply elem_of_list_fmap. exists (b, e). auto.
Qed.
