(** Saving and reloading a Wisard (C59-C62). *)
From Verif Require Import Prelude Bytes Base64 Utils BinInput Bleaching Ram Json Fs RamData Disc Wisard SpecBin SpecDisc SpecBleach SpecWisard SpecSaved.
From Verif Require Import Base64Proofs BytesProofs TextProofs RamDataProofs DiscCtorProofs CtorFacts JsonNF RamProofs DiscProofs DiscFacts BleachProofs WisardProofs WisardFacts JsonProofs JsonFacts.

(** ** Objects built in key order *)
Lemma jinsert_last k v acc : Forall (fun kv => str_lt kv.1 k) acc -> jinsert k v acc = acc ++ [(k, v)].
Proof.
  induction 1 as [|[k' v'] acc Hk _ IH]; [reflexivity|]. cbn [jinsert fst] in *.
  rewrite decide_False by (intros ->; apply (str_lt_irrefl _ Hk)). unfold str_lt in Hk. rewrite Hk, IH. reflexivity.
Qed.
Lemma str_lt_trans a b c : str_lt a b -> str_lt b c -> str_lt a c.
Proof.
  intros H1 H2. apply str_le_lt; [eapply str_le_trans; apply str_lt_le; eassumption|]. intros ->.
  apply str_lt_nle in H1. apply H1, str_lt_le, H2.
Qed.

Definition class_value (d : disc) (data : str) : json := JObj
  [(lit "count", JInt (d_count d)); (lit "data", JStr data); (lit "entrySize", JInt (d_entrySize d)); (lit "mapping", jintss (disc_mapping d))].
Lemma getJSON_nf iter rnd f d huge prefix : disc_getJSON iter rnd f d huge prefix =
  (Ok (class_value d (fst (getRAMsData iter rnd f d huge prefix))), snd (getRAMsData iter rnd f d huge prefix)).
Proof.
  unfold disc_getJSON. destruct (getRAMsData _ _ _ _ _ _) as [data f']. cbn [fst snd]. rewrite disc_config_nf. cbn [rbind app]. unfold class_value.
  generalize (jintss (disc_mapping d)) as m. intros m. reflexivity.
Qed.
Lemma text_ok_class d data : utf8_ok data = true -> text_ok (class_value d data).
Proof.
  intros H. unfold class_value. pose proof (text_ok_intss (disc_mapping d)) as Hm. revert Hm. generalize (jintss (disc_mapping d)) as m. intros m Hm.
  text_ok_members; auto using text_ok_int, text_ok_str.
Qed.

(** Members of the "classes" object and the file system afterwards. *)
Definition class_file (rnd : str -> str) (path k : str) : str := path ++ k ++ lit "__" ++ rnd k ++ ramdata_sufix.
Definition class_data (iter : iteration) (rnd : str -> str) (huge : bool) (path k : str) (d : disc) : str :=
  if huge then class_file rnd path k else ramsdata_mem iter (d_rams d) [].
Definition class_fs (iter : iteration) (rnd : str -> str) (huge : bool) (path : str) (f : fs) (kd : str * disc) : fs :=
  if huge then fs_append f (class_file rnd path kd.1) (ramsdata_file iter (d_rams kd.2)) else f.
Definition members iter rnd huge path (l : list (str * disc)) : list (str * json) :=
  (fun kd => (kd.1, class_value kd.2 (class_data iter rnd huge path kd.1 kd.2))) <$> l.
Definition obj (l : list (str * json)) : json := match l with [] => JNull | _ => JObj l end.

Lemma getJSON_class iter rnd huge path f k d : disc_getJSON iter (rnd k) f d huge (path ++ k ++ lit "__") =
  (Ok (class_value d (class_data iter rnd huge path k d)), class_fs iter rnd huge path f (k, d)).
Proof.
  rewrite getJSON_nf. unfold getRAMsData, class_data, class_fs, class_file. cbn [fst snd]. rewrite <- !app_assoc.
  destruct huge; reflexivity.
Qed.
Lemma jset_last k v acc : Forall (fun kv => str_lt kv.1 k) acc -> jset (obj acc) k v = Ok (obj (acc ++ [(k, v)])).
Proof.
  intros H. destruct acc as [|a acc]; [reflexivity|]. change (obj (a :: acc)) with (JObj (a :: acc)).
  change (obj ((a :: acc) ++ [(k, v)])) with (JObj ((a :: acc) ++ [(k, v)])). unfold jset. rewrite jinsert_last by exact H. reflexivity.
Qed.
Lemma classes_json_nf iter rnd huge path : forall l acc f, StronglySorted lt_key l ->
  Forall (fun kv => Forall (fun kd => str_lt kv.1 kd.1) l) acc ->
  classes_json iter rnd huge path l (obj acc) f =
    (Ok (obj (acc ++ members iter rnd huge path l)), foldl (class_fs iter rnd huge path) f l).
Proof.
  induction l as [|[k d] l IH]; intros acc f Hs Ha; [unfold members; cbn; rewrite app_nil_r; reflexivity|].
  cbn [classes_json]. rewrite getJSON_class. cbn [rbind]. inversion Hs as [|? ? Hs' Hk]; subst.
  rewrite jset_last by (eapply Forall_impl; [exact Ha|]; intros kv H; apply Forall_cons in H as [H _]; exact H).
  rewrite IH; [|exact Hs'|].
  - rewrite <- app_assoc. reflexivity.
  - apply Forall_app. split; [eapply Forall_impl; [exact Ha|]; intros kv H; apply Forall_cons in H as [_ H]; exact H|].
    constructor; [|constructor]. cbn [fst]. apply Forall_forall. intros x Hx. rewrite List.Forall_forall in Hk. apply elem_of_list_In in Hx. exact (Hk x Hx).
Qed.

(** ** The whole object *)
Definition wisard_value (w : wisard) (classes : json) : json := JObj
  [(lit "addressSize", JInt (w_addressSize w)); (lit "base", JInt (w_base w));
   (lit "bleachingActivated", JBool (w_bleachingActivated w)); (lit "classes", classes);
   (lit "completeAddressing", JBool (w_completeAddressing w)); (lit "confidence", JInt (w_confidence w));
   (lit "ignoreZero", JBool (w_ignoreZero w)); (lit "indexes", jints (w_indexes w));
   (lit "returnActivationDegree", JBool (w_returnActivationDegree w));
   (lit "returnClassesDegrees", JBool (w_returnClassesDegrees w)); (lit "returnConfidence", JBool (w_returnConfidence w));
   (lit "verbose", JBool (w_verbose w)); (lit "version", JStr version)].
Lemma wisard_value_set w classes : jset (wisard_config w) (lit "classes") classes = Ok (wisard_value w classes).
Proof. unfold wisard_config, wisard_value. generalize (jints (w_indexes w)) as ix. intros ix. reflexivity. Qed.
Lemma text_ok_value w classes : text_ok classes -> text_ok (wisard_value w classes).
Proof.
  intros H. unfold wisard_value. pose proof (text_ok_ints (w_indexes w)) as Hm. revert Hm. generalize (jints (w_indexes w)) as m. intros m Hm.
  text_ok_members; auto using text_ok_int, text_ok_bool, text_ok_version.
Qed.
Lemma text_ok_members iter rnd huge path l :
  Forall (fun kd => utf8_ok kd.1 = true /\ utf8_ok (class_data iter rnd huge path kd.1 kd.2) = true) l ->
  text_ok (obj (members iter rnd huge path l)).
Proof.
  intros H. assert (text_ok (JObj (members iter rnd huge path l))) as Ho.
  { apply text_ok_obj. unfold members. apply Forall_fmap. eapply Forall_impl; [exact H|]. intros kd [H1 H2]. split; [exact H1|]. apply text_ok_class, H2. }
  unfold obj. destruct (members _ _ _ _ _); [reflexivity|exact Ho].
Qed.
Lemma wisard_json_nf iter rnd f w huge path :
  (forall l d, w_discriminators w !! l = Some d -> utf8_ok l = true /\ utf8_ok (class_data iter rnd huge path l d) = true) ->
  wisard_json iter rnd f w huge path =
    (Ok (wisard_value w (obj (members iter rnd huge path (sorted_items (w_discriminators w))))),
     foldl (class_fs iter rnd huge path) f (sorted_items (w_discriminators w))).
Proof.
  intros H. unfold wisard_json. change JNull with (obj []).
  rewrite classes_json_nf; [|apply sorted_items_strict|constructor]. cbn [rbind app]. rewrite wisard_value_set. cbn [rbind].
  rewrite text_ok_value; [reflexivity|]. apply text_ok_members. apply Forall_forall. intros [k d] Hk. apply sorted_items_elem in Hk. exact (H k d Hk).
Qed.

(** ** Reading it back *)
Lemma class_of_value f d data iz base : is_int (d_entrySize d) -> is_int (d_count d) ->
  disc_of_json f (merge_patch (class_value d data) (rbase_of iz base)) =
    (let* rams := setRAMsData f (jintss (disc_mapping d)) (rbase_of iz base) data in Ok (Disc (d_entrySize d) (d_count d) rams)).
Proof.
  intros He Hc. unfold class_value. generalize (jintss (disc_mapping d)) as m. intros m.
  transitivity (disc_of_json f (JObj [(lit "base", JInt base); (lit "count", JInt (d_count d)); (lit "data", JStr data);
    (lit "entrySize", JInt (d_entrySize d)); (lit "ignoreZero", JBool iz); (lit "mapping", m)])); [reflexivity|].
  unfold disc_of_json.
  change (jfield _ (lit "entrySize")) with (@Ok json (JInt (d_entrySize d))). cbn [rbind jget_int]. rewrite s32_id by exact He.
  change (jfield _ (lit "count")) with (@Ok json (JInt (d_count d))). cbn [rbind jget_int]. rewrite s32_id by exact Hc.
  change (jfield _ (lit "data")) with (@Ok json (JStr data)). cbn [rbind jget_str].
  change (jfield _ (lit "mapping")) with (@Ok json m). cbn [rbind].
  change (jfield _ (lit "ignoreZero")) with (@Ok json (JBool iz)). cbn [rbind].
  change (jfield _ (lit "base")) with (@Ok json (JInt base)). cbn [rbind]. reflexivity.
Qed.
Lemma load_classes_ok f dc iter rnd huge path l : forall m, NoDup l.*1 -> (forall kd, kd ∈ l -> m !! kd.1 = None) ->
  Forall (fun kd => disc_of_json f (merge_patch (class_value kd.2 (class_data iter rnd huge path kd.1 kd.2)) dc) = Ok kd.2) l ->
  load_classes f dc (members iter rnd huge path l) m = Ok (list_to_map l ∪ m).
Proof.
  unfold members. induction l as [|[k d] l IH]; intros m Hn Hm H; [cbn; rewrite map_empty_union; reflexivity|].
  rewrite fmap_cons in *. apply Forall_cons in H as [Hd H]. apply NoDup_cons in Hn as [Hk Hn]. cbn [fst snd] in *. cbn [load_classes]. rewrite Hd. cbn [rbind].
  rewrite IH; [| |intros [k' d'] Hin|exact H].
  - rewrite list_to_map_cons. f_equal. rewrite <- insert_union_l, <- insert_union_r; [reflexivity|]. apply not_elem_of_list_to_map_1. exact Hk.
  - exact Hn.
  - cbn [fst]. rewrite lookup_insert_ne; [apply (Hm (k', d')); right; exact Hin|]. intros ->. apply Hk. apply elem_of_list_fmap. exists (k', d'). auto.
Qed.
Lemma jmembers_obj l : jmembers (obj l) = Ok l. Proof. destruct l; reflexivity. Qed.

Lemma wisard_of_value_gen f w classes : int_options w ->
  wisard_of_json f (wisard_value w classes) =
    (let* ms := jmembers classes in
     let* discs := load_classes f (rbase_of (w_ignoreZero w) (w_base w)) ms ∅ in
     Ok (with_discriminators (without_mapping w) discs)).
Proof.
  intros (Ha & Hb & Hc & Hi & _). pose proof (jget_ints_jints _ Hi) as Hix. unfold wisard_value.
  assert (Hnn : jints (w_indexes w) <> JNull) by discriminate. revert Hix Hnn. generalize (jints (w_indexes w)) as ix. intros ix Hix Hnn.
  unfold wisard_of_json, wisard_of_options, jopt.
  change (jfield _ (lit "bleachingActivated")) with (@Ok json (JBool (w_bleachingActivated w))). cbn [rbind jget_bool].
  change (jfield _ (lit "verbose")) with (@Ok json (JBool (w_verbose w))). cbn [rbind jget_bool].
  change (jfield _ (lit "ignoreZero")) with (@Ok json (JBool (w_ignoreZero w))). cbn [rbind jget_bool].
  change (jfield _ (lit "completeAddressing")) with (@Ok json (JBool (w_completeAddressing w))). cbn [rbind jget_bool].
  change (jfield _ (lit "mapping")) with (@Ok json JNull). cbn [rbind].
  change (jfield _ (lit "indexes")) with (@Ok json ix). cbn [rbind].
  assert (match ix with JNull => Ok [] | _ => jget_ints ix end = Ok (w_indexes w)) as -> by (destruct ix; try congruence). cbn [rbind].
  change (jfield _ (lit "base")) with (@Ok json (JInt (w_base w))). cbn [rbind jget_int]. rewrite s32_id by exact Hb.
  change (jfield _ (lit "confidence")) with (@Ok json (JInt (w_confidence w))). cbn [rbind jget_int]. rewrite s32_id by exact Hc.
  change (jfield _ (lit "searchBestConfidence")) with (@Ok json JNull). cbn [rbind].
  change (jfield _ (lit "returnConfidence")) with (@Ok json (JBool (w_returnConfidence w))). cbn [rbind jget_bool].
  change (jfield _ (lit "returnActivationDegree")) with (@Ok json (JBool (w_returnActivationDegree w))). cbn [rbind jget_bool].
  change (jfield _ (lit "returnClassesDegrees")) with (@Ok json (JBool (w_returnClassesDegrees w))). cbn [rbind jget_bool].
  change (jfield _ (lit "addressSize")) with (@Ok json (JInt (w_addressSize w))). cbn [rbind jget_int]. rewrite s32_id by exact Ha.
  change (jfield _ (lit "classes")) with (@Ok json classes). cbn [rbind]. reflexivity.
Qed.
Lemma wisard_of_value f w classes ms discs : int_options w -> jmembers classes = Ok ms ->
  load_classes f (rbase_of (w_ignoreZero w) (w_base w)) ms ∅ = Ok discs ->
  wisard_of_json f (wisard_value w classes) = Ok (with_discriminators (without_mapping w) discs).
Proof. intros Ho Hm Hl. rewrite wisard_of_value_gen by exact Ho. rewrite Hm. cbn [rbind]. rewrite Hl. reflexivity. Qed.

(** Discriminators that survive: stored with the Wisard's own ignoreZero and base. *)
Definition savable (iter : iteration) (w : wisard) : Prop :=
  forall l d, w_discriminators w !! l = Some d ->
    storable iter d /\ Forall (storable_ram (w_ignoreZero w) (w_base w)) (d_rams d).
Lemma with_own w : with_discriminators (without_mapping w) (w_discriminators w) = without_mapping w.
Proof. destruct w. reflexivity. Qed.

Lemma wisard_roundtrip_mem iter rnd f w path : valid_iter iter -> int_options w -> savable iter w ->
  (forall l, is_Some (w_discriminators w !! l) -> utf8_ok l = true) ->
  exists j, wisard_json iter rnd f w false path = (Ok j, f) /\ forall f', wisard_of_json f' j = Ok (without_mapping w).
Proof.
  intros Hi Ho Hs Hu. exists (wisard_value w (obj (members iter rnd false path (sorted_items (w_discriminators w))))).
  assert (Hdata : forall l d, w_discriminators w !! l = Some d -> class_data iter rnd false path l d = join_dots (texts iter (d_rams d))).
  { intros l d E. destruct (Hs l d E) as [Hst _]. pose proof (data_mem iter [] f d [] Hi Hst) as H. unfold getRAMsData in H. injection H as H. exact H. }
  split.
  - rewrite wisard_json_nf.
    + f_equal. generalize (sorted_items (w_discriminators w)) as l. intros l. induction l as [|kd l IH]; [reflexivity|exact IH].
    + intros l d E. split; [apply Hu; eauto|]. rewrite (Hdata l d E). apply texts_utf8.
  - intros f'. rewrite <- (with_own w). apply wisard_of_value with (ms := members iter rnd false path (sorted_items (w_discriminators w))); [exact Ho|apply jmembers_obj|].
    rewrite load_classes_ok.
    + rewrite map_union_empty, sorted_items_map. reflexivity.
    + apply sorted_items_nodup.
    + intros kd _. apply lookup_empty.
    + apply Forall_forall. intros [k d] Hk. apply sorted_items_elem in Hk. cbn [fst snd]. rewrite (Hdata k d Hk). destruct (Hs k d Hk) as [(He & Hc & Hne & _ & Hl) Hall].
      rewrite class_of_value by assumption. unfold disc_mapping. rewrite (setRAMs_mem iter) by assumption. cbn [rbind]. rewrite disc_eta. reflexivity.
Qed.

(** Huge mode: one file per label. *)
Lemma class_file_inj rnd path k k' : length (rnd k) = length (rnd k') -> class_file rnd path k = class_file rnd path k' -> k = k'.
Proof.
  unfold class_file. intros Hl H. apply app_inv_head in H. 
  assert (length k = length k') as Hk by (apply (f_equal length) in H; rewrite !app_length in H; lia).
  apply (f_equal (take (length k))) in H. rewrite take_app in H. rewrite Hk, take_app in H. exact H.
Qed.
Lemma class_fs_writable iter rnd path l : forall f, fs_writable (foldl (class_fs iter rnd true path) f l) = fs_writable f.
Proof.
  induction l as [|kd l IH]; intros f; [reflexivity|]. cbn [foldl]. rewrite IH. unfold class_fs, fs_append. destruct (fs_writable f _); reflexivity.
Qed.
Lemma class_fs_other iter rnd path name l : forall f, (forall kd, kd ∈ l -> class_file rnd path kd.1 <> name) ->
  fs_read (foldl (class_fs iter rnd true path) f l) name = fs_read f name.
Proof.
  induction l as [|kd l IH]; intros f H; [reflexivity|]. cbn [foldl]. rewrite IH by (intros; apply H; right; assumption).
  unfold class_fs, fs_append, fs_read. destruct (fs_writable f _); [|reflexivity]. cbn [fs_files]. rewrite lookup_insert_ne; [reflexivity|]. apply H. left.
Qed.
Lemma class_fs_read iter rnd path l : forall f, NoDup l.*1 -> (forall k, length (rnd k) = 10%nat) ->
  (forall kd, kd ∈ l -> fs_writable f (class_file rnd path kd.1) = true /\ fs_read f (class_file rnd path kd.1) = None) ->
  forall kd, kd ∈ l -> fs_read (foldl (class_fs iter rnd true path) f l) (class_file rnd path kd.1) = Some (ramsdata_file iter (d_rams kd.2)).
Proof.
  induction l as [|[k d] l IH]; intros f Hn Hr Hf kd Hin; [inversion Hin|]. rewrite fmap_cons in Hn. apply NoDup_cons in Hn as [Hk Hn]. cbn [fst] in Hk.
  assert (Hne : forall kd', kd' ∈ l -> class_file rnd path kd'.1 <> class_file rnd path k).
  { intros kd' Hin' E. apply class_file_inj in E; [|rewrite !Hr; reflexivity]. subst. apply Hk. apply elem_of_list_fmap. eauto. }
  cbn [foldl]. apply elem_of_cons in Hin as [->|Hin].
  - rewrite class_fs_other by exact Hne. cbn [fst snd]. destruct (Hf (k, d) ltac:(left)) as [Hw Hnone]. cbn [fst] in *.
    unfold class_fs, fs_append, fs_read in *. cbn [fst snd]. rewrite Hw. cbn [fs_files]. rewrite lookup_insert, Hnone. reflexivity.
  - apply IH; auto. intros kd' Hin'. destruct (Hf kd' ltac:(right; exact Hin')) as [Hw Hnone]. destruct (Hf (k, d) ltac:(left)) as [Hwk _]. cbn [fst] in Hwk.
    unfold class_fs, fs_append. cbn [fst snd]. rewrite Hwk. unfold fs_read. cbn [fs_files fs_writable]. split; [exact Hw|].
    rewrite lookup_insert_ne; [exact Hnone|]. intros E. symmetry in E. exact (Hne _ Hin' E).
Qed.
Lemma wisard_roundtrip_file iter rnd f w path : valid_iter iter -> int_options w -> savable iter w ->
  (forall k, length (rnd k) = 10%nat) ->
  (forall l, is_Some (w_discriminators w !! l) -> utf8_ok l = true /\
     let name := path ++ l ++ lit "__" ++ rnd l ++ lit ".wdpkg" in
     utf8_ok name = true /\ len name < W64 /\ fs_writable f name = true /\ fs_read f name = None) ->
  exists j f', wisard_json iter rnd f w true path = (Ok j, f') /\ wisard_of_json f' j = Ok (without_mapping w).
Proof.
  intros Hi Ho Hs Hr Hu. exists (wisard_value w (obj (members iter rnd true path (sorted_items (w_discriminators w))))), (foldl (class_fs iter rnd true path) f (sorted_items (w_discriminators w))).
  split.
  - rewrite wisard_json_nf; [reflexivity|]. intros l d E. destruct (Hu l ltac:(eauto)) as [H1 [H2 _]]. split; [exact H1|exact H2].
  - rewrite <- (with_own w). set (f' := foldl _ f _).
    apply wisard_of_value with (ms := members iter rnd true path (sorted_items (w_discriminators w))); [exact Ho|apply jmembers_obj|].
    rewrite load_classes_ok.
    + rewrite map_union_empty, sorted_items_map. reflexivity.
    + apply sorted_items_nodup.
    + intros kd _. apply lookup_empty.
    + apply Forall_forall. intros [k d] Hk. pose proof Hk as Hin. apply sorted_items_elem in Hk. cbn [fst snd]. destruct (Hs k d Hk) as [(He & Hc & Hne & _ & Hl) Hall].
      rewrite class_of_value by assumption. unfold disc_mapping, class_data. destruct (Hu k ltac:(eauto)) as (_ & _ & Hn & _).
      assert (En : class_file rnd path k = (path ++ k ++ lit "__" ++ rnd k) ++ ramdata_sufix) by (unfold class_file; rewrite <- !app_assoc; reflexivity).
      rewrite En. rewrite (setRAMs_file iter); auto.
      * cbn [rbind]. rewrite disc_eta. reflexivity.
      * rewrite <- En. exact Hn.
      * rewrite <- En. rewrite <- file_join. apply (class_fs_read iter rnd path _ f (sorted_items_nodup _) Hr) with (kd := (k, d)); [|exact Hin].
        intros [k' d'] Hk'. apply sorted_items_elem in Hk'. cbn [fst]. destruct (Hu k' ltac:(eauto)) as (_ & _ & _ & H1 & H2). split; [exact H1|exact H2].
Qed.
